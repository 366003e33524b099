(** What the operations on type lists should give, in terms of lists. *)
From Verif Require Import Words TlistModel.
Local Open Scope nat_scope.

(** The page sizes type_list.h accepts (lines 28-31). *)
Definition good (c : config) : Prop := page c = 8 \/ page c = 16 \/ page c = 32 \/ page c = 48 \/ page c = 64.

(** [m] is the part of [l] of length [n] that starts at [start]. *)
Definition part {A} (l m : list A) (start n : nat) : Prop := exists before after, l = before ++ m ++ after /\ length before = start /\ length m = n.

(** Hoisting one nested list up into the list around it. *)
Inductive hoist : list ty -> list ty -> Prop :=
| hoist_one a m b : hoist (a ++ TList m :: b) (a ++ m ++ b).
Inductive hoists : list ty -> list ty -> Prop :=
| hoists_none l : hoists l l
| hoists_more k l m : hoist k l -> hoists l m -> hoists k m.
Definition nested (t : ty) : Prop := exists l, t = TList l.
