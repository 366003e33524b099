(** What C50 asks: the values a [for_each] call visits and how they are divided. *)
From Coq Require Import Permutation.
From Verif Require Import Words CoreModel.
Local Open Scope Z_scope.

(** [l] has every value with [lo <= x < hi] exactly once and nothing else. *)
Definition exactly_once (l : list Z) (lo hi : Z) : Prop := NoDup l /\ forall x, In x l <-> lo <= x < hi.

(** The values of a call [for_each(start, end)]: from [start] towards [end], [end] excluded. *)
Definition in_call (start stop x : Z) : Prop := start <= x < stop \/ stop < x <= start.
Definition visits_once (l : list Z) (start stop : Z) : Prop := NoDup l /\ forall x, In x l <-> in_call start stop x.

(** Sizes that differ by at most one. *)
Definition even_sizes (l : list Z) : Prop := forall a b, In a l -> In b l -> a <= b + 1.
