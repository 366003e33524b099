(** Loops written out, and the last part of a path. *)
From Coq Require Import ZArith List.
From Verif Require Import Words SeqModel.
Import ListNotations.
Local Open Scope Z_scope.

(** [for (; i < n; ++i) f(i);] *)
Inductive loop {S} (f : callable Z S) (l : bool) (n : Z) : Z -> S -> outcome S -> Prop :=
| lp_done i s : ~ i < n -> loop f l n i s (Returned s)
| lp_go i s s' o : i < n -> call f l i s = Returned s' -> loop f l n (i + 1) s' o -> loop f l n i s o
| lp_stop i s o : i < n -> call f l i s = o -> (forall s', o <> Returned s') -> loop f l n i s o.

(** [for (; i < n1; ++i, j = 0) for (; j < n2; ++j) f(i, j);] *)
Inductive loop2 {S} (f : callable (Z * Z) S) (l : bool) (n1 n2 : Z) : Z -> Z -> S -> outcome S -> Prop :=
| l2_done i j s : ~ i < n1 -> loop2 f l n1 n2 i j s (Returned s)
| l2_row i j s o : i < n1 -> ~ j < n2 -> loop2 f l n1 n2 (i + 1) 0 s o -> loop2 f l n1 n2 i j s o
| l2_go i j s s' o : i < n1 -> j < n2 -> call f l (i, j) s = Returned s' -> loop2 f l n1 n2 i (j + 1) s' o -> loop2 f l n1 n2 i j s o
| l2_stop i j s o : i < n1 -> j < n2 -> call f l (i, j) s = o -> (forall s', o <> Returned s') -> loop2 f l n1 n2 i j s o.

Definition slash (c : N) : Prop := c = 47%N \/ c = 92%N.
