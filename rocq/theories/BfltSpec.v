(** Boxes of real numbers, one axis at a time. *)
From Coq Require Import Reals List.
Import ListNotations.
Local Open Scope R_scope.

Definition axis {K} (v : K * K * K) (i : nat) : K := match i, v with 0%nat, (x, _, _) => x | 1%nat, (_, y, _) => y | _, (_, _, z) => z end.

(** What an axis-aligned box means on each axis: [c] is the middle, [e] half the width. *)
Definition in_range (c e p : R) : Prop := c - e <= p <= c + e.
Definition ranges_meet (c1 e1 c2 e2 : R) : Prop := c1 - e1 <= c2 + e2 /\ c2 - e2 <= c1 + e1.
Definition range_within (outer_c outer_e c e : R) : Prop := outer_c - outer_e <= c - e /\ c + e <= outer_c + outer_e.

Definition lowest (l : list R) (x : R) : Prop := In x l /\ (forall y, In y l -> x <= y).
Definition highest (l : list R) (x : R) : Prop := In x l /\ (forall y, In y l -> y <= x).
