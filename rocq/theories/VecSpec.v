(** The Euclidean inner product and norm of lists of numbers, and of points in space. *)
From Coq Require Import Reals List.
From Verif Require Import Words VecModel.
Import ListNotations.
Local Open Scope R_scope.

Fixpoint inner (v w : list R) : R := match v, w with x :: v, y :: w => x * y + inner v w | _, _ => 0 end.
Definition norm (v : list R) : R := sqrt (inner v v).
Fixpoint sum2 (v w : list R) : list R := match v, w with x :: v, y :: w => (x + y) :: sum2 v w | _, _ => [] end.
Definition times (s : R) (v : list R) : list R := map (Rmult s) v.
Definition diff (v w : list R) : list R := sum2 v (times (-1) w).
Definition null (v : list R) : Prop := forall x, In x v -> x = 0.

(** Vectors in space. *)
Definition inner3 (v w : v3) : R := inner (l3 v) (l3 w).
Definition perpendicular (v w : v3) : Prop := inner3 v w = 0.
Definition origin : v3 := V3 0 0 0.
(** One is a multiple of the other, or both are. *)
Definition parallel (v w : v3) : Prop := exists s t, (s <> 0 \/ t <> 0) /\ s * vx v = t * vx w /\ s * vy v = t * vy w /\ s * vz v = t * vz w.
(** The unit vector of an axis. *)
Definition unit_of (a : axis) : v3 := match a with AxisX => V3 1 0 0 | AxisY => V3 0 1 0 | AxisZ => V3 0 0 1 end.
