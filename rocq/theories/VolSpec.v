(** Specification of volumes: iterated Riemann integrals of the indicator function of a set of points. *)
From Coq Require Import Reals.
From Coquelicot Require Import Coquelicot.
From Verif Require Import VecModel QuatModel GeomModel GeomSpec VolModel.
Local Open Scope R_scope.

(** [f] is one inside the set and zero outside. *)
Definition indicates (f : R -> R -> R -> R) (S : v3 -> Prop) : Prop :=
  forall x y z, S (V3 x y z) /\ f x y z = 1 \/ ~ S (V3 x y z) /\ f x y z = 0.
(** The volume of what of the set lies in the cube from (-M, -M, -M) to (M, M, M): lengths of the rows, areas of the slices, volume. *)
Definition volume_within (M : R) (S : v3 -> Prop) (V : R) : Prop :=
  exists (f : R -> R -> R -> R) (len : R -> R -> R) (area : R -> R), indicates f S /\
    (forall y z, is_RInt (fun x => f x y z) (- M) M (len y z)) /\
    (forall z, is_RInt (fun y => len y z) (- M) M (area z)) /\ is_RInt area (- M) M V.
(** The set lies in that cube. *)
Definition inside (M : R) (S : v3 -> Prop) : Prop :=
  forall p, S p -> Rabs (vx p) <= M /\ Rabs (vy p) <= M /\ Rabs (vz p) <= M.
(** A set of this volume. *)
Definition has_volume (S : v3 -> Prop) (V : R) : Prop := forall M, inside M S -> volume_within M S V.
(** The value of the smallest and of the greatest of the three. *)
Definition least (v : v3) (x : R) : Prop := (x = vx v \/ x = vy v \/ x = vz v) /\ x <= vx v /\ x <= vy v /\ x <= vz v.
Definition greatest (v : v3) (x : R) : Prop := (x = vx v \/ x = vy v \/ x = vz v) /\ vx v <= x /\ vy v <= x /\ vz v <= x.
(** Every component of [v] is nearer to that of [w] than [e]. *)
Definition near3 (e : R) (v w : v3) : Prop := Rabs (vx v - vx w) < e /\ Rabs (vy v - vy w) < e /\ Rabs (vz v - vz w) < e.
