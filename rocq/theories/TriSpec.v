(** Specification of the intersection of two triangles. The sets are those of GeomSpec. *)
From Coq Require Import Reals.
From Verif Require Import VecModel GeomModel GeomSpec.
Local Open Scope R_scope.

(** Six times the signed volume of a tetrahedron: the distance of [x] from the plane of a triangle, times twice its area. *)
Definition volume (p0 p1 p2 x : v3) : R :=
  (vx p1 - vx p0) * ((vy p2 - vy p0) * (vz x - vz p0) - (vz p2 - vz p0) * (vy x - vy p0))
  - (vy p1 - vy p0) * ((vx p2 - vx p0) * (vz x - vz p0) - (vz p2 - vz p0) * (vx x - vx p0))
  + (vz p1 - vz p0) * ((vx p2 - vx p0) * (vy x - vy p0) - (vy p2 - vy p0) * (vx x - vx p0)).
(** The point is on the plane, or not near it. *)
Definition settled (eps : R) (p0 p1 p2 x : v3) : Prop := volume p0 p1 p2 x = 0 \/ eps <= Rabs (volume p0 p1 p2 x).
Definition all_settled (eps : R) (v0 v1 v2 u0 u1 u2 : v3) : Prop :=
  settled eps v0 v1 v2 u0 /\ settled eps v0 v1 v2 u1 /\ settled eps v0 v1 v2 u2 /\
  settled eps u0 u1 u2 v0 /\ settled eps u0 u1 u2 v1 /\ settled eps u0 u1 u2 v2.
(** All in one plane. *)
Definition in_one_plane (v0 v1 v2 u0 u1 u2 : v3) : Prop :=
  volume v0 v1 v2 u0 = 0 /\ volume v0 v1 v2 u1 = 0 /\ volume v0 v1 v2 u2 = 0.
