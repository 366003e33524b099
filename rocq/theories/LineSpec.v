(** Points near a line or a segment. *)
From Coq Require Import Reals.
From Verif Require Import VecModel GeomSpec.
Local Open Scope R_scope.

(** The line through two points, and the points whose distance from it, squared, is below [eps]. *)
Definition on_line (a b x : v3) : Prop := exists t, x = along a b t.
Definition near_line (a b : v3) (eps : R) (p : v3) : Prop := exists x, on_line a b x /\ dist2 x p < eps.
Definition near_segment (a b : v3) (eps : R) (p : v3) : Prop := exists x, in_segment a b x /\ dist2 x p < eps.
(** Four points in one plane: the volume they span is zero. *)
Definition volume6 (a b c d : v3) : R :=
  (vx b - vx a) * ((vy c - vy a) * (vz d - vz a) - (vz c - vz a) * (vy d - vy a))
  + (vy b - vy a) * ((vz c - vz a) * (vx d - vx a) - (vx c - vx a) * (vz d - vz a))
  + (vz b - vz a) * ((vx c - vx a) * (vy d - vy a) - (vy c - vy a) * (vx d - vx a)).
