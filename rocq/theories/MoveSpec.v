(** Transformations that keep shapes, and images of sets. *)
From Coq Require Import Reals List.
From Verif Require Import Words VecModel QuatModel XformSpec GeomSpec VecSpec.
Local Open Scope R_scope.

(** The point [y] moved by minus [o]; the point at [s] times the offset of [x] from [c], by axes. *)
Definition shifted (y o : v3) : v3 := V3 (vx y - vx o) (vy y - vy o) (vz y - vz o).
Definition stretched (c s x : v3) : v3 := V3 (vx c + vx s * (vx x - vx c)) (vy c + vy s * (vy x - vy c)) (vz c + vz s * (vz x - vz c)).
(** What a transformation does to differences of points. *)
Definition linear (m : list (list R)) (v : v3) : v3 := shifted (image m v) (image m (V3 0 0 0)).
(** Rotations, reflections, translations and scaling by [k] the same way in all directions. *)
Definition similarity (k : R) (m : list (list R)) : Prop := 0 < k /\ forall u v, inner3 (linear m u) (linear m v) = k * k * inner3 u v.
(** The image of a set. *)
Definition image_of (m : list (list R)) (P : v3 -> Prop) (y : v3) : Prop := exists x, P x /\ y = image m x.
