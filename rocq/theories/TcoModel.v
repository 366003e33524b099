(** Model of what a triangle contains besides single points (triangle.h) and of the generator of barycentric coordinates
    (impl/geometry_common.h). The scalars are the reals, as in GeomModel. *)
From Coq Require Import Reals List Bool.
From Verif Require Import MatModel VecModel QuatModel GeomModel.
Import ListNotations.
Local Open Scope R_scope.

(** The loop of triangle.h:512-514. *)
Fixpoint contains_loop (p0 p1 p2 : v3) (points : list v3) (epsilon : R) : bool :=
  match points with
  | [] => true
  | x :: rest => if negb (tri_contains p0 p1 p2 x epsilon) then false else contains_loop p0 p1 p2 rest epsilon
  end.
(** triangle.h:500-517; the range [begin, end) is the list of its points. *)
Definition contains_range (p0 p1 p2 : v3) (points : list v3) (epsilon : R) : bool :=
  match points with [] => false | _ => contains_loop p0 p1 p2 points epsilon end.
(** triangle.h:524-533 and impl/triangle_x_line_segment.h:22-27 *)
Definition contains_segment (p0 p1 p2 start finish : v3) (epsilon : R) : bool :=
  tri_contains p0 p1 p2 start epsilon && tri_contains p0 p1 p2 finish epsilon.

(** impl/geometry_common.h:370-379 *)
Record generator := Generator { g_p : v3; g_v0 : v3; g_v1 : v3; g_d00 : R; g_d01 : R; g_d11 : R; g_denom : R }.
(** impl/geometry_common.h:382-393 *)
Definition make_generator (p0 p1 p2 : v3) : generator :=
  let v0 := sub3 p1 p0 in let v1 := sub3 p2 p0 in
  let d00 := dot3 v0 v0 in let d01 := dot3 v0 v1 in let d11 := dot3 v1 v1 in
  Generator p0 v0 v1 d00 d01 d11 (1 / (d00 * d11 - d01 * d01)).
(** impl/geometry_common.h:395-409 *)
Definition generate (g : generator) (point : v3) : v3 :=
  let v2 := sub3 point (g_p g) in
  let d20 := dot3 v2 (g_v0 g) in let d21 := dot3 v2 (g_v1 g) in
  let y := (g_d11 g * d20 - g_d01 g * d21) * g_denom g in
  let z := (g_d00 g * d21 - g_d01 g * d20) * g_denom g in
  V3 (1 - (y + z)) y z.
