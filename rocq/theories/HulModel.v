(** Model of contains() of collections of points, of line segments and triangles for boxes, oriented boxes and spheres
    (bounding_box.h, oriented_bounding_box.h, bounding_sphere.h). The scalars are the reals, as in GeomModel. *)
From Coq Require Import Reals List Bool.
From Verif Require Import MatModel VecModel QuatModel GeomModel.
Import ListNotations.
Local Open Scope R_scope.

(** bounding_box.h:887-889, oriented_bounding_box.h:741-743, bounding_sphere.h:483-485: the loop, for each kind of object. *)
Fixpoint range_loop (contains : v3 -> bool) (points : list v3) : bool :=
  match points with
  | [] => true
  | x :: rest => if negb (contains x) then false else range_loop contains rest
  end.
(** The check for an empty range: bounding_box.h:880-881, oriented_bounding_box.h:734-735, bounding_sphere.h:476-477. *)
Definition in_range (contains : v3 -> bool) (points : list v3) : bool :=
  match points with [] => false | _ => range_loop contains points end.
(** bounding_box.h:878-892 *)
Definition box_contains_range (b : box) (points : list v3) : bool := in_range (box_contains b) points.
(** oriented_bounding_box.h:732-746 *)
Definition obb_contains_range (o : obb) (points : list v3) : bool := in_range (obb_contains o) points.
(** bounding_sphere.h:474-488 *)
Definition sphere_contains_range (s : sphere) (points : list v3) : bool := in_range (sphere_contains s) points.
(** oriented_bounding_box.h:754-759 and impl/oriented_bounding_box_x_line_segment.h:22-27 *)
Definition obb_contains_segment (o : obb) (start finish : v3) : bool := obb_contains o start && obb_contains o finish.
(** oriented_bounding_box.h:783-789 and impl/oriented_bounding_box_x_triangle.h:22-26 *)
Definition obb_contains_triangle (o : obb) (p0 p1 p2 : v3) : bool := obb_contains o p0 && obb_contains o p1 && obb_contains o p2.
