(** Model of how planes, boxes and spheres are moved, scaled and transformed, and of the collision testers. Scalars are the real numbers, as in GeomModel. *)
From Coq Require Import Reals List Bool.
From Verif Require Import MatModel VecModel QuatModel XformModel GeomModel.
Import ListNotations.
Local Open Scope R_scope.

(** plane.h:504-516: the position is that of [plane::origin]; [None]: the direction, and so the plane, is NaN. The parameter [j] is that of the matrix models. *)
Definition plane_transform (j : R) (p : plane) (tx : list (list R)) : option plane :=
  match normalize_opt (transform_without_translating tx (normal p)) with
  | None => None
  | Some u => Some (plane_at (transform_position j 4 4 tx (plane_origin p)) (scale3 u (length3 (normal p))))
  end.
(** oriented_bounding_box.h:641-667: one axis and its extent; [None]: the axis is NaN. *)
Definition obb_axis (j : R) (tx : list (list R)) (c c' axis : v3) (extent : R) : option (v3 * R) :=
  let v := sub3 (transform_position j 4 4 tx (add3 c (scale3 axis extent))) c' in
  match normalize_opt v with None => None | Some u => Some (u, length3 v) end.
Definition obb_transform (j : R) (b : obb) (tx : list (list R)) : option obb :=
  let c' := transform_position j 4 4 tx (ocenter b) in
  match obb_axis j tx (ocenter b) c' (ax_x b) (vx (oextents b)), obb_axis j tx (ocenter b) c' (ax_y b) (vy (oextents b)), obb_axis j tx (ocenter b) c' (ax_z b) (vz (oextents b)) with
  | Some (x, ex), Some (y, ey), Some (z, ez) => Some (Obb c' (V3 ex ey ez) x y z)
  | _, _, _ => None
  end.
(** bounding_box.h:652-668, oriented_bounding_box.h:578-594, bounding_sphere.h:374-390. *)
Definition box_translate (b : box) (offset : v3) : box := Box (add3 (center b) offset) (extents b).
Definition obb_translate (b : obb) (offset : v3) : obb := Obb (add3 (ocenter b) offset) (oextents b) (ax_x b) (ax_y b) (ax_z b).
Definition sphere_translate (s : sphere) (offset : v3) : sphere := Sphere (add3 (scenter s) offset) (radius s).
(** vector times vector. *)
Definition times3 (a b : v3) : v3 := V3 (vx a * vx b) (vy a * vy b) (vz a * vz b).
(** bounding_box.h:679-699, oriented_bounding_box.h:609-625, bounding_sphere.h:405-421. *)
Definition box_scale (b : box) (s : v3) : box := Box (center b) (times3 (extents b) s).
Definition obb_scale (b : obb) (s : v3) : obb := Obb (ocenter b) (times3 (oextents b) s) (ax_x b) (ax_y b) (ax_z b).
Definition sphere_scale (s : sphere) (k : R) : sphere := Sphere (scenter s) (radius s * k).

(* ------------------------------------------------------------------ collision testers *)
(** bounding_box.h:1206-1228: the box, its extreme corners, and all its corners in the order of geometry_common.h. *)
Record box_tester := BoxTester { t_box : box; t_min : v3; t_max : v3; t_corners : list v3 }.
Definition box_tester_of (b : box) : box_tester :=
  let lo := min_corner b in let hi := max_corner b in
  BoxTester b lo hi [lo; corner_min_max lo hi true false false; corner_min_max lo hi true true false; corner_min_max lo hi true false true;
    corner_min_max lo hi false true false; corner_min_max lo hi false true true; corner_min_max lo hi false false true; hi].
(** triangle.h:870-889. *)
Record tri_tester := TriTester { t_p0 : v3; t_p1 : v3; t_p2 : v3; t_edges : list v3; t_normal : option v3 }.
Definition tri_tester_of (p0 p1 p2 : v3) : tri_tester := TriTester p0 p1 p2 [sub3 p1 p0; sub3 p2 p1; sub3 p0 p2] (tri_normal p0 p1 p2).
(** bounding_sphere.h:773-788. *)
Record sphere_tester := SphereTester { t_center : v3; t_radius : R; t_radius_squared : R; t_smin : v3; t_smax : v3 }.
Definition sphere_tester_of (s : sphere) : sphere_tester :=
  SphereTester (scenter s) (radius s) (radius s * radius s) (sub3 (scenter s) (splat (radius s))) (add3 (scenter s) (splat (radius s))).

(** bounding_box.h:1229-1245. *)
Definition box_test_point (t : box_tester) (point : v3) : bool := box_contains (t_box t) point.
Definition box_test_box (t : box_tester) (b : box) : bool := intersects_min_max (t_min t) (t_max t) (min_corner b) (max_corner b).
Definition box_test_tester (t u : box_tester) : bool := intersects_min_max (t_min t) (t_max t) (t_min u) (t_max u).
(** bounding_box.h:1247-1263 and bounding_box_x_triangle.h:44-68. *)
Definition with_corners (t : box_tester) (f : v3 -> list v3 -> bool) : bool := match t_corners t with [] => false | c :: cs => f c cs end.
Definition box_test_triangle (t : box_tester) (p0 p1 p2 : v3) : bool :=
  if negb (box_tri_1 (t_min t) (t_max t) p0 p1 p2) then false
  else if negb (with_corners t (fun c cs => box_tri_2 c cs p0 (tri_normal p0 p1 p2))) then false
  else if negb (with_corners t (fun c cs => box_tri_3 c cs p0 p1 p2 [sub3 p1 p0; sub3 p2 p1; sub3 p0 p2])) then false
  else true.
Definition box_test_tri_tester (t : box_tester) (u : tri_tester) : bool :=
  if negb (box_tri_1 (t_min t) (t_max t) (t_p0 u) (t_p1 u) (t_p2 u)) then false
  else if negb (with_corners t (fun c cs => box_tri_2 c cs (t_p0 u) (t_normal u))) then false
  else if negb (with_corners t (fun c cs => box_tri_3 c cs (t_p0 u) (t_p1 u) (t_p2 u) (t_edges u))) then false
  else true.
(** bounding_box_x_bounding_sphere.h:51-66. *)
Definition box_test_sphere (t : box_tester) (s : sphere) : bool := intersects_sphere_min_max (t_min t) (t_max t) (scenter s) (radius s * radius s).
Definition box_test_sphere_tester (t : box_tester) (u : sphere_tester) : bool := intersects_sphere_min_max (t_min t) (t_max t) (t_center u) (t_radius_squared u).
(** bounding_sphere.h:790-800. *)
Definition sphere_test_sphere (t : sphere_tester) (s : sphere) : bool :=
  leb (distance_squared3 (t_center t) (scenter s)) (t_radius_squared t + radius s * radius s).
Definition sphere_test_tester (t u : sphere_tester) : bool := leb (distance_squared3 (t_center t) (t_center u)) (t_radius_squared t + t_radius_squared u).
(** bounding_box_x_bounding_sphere.h:102-116. *)
Definition sphere_test_box (t : sphere_tester) (b : box) : bool := intersects_sphere_min_max (min_corner b) (max_corner b) (t_center t) (t_radius_squared t).
Definition sphere_test_box_tester (t : sphere_tester) (u : box_tester) : bool := intersects_sphere_min_max (t_min u) (t_max u) (t_center t) (t_radius_squared t).
