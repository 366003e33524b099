(** Model of the geometry classes: include/muu/impl/geometry_common.h, plane.h, line_segment.h, triangle.h, bounding_sphere.h,
    bounding_box.h, oriented_bounding_box.h, ray.h, sat_tester.h and the pairs in impl/*_x_*.h.

    Scalars are the real numbers, as in VecModel: rounding, overflow and the promotion of narrow scalars are not modelled. Where
    the code divides by a number that may be zero and goes on with the result, the division of IEEE 754 is modelled ([xdiv]);
    where a vector of length zero is normalised every component is NaN, which is modelled as [None]. The default tolerance
    is the parameter [eps]. Wrappers that only pass the members of an object on are not repeated. *)
From Coq Require Import Reals List Bool.
From Verif Require Import Words MatModel VecModel QuatModel.
Import ListNotations.
Local Open Scope R_scope.

(** The comparisons. *)
Definition leb (a b : R) : bool := if Rle_dec a b then true else false.
Definition ltb (a b : R) : bool := if Rlt_dec a b then true else false.
(** impl/core_utils.h:49-88, [muu::min] and [muu::max]. *)
Definition minR (a b : R) : R := if ltb a b then a else b.
Definition maxR (a b : R) : R := if ltb a b then b else a.
(** math.h:536-, with [muu::approx_equal]. *)
Definition approx_zero (x epsilon : R) : bool := approx_equal x 0 epsilon.
(** vector.h:2385-2425, 2436-2470, 2491-2505 and 2761-2780, componentwise. *)
Definition min3 (a b : v3) : v3 := V3 (minR (vx a) (vx b)) (minR (vy a) (vy b)) (minR (vz a) (vz b)).
Definition max3 (a b : v3) : v3 := V3 (maxR (vx a) (vx b)) (maxR (vy a) (vy b)) (maxR (vz a) (vz b)).
Definition clamp3 (v lo hi : v3) : v3 := V3 (clampR (vx v) (vx lo) (vx hi)) (clampR (vy v) (vy lo) (vy hi)) (clampR (vz v) (vz lo) (vz hi)).
Definition abs3 (v : v3) : v3 := V3 (Rabs (vx v)) (Rabs (vy v)) (Rabs (vz v)).
(** vector.h:1146-1160. *)
Definition distance_squared3 (p q : v3) : R := length_squared3 (sub3 q p).
(** vector.h:2003-2026 where the vector may be of length zero. *)
Definition normalize_opt (v : v3) : option v3 := if Req_EM_T (length3 v) 0 then None else Some (normalize3 v).

(** Floating-point numbers without rounding and without the sign of zero. *)
Inductive xr := Fin (x : R) | PInf | MInf | NaN.
(** [xdiv a b nz] is a / b; [nz] says that a zero divisor is -0. *)
Definition xdiv (a b : R) (nz : bool) : xr :=
  if Req_EM_T b 0 then (if Req_EM_T a 0 then NaN else if xorb (ltb a 0) nz then MInf else PInf) else Fin (a / b).
Definition xltb (a b : xr) : bool :=
  match a, b with
  | NaN, _ | _, NaN => false
  | Fin x, Fin y => ltb x y
  | MInf, MInf | PInf, _ | _, MInf => false
  | MInf, _ | _, PInf => true
  end.
Definition xmin (a b : xr) : xr := if xltb a b then a else b.
Definition xmax (a b : xr) : xr := if xltb a b then b else a.

(* ------------------------------------------------------------------ planes *)
Record plane := Plane { normal : v3; d_ : R }.
(** geometry_common.h:88-98 and plane.h:97-100 *)
Definition plane_origin (p : plane) : v3 := scale3 (normal p) (- d_ p).
Definition plane_at (pos dir : v3) : plane := Plane dir (- dot3 pos dir).
(** geometry_common.h:100-132 *)
Definition signed_distance (p : plane) (point : v3) : R := dot3 (normal p) point + d_ p.
Definition plane_distance (p : plane) (point : v3) : R := Rabs (signed_distance p point).
Definition project (p : plane) (point : v3) : v3 := sub3 point (scale3 (normal p) (signed_distance p point)).
(** geometry_common.h:134-147 *)
Definition plane_contains (p : plane) (point : v3) (epsilon : R) : bool := approx_zero (signed_distance p point) epsilon.
Definition planes_intersect (n1 n2 : v3) (eps : R) : bool := approx_zero (length_squared3 (cross n1 n2)) eps.
(** geometry_common.h:149-156 *)
Definition plane_segment (p : plane) (start finish : v3) : bool := leb 0 (signed_distance p start * signed_distance p finish).
(** plane.h:287-299 *)
Definition plane_normalize (p : plane) : option plane :=
  if Req_EM_T (length3 (normal p)) 0 then None
  else let inv_len := 1 / length3 (normal p) in Some (Plane (scale3 (normal p) inv_len) (d_ p * inv_len)).
(** plane.h:406-421, two points and more *)
Definition same_side (p : plane) (point1 : v3) (points : list v3) : bool :=
  forallb (fun q => Bool.eqb (leb 0 (signed_distance p point1)) (leb 0 (signed_distance p q))) points.

(* ------------------------------------------------------------------ lines and segments *)
(** geometry_common.h:173-204 *)
Definition project_distance (line_origin line_dir point : v3) : R := dot3 (sub3 point line_origin) line_dir.
Definition line_project (line_origin line_dir point : v3) : v3 := add3 line_origin (scale3 line_dir (project_distance line_origin line_dir point)).
Definition line_distance_squared (line_origin line_dir point : v3) : R := distance_squared3 point (line_project line_origin line_dir point).
Definition line_contains (line_origin line_dir point : v3) (epsilon : R) : bool := approx_zero (line_distance_squared line_origin line_dir point) epsilon.
(** geometry_common.h:236-261 and vector.h:2207-2225 *)
Definition segment_closest (seg0 seg1 point : v3) : option v3 :=
  match normalize_opt (sub3 seg1 seg0) with
  | None => None
  | Some seg_dir =>
      let seg_len := length3 (sub3 seg1 seg0) in
      Some (add3 seg0 (scale3 seg_dir (clampR (project_distance seg0 seg_dir point) 0 seg_len)))
  end.
Definition segment_contains (seg0 seg1 point : v3) (epsilon : R) : bool :=
  match segment_closest seg0 seg1 point with None => false | Some q => ltb (distance_squared3 point q) epsilon end.
(** line_segment.h:445-454; the comparison of NaN is false *)
Definition segment_colinear (seg0 seg1 point : v3) (epsilon : R) : bool :=
  match normalize_opt (sub3 seg1 seg0) with None => false | Some seg_dir => line_contains seg0 seg_dir point epsilon end.
(** line_segment.h:239-247 *)
Definition midpoint (seg0 seg1 : v3) : v3 := scale3 (add3 seg0 seg1) (/ 2).

(* ------------------------------------------------------------------ triangles *)
(** geometry_common.h:292-342 *)
Definition tri_normal (p0 p1 p2 : v3) : option v3 := normalize_opt (cross (sub3 p1 p0) (sub3 p2 p0)).
Definition centroid (p0 p1 p2 : v3) : v3 := scale3 (add3 (add3 p0 p1) p2) (/ 3).
Definition perimeter (p0 p1 p2 : v3) : R := distance3 p0 p1 + distance3 p1 p2 + distance3 p2 p0.
Definition area (p0 p1 p2 : v3) : R :=
  let a := distance3 p0 p1 in let b := distance3 p1 p2 in let c := distance3 p2 p0 in
  let s := (a + b + c) / 2 in sqrt (s * (s - a) * (s - b) * (s - c)).
Definition eq3 (a b : v3) : bool := if Req_EM_T (vx a) (vx b) then if Req_EM_T (vy a) (vy b) then if Req_EM_T (vz a) (vz b) then true else false else false else false.
Definition tri_degenerate (p0 p1 p2 : v3) : bool := eq3 p0 p1 || eq3 p0 p2 || eq3 p1 p2.
Definition coplanar (p0 p1 p2 point : v3) (epsilon : R) : bool :=
  match tri_normal p0 p1 p2 with None => false | Some n => approx_zero (dot3 (sub3 point p0) n) epsilon end.
(** geometry_common.h:344-368; 370-410 computes the same in two steps *)
Definition barycentric (p0 p1 p2 point : v3) : v3 :=
  let v0 := sub3 p1 p0 in let v1 := sub3 p2 p0 in
  let d00 := dot3 v0 v0 in let d01 := dot3 v0 v1 in let d11 := dot3 v1 v1 in
  let denom := 1 / (d00 * d11 - d01 * d01) in
  let v2 := sub3 point p0 in
  let d20 := dot3 v2 v0 in let d21 := dot3 v2 v1 in
  let y := (d11 * d20 - d01 * d21) * denom in
  let z := (d00 * d21 - d01 * d20) * denom in
  V3 (1 - (y + z)) y z.
(** geometry_common.h:412-437 *)
Definition contains_coplanar_point (p0 p1 p2 point : v3) : bool :=
  let a := sub3 p0 point in let b := sub3 p1 point in let c := sub3 p2 point in
  let u := cross b c in let v := cross c a in let w := cross a b in
  leb 0 (dot3 u v) && leb 0 (dot3 u w).
Definition tri_contains (p0 p1 p2 point : v3) (epsilon : R) : bool :=
  coplanar p0 p1 p2 point epsilon && contains_coplanar_point p0 p1 p2 point.

(* ------------------------------------------------------------------ axis-aligned boxes *)
Record box := Box { center : v3; extents : v3 }.
(** geometry_common.h:492-526 and 564-574 *)
Definition box_from_min_max (lo hi : v3) : box := Box (scale3 (add3 lo hi) (/ 2)) (scale3 (sub3 hi lo) (/ 2)).
Definition width (b : box) : R := vx (extents b) * 2.
Definition height (b : box) : R := vy (extents b) * 2.
Definition depth (b : box) : R := vz (extents b) * 2.
Definition diagonal (b : box) : R := length3 (extents b) * 2.
Definition box_volume (b : box) : R := vx (extents b) * vy (extents b) * vz (extents b) * 8.
Definition box_degenerate (b : box) : bool := leb (vx (extents b)) 0 || leb (vy (extents b)) 0 || leb (vz (extents b)) 0.
(** The eight corners; [true] for a coordinate taken from the maximum. geometry_common.h:576-598, 654-659 *)
Definition corner_offset (e : v3) (x y z : bool) : v3 :=
  V3 (if x then vx e else - vx e) (if y then vy e else - vy e) (if z then vz e else - vz e).
Definition corner (b : box) (x y z : bool) : v3 := add3 (center b) (corner_offset (extents b) x y z).
Definition min_corner (b : box) : v3 := corner b false false false.
Definition max_corner (b : box) : v3 := corner b true true true.
(** geometry_common.h:669-697 *)
Definition corner_min_max (lo hi : v3) (x y z : bool) : v3 :=
  V3 (if x then vx hi else vx lo) (if y then vy hi else vy lo) (if z then vz hi else vz lo).
(** bounding_box.h:200-224: the least box of some points. The variadic form gives the same maxima in another order. *)
Definition fold_min (p : v3) (l : list v3) : v3 := fold_left min3 l p.
Definition fold_max (p : v3) (l : list v3) : v3 := fold_left max3 l p.
Definition from_points (l : list v3) : box :=
  match l with [] => Box (V3 0 0 0) (V3 0 0 0) | p :: r => box_from_min_max (fold_min p r) (fold_max p r) end.
(** bounding_box.h:725-788 *)
Definition append_points (b : box) (l : list v3) : box := box_from_min_max (fold_min (min_corner b) l) (fold_max (max_corner b) l).
Definition append_box (b c : box) : box := append_points b [min_corner c; max_corner c].
(** bounding_box.h:683-711; [m] is the 4x4 matrix, a list of rows as in MatModel *)
Definition mcol (m : list (list R)) (j : nat) : v3 := V3 (get R_ops m 0 j) (get R_ops m 1 j) (get R_ops m 2 j).
Definition box_transform (b : box) (m : list (list R)) : box :=
  let lo := sub3 (center b) (extents b) in
  let hi := add3 (center b) (extents b) in
  let xa := scale3 (mcol m 0) (vx lo) in let xb := scale3 (mcol m 0) (vx hi) in
  let ya := scale3 (mcol m 1) (vy lo) in let yb := scale3 (mcol m 1) (vy hi) in
  let za := scale3 (mcol m 2) (vz lo) in let zb := scale3 (mcol m 2) (vz hi) in
  let lo' := add3 (add3 (min3 xa xb) (min3 ya yb)) (min3 za zb) in
  let hi' := add3 (add3 (max3 xa xb) (max3 ya yb)) (max3 za zb) in
  let e := scale3 (sub3 hi' lo') (/ 2) in
  Box (add3 (add3 lo' e) (mcol m 3)) e.
(** geometry_common.h:726-756 *)
Definition closest_min_max (lo hi pt : v3) : v3 := clamp3 pt lo hi.
Definition box_closest (b : box) (pt : v3) : v3 := closest_min_max (sub3 (center b) (extents b)) (add3 (center b) (extents b)) pt.
Definition furthest (c lo hi pt : v3) : v3 :=
  V3 (if leb (vx c) (vx pt) then vx lo else vx hi) (if leb (vy c) (vy pt) then vy lo else vy hi) (if leb (vz c) (vz pt) then vz lo else vz hi).
Definition box_contains (b : box) (point : v3) : bool :=
  let adj := abs3 (sub3 point (center b)) in
  leb (vx adj) (vx (extents b)) && leb (vy adj) (vy (extents b)) && leb (vz adj) (vz (extents b)).
(** geometry_common.h:860-912 *)
Definition intersects_sphere_min_max (lo hi c : v3) (radius_squared : R) : bool := leb (distance_squared3 (closest_min_max lo hi c) c) radius_squared.
Definition box_sphere (b : box) (c : v3) (radius : R) : bool :=
  intersects_sphere_min_max (sub3 (center b) (extents b)) (add3 (center b) (extents b)) c (radius * radius).
Definition intersects_min_max (min1 max1 min2 max2 : v3) : bool :=
  leb (vx min2) (vx max1) && leb (vx min1) (vx max2) && leb (vy min2) (vy max1) && leb (vy min1) (vy max2) && leb (vz min2) (vz max1) && leb (vz min1) (vz max2).
Definition contains_min_max (outer_min outer_max inner_min inner_max : v3) : bool :=
  leb (vx outer_min) (vx inner_min) && leb (vx inner_max) (vx outer_max) && leb (vy outer_min) (vy inner_min) && leb (vy inner_max) (vy outer_max)
  && leb (vz outer_min) (vz inner_min) && leb (vz inner_max) (vz outer_max).
Definition box_box (b1 b2 : box) : bool := intersects_min_max (min_corner b1) (max_corner b1) (min_corner b2) (max_corner b2).
Definition box_contains_box (outer inner : box) : bool := contains_min_max (min_corner outer) (max_corner outer) (min_corner inner) (max_corner inner).
(** bounding_box.h:897-903 and 965-972 *)
Definition box_contains_segment (b : box) (s e : v3) : bool := box_contains b s && box_contains b e.
Definition box_contains_triangle (b : box) (p0 p1 p2 : v3) : bool := box_contains b p0 && box_contains b p1 && box_contains b p2.
(** bounding_box_x_bounding_sphere.h: contains *)
Definition splat (r : R) : v3 := V3 r r r.
Definition box_contains_sphere (b : box) (c : v3) (radius : R) : bool :=
  intersects_sphere_min_max (min_corner b) (max_corner b) c (radius * radius)
  && contains_min_max (min_corner b) (max_corner b) (sub3 c (splat radius)) (add3 c (splat radius)).
(** bounding_box_x_plane.h *)
Definition box_plane (b : box) (p : plane) : bool := leb (plane_distance p (center b)) (dot3 (extents b) (abs3 (normal p))).
(** bounding_box.h:919-945 *)
Definition box_segment (b : box) (start finish : v3) : bool :=
  let mid_delta := scale3 (sub3 finish start) (/ 2) in
  let mid_point := sub3 (add3 start mid_delta) (center b) in
  let abs_delta := abs3 mid_delta in
  let e := extents b in
  if ltb (vx e + vx abs_delta) (Rabs (vx mid_point)) || ltb (vy e + vy abs_delta) (Rabs (vy mid_point)) || ltb (vz e + vz abs_delta) (Rabs (vz mid_point))
  then false
  else if ltb (vy e * vz abs_delta + vz e * vy abs_delta) (Rabs (vy mid_delta * vz mid_point - vz mid_delta * vy mid_point))
       || ltb (vz e * vx abs_delta + vx e * vz abs_delta) (Rabs (vz mid_delta * vx mid_point - vx mid_delta * vz mid_point))
       || ltb (vx e * vy abs_delta + vy e * vx abs_delta) (Rabs (vx mid_delta * vy mid_point - vy mid_delta * vx mid_point))
  then false
  else true.

(* ------------------------------------------------------------------ separating axes *)
(** sat_tester.h: the range of the projections seen so far. *)
Record sat := Sat { smin : R; smax : R }.
Definition sat_start (x : R) : sat := Sat x x.
Definition sat_add (s : sat) (x : R) : sat := Sat (minR x (smin s)) (maxR x (smax s)).
(** sat_tester.h:157-190: the range of one or more points *)
Definition sat_of (axis : v3) (point : v3) (points : list v3) : sat := fold_left (fun s p => sat_add s (dot3 axis p)) points (sat_start (dot3 axis point)).
Definition sat_of_axis (a : axis) (point : v3) (points : list v3) : sat := fold_left (fun s p => sat_add s (dot_axis3 p a * 1)) points (sat_start (dot_axis3 point a * 1)).
(** sat_tester.h:214-236 *)
Definition sat_holds (s : sat) (x : R) : bool := leb (smin s) x && leb x (smax s).
Definition sat_range (s : sat) (lo hi : R) : bool := leb (smin s) hi && leb lo (smax s).
Definition sat_meets (s t : sat) : bool := leb (smin s) (smax t) && leb (smin t) (smax s).

(** geometry_common.h:765-781 *)
Definition box_tri_1 (lo hi p0 p1 p2 : v3) : bool :=
  forallb (fun a => sat_range (sat_of_axis a p0 [p1; p2]) (dot_axis3 lo a) (dot_axis3 hi a)) [AxisX; AxisY; AxisZ].
(** geometry_common.h:783-791; comparisons with NaN are false *)
Definition box_tri_2 (c0 : v3) (corners : list v3) (p0 : v3) (n : option v3) : bool :=
  match n with None => false | Some n => sat_holds (sat_of n c0 corners) (dot3 n p0) end.
(** geometry_common.h:793-816 *)
Definition box_tri_3 (c0 : v3) (corners : list v3) (p0 p1 p2 : v3) (edges : list v3) : bool :=
  forallb (fun edge => forallb (fun a => let ax := cross_axis edge a in sat_meets (sat_of ax c0 corners) (sat_of ax p0 [p1; p2])) [AxisX; AxisY; AxisZ]) edges.
(** The corners after the first, in the order of geometry_common.h:828-835 and bounding_box_x_oriented_bounding_box.h. *)
Definition other_corners {A : Type} (f : bool -> bool -> bool -> A) : list A :=
  [f true false false; f true true false; f true false true; f false true false; f false true true; f false false true; f true true true].
(** geometry_common.h:818-854 *)
Definition box_tri_min_max (lo hi p0 p1 p2 : v3) : bool :=
  if negb (box_tri_1 lo hi p0 p1 p2) then false
  else
    let corners := other_corners (corner_min_max lo hi) in
    if negb (box_tri_2 lo corners p0 (tri_normal p0 p1 p2)) then false
    else box_tri_3 lo corners p0 p1 p2 [sub3 p1 p0; sub3 p2 p1; sub3 p0 p2].
Definition box_tri (b : box) (p0 p1 p2 : v3) : bool := box_tri_min_max (sub3 (center b) (extents b)) (add3 (center b) (extents b)) p0 p1 p2.

(* ------------------------------------------------------------------ oriented boxes *)
(** The axes are the columns of the 3x3 matrix. *)
Record obb := Obb { ocenter : v3; oextents : v3; ax_x : v3; ax_y : v3; ax_z : v3 }.
(** geometry_common.h:948-966 *)
Definition obb_corner (b : obb) (x y z : bool) : v3 :=
  let o := corner_offset (oextents b) x y z in
  add3 (add3 (add3 (ocenter b) (scale3 (ax_x b) (vx o))) (scale3 (ax_y b) (vy o))) (scale3 (ax_z b) (vz o)).
(** oriented_bounding_box.h:687-721 *)
Definition obb_closest (b : obb) (point : v3) : v3 :=
  let adj := sub3 point (ocenter b) in let e := oextents b in
  add3 (add3 (add3 (ocenter b) (scale3 (ax_x b) (clampR (dot3 adj (ax_x b)) (- vx e) (vx e))))
             (scale3 (ax_y b) (clampR (dot3 adj (ax_y b)) (- vy e) (vy e)))) (scale3 (ax_z b) (clampR (dot3 adj (ax_z b)) (- vz e) (vz e))).
Definition obb_contains (b : obb) (point : v3) : bool :=
  let adj := sub3 point (ocenter b) in
  leb (Rabs (dot3 adj (ax_x b))) (vx (oextents b)) && leb (Rabs (dot3 adj (ax_y b))) (vy (oextents b)) && leb (Rabs (dot3 adj (ax_z b))) (vz (oextents b)).
(** oriented_bounding_box_x_bounding_sphere.h *)
Definition obb_sphere (b : obb) (c : v3) (radius : R) : bool := leb (distance_squared3 (obb_closest b c) c) (radius * radius).
(** bounding_box_x_oriented_bounding_box.h: contains, from_obb, intersects *)
Definition box_contains_obb (b : box) (o : obb) : bool := forallb (fun c => box_contains b c) (obb_corner o false false false :: other_corners (obb_corner o)).
Definition from_obb (o : obb) : box := from_points (obb_corner o false false false :: other_corners (obb_corner o)).
Definition sat_corners (axis : v3) (f : bool -> bool -> bool -> v3) : sat := sat_of axis (f false false false) (other_corners f).
Definition box_obb (b : box) (o : obb) : bool :=
  if negb (forallb (fun a => sat_range (sat_of_axis a (obb_corner o false false false) (other_corners (obb_corner o))) (dot_axis3 (min_corner b) a) (dot_axis3 (max_corner b) a)) [AxisX; AxisY; AxisZ])
  then false
  else forallb (fun ax => sat_meets (sat_corners ax (obb_corner o)) (sat_corners ax (corner b))) [ax_x o; ax_y o; ax_z o].
(** oriented_bounding_box.h:868-905 *)
Definition obb_obb (o1 o2 : obb) : bool :=
  forallb (fun ax => sat_meets (sat_corners ax (obb_corner o1)) (sat_corners ax (obb_corner o2))) [ax_x o1; ax_y o1; ax_z o1; ax_x o2; ax_y o2; ax_z o2].
(** oriented_bounding_box.h:804-816 *)
Definition to_local (o : obb) (p : v3) : v3 := let q := sub3 p (ocenter o) in V3 (dot3 (ax_x o) q) (dot3 (ax_y o) q) (dot3 (ax_z o) q).
Definition obb_tri (o : obb) (p0 p1 p2 : v3) : bool := box_tri_min_max (neg3 (oextents o)) (oextents o) (to_local o p0) (to_local o p1) (to_local o p2).

(* ------------------------------------------------------------------ spheres *)
Record sphere := Sphere { scenter : v3; radius : R }.
(** bounding_sphere.h:431-440 *)
Definition sphere_closest (s : sphere) (point : v3) : v3 :=
  let delta := sub3 point (scenter s) in
  let dist_squared := length_squared3 delta in
  if leb dist_squared (radius s * radius s) then point else scale3 (scale3 delta (1 / sqrt dist_squared)) (radius s).
(** bounding_sphere.h:458-463, 495-501, 524-531 *)
Definition sphere_contains (s : sphere) (point : v3) : bool := leb (distance_squared3 (scenter s) point) (radius s * radius s).
Definition sphere_contains_segment (s : sphere) (a b : v3) : bool := sphere_contains s a && sphere_contains s b.
Definition sphere_contains_triangle (s : sphere) (p0 p1 p2 : v3) : bool := sphere_contains s p0 && sphere_contains s p1 && sphere_contains s p2.
(** bounding_sphere.h:617-629 *)
Definition sphere_contains_sphere (outer inner : sphere) : bool :=
  let dist_squared := distance_squared3 (scenter outer) (scenter inner) in
  let o2 := radius outer * radius outer in let i2 := radius inner * radius inner in
  if ltb (o2 + i2) dist_squared then false else leb (dist_squared + i2) o2.
(** bounding_sphere.h:639-645 *)
Definition sphere_sphere (s1 s2 : sphere) : bool := leb (distance_squared3 (scenter s1) (scenter s2)) (radius s1 * radius s1 + radius s2 * radius s2).
(** bounding_box_x_bounding_sphere.h: bounding_sphere::contains(box), bounding_box::from_sphere *)
Definition sphere_contains_box (s : sphere) (b : box) : bool :=
  intersects_sphere_min_max (min_corner b) (max_corner b) (scenter s) (radius s * radius s)
  && leb (distance_squared3 (furthest (center b) (min_corner b) (max_corner b) (scenter s)) (scenter s)) (radius s * radius s).
Definition from_sphere (s : sphere) : box := Box (scenter s) (splat (radius s)).
(** bounding_sphere.h:546-598 *)
Definition sphere_tri (s : sphere) (q0 q1 q2 : v3) : bool :=
  let p0 := sub3 q0 (scenter s) in let p1 := sub3 q1 (scenter s) in let p2 := sub3 q2 (scenter s) in
  let rr := radius s * radius s in
  let V := cross (sub3 p1 p0) (sub3 p2 p0) in
  let d := dot3 p0 V in let e := dot3 V V in
  if ltb (rr * e) (d * d) then false
  else
    let aa := dot3 p0 p0 in let ab := dot3 p0 p1 in let ac := dot3 p0 p2 in
    let bb := dot3 p1 p1 in let bc := dot3 p1 p2 in let cc := dot3 p2 p2 in
    let sep2 := ltb rr aa && ltb aa ab && ltb aa ac in
    let sep3 := ltb rr bb && ltb bb ab && ltb bb bc in
    let sep4 := ltb rr cc && ltb cc ac && ltb cc bc in
    if sep2 || sep3 || sep4 then false
    else
      let AB := sub3 p1 p0 in let BC := sub3 p2 p1 in let CA := sub3 p0 p2 in
      let d1 := ab - aa in let d2 := bc - bb in let d3 := ac - cc in
      let e1 := dot3 AB AB in let e2 := dot3 BC BC in let e3 := dot3 CA CA in
      let Q1 := sub3 (scale3 p0 e1) (scale3 AB d1) in
      let Q2 := sub3 (scale3 p1 e2) (scale3 BC d2) in
      let Q3 := sub3 (scale3 p2 e3) (scale3 CA d3) in
      let QC := sub3 (scale3 p2 e1) Q1 in
      let QA := sub3 (scale3 p0 e2) Q2 in
      let QB := sub3 (scale3 p1 e3) Q3 in
      let sep5 := ltb (rr * e1 * e1) (dot3 Q1 Q1) && ltb 0 (dot3 Q1 QC) in
      let sep6 := ltb (rr * e2 * e2) (dot3 Q2 Q2) && ltb 0 (dot3 Q2 QA) in
      let sep7 := ltb (rr * e3 * e3) (dot3 Q3 Q3) && ltb 0 (dot3 Q3 QB) in
      if sep5 || sep6 || sep7 then false else true.

(* ------------------------------------------------------------------ rays *)
(** ray.h:275-279 *)
Definition at_ (o d : v3) (t : R) : v3 := add3 o (scale3 d t).
(** geometry_common.h:1002-1022 *)
Definition hits_plane (o d : v3) (p : plane) (nz : bool) : option xr :=
  let nd := dot3 d (normal p) in
  let sd := signed_distance p o in
  if (ltb 0 sd && leb 0 nd) || (ltb sd 0 && leb nd 0) then None
  else
    let pn := dot3 o (normal p) in
    let hit_distance := xdiv (- d_ p - pn) nd nz in
    match hit_distance with NaN | MInf => None | PInf => Some PInf | Fin t => if leb 0 t then Some (Fin t) else None end.
(** geometry_common.h:1024-1058 *)
Definition hits_triangle (o d p0 p1 p2 : v3) (eps : R) : option R :=
  let v0v1 := sub3 p1 p0 in let v0v2 := sub3 p2 p0 in
  let pvec := cross d v0v2 in
  let det := dot3 v0v1 pvec in
  if ltb (Rabs det) eps then None
  else
    let inv_det := 1 / det in
    let tvec := sub3 o p0 in
    let u := dot3 tvec pvec * inv_det in
    if ltb u 0 || ltb 1 u then None
    else
      let qvec := cross tvec v0v1 in
      let v := dot3 d qvec * inv_det in
      if ltb v 0 || ltb 1 (u + v) then None else Some (dot3 v0v2 qvec * inv_det).
(** geometry_common.h:1060-1092 *)
Definition hits_sphere (o d : v3) (s : sphere) (eps : R) : option R :=
  let e := sub3 (scenter s) o in
  let a := dot3 e d in
  if ltb a 0 then None
  else
    let e2 := length_squared3 e in
    let r2 := radius s * radius s in
    let a2 := a * a in
    if ltb (r2 - e2 + a2) eps then None
    else
      let b := sqrt (e2 - a2) in
      let f := sqrt (r2 - b * b) in
      if ltb e2 r2 then Some (a + f) else Some (a - f).
(** geometry_common.h:1094-1115; [nz] gives the signs of zero components of the direction *)
Definition hits_min_max (o d lo hi : v3) (nzx nzy nzz : bool) : option xr :=
  let t1 := xdiv (vx lo - vx o) (vx d) nzx in let t2 := xdiv (vx hi - vx o) (vx d) nzx in
  let t3 := xdiv (vy lo - vy o) (vy d) nzy in let t4 := xdiv (vy hi - vy o) (vy d) nzy in
  let t5 := xdiv (vz lo - vz o) (vz d) nzz in let t6 := xdiv (vz hi - vz o) (vz d) nzz in
  let tmin := xmax (xmax (xmin t1 t2) (xmin t3 t4)) (xmin t5 t6) in
  let tmax := xmin (xmin (xmax t1 t2) (xmax t3 t4)) (xmax t5 t6) in
  if xltb tmax (Fin 0) || xltb tmax tmin then None else Some (if xltb tmin (Fin 0) then tmax else tmin).
(** geometry_common.h:1117-1124 *)
Definition hits_box (o d : v3) (b : box) (nzx nzy nzz : bool) : option xr := hits_min_max o d (sub3 (center b) (extents b)) (add3 (center b) (extents b)) nzx nzy nzz.
