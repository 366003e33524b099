(** Model of the sizes of boxes and spheres (volume, mass, density, extents and sides) and of the questions whether they are zero,
    empty or degenerate. Scalars are the real numbers, as in GeomModel: rounding, infinities and NaN (and so [infinity_or_nan]) are
    not modelled, nor is the promotion of narrow scalars. Oriented boxes pass their extents to the same functions. *)
From Coq Require Import Reals Bool.
From Verif Require Import Words MatModel VecModel QuatModel GeomModel.
Local Open Scope R_scope.

(** impl/core_constants.h:238: the literal [T(0.424413181578387562050L)]; the rounding to [T] is left out. *)
Definition four_over_three_pi : R := 424413181578387562050 / 1000000000000000000000.
(** impl/geometry_common.h:472-475 and bounding_sphere.h:179-187. *)
Definition sphere_volume (s : sphere) : R := four_over_three_pi * radius s * radius s * radius s.
(** bounding_sphere.h:171-174. *)
Definition diameter (s : sphere) : R := radius s * 2.
(** bounding_sphere.h:191-201; [None]: the quotient is infinite or NaN. *)
Definition sphere_mass (s : sphere) (density : R) : R := density * sphere_volume s.
Definition sphere_density (s : sphere) (mass : R) : option R :=
  if Req_EM_T (sphere_volume s) 0 then None else Some (mass / sphere_volume s).
(** bounding_box.h:404-414, oriented_bounding_box.h:323-333. *)
Definition box_mass (b : box) (density : R) : R := density * box_volume b.
Definition box_density (b : box) (mass : R) : option R :=
  if Req_EM_T (box_volume b) 0 then None else Some (mass / box_volume b).

(** The member of a vector that a reference denotes. *)
Inductive member := X | Y | Z.
Definition get (v : v3) (m : member) : R := match m with X => vx v | Y => vy v | Z => vz v end.
(** An assignment through such a reference. *)
Definition set (v : v3) (m : member) (x : R) : v3 :=
  match m with X => V3 x (vy v) (vz v) | Y => V3 (vx v) x (vz v) | Z => V3 (vx v) (vy v) x end.
(** impl/core_utils.h:49-55 and 72-78 on references to members. *)
Definition min_ref (v : v3) (a b : member) : member := if ltb (get v a) (get v b) then a else b.
Definition max_ref (v : v3) (a b : member) : member := if ltb (get v a) (get v b) then b else a.
(** impl/geometry_common.h:529-550, bounding_box.h:355-379: the reference returned. *)
Definition shortest_extent (extents : v3) : member := min_ref extents X (min_ref extents Y Z).
Definition longest_extent (extents : v3) : member := max_ref extents X (max_ref extents Y Z).
(** impl/geometry_common.h:553-562. *)
Definition shortest_side (extents : v3) : R := get extents (shortest_extent extents) * 2.
Definition longest_side (extents : v3) : R := get extents (longest_extent extents) * 2.

(** vector.h:879-888 and 1043-1053. *)
Definition zero3 (v : v3) : bool := eq3 v (V3 0 0 0).
Definition approx_zero3 (v : v3) (epsilon : R) : bool := approx_zero (vx v) epsilon && approx_zero (vy v) epsilon && approx_zero (vz v) epsilon.
(** vector.h:946-975. *)
Definition approx_equal3 (a b : v3) (epsilon : R) : bool :=
  approx_equal (vx a) (vx b) epsilon && approx_equal (vy a) (vy b) epsilon && approx_equal (vz a) (vz b) epsilon.
(** bounding_box.h:424-428, 435-438, 447-450, 471-486. *)
Definition box_equal (a b : box) : bool := eq3 (center a) (center b) && eq3 (extents a) (extents b).
Definition box_not_equal (a b : box) : bool := negb (box_equal a b).
Definition box_zero (b : box) : bool := zero3 (center b) && zero3 (extents b).
Definition box_empty (b : box) : bool := zero3 (extents b).
(** bounding_box.h:525-532, 545-550, 561-572. *)
Definition box_approx_equal (a b : box) (epsilon : R) : bool := approx_equal3 (center a) (center b) epsilon && approx_equal3 (extents a) (extents b) epsilon.
Definition box_approx_zero (b : box) (epsilon : R) : bool := approx_zero3 (center b) epsilon && approx_zero3 (extents b) epsilon.
Definition box_approx_empty (b : box) (epsilon : R) : bool := approx_zero3 (extents b) epsilon.
(** bounding_sphere.h:213-217, 224-228, 237-240, 259-272, 290-293. *)
Definition eqR (a b : R) : bool := if Req_EM_T a b then true else false.
Definition sphere_equal (a b : sphere) : bool := eq3 (scenter a) (scenter b) && eqR (radius a) (radius b).
Definition sphere_not_equal (a b : sphere) : bool := negb (sphere_equal a b).
Definition sphere_zero (s : sphere) : bool := zero3 (scenter s) && eqR (radius s) 0.
Definition sphere_empty (s : sphere) : bool := eqR (radius s) 0.
Definition sphere_degenerate (s : sphere) : bool := leb (radius s) 0.
(** bounding_sphere.h:312-319 and 348-360. [approx_zero] (lines 332-337) hands the radius to the vector function; a scalar does not
    turn into a vector by itself (vector.h:393), so that a call is not well-formed: it is not modelled. *)
Definition sphere_approx_equal (a b : sphere) (epsilon : R) : bool := approx_equal3 (scenter a) (scenter b) epsilon && approx_equal (radius a) (radius b) epsilon.
Definition sphere_approx_empty (s : sphere) (epsilon : R) : bool := approx_zero (radius s) epsilon.
