(** Model of [infinity_or_nan] of the vector, matrix, rotation and geometry classes. The scalars are their bit patterns. *)
From Verif Require Import Words FpModel.
From Coq Require Import ZArith.
Local Open Scope Z_scope.

Section Fin.
  (** [mask] is that of the scalar type (math.h:65-127). *)
  Variable mask : Z.
  (** math.h:163-217 *)
  Definition bad (x : Z) : bool := infinity_or_nan mask x.
  (** math.h:219-228, and vector.h:89-109 with 900-918: up to four components the loop is written out. *)
  Fixpoint bad_vector (v : list Z) : bool := match v with [] => false | x :: v => if bad x then true else bad_vector v end.
  (** matrix.h:2191-2205 *)
  Fixpoint bad_columns (m : list (list Z)) : bool := match m with [] => false | c :: m => if bad_vector c then true else bad_columns m end.

  (** The classes by their members; a matrix by its columns. *)
  Inductive item :=
  | Scalar (x : Z) | Vector (v : list Z) | Matrix (columns : list (list Z)) | Quaternion (s : Z) (v : list Z) | AxisAngle (axis : list Z) (angle : Z)
  | Euler (yaw pitch roll : Z) | Plane (normal : list Z) (d : Z) | Ray (origin direction : list Z) | Segment (p0 p1 : list Z) | Triangle (p0 p1 p2 : list Z)
  | Box (center extents : list Z) | Oriented (center extents : list Z) (axes : list (list Z)) | Sphere (center : list Z) (radius : Z).
  Definition bad_item (i : item) : bool :=
    match i with
    | Scalar x => bad x
    | Vector v => bad_vector v
    | Matrix m => bad_columns m
    | Quaternion s v => bad s || bad_vector v                              (* quaternion.h:367-370 *)
    | AxisAngle axis angle => bad angle || bad_vector axis                 (* axis_angle.h:173-176 *)
    | Euler yaw pitch roll => bad yaw || bad pitch || bad roll             (* euler_angles.h:218-223 *)
    | Plane normal d => bad d || bad_vector normal                         (* plane.h:220-223 *)
    | Ray origin direction => bad_vector origin && bad_vector direction    (* ray.h:155-159 *)
    | Segment p0 p1 => bad_vector p0 || bad_vector p1                      (* line_segment.h:339-343 *)
    | Triangle p0 p1 p2 => bad_vector p0 || bad_vector p1 || bad_vector p2 (* triangle.h:351-356 *)
    | Box center extents => bad_vector center || bad_vector extents        (* bounding_box.h:489-492 *)
    | Oriented center extents axes => bad_vector center || bad_vector extents || bad_columns axes (* oriented_bounding_box.h:408-413 *)
    | Sphere center radius => bad radius || bad_vector center              (* bounding_sphere.h:276-279 *)
    end.
  (** math.h:219-228: an array of any of these. *)
  Fixpoint bad_array (l : list item) : bool := match l with [] => false | i :: l => if bad_item i then true else bad_array l end.
  (** math.h:230-236: two and more arguments, a fold to the left. *)
  Definition bad_any (a b : item) (l : list item) : bool := fold_left (fun r i => r || bad_item i) l (bad_item a || bad_item b).
End Fin.
