(** Model of [approx_equal] and [approx_zero] of the vector, matrix, quaternion and geometry classes. They go through the members in the same way as [==] and [zero] in OeqModel:
    vector.h:946-1012 and 1043-1053, matrix.h:2232-2258 and 2297-2304, quaternion.h:389-427 and 456-460, plane.h:242-266, ray.h:178-185, line_segment.h:376-402, triangle.h:391-419,
    bounding_box.h:525-550, oriented_bounding_box.h:446-474, bounding_sphere.h:312-337. *)
From Coq Require Import ZArith.
From Flocq Require Import BinarySingleNaN.
From Verif Require Import FpModel SqrtModel OeqModel.

(** The scalars of one type: math.h:451-507 and 533-563. *)
Definition near32 (eps x y : float32) : bool := approx_equal 24 128 p24 e128 x y eps.
Definition near64 (eps x y : float64) : bool := approx_equal 53 1024 p53 e1024 x y eps.
(** One of each type: converted to the wider one, that of epsilon (meta.h:2397-2399 and vector.h:959-968). *)
Definition near32_64 (eps : float64) (x : float32) (y : float64) : bool := near64 eps (fp_cast 24 128 53 1024 p53 e1024 x) y.
Definition near64_32 (eps : float64) (x : float64) (y : float32) : bool := near64 eps x (fp_cast 24 128 53 1024 p53 e1024 y).
Definition near_zero32 (eps x : float32) : bool := approx_zero 24 128 p24 e128 x eps.
Definition near_zero64 (eps x : float64) : bool := approx_zero 53 1024 p53 e1024 x eps.

(** The functions of the classes, of objects of one type of scalars. *)
Definition approx_equal_object {A : Type} (near : A -> A -> bool) (i j : object A) : bool := eq_object near i j.
(** Of one object of each type. [None]: planes and spheres (plane.h:247 and bounding_sphere.h:318) hand a float, a double and a double epsilon to the overloads for three floats and three doubles; neither is the better one, so the call is not well-formed. *)
Definition approx_equal_mixed {A B : Type} (near : A -> B -> bool) (i : object A) (j : object B) : option bool :=
  match i with Plane _ _ | Sphere _ _ => None | _ => Some (eq_object near i j) end.
(** [None]: rays have no such function, and that of spheres (bounding_sphere.h:333-337) hands the radius to the function of vectors, which is not well-formed. *)
Definition approx_zero_object {A : Type} (near_zero : A -> bool) (i : object A) : option bool :=
  match i with Sphere _ _ => None | _ => zero_object near_zero i end.
