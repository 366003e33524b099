(** Model of [==] and [zero] of the vector, matrix, quaternion and geometry classes with floating-point scalars. *)
From Coq Require Import ZArith Bool List.
From Flocq Require Import BinarySingleNaN.
From Verif Require Import FpModel SqrtModel.
Import ListNotations.
Local Open Scope Z_scope.

Notation float32 := (binary_float 24 128).
Notation float64 := (binary_float 53 1024).
Definition p24 : FLX.Prec_gt_0 24 := eq_refl.
Definition e128 : Prec_lt_emax 24 128 := eq_refl.
Definition p53 : FLX.Prec_gt_0 53 := eq_refl.
Definition e1024 : Prec_lt_emax 53 1024 := eq_refl.

(** The classes by their members, over the scalars [A]; a matrix by its columns. *)
Inductive object (A : Type) :=
| Vector (v : list A) | Matrix (columns : list (list A)) | Quaternion (s : A) (v : list A) | Plane (normal : list A) (d : A) | Ray (origin direction : list A)
| Segment (p0 p1 : list A) | Triangle (p0 p1 p2 : list A) | Box (center extents : list A) | Oriented (center extents : list A) (axes : list (list A)) | Sphere (center : list A) (radius : A).
Arguments Vector {A}. Arguments Matrix {A}. Arguments Quaternion {A}. Arguments Plane {A}. Arguments Ray {A}. Arguments Segment {A}. Arguments Triangle {A}. Arguments Box {A}. Arguments Oriented {A}. Arguments Sphere {A}.

Section Eq.
  Context {A B : Type}.
  (** [==] of the scalars. *)
  Variable eqs : A -> B -> bool.
  (** vector.h:64-87 and 800-848: up to four components the loop is written out. Vectors of different dimensions cannot be compared. *)
  Fixpoint eq_vector (v : list A) (w : list B) : bool :=
    match v, w with
    | [], [] => true
    | x :: v, y :: w => if eqs x y then eq_vector v w else false
    | _, _ => false
    end.
  (** matrix.h:2120-2140 *)
  Fixpoint eq_columns (m : list (list A)) (n : list (list B)) : bool :=
    match m, n with
    | [], [] => true
    | c :: m, d :: n => if negb (eq_vector c d) then false else eq_columns m n
    | _, _ => false
    end.
  (** Objects of different classes cannot be compared. *)
  Definition eq_object (i : object A) (j : object B) : bool :=
    match i, j with
    | Vector v, Vector w => eq_vector v w
    | Matrix m, Matrix n => eq_columns m n
    | Quaternion s v, Quaternion t w => eqs s t && eq_vector v w               (* quaternion.h:283-320 *)
    | Plane n d, Plane m e => eq_vector n m && eqs d e                         (* plane.h:182-185 *)
    | Ray o d, Ray p e => eq_vector o p && eq_vector d e                       (* ray.h:136-140 *)
    | Segment a b, Segment x y => eq_vector a x && eq_vector b y               (* line_segment.h:297-302 *)
    | Triangle a b c, Triangle x y z => eq_vector a x && eq_vector b y && eq_vector c z (* triangle.h:309-314 *)
    | Box c e, Box d f => eq_vector c d && eq_vector e f                       (* bounding_box.h:429-433 *)
    | Oriented c e a, Oriented d f b => eq_vector c d && eq_vector e f && eq_columns a b (* oriented_bounding_box.h:348-352 *)
    | Sphere c r, Sphere d s => eq_vector c d && eqs r s                       (* bounding_sphere.h:216-220 *)
    | _, _ => false
    end.
End Eq.

Section Zero.
  Context {A : Type}.
  (** Whether the scalar [== scalar_type{}]. *)
  Variable zero : A -> bool.
  (** vector.h:64-87 and 879-888 *)
  Fixpoint zero_vector (v : list A) : bool := match v with [] => true | x :: v => if zero x then zero_vector v else false end.
  (** matrix.h:2171-2177 *)
  Fixpoint zero_columns (m : list (list A)) : bool := match m with [] => true | c :: m => if negb (zero_vector c) then false else zero_columns m end.
  (** [None]: rays have no such function. *)
  Definition zero_object (i : object A) : option bool :=
    match i with
    | Vector v => Some (zero_vector v)
    | Matrix m => Some (zero_columns m)
    | Quaternion s v => Some (zero s && zero_vector v)                         (* quaternion.h:350-353 *)
    | Plane n d => Some (zero_vector n && zero d)                              (* plane.h:203-206 *)
    | Ray _ _ => None
    | Segment a b => Some (zero_vector a && zero_vector b)                     (* line_segment.h:321-325 *)
    | Triangle a b c => Some (zero_vector a && zero_vector b && zero_vector c) (* triangle.h:332-337 *)
    | Box c e => Some (zero_vector c && zero_vector e)                         (* bounding_box.h:452-455 *)
    | Oriented c e a => Some (zero_vector c && zero_vector e && zero_columns a) (* oriented_bounding_box.h:371-374 *)
    | Sphere c r => Some (zero_vector c && zero r)                             (* bounding_sphere.h:239-242 *)
    end.
End Zero.

(** The scalars: of the same type, and of two types after a conversion to the wider one (impl/vector_types_common.h:14-18 and vector.h:812-821; where the code compares without a cast the language converts in the same way). *)
Definition eq32 (x y : float32) : bool := Beqb x y.
Definition eq64 (x y : float64) : bool := Beqb x y.
Definition eq32_64 (x : float32) (y : float64) : bool := Beqb (fp_cast 24 128 53 1024 p53 e1024 x) y.
Definition eq64_32 (x : float64) (y : float32) : bool := Beqb x (fp_cast 24 128 53 1024 p53 e1024 y).
Definition zero32 (x : float32) : bool := Beqb x (B754_zero false).
Definition zero64 (x : float64) : bool := Beqb x (B754_zero false).
(** A vector of integers of 32 bits and one of floats: the wider rank is that of float (impl/vector_types_common.h:14-18). *)
Definition eq_int_float (n : Z) (y : float32) : bool := Beqb (of_Z 24 128 p24 e128 n) y.
