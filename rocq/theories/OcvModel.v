(** Model of the constructors that convert an object of one scalar type to another. *)
From Coq Require Import ZArith List.
From Flocq Require Import BinarySingleNaN.
From Verif Require Import FpModel SqrtModel OeqModel.

(** [static_cast] to each component, in order, for the same dimensions: vector.h:531-535 and impl/vector_base.h:65-68, 121-124, 210-213, 306-309, 405-408; a matrix column by column, matrix.h:1580-1584 and impl/matrix_base.h:71-82. *)
Definition convert {A B : Type} (cast : A -> B) (i : object A) : object B :=
  let vec := map cast in
  match i with
  | Vector v => Vector (vec v)
  | Matrix m => Matrix (map vec m)
  | Quaternion s v => Quaternion (cast s) (vec v)             (* quaternion.h:162-166 *)
  | Plane n d => Plane (vec n) (cast d)                       (* plane.h:128-132 *)
  | Ray o d => Ray (vec o) (vec d)                            (* ray.h:103-107 *)
  | Segment a b => Segment (vec a) (vec b)                    (* line_segment.h:116-120 *)
  | Triangle a b c => Triangle (vec a) (vec b) (vec c)        (* triangle.h:115-119 *)
  | Box c e => Box (vec c) (vec e)                            (* bounding_box.h:167-171 *)
  | Oriented c e a => Oriented (vec c) (vec e) (map vec a)    (* oriented_bounding_box.h:196-200 *)
  | Sphere c r => Sphere (vec c) (cast r)                     (* bounding_sphere.h:122-126 *)
  end.
(** The casts: to the nearest number, ties to even. The language leaves the conversion of doubles beyond the range of float undefined; with IEEE arithmetic they become infinities. *)
Definition to_double (x : float32) : float64 := fp_cast 24 128 53 1024 p53 e1024 x.
Definition to_float (y : float64) : float32 := fp_cast 53 1024 24 128 p24 e128 y.
