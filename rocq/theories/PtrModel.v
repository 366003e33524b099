(** Model of the plane of a triangle (plane.h, triangle.h, impl/plane_x_triangle.h). The scalars are the reals, as in GeomModel. *)
From Coq Require Import Reals.
From Verif Require Import MatModel VecModel QuatModel GeomModel.
Local Open Scope R_scope.

(** plane.h:103-115 and impl/plane_x_triangle.h:22-25; [None]: the normal of three points on one line is NaN. *)
Definition from_triangle (p0 p1 p2 : v3) : option plane :=
  match tri_normal p0 p1 p2 with None => None | Some n => Some (plane_at p0 n) end.
(** triangle.h:276-296 and impl/plane_x_triangle.h:36-41 *)
Definition triangle_plane (p0 p1 p2 : v3) : option plane :=
  match tri_normal p0 p1 p2 with None => None | Some n => Some (plane_at p0 n) end.
