(** Model of extending and reversing line segments (line_segment.h) and of the rays that bounce off (ray.h). The scalars are the reals, as in GeomModel. *)
From Coq Require Import Reals.
From Verif Require Import Words MatModel VecModel QuatModel GeomModel.
Local Open Scope R_scope.

(** line_segment.h:353-364 *)
Definition seg_degenerate (p0 p1 : v3) : bool := eq3 p0 p1.
(** line_segment.h:620-634; [None]: the direction of a segment of length zero is NaN. *)
Definition extend (p0 p1 : v3) (extend_by : R) : option (v3 * v3) :=
  match normalize_opt (sub3 p1 p0) with
  | None => None
  | Some dir => Some (p0, add3 p0 (scale3 dir (length3 (sub3 p1 p0) + extend_by)))
  end.
(** line_segment.h:643-654 *)
Definition reverse (p0 p1 : v3) : v3 * v3 := (p1, p0).
(** ray.h:311-355 *)
Definition bounce (o d : v3) (distance : R) (dir : v3) : v3 * v3 := (at_ o d distance, dir).
