(** Model of what line_segment.h adds to impl/geometry_common.h. Scalars are the real numbers, as in GeomModel; a segment is its two points. *)
From Coq Require Import Reals List Bool.
From Verif Require Import MatModel VecModel GeomModel.
Import ListNotations.
Local Open Scope R_scope.

(** line_segment.h:515-524; directions of segments of length zero are NaN, and comparisons of NaN false. *)
Definition segments_colinear (a b c d : v3) (epsilon : R) : bool :=
  match normalize_opt (sub3 b a) with
  | None => false
  | Some dir => line_contains a dir c epsilon && line_contains a dir d epsilon
  end.
(** line_segment.h:534-542. *)
Definition segments_coplanar (a b c d : v3) (epsilon : R) : bool :=
  match tri_normal a b c with
  | None => false
  | Some n => plane_contains (plane_at a n) d epsilon
  end.
(** line_segment.h:552-559. *)
Definition segment_contains_segment (a b c d : v3) (epsilon : R) : bool := segment_contains a b c epsilon && segment_contains a b d epsilon.
(** line_segment.h:492-509: the points from [begin] to [end]. *)
Definition segment_contains_all (a b : v3) (points : list v3) (epsilon : R) : bool :=
  match points with [] => false | _ => forallb (fun p => segment_contains a b p epsilon) points end.
(** line_segment.h:617-628; [None]: the second point is NaN. *)
Definition extend (a b : v3) (extend_by : R) : option (v3 * v3) :=
  match normalize_opt (sub3 b a) with
  | None => None
  | Some dir => Some (a, add3 a (scale3 dir (length3 (sub3 b a) + extend_by)))
  end.
(** line_segment.h:640-648. *)
Definition reverse (s : v3 * v3) : v3 * v3 := (snd s, fst s).
(** line_segment.h:270-275. *)
Definition segment_length (s : v3 * v3) : R := distance3 (fst s) (snd s).
