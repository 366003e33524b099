(** The geometric objects as sets of points, and what the queries are meant to say about them. *)
From Coq Require Import Reals List.
From Verif Require Import Words VecModel VecSpec QuatModel MatModel XformSpec GeomModel.
Import ListNotations.
Local Open Scope R_scope.

(** The square of the distance of two points. *)
Definition dist2 (p q : v3) : R := (vx p - vx q) * (vx p - vx q) + (vy p - vy q) * (vy p - vy q) + (vz p - vz q) * (vz p - vz q).
Definition is_unit (v : v3) : Prop := inner3 v v = 1.
(** a + t (b - a) *)
Definition along (a b : v3) (t : R) : v3 := V3 (vx a + t * (vx b - vx a)) (vy a + t * (vy b - vy a)) (vz a + t * (vz b - vz a)).
(** o + t d *)
Definition reach (o d : v3) (t : R) : v3 := V3 (vx o + t * vx d) (vy o + t * vy d) (vz o + t * vz d).

Definition on_plane (p : plane) (x : v3) : Prop := inner3 (normal p) x + d_ p = 0.
Definition in_segment (a b x : v3) : Prop := exists t, 0 <= t <= 1 /\ x = along a b t.
Definition in_line (o d x : v3) : Prop := exists t, x = reach o d t.
Definition in_box (b : box) (x : v3) : Prop :=
  vx (center b) - vx (extents b) <= vx x <= vx (center b) + vx (extents b) /\
  vy (center b) - vy (extents b) <= vy x <= vy (center b) + vy (extents b) /\
  vz (center b) - vz (extents b) <= vz x <= vz (center b) + vz (extents b).
Definition proper (b : box) : Prop := 0 <= vx (extents b) /\ 0 <= vy (extents b) /\ 0 <= vz (extents b).
Definition in_ball (s : sphere) (x : v3) : Prop := dist2 x (scenter s) <= radius s * radius s.
Definition on_sphere (s : sphere) (x : v3) : Prop := dist2 x (scenter s) = radius s * radius s.
(** a p0 + b p1 + c p2 *)
Definition mix (p0 p1 p2 : v3) (a b c : R) : v3 :=
  V3 (a * vx p0 + b * vx p1 + c * vx p2) (a * vy p0 + b * vy p1 + c * vy p2) (a * vz p0 + b * vz p1 + c * vz p2).
Definition in_triangle (p0 p1 p2 x : v3) : Prop := exists a b c, 0 <= a /\ 0 <= b /\ 0 <= c /\ a + b + c = 1 /\ x = mix p0 p1 p2 a b c.
(** The plane through three points. *)
Definition in_affine_hull (p0 p1 p2 x : v3) : Prop := exists a b c, a + b + c = 1 /\ x = mix p0 p1 p2 a b c.
(** The three points are not on one line. *)
Definition proper_triangle (p0 p1 p2 : v3) : Prop := ~ exists o d, in_line o d p0 /\ in_line o d p1 /\ in_line o d p2.
Definition in_obb (o : obb) (x : v3) : Prop :=
  exists r s t, - vx (oextents o) <= r <= vx (oextents o) /\ - vy (oextents o) <= s <= vy (oextents o) /\ - vz (oextents o) <= t <= vz (oextents o) /\
    x = V3 (vx (ocenter o) + r * vx (ax_x o) + s * vx (ax_y o) + t * vx (ax_z o))
           (vy (ocenter o) + r * vy (ax_x o) + s * vy (ax_y o) + t * vy (ax_z o))
           (vz (ocenter o) + r * vz (ax_x o) + s * vz (ax_y o) + t * vz (ax_z o)).
Definition proper_obb (o : obb) : Prop :=
  0 <= vx (oextents o) /\ 0 <= vy (oextents o) /\ 0 <= vz (oextents o) /\ orthonormal (ax_x o) (ax_y o) (ax_z o).
(** The image of a point under an affine 4x4 matrix. *)
Definition image (m : list (list R)) (p : v3) : v3 := V3 (row_times m 0 p) (row_times m 1 p) (row_times m 2 p).

(** Two sets have a common point; one is a subset of the other. *)
Definition meet (P Q : v3 -> Prop) : Prop := exists x, P x /\ Q x.
Definition subset (P Q : v3 -> Prop) : Prop := forall x, P x -> Q x.
(** [q] is the point of the set [P] nearest to [p]. *)
Definition nearest (P : v3 -> Prop) (p q : v3) : Prop := P q /\ forall x, P x -> dist2 q p <= dist2 x p.

(** How squarely a direction meets the plane of a triangle: the volume spanned by the direction and the two edges. *)
Definition det_of (d p0 p1 p2 : v3) : R := inner3 d (cross (sub3 p2 p0) (sub3 p1 p0)).
(** The square of half the chord that the sphere cuts from the line with the unit direction [d]; negative when they do not meet. *)
Definition half_chord2 (o d : v3) (s : sphere) : R :=
  radius s * radius s - dist2 o (scenter s) + inner3 (sub3 (scenter s) o) d * inner3 (sub3 (scenter s) o) d.
(** No component of the direction is zero while the origin is on one of the two planes of that axis. *)
Definition clear_of (o d lo hi : R) : Prop := d = 0 -> o <> lo /\ o <> hi.
Definition clear_of_planes (o d : v3) (b : box) : Prop :=
  clear_of (vx o) (vx d) (vx (center b) - vx (extents b)) (vx (center b) + vx (extents b)) /\
  clear_of (vy o) (vy d) (vy (center b) - vy (extents b)) (vy (center b) + vy (extents b)) /\
  clear_of (vz o) (vz d) (vz (center b) - vz (extents b)) (vz (center b) + vz (extents b)).
Definition on_box_surface (lo hi x : v3) : Prop :=
  (vx lo <= vx x <= vx hi /\ vy lo <= vy x <= vy hi /\ vz lo <= vz x <= vz hi) /\
  (vx x = vx lo \/ vx x = vx hi \/ vy x = vy lo \/ vy x = vy hi \/ vz x = vz lo \/ vz x = vz hi).
Definition on_surface (b : box) (x : v3) : Prop := on_box_surface (sub3 (center b) (extents b)) (add3 (center b) (extents b)) x.
