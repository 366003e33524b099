(** C61-C64: planes and axis-aligned boxes. *)
From Coq Require Import Reals Lra Psatz List Bool.
From Verif Require Import Words MatModel VecModel VecSpec QuatModel XformSpec QuatProofs GeomModel GeomSpec GeomProofs GeomProofs2 GeomProofs3 GeomProofs4.
Import ListNotations.
Local Open Scope R_scope.

(* ------------------------------------------------------------------ C61 *)
(** project() gives the nearest point of the plane, along the normal, and distance() is the distance to it. *)
Theorem C61_projection : forall p x, is_unit (normal p) ->
  nearest (on_plane p) x (project p x) /\ x = reach (project p x) (normal p) (signed_distance p x) /\
  0 <= plane_distance p x /\ plane_distance p x * plane_distance p x = dist2 (project p x) x.
Proof.
  intros p x U. split; [split; [apply project_on, U|]|split; [apply project_along|split; [apply Rabs_pos|symmetry; apply project_dist, U]]].
  intros y Y. rewrite project_dist by assumption. apply plane_nearest; assumption.
Qed.
(** The signed distance says on which side of the plane a point is. *)
Theorem C61_side : forall p x, is_unit (normal p) -> (signed_distance p x = 0 <-> on_plane p x) /\ forall y k, on_plane p y -> signed_distance p (reach y (normal p) k) = k.
Proof.
  intros p x U. split; [symmetry; apply on_plane_sd|]. intros y k Y. apply on_plane_sd in Y. unfold is_unit in U. rewrite inner_eq in U.
  transitivity (signed_distance p y + k * (vx (normal p) * vx (normal p) + vy (normal p) * vy (normal p) + vz (normal p) * vz (normal p))); [unfold signed_distance, dot3, reach; cbn; ring|rewrite U, Y; ring].
Qed.
(** A plane built from a point and a direction is the set of points seen from it at right angles; origin() is on the plane. *)
Theorem C61_construction : forall pos dir x, (on_plane (plane_at pos dir) x <-> inner3 (sub3 x pos) dir = 0) /\ forall p, is_unit (normal p) -> on_plane p (plane_origin p).
Proof.
  intros. split; [|intros; apply origin_on; assumption]. unfold on_plane, plane_at. rewrite !inner_eq. cbn. unfold dot3. split; intros H; lra.
Qed.
(** normalize() keeps the plane and makes the normal a unit vector. *)
Theorem C61_normalize : forall p, normal p <> origin -> exists q, plane_normalize p = Some q /\ is_unit (normal q) /\ forall x, on_plane q x <-> on_plane p x.
Proof.
  intros p N. assert (Z := length_zero (normal p)). unfold plane_normalize. destruct (Req_EM_T (length3 (normal p)) 0) as [E|E] eqn:Q; [exfalso; apply N, Z, E|].
  eexists. split; [reflexivity|]. apply plane_normalize_spec. unfold plane_normalize. rewrite Q. reflexivity.
Qed.
Print Assumptions C61_projection.
Print Assumptions C61_side.
Print Assumptions C61_construction.
Print Assumptions C61_normalize.
Definition slope := Plane (V3 (3 / 5) 0 (4 / 5)) (-10).
Example C61_ex : is_unit (normal slope) /\ project slope (V3 0 7 0) = V3 6 7 8 /\ plane_distance slope (V3 0 7 0) = 10.
Proof.
  split; [unfold is_unit; rewrite inner_eq; cbn; lra|]. split; [apply v3_eq; cbn; unfold signed_distance, dot3; cbn; lra|].
  unfold plane_distance, signed_distance, dot3. cbn. replace (3 / 5 * 0 + 0 * 7 + 4 / 5 * 0 + -10) with (- (10)) by lra. rewrite Rabs_Ropp. apply Rabs_pos_eq. lra.
Qed.

(* ------------------------------------------------------------------ C62 *)
(** The full statement is [plane_segment p a b = true <-> meet (on_plane p) (in_segment a b)]. The test is inverted. *)
Theorem C62_plane_segment_refuted : exists p a b, is_unit (normal p) /\ plane_segment p a b = true /\ ~ meet (on_plane p) (in_segment a b).
Proof.
  exists (Plane (V3 0 0 1) 0), (V3 0 0 1), (V3 0 0 2). split; [unfold is_unit; rewrite inner_eq; cbn; lra|]. split.
  - unfold plane_segment. apply leb_true. unfold signed_distance, dot3. cbn. lra.
  - intros (x & O & t & T & ->). unfold on_plane in O. rewrite inner_eq in O. cbn in O. lra.
Qed.
(** What it does say: [false] exactly when the segment crosses the plane and neither end is on it. So a segment with no end on the
    plane always gets the wrong answer. *)
Theorem C62_plane_segment_partial : forall p a b,
  (plane_segment p a b = false <-> (~ on_plane p a /\ ~ on_plane p b /\ meet (on_plane p) (in_segment a b))) /\
  (~ on_plane p a -> ~ on_plane p b -> (plane_segment p a b = true <-> ~ meet (on_plane p) (in_segment a b))).
Proof.
  intros p a b. assert (H := segment_test p a b). split; [assumption|]. intros A B. destruct (plane_segment p a b) eqn:E.
  - split; [|reflexivity]. intros _ M. assert (K : true = false) by (apply H; auto). discriminate.
  - split; [discriminate|]. intros N. exfalso. apply N, H. reflexivity.
Qed.
Print Assumptions C62_plane_segment_refuted.
Print Assumptions C62_plane_segment_partial.
Example C62_ex : plane_segment slope (V3 0 0 0) (V3 20 0 0) = false /\ meet (on_plane slope) (in_segment (V3 0 0 0) (V3 20 0 0)).
Proof.
  assert (F : plane_segment slope (V3 0 0 0) (V3 20 0 0) = false) by (unfold plane_segment; apply leb_false; unfold signed_distance, dot3; cbn; lra).
  split; [exact F|]. apply C62_plane_segment_partial in F. tauto.
Qed.

(* ------------------------------------------------------------------ C63 *)
Theorem C63_contains : forall b, proper b ->
  (forall x, box_contains b x = true <-> in_box b x) /\
  (forall s e, box_contains_segment b s e = true <-> subset (in_segment s e) (in_box b)) /\
  (forall p0 p1 p2, box_contains_triangle b p0 p1 p2 = true <-> subset (in_triangle p0 p1 p2) (in_box b)) /\
  (forall c, proper c -> box_contains_box b c = true <-> subset (in_box c) (in_box b)) /\
  (forall s, 0 <= radius s -> box_contains_sphere b (scenter s) (radius s) = true <-> subset (in_ball s) (in_box b)) /\
  (forall o, proper_obb o -> box_contains_obb b o = true <-> subset (in_obb o) (in_box b)).
Proof.
  intros b P. split; [apply box_contains_spec|]. split; [apply box_contains_segment_spec|]. split; [apply box_contains_triangle_spec|].
  split; [intros; apply box_contains_box_spec; assumption|]. split; [intros; apply box_contains_sphere_spec; assumption|]. intros o (P1 & P2 & P3 & _). apply box_contains_obb_spec; assumption.
Qed.
Theorem C63_intersects : forall b, proper b ->
  (forall c, proper c -> box_box b c = true <-> meet (in_box b) (in_box c)) /\
  (forall s, box_sphere b (scenter s) (radius s) = true <-> meet (in_box b) (in_ball s)) /\
  (forall p, box_plane b p = true <-> meet (in_box b) (on_plane p)) /\
  (forall s e, box_segment b s e = true <-> meet (in_segment s e) (in_box b)).
Proof.
  intros b P. split; [intros; apply box_box_spec; assumption|]. split; [intros; apply box_sphere_spec; assumption|]. split; [intros; apply box_plane_spec; assumption|intros; apply box_segment_spec; assumption].
Qed.
Theorem C63_closest_point : forall b x, proper b -> nearest (in_box b) x (box_closest b x).
Proof. exact box_closest_spec. Qed.
Print Assumptions C63_contains.
Print Assumptions C63_intersects.
Print Assumptions C63_closest_point.
Definition brick := Box (V3 1 1 1) (V3 1 2 3).
(** A segment that passes an edge of the box without touching it, though its own box overlaps it; one that just touches the edge. *)
Example C63_ex : proper brick /\ box_segment brick (V3 3 (5 / 2) 1) (V3 1 (9 / 2) 1) = false /\ box_segment brick (V3 3 2 1) (V3 1 4 1) = true.
Proof.
  assert (P : proper brick) by (unfold proper, brick; cbn; lra). split; [assumption|]. split.
  - destruct (box_segment _ _ _) eqn:E; [|reflexivity]. exfalso. apply box_segment_spec in E; [|assumption]. destruct E as (x & (t & T & ->) & (B1 & B2 & _)). cbn in B1, B2. lra.
  - apply box_segment_spec; [assumption|]. exists (V3 2 3 1). split; [exists (1 / 2); split; [lra|apply v3_eq; cbn; lra]|unfold in_box, brick; cbn; lra].
Qed.

(* ------------------------------------------------------------------ C64 *)
Theorem C64_from_points : forall l, l <> [] ->
  proper (from_points l) /\ (forall x, In x l -> in_box (from_points l) x) /\ forall b, (forall x, In x l -> in_box b x) -> subset (in_box (from_points l)) (in_box b).
Proof. exact from_points_spec. Qed.
Theorem C64_append : forall b, proper b ->
  (forall l, proper (append_points b l) /\ subset (in_box b) (in_box (append_points b l)) /\ (forall x, In x l -> in_box (append_points b l) x) /\
     forall c, subset (in_box b) (in_box c) -> (forall x, In x l -> in_box c x) -> subset (in_box (append_points b l)) (in_box c)) /\
  (forall c, proper c -> proper (append_box b c) /\ subset (in_box b) (in_box (append_box b c)) /\ subset (in_box c) (in_box (append_box b c)) /\
     forall d, subset (in_box b) (in_box d) -> subset (in_box c) (in_box d) -> subset (in_box (append_box b c)) (in_box d)).
Proof. intros b P. split; [intros; apply append_points_spec, P|intros; apply append_box_spec; assumption]. Qed.
(** The transformed box is the least one that contains the images of all points. *)
Theorem C64_transform : forall b m, proper b -> affine m ->
  proper (box_transform b m) /\ (forall x, in_box b x -> in_box (box_transform b m) (image m x)) /\
  forall c, (forall x, in_box b x -> in_box c (image m x)) -> subset (in_box (box_transform b m)) (in_box c).
Proof. intros b m P _. apply box_transform_spec, P. Qed.
(** So are the boxes of an oriented box and of a sphere. *)
Theorem C64_from_others :
  (forall o, proper_obb o -> subset (in_obb o) (in_box (from_obb o)) /\ forall b, subset (in_obb o) (in_box b) -> subset (in_box (from_obb o)) (in_box b)) /\
  (forall s, 0 <= radius s -> subset (in_ball s) (in_box (from_sphere s)) /\ forall b, subset (in_ball s) (in_box b) -> subset (in_box (from_sphere s)) (in_box b)).
Proof. split; [intros o (P1 & P2 & P3 & _); apply from_obb_spec; assumption|apply from_sphere_spec]. Qed.
Print Assumptions C64_from_points.
Print Assumptions C64_append.
Print Assumptions C64_transform.
Print Assumptions C64_from_others.
Example C64_ex : let l := [V3 0 0 0; V3 2 (-4) 6; V3 (-2) 1 3] in l <> [] /\ from_points l = Box (V3 0 (-3 / 2) 3) (V3 2 (5 / 2) 3).
Proof.
  split; [discriminate|]. cbn. unfold box_from_min_max. cbn.
  f_equal; apply v3_eq; cbn; unfold minR, maxR, ltb; repeat (destruct (Rlt_dec _ _); try (exfalso; lra)); lra.
Qed.
