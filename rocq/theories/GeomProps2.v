(** C65-C68 and C85-C88: rays, separating axes, triangles, segments, spheres, oriented boxes. *)
From Coq Require Import Reals Lra Psatz List Bool.
From Verif Require Import Words MatModel VecModel VecSpec QuatModel XformSpec QuatProofs QuatProofs2 GeomModel GeomSpec GeomProofs GeomProofs2 GeomProofs3 GeomProofs4 GeomProofs5.
Import ListNotations.
Local Open Scope R_scope.

(* ------------------------------------------------------------------ C65 *)
(** The full statement is, for every ray and shape: a result t has t >= 0 and o + t d on the shape, and no result means that no
    point o + t d with t >= 0 is on it. It fails in these corners; the theorems below show that nothing else goes wrong. *)

(** Planes: the one miss is a ray that lies in the plane. *)
Theorem C65_plane_partial : forall o d p nz,
  match hits_plane o d p nz with
  | Some r => exists t, r = Fin t /\ 0 <= t /\ on_plane p (reach o d t) /\ forall u, on_plane p (reach o d u) -> u = t
  | None => (forall t, 0 <= t -> ~ on_plane p (reach o d t)) \/ (forall t, on_plane p (reach o d t))
  end.
Proof. exact hits_plane_spec. Qed.
Theorem C65_plane_refuted : exists o d p nz, is_unit d /\ is_unit (normal p) /\ hits_plane o d p nz = None /\ on_plane p o.
Proof.
  exists origin, (V3 1 0 0), (Plane (V3 0 0 1) 0), false. split; [unfold is_unit; rewrite inner_eq; cbn; lra|]. split; [unfold is_unit; rewrite inner_eq; cbn; lra|]. split.
  - assert (H := hits_plane_spec origin (V3 1 0 0) (Plane (V3 0 0 1) 0) false). destruct (hits_plane _ _ _ _); [|reflexivity]. exfalso. destruct H as (t & _ & _ & _ & K).
    assert (On : forall u, on_plane (Plane (V3 0 0 1) 0) (reach origin (V3 1 0 0) u)) by (intros u; unfold on_plane; rewrite inner_eq; cbn; lra).
    assert (K1 := K 1 (On 1)). assert (K2 := K 2 (On 2)). lra.
  - unfold on_plane. rewrite inner_eq. cbn. lra.
Qed.
(** Triangles: rays too nearly parallel to the triangle are dropped, and the distance may be negative. *)
Theorem C65_triangle_partial : forall o d p0 p1 p2 eps, 0 < eps ->
  match hits_triangle o d p0 p1 p2 eps with
  | Some t => in_triangle p0 p1 p2 (reach o d t) /\ forall u, in_triangle p0 p1 p2 (reach o d u) -> u = t
  | None => Rabs (det_of d p0 p1 p2) < eps \/ forall t, ~ in_triangle p0 p1 p2 (reach o d t)
  end.
Proof. exact hits_triangle_spec. Qed.
Theorem C65_triangle_refuted : forall eps, 0 < eps <= 1 -> exists o d p0 p1 p2 t, is_unit d /\ proper_triangle p0 p1 p2 /\ hits_triangle o d p0 p1 p2 eps = Some t /\ t < 0 /\
  forall u, 0 <= u -> ~ in_triangle p0 p1 p2 (reach o d u).
Proof.
  intros eps E. exists (V3 0 0 1), (V3 0 0 1), origin, (V3 1 0 0), (V3 0 1 0).
  assert (H := hits_triangle_spec (V3 0 0 1) (V3 0 0 1) origin (V3 1 0 0) (V3 0 1 0) eps ltac:(lra)).
  assert (In : in_triangle origin (V3 1 0 0) (V3 0 1 0) (reach (V3 0 0 1) (V3 0 0 1) (-1))) by (exists 1, 0, 0; repeat (split; [lra|]); apply v3_eq; cbn; lra).
  assert (De : det_of (V3 0 0 1) origin (V3 1 0 0) (V3 0 1 0) = -1) by (unfold det_of; rewrite inner_eq; cbn; lra).
  destruct (hits_triangle _ _ _ _ _ _) as [t|].
  - exists t. destruct H as [_ U]. assert (Et := U _ In). subst t. split; [unfold is_unit; rewrite inner_eq; cbn; lra|].
    split; [apply proper_cross; unfold cross, sub3, origin; cbn; intro G; injection G as _ _ G; lra|]. split; [reflexivity|]. split; [lra|].
    intros u Hu (a & b & c & _ & _ & _ & _ & G). assert (Gz := f_equal vz G). cbn in Gz. lra.
  - exfalso. destruct H as [H|H]; [rewrite De in H; rewrite Rabs_left in H; lra|exact (H _ In)].
Qed.
(** Spheres: missed when the origin is in the ball and the ray points away from the centre, and when the chord is shorter than the tolerance. *)
Theorem C65_sphere_partial : forall o d s eps, is_unit d -> 0 <= eps -> 0 <= radius s ->
  match hits_sphere o d s eps with
  | Some t => 0 <= t /\ on_sphere s (reach o d t) /\ forall u, 0 <= u -> on_sphere s (reach o d u) -> t <= u
  | None => (inner3 (sub3 (scenter s) o) d < 0 /\ in_ball s o) \/ half_chord2 o d s < eps \/ forall t, 0 <= t -> ~ on_sphere s (reach o d t)
  end.
Proof. intros o d s eps U. exact (hits_sphere_spec o d s U eps). Qed.
Theorem C65_sphere_refuted : forall eps, exists o d s t, is_unit d /\ 0 < radius s /\ hits_sphere o d s eps = None /\ 0 <= t /\ on_sphere s (reach o d t).
Proof.
  intros eps. exists (V3 1 0 0), (V3 1 0 0), (Sphere origin 2), 1. split; [unfold is_unit; rewrite inner_eq; cbn; lra|]. split; [cbn; lra|]. split; [|split; [lra|unfold on_sphere, dist2; cbn; lra]].
  unfold hits_sphere. destruct (ltb _ 0) eqn:L; [reflexivity|]. exfalso. booleans. unfold dot3 in L. cbn in L. lra.
Qed.
(** Boxes: exact for rays that do not lie in the plane of a face. With the origin outside the result is where the ray enters,
    with the origin inside it is a point where the ray leaves. *)
Theorem C65_box_partial : forall o d b nx ny nz, proper b -> d <> origin -> clear_of_planes o d b ->
  match hits_box o d b nx ny nz with
  | Some r => exists t, r = Fin t /\ 0 <= t /\ on_surface b (reach o d t) /\
      ((~ in_box b o -> forall u, 0 <= u -> in_box b (reach o d u) -> t <= u) /\ (forall u, 0 <= u < t -> on_surface b (reach o d u) -> in_box b o))
  | None => forall t, 0 <= t -> ~ in_box b (reach o d t)
  end.
Proof. exact hits_box_spec. Qed.
(** In the plane of a face the division 0/0 decides: a ray along a face of a box is said to miss it. *)
Theorem C65_box_refuted : exists o d b, proper b /\ is_unit d /\ in_box b o /\ forall nx, hits_box o d b nx false false = None.
Proof.
  exists (V3 0 0 1), (V3 1 0 0), (Box origin (V3 1 1 1)). split; [unfold proper; cbn; lra|]. split; [unfold is_unit; rewrite inner_eq; cbn; lra|]. split; [unfold in_box; cbn; lra|].
  intros nx. unfold hits_box, hits_min_max, xdiv. cbn [vx vy vz sub3 add3 center extents origin].
  destruct (Req_EM_T 1 0) as [?|_]; [lra|]. destruct (Req_EM_T 0 0) as [_|N]; [|lra].
  destruct (Req_EM_T (0 - 1 - 0) 0) as [?|_]; [lra|]. destruct (Req_EM_T (0 + 1 - 0) 0) as [?|_]; [lra|]. destruct (Req_EM_T (0 - 1 - 1) 0) as [?|_]; [lra|]. destruct (Req_EM_T (0 + 1 - 1) 0) as [_|N]; [|lra].
  assert (L1 : ltb (0 - 1 - 0) 0 = true) by (apply ltb_true; lra). assert (L2 : ltb (0 + 1 - 0) 0 = false) by (apply ltb_false; lra). assert (L3 : ltb (0 - 1 - 1) 0 = true) by (apply ltb_true; lra). rewrite L1, L2, L3. cbn.
  assert (L4 : ltb ((0 - 1 - 0) / 1) ((0 + 1 - 0) / 1) = true) by (apply ltb_true; lra). unfold xmin, xmax. cbn. rewrite L4. cbn. 
  assert (L5 : ltb ((0 + 1 - 0) / 1) 0 = false) by (apply ltb_false; lra). try rewrite L5; cbn; reflexivity.
Qed.
Print Assumptions C65_plane_partial.
Print Assumptions C65_plane_refuted.
Print Assumptions C65_triangle_partial.
Print Assumptions C65_triangle_refuted.
Print Assumptions C65_sphere_partial.
Print Assumptions C65_sphere_refuted.
Print Assumptions C65_box_partial.
Print Assumptions C65_box_refuted.
Definition ray_d := V3 (3 / 5) (4 / 5) 0.
Example C65_ex : is_unit ray_d /\ hits_sphere origin ray_d (Sphere (V3 6 8 0) 3) (1 / 1000) = Some 7 /\ clear_of_planes origin ray_d (Box (V3 6 8 0) (V3 2 2 1)).
Proof.
  assert (U : is_unit ray_d) by (unfold is_unit; rewrite inner_eq; cbn; lra). split; [assumption|]. split.
  - assert (H := hits_sphere_spec origin ray_d (Sphere (V3 6 8 0) 3) U (1 / 1000) ltac:(lra) ltac:(cbn; lra)).
    assert (On : forall u, u = 7 \/ u = 13 -> on_sphere (Sphere (V3 6 8 0) 3) (reach origin ray_d u)) by (intros u [->| ->]; unfold on_sphere, dist2; cbn; lra).
    destruct (hits_sphere _ _ _ _) as [t|].
    + f_equal. destruct H as (T & O & M). assert (M7 := M 7 ltac:(lra) (On 7 ltac:(auto))). unfold on_sphere, dist2 in O. cbn in O.
      assert (G : (t - 7) * (t - 13) = 0) by lra. apply Rmult_integral in G. destruct G; lra.
    + exfalso. destruct H as [[H _]|[H|H]]; [rewrite inner_eq in H; cbn in H; lra|unfold half_chord2, dist2 in H; rewrite inner_eq in H; cbn in H; lra|].
      exact (H 7 ltac:(lra) (On 7 ltac:(auto))).
  - unfold clear_of_planes, clear_of. cbn. repeat split; lra.
Qed.

(* ------------------------------------------------------------------ C66 *)
(** Two boxes, aligned or not, that share a point are never reported apart. *)
Theorem C66_boxes : (forall b c, proper b -> proper c -> meet (in_box b) (in_box c) -> box_box b c = true) /\
  (forall b o, meet (in_box b) (in_obb o) -> box_obb b o = true) /\ (forall o1 o2, meet (in_obb o1) (in_obb o2) -> obb_obb o1 o2 = true).
Proof. split; [intros b c P Q H; apply box_box_spec; assumption|]. split; [exact box_obb_complete|exact obb_obb_complete]. Qed.
(** Nor are a box and a triangle with three points not on one line; the full statement has all triangles. *)
Theorem C66_triangle_partial : forall p0 p1 p2, proper_triangle p0 p1 p2 ->
  (forall b, meet (in_box b) (in_triangle p0 p1 p2) -> box_tri b p0 p1 p2 = true) /\ (forall o, proper_obb o -> meet (in_obb o) (in_triangle p0 p1 p2) -> obb_tri o p0 p1 p2 = true).
Proof. intros p0 p1 p2 P. split; [intros b; apply box_tri_complete, P|intros o O; apply obb_tri_complete; assumption]. Qed.
(** A triangle whose points are on one line is never found, wherever it is. *)
Theorem C66_triangle_refuted : (forall b p0 p1 p2, ~ proper_triangle p0 p1 p2 -> box_tri b p0 p1 p2 = false) /\
  exists b p0 p1 p2, proper b /\ subset (in_triangle p0 p1 p2) (in_box b) /\ box_tri b p0 p1 p2 = false.
Proof.
  split; [exact box_tri_degenerate|]. exists (Box origin (V3 5 5 5)), origin, (V3 1 0 0), (V3 2 0 0). split; [unfold proper; cbn; lra|]. split.
  - apply box_contains_triangle_spec. unfold box_contains_triangle. rewrite !andb_true_iff, !box_contains_spec. unfold in_box. cbn. lra.
  - apply box_tri_degenerate. intro H. apply H. exists origin, (V3 1 0 0). split; [exists 0|split; [exists 1|exists 2]]; apply v3_eq; cbn; lra.
Qed.
(** The converse fails for oriented boxes: the directions at right angles to two edges are not tried, so two crossed rods can be
    reported as intersecting. *)
Definition rod1 := Obb origin (V3 5 (1 / 10) (1 / 10)) (V3 1 0 0) (V3 0 1 0) (V3 0 0 1).
Definition rod2 := Obb (V3 0 (- 1 / 2) (1 / 4)) (V3 5 (1 / 10) (1 / 10)) (V3 (2 / 3) (1 / 3) (2 / 3)) (V3 (- 2 / 3) (2 / 3) (1 / 3)) (V3 (1 / 3) (2 / 3) (- 2 / 3)).
Theorem C66_oriented_not_exact : exists o1 o2, proper_obb o1 /\ proper_obb o2 /\ obb_obb o1 o2 = true /\ ~ meet (in_obb o1) (in_obb o2).
Proof.
  exists rod1, rod2. split; [unfold proper_obb, orthonormal; rewrite !inner_eq; cbn; lra|]. split; [unfold proper_obb, orthonormal; rewrite !inner_eq; cbn; lra|]. split.
  - assert (P1 : forall r, -5 <= r <= 5 -> in_obb rod1 (V3 r 0 0)) by (intros r R; exists r, 0, 0; cbn; repeat (split; [lra|]); apply v3_eq; cbn; lra).
    assert (P2 : forall r, -5 <= r <= 5 -> in_obb rod2 (V3 (2 / 3 * r) (- 1 / 2 + 1 / 3 * r) (1 / 4 + 2 / 3 * r))) by (intros r R; exists r, 0, 0; cbn; repeat (split; [lra|]); apply v3_eq; cbn; lra).
    assert (K : forall ax r s, -5 <= r <= 5 -> -5 <= s <= 5 -> dot3 ax (V3 r 0 0) = dot3 ax (V3 (2 / 3 * s) (- 1 / 2 + 1 / 3 * s) (1 / 4 + 2 / 3 * s)) -> sat_meets (sat_corners ax (obb_corner rod1)) (sat_corners ax (obb_corner rod2)) = true).
    { intros ax r s R S E. apply meets_common with (dot3 ax (V3 r 0 0)); [apply sat_obb, P1, R|rewrite E; apply sat_obb, P2, S]. }
    unfold obb_obb. cbn [forallb]. rewrite !andb_true_iff. unfold rod1, rod2 in K. cbn in K. repeat split.
    + apply (K _ 0 0); try lra. unfold dot3. cbn. lra.
    + apply (K _ 0 (3 / 2)); try lra. unfold dot3. cbn. lra.
    + apply (K _ 0 (- 3 / 8)); try lra. unfold dot3. cbn. lra.
    + apply (K _ 0 0); try lra. unfold dot3. cbn. lra.
    + apply (K _ (3 / 8) 0); try lra. unfold dot3. cbn. lra.
    + apply (K _ (- 3 / 2) 0); try lra. unfold dot3. cbn. lra.
  - intros (x & (r & s & t & A & B & C & E) & (r' & s' & t' & A' & B' & C' & E')). rewrite E in E'. cbn in *. injection E' as E1 E2 E3. lra.
Qed.
Print Assumptions C66_boxes.
Print Assumptions C66_triangle_partial.
Print Assumptions C66_triangle_refuted.
Print Assumptions C66_oriented_not_exact.
Example C66_ex : meet (in_box (Box origin (V3 1 1 1))) (in_obb rod2) /\ proper_triangle origin (V3 1 0 0) (V3 0 1 0).
Proof.
  split.
  - exists (V3 0 (- 1 / 2) (1 / 4)). split; [unfold in_box; cbn; lra|]. exists 0, 0, 0. cbn. repeat (split; [lra|]). apply v3_eq; cbn; lra.
  - apply proper_cross. unfold cross, sub3, origin. cbn. intro G. injection G as _ _ G. lra.
Qed.

(* ------------------------------------------------------------------ C67 *)
Theorem C67_barycentric : forall p0 p1 p2 x, proper_triangle p0 p1 p2 -> in_affine_hull p0 p1 p2 x ->
  let c := barycentric p0 p1 p2 x in vx c + vy c + vz c = 1 /\ x = mix p0 p1 p2 (vx c) (vy c) (vz c).
Proof. exact barycentric_spec. Qed.
(** The full statement is [contains_coplanar_point p0 p1 p2 x = true <-> in_triangle p0 p1 p2 x] for every point of the plane. It holds
    except on the line through p1 and p2, every point of which is taken to be in the triangle. *)
Theorem C67_contains_partial : forall p0 p1 p2 x, proper_triangle p0 p1 p2 -> in_affine_hull p0 p1 p2 x ->
  (contains_coplanar_point p0 p1 p2 x = true <-> in_triangle p0 p1 p2 x \/ vx (barycentric p0 p1 p2 x) = 0).
Proof.
  intros p0 p1 p2 x P (a & b & c & S & ->). rewrite contains_coplanar_spec, barycentric_mix by assumption. cbn [vx]. split.
  - intros [A B]. destruct (Req_EM_T a 0) as [Z|Z]; [right; assumption|left].
    assert (0 < a) by (destruct (Rlt_dec 0 a); [assumption|]; assert (a < 0) by lra; assert (b <= 0) by nra; assert (c <= 0) by nra; lra).
    exists a, b, c. repeat split; try assumption; nra.
  - intros [(a' & b' & c' & A & B & C & S' & E)| ->]; [|lra]. assert (G := f_equal (barycentric p0 p1 p2) E). rewrite !barycentric_mix in G by assumption. injection G as -> -> ->. split; apply Rmult_le_pos; assumption.
Qed.
Theorem C67_contains_refuted : exists p0 p1 p2 x, proper_triangle p0 p1 p2 /\ in_affine_hull p0 p1 p2 x /\ contains_coplanar_point p0 p1 p2 x = true /\ ~ in_triangle p0 p1 p2 x.
Proof.
  exists origin, (V3 1 0 0), (V3 0 1 0), (V3 5 (-4) 0).
  assert (P : proper_triangle origin (V3 1 0 0) (V3 0 1 0)) by apply C66_ex. assert (E : V3 5 (-4) 0 = mix origin (V3 1 0 0) (V3 0 1 0) 0 5 (-4)) by (apply v3_eq; cbn; lra).
  split; [assumption|]. split; [exists 0, 5, (-4); split; [lra|assumption]|]. split.
  - rewrite E. apply contains_coplanar_spec; [assumption|lra|lra].
  - intros (a & b & c & A & B & C & S & G). assert (Gy := f_equal vy G). cbn in Gy. lra.
Qed.
(** coplanar(): the point is nearer than the tolerance to the plane of the triangle. *)
Theorem C67_coplanar : forall p0 p1 p2 x eps, proper_triangle p0 p1 p2 ->
  coplanar p0 p1 p2 x eps = true <-> exists q, nearest (in_affine_hull p0 p1 p2) x q /\ 0 < eps /\ dist2 q x < eps * eps.
Proof. exact coplanar_spec. Qed.
Print Assumptions C67_barycentric.
Print Assumptions C67_contains_partial.
Print Assumptions C67_contains_refuted.
Print Assumptions C67_coplanar.
Example C67_ex : in_affine_hull origin (V3 1 0 0) (V3 0 1 0) (V3 (1 / 4) (1 / 4) 0) /\ barycentric origin (V3 1 0 0) (V3 0 1 0) (V3 (1 / 4) (1 / 4) 0) = V3 (1 / 2) (1 / 4) (1 / 4).
Proof.
  assert (E : V3 (1 / 4) (1 / 4) 0 = mix origin (V3 1 0 0) (V3 0 1 0) (1 / 2) (1 / 4) (1 / 4)) by (apply v3_eq; cbn; lra).
  split; [exists (1 / 2), (1 / 4), (1 / 4); split; [lra|assumption]|]. rewrite E. apply barycentric_mix; [apply C66_ex|lra].
Qed.

(* ------------------------------------------------------------------ C68 *)
(** The full statement has all segments; when both ends are equal the result is NaN. *)
Theorem C68_closest_point_partial : forall a b x, a <> b -> exists q, segment_closest a b x = Some q /\ nearest (in_segment a b) x q.
Proof. exact segment_closest_spec. Qed.
Theorem C68_closest_point_refuted : forall a x, segment_closest a a x = None /\ nearest (in_segment a a) x a.
Proof.
  intros a x. split; [apply segment_closest_degenerate|]. split; [apply seg_ends|]. intros y (t & _ & ->). right. f_equal. apply v3_eq; cbn; ring.
Qed.
(** A line has no such case. *)
Theorem C68_line : forall o d x, is_unit d -> nearest (in_line o d) x (line_project o d x).
Proof. exact line_project_spec. Qed.
Print Assumptions C68_closest_point_partial.
Print Assumptions C68_closest_point_refuted.
Print Assumptions C68_line.
Example C68_ex : segment_closest origin (V3 4 0 0) (V3 1 2 0) = Some (V3 1 0 0).
Proof.
  destruct (segment_closest_spec origin (V3 4 0 0) (V3 1 2 0)) as (q & -> & (t & T & ->) & N); [unfold origin; intro G; injection G as G; lra|]. f_equal.
  assert (I : in_segment origin (V3 4 0 0) (V3 1 0 0)) by (exists (1 / 4); split; [lra|apply v3_eq; cbn; lra]).
  assert (M := N _ I). unfold dist2 in M. cbn in M. assert (G : 4 * t - 1 = 0) by nra. apply v3_eq; cbn; lra.
Qed.

(* ------------------------------------------------------------------ C85 *)
Theorem C85_contains : forall s,
  (forall x, sphere_contains s x = true <-> in_ball s x) /\
  (forall a b, sphere_contains_segment s a b = true <-> subset (in_segment a b) (in_ball s)) /\
  (forall p0 p1 p2, sphere_contains_triangle s p0 p1 p2 = true <-> subset (in_triangle p0 p1 p2) (in_ball s)) /\
  (forall b, proper b -> sphere_contains_box s b = true <-> subset (in_box b) (in_ball s)).
Proof.
  intros s. split; [apply sphere_contains_spec|]. split; [apply sphere_contains_segment_spec|]. split; [apply sphere_contains_triangle_spec|]. intros b P. apply sphere_contains_box_spec, P.
Qed.
(** Triangle and sphere: exact for three points not on one line. *)
Theorem C85_triangle : forall s p0 p1 p2, proper_triangle p0 p1 p2 -> sphere_tri s p0 p1 p2 = true <-> meet (in_triangle p0 p1 p2) (in_ball s).
Proof. exact sphere_tri_spec. Qed.
(** The full statements are [sphere_sphere s1 s2 = true <-> meet (in_ball s1) (in_ball s2)], [sphere_contains_sphere o i = true <->
    subset (in_ball i) (in_ball o)] and [nearest (in_ball s) x (sphere_closest s x)]. *)
Theorem C85_spheres_partial : (forall s1 s2, 0 <= radius s1 -> 0 <= radius s2 -> sphere_sphere s1 s2 = true -> meet (in_ball s1) (in_ball s2)) /\
  (forall o i, subset (in_ball i) (in_ball o) -> sphere_contains_sphere o i = true).
Proof. split; [exact sphere_sphere_sound|exact sphere_contains_sphere_complete]. Qed.
(** It adds squares of radii where it should square the sum. *)
Theorem C85_spheres_refuted : (exists s1 s2, 0 < radius s1 /\ 0 < radius s2 /\ sphere_sphere s1 s2 = false /\ meet (in_ball s1) (in_ball s2)) /\
  (exists o i, 0 < radius o /\ 0 < radius i /\ sphere_contains_sphere o i = true /\ ~ subset (in_ball i) (in_ball o)).
Proof.
  split.
  - exists (Sphere origin 1), (Sphere (V3 (3 / 2) 0 0) 1). split; [cbn; lra|]. split; [cbn; lra|]. split.
    + unfold sphere_sphere. apply leb_false. rewrite ds_dist2. unfold dist2. cbn. lra.
    + exists (V3 (3 / 4) 0 0). split; unfold in_ball, dist2; cbn; lra.
  - exists (Sphere origin 5), (Sphere (V3 4 0 0) 3). split; [cbn; lra|]. split; [cbn; lra|]. split.
    + unfold sphere_contains_sphere. cbn [scenter radius]. rewrite ds_dist2. unfold dist2. cbn. destruct (ltb _ _) eqn:L; booleans; [lra|]. apply leb_true. lra.
    + intros H. assert (G := H (V3 7 0 0)). unfold in_ball, dist2 in G. cbn in G. assert (K := G ltac:(lra)). lra.
Qed.
(** Inside the ball closest_point() is right; outside it gives the offset of the nearest point from the centre instead of the point. *)
Theorem C85_closest_point_partial : forall s x, 0 <= radius s ->
  (in_ball s x -> nearest (in_ball s) x (sphere_closest s x)) /\
  (~ in_ball s x -> nearest (in_ball s) x (add3 (scenter s) (sphere_closest s x))) /\ (scenter s = origin -> nearest (in_ball s) x (sphere_closest s x)).
Proof.
  intros s x R. assert (A : in_ball s x -> nearest (in_ball s) x (sphere_closest s x)) by (intros I; destruct (sphere_closest_in s x I) as [-> N]; exact N).
  split; [exact A|]. split; [apply sphere_closest_out, R|]. intros Z. destruct (Rle_dec (dist2 x (scenter s)) (radius s * radius s)) as [I|I]; [apply A, I|].
  assert (N := sphere_closest_out s x R I). rewrite Z in N. replace (add3 origin (sphere_closest s x)) with (sphere_closest s x) in N by (apply v3_eq; cbn; ring). exact N.
Qed.
Theorem C85_closest_point_refuted : exists s x, 0 < radius s /\ ~ in_ball s (sphere_closest s x).
Proof.
  exists (Sphere (V3 10 0 0) 1), (V3 20 0 0). split; [cbn; lra|]. intros H.
  assert (E : nearest (in_ball (Sphere (V3 10 0 0) 1)) (V3 20 0 0) (add3 (V3 10 0 0) (sphere_closest (Sphere (V3 10 0 0) 1) (V3 20 0 0)))) by (apply sphere_closest_out; [cbn; lra|unfold in_ball, dist2; cbn; lra]).
  set (q := sphere_closest _ _) in *. clearbody q. destruct E as [E _]. unfold in_ball, dist2 in *. cbn in *.
  assert (S1 := sqr_pos (vx q)). assert (S2 := sqr_pos (vy q)). assert (S3 := sqr_pos (vz q)). assert (vx q <= 1) by nra. nra.
Qed.
Print Assumptions C85_contains.
Print Assumptions C85_triangle.
Print Assumptions C85_spheres_partial.
Print Assumptions C85_spheres_refuted.
Print Assumptions C85_closest_point_partial.
Print Assumptions C85_closest_point_refuted.
(** A triangle near a sphere that only its edge, not its corners, comes close to. *)
Example C85_ex : sphere_tri (Sphere (V3 0 0 0) 1) (V3 (-3) 1 0) (V3 3 1 0) (V3 0 5 1) = true /\ sphere_tri (Sphere (V3 0 0 0) 1) (V3 (-3) 2 0) (V3 3 2 0) (V3 0 5 1) = false.
Proof.
  split.
  - apply sphere_tri_spec; [apply proper_cross; unfold cross, sub3, origin; cbn; intro G; injection G as _ G _; lra|].
    exists (V3 0 1 0). split; [exists (1 / 2), (1 / 2), 0; repeat (split; [lra|]); apply v3_eq; cbn; lra|unfold in_ball, dist2; cbn; lra].
  - destruct (sphere_tri _ _ _ _) eqn:E; [|reflexivity]. exfalso. apply sphere_tri_spec in E; [|apply proper_cross; unfold cross, sub3, origin; cbn; intro G; injection G as _ G _; lra].
    destruct E as (x & (a & b & c & A & B & C & S & ->) & I). unfold in_ball, dist2 in I. cbn in I.
    set (y := a * 2 + b * 2 + c * 5) in I. assert (2 <= y) by (unfold y; lra). assert (S1 := sqr_pos (a * -3 + b * 3 + c * 0 - 0)). assert (S3 := sqr_pos (a * 0 + b * 0 + c * 1 - 0)). nra.
Qed.

(* ------------------------------------------------------------------ C86 *)
Theorem C86_oriented : forall o, proper_obb o ->
  (forall x, obb_contains o x = true <-> in_obb o x) /\ (forall x, nearest (in_obb o) x (obb_closest o x)) /\
  (forall s, obb_sphere o (scenter s) (radius s) = true <-> meet (in_obb o) (in_ball s)).
Proof. intros o P. split; [apply obb_contains_spec, P|]. split; [apply obb_closest_spec, P|apply obb_sphere_spec, P]. Qed.
Print Assumptions C86_oriented.
Example C86_ex : proper_obb rod2 /\ obb_contains rod2 (V3 2 (1 / 2) (9 / 4)) = true /\ obb_contains rod2 origin = false.
Proof.
  assert (P : proper_obb rod2) by (unfold proper_obb, orthonormal; rewrite !inner_eq; cbn; lra). split; [assumption|]. split.
  - apply obb_contains_spec; [assumption|]. exists 3, 0, 0. cbn. repeat (split; [lra|]). apply v3_eq; cbn; lra.
  - destruct (obb_contains rod2 origin) eqn:E; [|reflexivity]. exfalso. apply obb_contains_spec in E; [|assumption]. destruct E as (r & s & t & A & B & C & E). cbn in *. injection E as E1 E2 E3. lra.
Qed.

(* ------------------------------------------------------------------ C87 *)
(** area() by Heron's formula is half the length of the cross product; it is zero exactly when the points are on one line. *)
Theorem C87_area : forall p0 p1 p2, area p0 p1 p2 = length3 (cross (sub3 p1 p0) (sub3 p2 p0)) / 2 /\ (area p0 p1 p2 = 0 <-> ~ proper_triangle p0 p1 p2).
Proof. intros. split; [apply heron|apply area_zero]. Qed.
Theorem C87_normal : forall p0 p1 p2,
  (proper_triangle p0 p1 p2 -> exists n, tri_normal p0 p1 p2 = Some n /\ is_unit n /\ inner3 n (sub3 p1 p0) = 0 /\ inner3 n (sub3 p2 p0) = 0 /\ exists l, 0 < l /\ cross (sub3 p1 p0) (sub3 p2 p0) = scale3 n l) /\
  (tri_normal p0 p1 p2 = None <-> ~ proper_triangle p0 p1 p2).
Proof. intros. split; [apply tri_normal_spec|apply tri_normal_none]. Qed.
(** The centroid is in the triangle and balances the corners. *)
Theorem C87_centroid : forall p0 p1 p2, let g := centroid p0 p1 p2 in in_triangle p0 p1 p2 g /\ add3 (add3 (sub3 p0 g) (sub3 p1 g)) (sub3 p2 g) = origin.
Proof. intros. split; [exists (/ 3), (/ 3), (/ 3); repeat (split; [lra|]); apply v3_eq; cbn; lra|apply v3_eq; cbn; lra]. Qed.
(** degenerate() only looks for equal corners; the full statement is [tri_degenerate p0 p1 p2 = true <-> ~ proper_triangle p0 p1 p2]. *)
Theorem C87_degenerate_partial : forall p0 p1 p2, tri_degenerate p0 p1 p2 = true -> ~ proper_triangle p0 p1 p2.
Proof. intros p0 p1 p2 H P. apply degenerate_spec in H. destruct (proper_distinct _ _ _ P) as (A & B & C). destruct H as [H|[H|H]]; congruence. Qed.
Theorem C87_degenerate_refuted : exists p0 p1 p2, ~ proper_triangle p0 p1 p2 /\ area p0 p1 p2 = 0 /\ tri_degenerate p0 p1 p2 = false.
Proof.
  exists origin, (V3 1 0 0), (V3 2 0 0). assert (N : ~ proper_triangle origin (V3 1 0 0) (V3 2 0 0)).
  { intro H. apply H. exists origin, (V3 1 0 0). split; [exists 0|split; [exists 1|exists 2]]; apply v3_eq; cbn; lra. }
  split; [assumption|]. split; [apply area_zero, N|]. destruct (tri_degenerate _ _ _) eqn:E; [|reflexivity]. exfalso. apply degenerate_spec in E. unfold origin in E. destruct E as [E|[E|E]]; injection E as E; lra.
Qed.
Print Assumptions C87_area.
Print Assumptions C87_normal.
Print Assumptions C87_centroid.
Print Assumptions C87_degenerate_partial.
Print Assumptions C87_degenerate_refuted.
Example C87_ex : area origin (V3 3 0 0) (V3 0 4 0) = 6.
Proof.
  rewrite heron. unfold length3, length_squared3. cbn. replace (_ + _) with (12 * 12) by ring. rewrite sqrt_square by lra. lra.
Qed.

(* ------------------------------------------------------------------ C88 *)
(** plane::intersects(plane) is true exactly when the normals are nearly parallel: the answer is inverted. The full statement is
    [planes_intersect n1 n2 eps = true <-> meet (on_plane p) (on_plane q)] up to the tolerance. *)
Theorem C88_planes_partial : forall n1 n2 eps, 0 < eps -> (planes_intersect n1 n2 eps = true <-> inner3 (cross n1 n2) (cross n1 n2) < eps) /\ (parallel n1 n2 -> planes_intersect n1 n2 eps = true).
Proof.
  intros n1 n2 eps E. assert (L : length_squared3 (cross n1 n2) = inner3 (cross n1 n2) (cross n1 n2)) by (rewrite inner_eq; reflexivity).
  assert (H : planes_intersect n1 n2 eps = true <-> inner3 (cross n1 n2) (cross n1 n2) < eps) by (unfold planes_intersect; rewrite az_true, L, Rabs_pos_eq by apply inner_nonneg; reflexivity).
  split; [exact H|]. intros P. apply H. assert (Z : cross n1 n2 = origin).
  { destruct P as (s & t & N & A & B & C). assert (K : forall x y z w, s * x = t * y -> s * z = t * w -> x * w - z * y = 0).
    { intros x y z w G1 G2. destruct N as [N|N]; apply (Rmult_eq_reg_l _ _ _ ) with (2 := N).
      - replace (s * (x * w - z * y)) with ((s * x) * w - (s * z) * y) by ring. rewrite G1, G2. ring.
      - replace (t * (x * w - z * y)) with (x * (t * w) - z * (t * y)) by ring. rewrite <- G1, <- G2. ring. }
    apply v3_eq; cbn; apply K; assumption. } rewrite Z, inner_eq. cbn. lra.
Qed.
Theorem C88_planes_refuted : forall eps, 0 < eps <= 1 -> exists p q, is_unit (normal p) /\ is_unit (normal q) /\
  ((planes_intersect (normal p) (normal q) eps = true /\ ~ meet (on_plane p) (on_plane q)) /\
   exists r, is_unit (normal r) /\ planes_intersect (normal p) (normal r) eps = false /\ meet (on_plane p) (on_plane r)).
Proof.
  intros eps E. exists (Plane (V3 0 0 1) 0), (Plane (V3 0 0 1) 1). split; [unfold is_unit; rewrite inner_eq; cbn; lra|]. split; [unfold is_unit; rewrite inner_eq; cbn; lra|]. split; [split|].
  - apply (proj1 (C88_planes_partial _ _ eps ltac:(lra))). rewrite inner_eq. cbn. lra.
  - intros (x & A & B). unfold on_plane in A, B. rewrite inner_eq in A, B. cbn in A, B. lra.
  - exists (Plane (V3 1 0 0) 0). split; [unfold is_unit; rewrite inner_eq; cbn; lra|]. split.
    + destruct (planes_intersect _ _ _) eqn:P; [|reflexivity]. exfalso. apply (proj1 (C88_planes_partial _ _ eps ltac:(lra))) in P. rewrite inner_eq in P. cbn in P. lra.
    + exists origin. split; unfold on_plane; rewrite inner_eq; cbn; lra.
Qed.
Print Assumptions C88_planes_partial.
Print Assumptions C88_planes_refuted.
Example C88_ex : planes_intersect (V3 0 0 1) (V3 0 0 1) (1 / 1000000) = true.
Proof. apply (proj1 (C88_planes_partial _ _ (1 / 1000000) ltac:(lra))). rewrite inner_eq. cbn. lra. Qed.

(* ------------------------------------------------------------------ C106 *)
(** same_side() over any number of points: all in the closed half-space the normal points into, or all strictly behind the plane. *)
Theorem C106_same_side : forall p a l,
  same_side p a l = true <->
  ((forall q, In q (a :: l) -> 0 <= inner3 (normal p) q + d_ p) \/ (forall q, In q (a :: l) -> inner3 (normal p) q + d_ p < 0)).
Proof.
  intros p a l. assert (D : forall q, inner3 (normal p) q + d_ p = signed_distance p q) by (intros q; rewrite inner_eq; reflexivity).
  unfold same_side. rewrite forallb_forall. split.
  - intros H. destruct (leb 0 (signed_distance p a)) eqn:A.
    + left. intros q [<- | I]; rewrite D; apply leb_true; [exact A|]. specialize (H q I). now destruct (leb 0 (signed_distance p q)).
    + right. intros q [<- | I]; rewrite D; apply leb_false; [exact A|]. specialize (H q I). now destruct (leb 0 (signed_distance p q)).
  - intros [H|H] q I.
    + assert (A := H a (or_introl eq_refl)). assert (Q := H q (or_intror I)). rewrite D in A, Q. apply leb_true in A, Q. now rewrite A, Q.
    + assert (A := H a (or_introl eq_refl)). assert (Q := H q (or_intror I)). rewrite D in A, Q. apply leb_false in A, Q. now rewrite A, Q.
Qed.
(** So if the answer is no, the plane cuts a segment between two of the points; if it is yes, it meets such a segment only when it goes
    through an end of it. *)
Theorem C106_segments : forall p a l,
  (same_side p a l = false -> exists q, In q l /\ meet (on_plane p) (in_segment a q)) /\
  (same_side p a l = true -> forall q r, In q (a :: l) -> In r (a :: l) -> meet (on_plane p) (in_segment q r) -> on_plane p q \/ on_plane p r).
Proof.
  intros p a l. assert (D : forall q, inner3 (normal p) q + d_ p = signed_distance p q) by (intros q; rewrite inner_eq; reflexivity).
  assert (AL : forall a q t, signed_distance p (along a q t) = (1 - t) * signed_distance p a + t * signed_distance p q)
    by (intros; unfold signed_distance, dot3, along; cbn; ring).
  split.
  - intros F. unfold same_side in F.
    assert (X : exists q, In q l /\ Bool.eqb (leb 0 (signed_distance p a)) (leb 0 (signed_distance p q)) = false).
    { clear D AL. induction l as [|q l IH]; [discriminate|]. cbn [forallb] in F. apply andb_false_iff in F. destruct F as [F|F].
      - exists q. split; [now left|exact F].
      - destruct (IH F) as (r & I & R). exists r. split; [now right|exact R]. }
    destruct X as (q & I & Q). exists q. split; [exact I|].
    set (u := signed_distance p a) in *. set (v := signed_distance p q) in *.
    assert (S : u <> v /\ 0 <= u / (u - v) <= 1).
    { destruct (leb 0 u) eqn:U, (leb 0 v) eqn:V; try discriminate; [apply leb_true in U; apply leb_false in V|apply leb_false in U; apply leb_true in V].
      - split; [lra|]. split; [apply Rmult_le_pos; [lra|apply Rlt_le, Rinv_0_lt_compat; lra]|].
        apply Rmult_le_reg_r with (u - v); [lra|]. replace (u / (u - v) * (u - v)) with u by (field; lra). lra.
      - replace (u / (u - v)) with ((- u) / (v - u)) by (field; lra). split; [lra|]. split; [apply Rmult_le_pos; [lra|apply Rlt_le, Rinv_0_lt_compat; lra]|].
        apply Rmult_le_reg_r with (v - u); [lra|]. replace (- u / (v - u) * (v - u)) with (- u) by (field; lra). lra. }
    destruct S as [N T]. exists (along a q (u / (u - v))). split; [|now exists (u / (u - v))].
    unfold on_plane. rewrite D, AL. fold u v. field. lra.
  - intros H q r Iq Ir (x & O & t & T & ->). unfold on_plane in O |- *. rewrite D, AL in O. rewrite !D.
    apply C106_same_side in H. set (u := signed_distance p q) in *. set (v := signed_distance p r) in *.
    destruct H as [H|H]; assert (A := H q Iq); assert (B := H r Ir); rewrite D in A, B; fold u in A; fold v in B.
    + assert (P1 : 0 <= (1 - t) * u) by (apply Rmult_le_pos; lra). assert (P2 : 0 <= t * v) by (apply Rmult_le_pos; lra).
      destruct (Req_dec t 0) as [Z|Z]; [left; subst t; lra|]. right.
      assert (E : t * v = 0) by lra. apply Rmult_integral in E. tauto.
    + exfalso. destruct (Req_dec t 0) as [Z|Z]; [subst t; lra|]. assert (t * v < 0) by (apply Ropp_lt_cancel; rewrite Ropp_0, <- Ropp_mult_distr_r_reverse; apply Rmult_lt_0_compat; lra).
      assert (0 <= (1 - t) * - u) by (apply Rmult_le_pos; lra). lra.
Qed.
Print Assumptions C106_same_side.
Print Assumptions C106_segments.
Example C106_ex : same_side (Plane (V3 0 0 1) (-1)) (V3 0 0 2) [V3 5 5 1; V3 0 0 7] = true /\
  same_side (Plane (V3 0 0 1) (-1)) (V3 0 0 2) [V3 5 5 1; V3 0 0 0] = false.
Proof.
  split.
  - apply C106_same_side. left. intros q [<- |[<- |[<- |[]]]]; rewrite inner_eq; cbn; lra.
  - apply not_true_iff_false. intros H. apply C106_same_side in H. destruct H as [H|H].
    + specialize (H (V3 0 0 0) ltac:(cbn; tauto)). rewrite inner_eq in H. cbn in H. lra.
    + specialize (H (V3 0 0 2) ltac:(cbn; tauto)). rewrite inner_eq in H. cbn in H. lra.
Qed.
