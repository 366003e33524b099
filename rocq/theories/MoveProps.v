(** C157-C158: moved, scaled and transformed shapes; collision testers. *)
From Coq Require Import Reals List Bool Lra Psatz.
From Verif Require Import Words MatModel MatSpec VecModel VecSpec QuatModel QuatSpec QuatProofs QuatProofs2 XformModel XformSpec XformProofs GeomModel GeomSpec GeomProofs GeomProofs2 GeomProofs3 GeomProofs4 GeomProofs5 MoveModel MoveSpec.
Import ListNotations.
Local Open Scope R_scope.

Lemma position_affine j m x : affine m -> transform_position j 4 4 m x = image m x.
Proof.
  intros (A & B & C & D). unfold transform_position, rget. cbn [Nat.eqb]. rewrite A, B, C, D.
  apply v3_eq; unfold image, row_times, sum; cbn; field.
Qed.
Lemma direction_linear m v : transform_without_translating m v = linear m v.
Proof. apply v3_eq; unfold transform_without_translating, rget, linear, shifted, image, row_times, sum; cbn; ring. Qed.
Lemma image_add m x v : image m (add3 x v) = add3 (image m x) (linear m v).
Proof. apply v3_eq; unfold linear, shifted, image, row_times, sum; cbn; ring. Qed.
Lemma linear_scale m v k : linear m (scale3 v k) = scale3 (linear m v) k.
Proof. apply v3_eq; unfold linear, shifted, image, row_times, sum; cbn; ring. Qed.
Lemma linear_sub m v w : linear m (sub3 v w) = sub3 (linear m v) (linear m w).
Proof. apply v3_eq; unfold linear, shifted, image, row_times, sum; cbn; ring. Qed.
Lemma image_sub m x y : sub3 (image m x) (image m y) = linear m (sub3 x y).
Proof. apply v3_eq; unfold linear, shifted, image, row_times, sum; cbn; ring. Qed.

Lemma length_of v l : 0 <= l -> l * l = inner3 v v -> length3 v = l.
Proof.
  intros P E. destruct (length3_sqr v) as [S T]. assert (M : (length3 v - l) * (length3 v + l) = 0) by lra. apply Rmult_integral in M. destruct M; lra.
Qed.
Lemma inner_scale v k w : inner3 (scale3 v k) w = k * inner3 v w /\ inner3 w (scale3 v k) = k * inner3 w v.
Proof. rewrite !inner_eq. cbn. split; ring. Qed.
(** The unit vector and the length of a vector that is not zero. *)
Lemma unit_of v : v <> origin -> exists u, normalize_opt v = Some u /\ 0 < length3 v /\ is_unit u /\ v = scale3 u (length3 v).
Proof.
  intros N. destruct (normalize_opt_spec v) as [[Z _]|[_ E]]; [congruence|]. destruct (normalize3_scale v N) as (l & L & El & _ & U).
  set (u := normalize3 v) in *. clearbody u.
  assert (Q : length3 v = l) by (apply length_of; [lra|]; rewrite El, (proj1 (inner_scale _ _ _)), (proj2 (inner_scale _ _ _)), U; ring).
  exists u. rewrite E, Q. split; [reflexivity|]. split; [exact L|]. split; [exact U | exact El].
Qed.
Lemma inner_zero v : inner3 v v = 0 -> v = origin.
Proof. rewrite inner_eq. intros H. assert (A := sqr_pos (vx v)). assert (B := sqr_pos (vy v)). assert (C := sqr_pos (vz v)). apply v3_eq; cbn; nra. Qed.
Lemma origin_inner : inner3 origin origin = 0.
Proof. rewrite inner_eq. cbn. ring. Qed.

(* ------------------------------------------------------------------ C157: planes *)
(** A transformation that scales by [k] the same way in all directions scales all signed distances by [k], so the points on the plane stay on it. *)
Theorem C157_plane : forall j p m k, affine m -> similarity k m -> is_unit (normal p) -> exists q, plane_transform j p m = Some q /\ is_unit (normal q) /\
  (forall x, inner3 (normal q) (image m x) + d_ q = k * (inner3 (normal p) x + d_ p)) /\ (forall x, on_plane q (image m x) <-> on_plane p x).
Proof.
  intros j p m k A [K S] U. assert (N : linear m (normal p) <> origin).
  { intros Z. assert (Q := S (normal p) (normal p)). rewrite Z, origin_inner, U in Q. assert (0 < k * k) by (apply Rmult_lt_0_compat; lra). lra. }
  destruct (unit_of _ N) as (u & E & _ & Uu & Eu). assert (L : length3 (linear m (normal p)) = k) by (apply length_of; [lra|]; rewrite S, U; ring).
  rewrite L in Eu. assert (L1 : length3 (normal p) = 1) by (apply length_of; [lra|]; rewrite U; ring).
  unfold plane_transform. rewrite direction_linear, E, L1. rewrite (position_affine j m (plane_origin p) A). eexists. split; [reflexivity|].
  assert (D : forall x, inner3 (normal (plane_at (image m (plane_origin p)) (scale3 u 1))) (image m x) + d_ (plane_at (image m (plane_origin p)) (scale3 u 1)) = k * (inner3 (normal p) x + d_ p)).
  { intros x. assert (Q := S (sub3 x (plane_origin p)) (normal p)). rewrite <- image_sub, Eu, (proj2 (inner_scale _ _ _)) in Q.
    assert (Q2 : inner3 (sub3 (image m x) (image m (plane_origin p))) u = k * inner3 (sub3 x (plane_origin p)) (normal p)) by (apply (Rmult_eq_reg_l k); [rewrite Q; ring | lra]).
    unfold is_unit in U. transitivity (inner3 (sub3 (image m x) (image m (plane_origin p))) u).
    - unfold plane_at. cbn [normal d_]. rewrite dot_inner, !inner_eq. cbn [scale3 sub3 vx vy vz]. ring.
    - rewrite Q2. f_equal. rewrite !inner_eq in *. unfold plane_origin. cbn [sub3 scale3 vx vy vz].
      set (a := vx (normal p)) in *. set (b := vy (normal p)) in *. set (c := vz (normal p)) in *.
      transitivity (a * vx x + b * vy x + c * vz x + d_ p * (a * a + b * b + c * c)); [ring | rewrite U; ring]. }
  split; [|split; [exact D|]].
  - unfold is_unit, plane_at in *. cbn [normal]. rewrite (proj1 (inner_scale _ _ _)), (proj2 (inner_scale _ _ _)), Uu. ring.
  - intros x. unfold on_plane. rewrite D. split; intros H; [apply Rmult_integral in H; destruct H; lra | rewrite H; ring].
Qed.
(** The full statement is for every invertible affine transformation and every plane. Scaling by 2 along one axis tilts the plane wrongly: *)
Definition stretch : list (list R) := [[2; 0; 0; 0]; [0; 1; 0; 0]; [0; 0; 1; 0]; [0; 0; 0; 1]].
Theorem C157_plane_stretched_refuted : forall j, exists p x q, is_unit (normal p) /\ affine stretch /\ on_plane p x /\ plane_transform j p stretch = Some q /\ ~ on_plane q (image stretch x).
Proof.
  intros j. exists (Plane (V3 (3 / 5) (4 / 5) 0) 0), (V3 4 (- 3) 0).
  assert (A : affine stretch) by (unfold affine, stretch; cbn; lra). set (n := V3 (3 / 5) (4 / 5) 0).
  assert (N : linear stretch n <> origin) by (intros Z; assert (Q := f_equal vx Z); unfold linear, shifted, image, row_times, sum in Q; cbn in Q; lra).
  destruct (unit_of _ N) as (u & E & L & _ & Eu). eexists. split; [unfold is_unit; rewrite inner_eq; cbn; lra|]. split; [exact A|]. split; [unfold on_plane; rewrite inner_eq; cbn; lra|].
  split; [unfold plane_transform; cbn [normal]; rewrite direction_linear; fold n; rewrite E; reflexivity|].
  rewrite (position_affine j stretch _ A). assert (L1 : length3 n = 1) by (apply length_of; [lra|]; unfold n; rewrite inner_eq; cbn; lra). rewrite L1.
  unfold on_plane, plane_at. cbn [normal d_]. rewrite dot_inner, !inner_eq. set (l := length3 (linear stretch n)) in *. clearbody l.
  assert (X := f_equal vx Eu). assert (Y := f_equal vy Eu). unfold linear, shifted, image, row_times, sum in X, Y. cbn in X, Y. unfold image, row_times, sum, plane_origin. cbn.
  intros H. assert (K : (8 * vx u - 3 * vy u) * l = 0) by (replace (8 * vx u - 3 * vy u) with 0 by lra; ring). lra.
Qed.
(** A plane that is not normalized moves even under the identity: *)
Definition identity4 : list (list R) := [[1; 0; 0; 0]; [0; 1; 0; 0]; [0; 0; 1; 0]; [0; 0; 0; 1]].
Theorem C157_plane_unnormalized_refuted : forall j, exists p x q, on_plane p x /\ plane_transform j p identity4 = Some q /\ image identity4 x = x /\ ~ on_plane q x.
Proof.
  intros j. exists (Plane (V3 2 0 0) (- 2)), (V3 1 0 0). assert (A : affine identity4) by (unfold affine, identity4; cbn; lra). set (n := V3 2 0 0).
  assert (N : linear identity4 n <> origin) by (intros Z; assert (Q := f_equal vx Z); unfold linear, shifted, image, row_times, sum in Q; cbn in Q; lra).
  destruct (unit_of _ N) as (u & E & L & _ & Eu). eexists. split; [unfold on_plane; rewrite inner_eq; cbn; lra|].
  split; [unfold plane_transform; cbn [normal]; rewrite direction_linear; fold n; rewrite E; reflexivity|].
  rewrite (position_affine j identity4 _ A). assert (L1 : length3 n = 2) by (apply length_of; [lra|]; unfold n; rewrite inner_eq; cbn; lra). rewrite L1.
  split; [apply v3_eq; unfold image, row_times, sum; cbn; ring|].
  unfold on_plane, plane_at. cbn [normal d_]. rewrite dot_inner, !inner_eq. set (l := length3 (linear identity4 n)) in *. clearbody l.
  assert (X := f_equal vx Eu). unfold linear, shifted, image, row_times, sum in X. cbn in X. unfold image, row_times, sum, plane_origin. cbn.
  intros H. assert (K : vx u * l = 0) by (replace (vx u) with 0 by lra; ring). lra.
Qed.

(* ------------------------------------------------------------------ C157: oriented boxes *)
Lemma axis_of j m c axis e : affine m -> linear m (scale3 axis e) <> origin ->
  exists u l, obb_axis j m c (image m c) axis e = Some (u, l) /\ 0 < l /\ is_unit u /\ length3 (linear m (scale3 axis e)) = l /\ linear m (scale3 axis e) = scale3 u l.
Proof.
  intros A N. unfold obb_axis. rewrite (position_affine j m _ A), image_add. replace (sub3 (add3 (image m c) (linear m (scale3 axis e))) (image m c)) with (linear m (scale3 axis e)) by (apply v3_eq; cbn; ring).
  destruct (unit_of _ N) as (u & E & L & U & Eu). rewrite E. exists u, (length3 (linear m (scale3 axis e))). split; [reflexivity|]. split; [exact L|]. split; [exact U|]. split; [reflexivity | exact Eu].
Qed.
Lemma axis_none j m c axis e : affine m -> linear m (scale3 axis e) = origin -> obb_axis j m c (image m c) axis e = None.
Proof.
  intros A Z. unfold obb_axis. rewrite (position_affine j m _ A), image_add, Z. destruct (normalize_opt_spec (sub3 (add3 (image m c) origin) (image m c))) as [[_ ->]|[N _]]; [reflexivity|].
  exfalso. apply N. apply v3_eq; cbn; ring.
Qed.
(** No axis is lost: the extents are not zero and the transformation flattens nothing. *)
Definition keeps_axes (o : obb) (m : list (list R)) : Prop :=
  linear m (scale3 (ax_x o) (vx (oextents o))) <> origin /\ linear m (scale3 (ax_y o) (vy (oextents o))) <> origin /\ linear m (scale3 (ax_z o) (vz (oextents o))) <> origin.
Lemma transform_some j o m : affine m -> keeps_axes o m -> exists x y z ex ey ez, obb_transform j o m = Some (Obb (image m (ocenter o)) (V3 ex ey ez) x y z)
  /\ (0 < ex /\ 0 < ey /\ 0 < ez) /\ (is_unit x /\ is_unit y /\ is_unit z)
  /\ (length3 (linear m (scale3 (ax_x o) (vx (oextents o)))) = ex /\ length3 (linear m (scale3 (ax_y o) (vy (oextents o)))) = ey /\ length3 (linear m (scale3 (ax_z o) (vz (oextents o)))) = ez)
  /\ linear m (scale3 (ax_x o) (vx (oextents o))) = scale3 x ex /\ linear m (scale3 (ax_y o) (vy (oextents o))) = scale3 y ey /\ linear m (scale3 (ax_z o) (vz (oextents o))) = scale3 z ez.
Proof.
  intros A (Nx & Ny & Nz). unfold obb_transform. rewrite (position_affine j m _ A).
  destruct (axis_of j m (ocenter o) _ _ A Nx) as (x & ex & -> & Px & Ux & Lx & Ex). destruct (axis_of j m (ocenter o) _ _ A Ny) as (y & ey & -> & Py & Uy & Ly & Ey).
  destruct (axis_of j m (ocenter o) _ _ A Nz) as (z & ez & -> & Pz & Uz & Lz & Ez). exists x, y, z, ex, ey, ez. split; [reflexivity|]. split; [auto|]. split; [auto|]. split; [auto|]. auto.
Qed.
Lemma extent_pos m axis e : linear m (scale3 axis e) <> origin -> 0 <= e -> 0 < e.
Proof. intros N [P|P]; [exact P|]. exfalso. apply N. rewrite linear_scale, <- P. apply v3_eq; cbn; ring. Qed.
Lemma div_range t e l : 0 < e -> 0 < l -> - e <= t <= e -> - l <= t / e * l <= l.
Proof.
  intros E L T. assert (B : -1 <= t / e <= 1).
  { split; apply (Rmult_le_reg_r e); try exact E; unfold Rdiv; rewrite Rmult_assoc, Rinv_l by lra; lra. }
  nra.
Qed.
(** The box spanned by the new centre, axes and extents is exactly the image of the old one, whatever the transformation. *)
Theorem C157_obb_image : forall j o m, affine m -> 0 <= vx (oextents o) -> 0 <= vy (oextents o) -> 0 <= vz (oextents o) -> keeps_axes o m ->
  exists q, obb_transform j o m = Some q /\ forall y, in_obb q y <-> image_of m (in_obb o) y.
Proof.
  intros j o m A E1 E2 E3 K. destruct (transform_some j o m A K) as (x & y & z & ex & ey & ez & E & (Px & Py & Pz) & _ & _ & Lx & Ly & Lz). destruct K as (Kx & Ky & Kz).
  assert (F1 := extent_pos m _ _ Kx E1). assert (F2 := extent_pos m _ _ Ky E2). assert (F3 := extent_pos m _ _ Kz E3). clear Kx Ky Kz E1 E2 E3.
  rewrite linear_scale in Lx, Ly, Lz. set (e1 := vx (oextents o)) in *. set (e2 := vy (oextents o)) in *. set (e3 := vz (oextents o)) in *.
  assert (G : forall r s t, image m (V3 (vx (ocenter o) + r * vx (ax_x o) + s * vx (ax_y o) + t * vx (ax_z o)) (vy (ocenter o) + r * vy (ax_x o) + s * vy (ax_y o) + t * vy (ax_z o)) (vz (ocenter o) + r * vz (ax_x o) + s * vz (ax_y o) + t * vz (ax_z o)))
     = V3 (vx (image m (ocenter o)) + r / e1 * ex * vx x + s / e2 * ey * vx y + t / e3 * ez * vx z) (vy (image m (ocenter o)) + r / e1 * ex * vy x + s / e2 * ey * vy y + t / e3 * ez * vy z) (vz (image m (ocenter o)) + r / e1 * ex * vz x + s / e2 * ey * vz y + t / e3 * ez * vz z)).
  { intros r s t. replace (V3 _ _ _) with (add3 (add3 (add3 (ocenter o) (scale3 (ax_x o) r)) (scale3 (ax_y o) s)) (scale3 (ax_z o) t)) at 1 by (apply v3_eq; cbn; ring).
    rewrite !image_add, !linear_scale.
    replace (scale3 (linear m (ax_x o)) r) with (scale3 (scale3 (linear m (ax_x o)) e1) (r / e1)) by (apply v3_eq; cbn; field; lra).
    replace (scale3 (linear m (ax_y o)) s) with (scale3 (scale3 (linear m (ax_y o)) e2) (s / e2)) by (apply v3_eq; cbn; field; lra).
    replace (scale3 (linear m (ax_z o)) t) with (scale3 (scale3 (linear m (ax_z o)) e3) (t / e3)) by (apply v3_eq; cbn; field; lra).
    rewrite Lx, Ly, Lz. apply v3_eq; cbn [add3 scale3 vx vy vz]; ring. }
  eexists. split; [exact E|]. intros w. unfold image_of, in_obb. cbn [ocenter oextents ax_x ax_y ax_z vx vy vz]. fold e1 e2 e3. split.
  - intros (r & s & t & R & S & T & ->). eexists. split.
    + exists (r / ex * e1), (s / ey * e2), (t / ez * e3). split; [apply div_range; assumption|]. split; [apply div_range; assumption|]. split; [apply div_range; assumption|]. reflexivity.
    + rewrite G. f_equal; field; repeat split; lra.
  - intros (p & (r & s & t & R & S & T & ->) & ->). exists (r / e1 * ex), (s / e2 * ey), (t / e3 * ez).
    split; [apply div_range; assumption|]. split; [apply div_range; assumption|]. split; [apply div_range; assumption|]. apply G.
Qed.
(** Under rotations, translations and even scaling its axes stay at right angles, so every query on it is exact, contains() among them. *)
Theorem C157_obb_similarity : forall j o m k, affine m -> similarity k m -> proper_obb o -> 0 < vx (oextents o) -> 0 < vy (oextents o) -> 0 < vz (oextents o) ->
  exists q, obb_transform j o m = Some q /\ proper_obb q /\ ocenter q = image m (ocenter o) /\
    vx (oextents q) = k * vx (oextents o) /\ vy (oextents q) = k * vy (oextents o) /\ vz (oextents q) = k * vz (oextents o) /\
    forall x, obb_contains q (image m x) = obb_contains o x.
Proof.
  intros j o m k A [K S] (P1 & P2 & P3 & O) E1 E2 E3. destruct O as (Oxx & Oyy & Ozz & Oxy & Oxz & Oyz). set (e1 := vx (oextents o)) in *. set (e2 := vy (oextents o)) in *. set (e3 := vz (oextents o)) in *.
  assert (KK : 0 < k * k) by (apply Rmult_lt_0_compat; assumption).
  assert (NZ : forall a e, 0 < e -> inner3 a a = 1 -> linear m (scale3 a e) <> origin).
  { intros a e Pe Ua Z. assert (Q := S (scale3 a e) (scale3 a e)). rewrite Z, origin_inner, (proj1 (inner_scale _ _ _)), (proj2 (inner_scale _ _ _)), Ua in Q. assert (0 < k * k * (e * (e * 1))) by (apply Rmult_lt_0_compat; [exact KK|]; apply Rmult_lt_0_compat; lra). lra. }
  assert (Kp : keeps_axes o m) by (split; [|split]; apply NZ; assumption).
  destruct (transform_some j o m A Kp) as (x & y & z & ex & ey & ez & E & (Px & Py & Pz) & (Ux & Uy & Uz) & (Nx & Ny & Nz) & Lx & Ly & Lz).
  fold e1 e2 e3 in Nx, Ny, Nz, Lx, Ly, Lz.
  assert (LL : forall a e, 0 < e -> inner3 a a = 1 -> length3 (linear m (scale3 a e)) = k * e).
  { intros a e Pe Ua. apply length_of; [apply Rmult_le_pos; lra|]. rewrite S, (proj1 (inner_scale _ _ _)), (proj2 (inner_scale _ _ _)), Ua. ring. }
  rewrite LL in Nx, Ny, Nz by assumption. subst ex ey ez.
  assert (XX : forall a b u v e f, 0 < e -> 0 < f -> inner3 a b = 0 -> linear m (scale3 a e) = scale3 u (k * e) -> linear m (scale3 b f) = scale3 v (k * f) -> inner3 u v = 0).
  { intros a b u v e f Pe Pf Z Ea Eb. assert (Q := S (scale3 a e) (scale3 b f)). rewrite Ea, Eb, !(proj1 (inner_scale _ _ _)), !(proj2 (inner_scale _ _ _)), Z in Q.
    assert (W : (k * e) * (k * f) * inner3 u v = 0) by (rewrite Rmult_assoc, Q; ring). assert (0 < (k * e) * (k * f)) by (apply Rmult_lt_0_compat; apply Rmult_lt_0_compat; assumption). apply Rmult_integral in W. destruct W; lra. }
  destruct (C157_obb_image j o m A P1 P2 P3 Kp) as (q & Eq & Im). rewrite E in Eq. injection Eq as <-. eexists. split; [exact E|].
  assert (PO : proper_obb (Obb (image m (ocenter o)) (V3 (k * e1) (k * e2) (k * e3)) x y z)).
  { unfold proper_obb. cbn [oextents ax_x ax_y ax_z vx vy vz]. split; [lra|]. split; [lra|]. split; [lra|]. split; [exact Ux|]. split; [exact Uy|]. split; [exact Uz|].
    split; [exact (XX _ _ _ _ _ _ E1 E2 Oxy Lx Ly)|]. split; [exact (XX _ _ _ _ _ _ E1 E3 Oxz Lx Lz) | exact (XX _ _ _ _ _ _ E2 E3 Oyz Ly Lz)]. }
  split; [exact PO|]. cbn [ocenter oextents vx vy vz]. split; [reflexivity|]. split; [reflexivity|]. split; [reflexivity|]. split; [reflexivity|].
  intros w. apply eq_true_iff_eq. assert (PO' : proper_obb o) by (repeat split; assumption). rewrite (obb_contains_spec _ PO), (obb_contains_spec _ PO'), Im. split.
  - intros (p & I & Ew). replace w with p; [exact I|]. assert (Z : linear m (sub3 p w) = origin) by (rewrite <- image_sub, Ew; apply v3_eq; cbn; ring).
    assert (Q := S (sub3 p w) (sub3 p w)). rewrite Z, origin_inner in Q. symmetry in Q. apply Rmult_integral in Q. destruct Q as [Q|Q]; [lra|]. apply inner_zero in Q. unfold sub3 in Q. injection Q as Q1 Q2 Q3. apply v3_eq; lra.
  - intros I. exists w. split; [exact I | reflexivity].
Qed.
(** The full statement is for every transformation. Under a shear the axes are no longer at right angles, and contains() denies points of the box. The list holds the columns. *)
Definition sheared : list (list R) := [[1; 0; 0; 0]; [3; 4; 0; 0]; [0; 0; 1; 0]; [0; 0; 0; 1]].
Theorem C157_obb_sheared_refuted : forall j, exists o x q, proper_obb o /\ affine sheared /\ obb_transform j o sheared = Some q /\ obb_contains o x = true /\ obb_contains q (image sheared x) = false.
Proof.
  intros j. exists (Obb origin (V3 1 1 1) (V3 1 0 0) (V3 0 1 0) (V3 0 0 1)), (V3 1 1 1). set (o := Obb _ _ _ _ _).
  assert (A : affine sheared) by (unfold affine, sheared; cbn; lra).
  assert (P : proper_obb o) by (unfold o, proper_obb, orthonormal; rewrite !inner_eq; cbn; lra).
  assert (K : keeps_axes o sheared).
  { split; [|split]; intros Z; [assert (Q := f_equal vx Z) | assert (Q := f_equal vy Z) | assert (Q := f_equal vz Z)]; unfold linear, shifted, image, row_times, sum in Q; cbn in Q; lra. }
  destruct (transform_some j o sheared A K) as (x & y & z & ex & ey & ez & E & (Px & Py & Pz) & (Ux & _) & (Nx & _) & Lx & _). eexists. split; [exact P|]. split; [exact A|]. split; [exact E|]. split.
  - apply obb_contains_spec; [exact P|]. exists 1, 1, 1. cbn. split; [lra|]. split; [lra|]. split; [lra|]. apply v3_eq; cbn; ring.
  - assert (Q : ex = 1) by (rewrite <- Nx; apply length_of; [lra|]; rewrite inner_eq; unfold linear, shifted, image, row_times, sum; cbn; lra). clear Nx. subst ex.
    assert (X := f_equal vx Lx). assert (Y := f_equal vy Lx). assert (W := f_equal vz Lx). unfold linear, shifted, image, row_times, sum in X, Y, W. cbn in X, Y, W.
    apply not_true_iff_false. unfold obb_contains. rewrite !andb_true_iff, !leb_true. intros [[H _] _]. revert H. rewrite dot_inner, inner_eq. unfold image, row_times, sum. cbn.
    replace (vx x) with 1 by lra. replace (vy x) with 0 by lra. replace (vz x) with 0 by lra. intros H. match type of H with Rabs ?t <= _ => replace t with 4 in H by ring end. rewrite Rabs_pos_eq in H by lra. lra.
Qed.
(** A box with an extent of zero turns into NaN under any transformation, even the identity. *)
Theorem C157_obb_flat_refuted : forall j o m, affine m -> vx (oextents o) = 0 \/ vy (oextents o) = 0 \/ vz (oextents o) = 0 -> obb_transform j o m = None.
Proof.
  intros j o m A H. assert (Z : forall a, linear m (scale3 a 0) = origin) by (intros a; rewrite linear_scale; apply v3_eq; cbn; ring).
  unfold obb_transform. rewrite (position_affine j m _ A). destruct H as [H|[H|H]]; rewrite H, (axis_none j m (ocenter o) _ 0 A (Z _)).
  - reflexivity.
  - destruct (obb_axis _ _ _ _ _ _) as [[? ?]|]; reflexivity.
  - destruct (obb_axis _ _ _ _ _ _) as [[? ?]|]; [|reflexivity]. destruct (obb_axis _ _ _ _ _ _) as [[? ?]|]; reflexivity.
Qed.

(* ------------------------------------------------------------------ C157: translation and scaling *)
Theorem C157_translate : forall off,
  (forall b y, in_box (box_translate b off) y <-> in_box b (shifted y off)) /\
  (forall o y, in_obb (obb_translate o off) y <-> in_obb o (shifted y off)) /\
  (forall s y, in_ball (sphere_translate s off) y <-> in_ball s (shifted y off)).
Proof.
  intros off. split; [|split].
  - intros b y. unfold in_box, shifted. cbn. lra.
  - intros o y. unfold in_obb, shifted. cbn [obb_translate ocenter oextents ax_x ax_y ax_z add3 vx vy vz].
    split; intros (r & s & t & R & S & T & E); exists r, s, t; (split; [exact R|]; split; [exact S|]; split; [exact T|]).
    + subst y. apply v3_eq; cbn; ring.
    + injection E as Ex Ey Ez. apply v3_eq; cbn; lra.
  - intros s y. unfold in_ball, dist2, shifted. cbn [sphere_translate scenter radius add3 vx vy vz].
    replace (vx y - vx off - vx (scenter s)) with (vx y - (vx (scenter s) + vx off)) by ring. replace (vy y - vy off - vy (scenter s)) with (vy y - (vy (scenter s) + vy off)) by ring.
    replace (vz y - vz off - vz (scenter s)) with (vz y - (vz (scenter s) + vz off)) by ring. reflexivity.
Qed.
Lemma scale_axis c e s y : 0 <= e -> 0 <= s -> c - e * s <= y <= c + e * s <-> exists x, c - e <= x <= c + e /\ y = c + s * (x - c).
Proof.
  intros E S. split.
  - intros H. destruct S as [S|<-].
    + exists (c + (y - c) / s). assert (D : (y - c) / s * s = y - c) by (field; lra). split; [nra | field; lra].
    + exists c. split; lra.
  - intros (x & X & ->). nra.
Qed.
Theorem C157_scale : forall s, 0 <= vx s -> 0 <= vy s -> 0 <= vz s ->
  (forall b y, proper b -> in_box (box_scale b s) y <-> exists x, in_box b x /\ y = stretched (center b) s x) /\
  (forall o y, proper_obb o -> in_obb (obb_scale o s) y <-> exists r t u, - vx (oextents o) <= r <= vx (oextents o) /\ - vy (oextents o) <= t <= vy (oextents o) /\ - vz (oextents o) <= u <= vz (oextents o) /\
     y = add3 (add3 (add3 (ocenter o) (scale3 (ax_x o) (vx s * r))) (scale3 (ax_y o) (vy s * t))) (scale3 (ax_z o) (vz s * u))).
Proof.
  intros s S1 S2 S3. split.
  - intros b y (P1 & P2 & P3). unfold in_box. cbn [box_scale center extents times3 vx vy vz]. rewrite (scale_axis _ _ _ _ P1 S1), (scale_axis _ _ _ _ P2 S2), (scale_axis _ _ _ _ P3 S3). split.
    + intros ((x1 & X1 & E1) & (x2 & X2 & E2) & (x3 & X3 & E3)). exists (V3 x1 x2 x3). cbn [vx vy vz]. split; [auto|]. apply v3_eq; cbn; assumption.
    + intros (x & (X1 & X2 & X3) & ->). split; [exists (vx x); auto|]. split; [exists (vy x) | exists (vz x)]; auto.
  - intros o y (P1 & P2 & P3 & _). unfold in_obb. cbn [obb_scale ocenter oextents ax_x ax_y ax_z times3 vx vy vz].
    assert (Q : forall e k w, 0 <= e -> 0 <= k -> - (e * k) <= w <= e * k <-> exists r, - e <= r <= e /\ w = k * r).
    { intros e k w He Hk. assert (G := scale_axis 0 e k w He Hk). split.
      - intros W. destruct G as [G _]. destruct G as (r & R & Er); [lra|]. exists r. split; lra.
      - intros (r & R & Er). destruct G as [_ G]. assert (H : 0 - e * k <= w <= 0 + e * k) by (apply G; exists r; split; lra). lra. }
    split.
    + intros (r & t & u & R & T & U & ->). apply Q in R; [|assumption..]. apply Q in T; [|assumption..]. apply Q in U; [|assumption..].
      destruct R as (r' & R & ->). destruct T as (t' & T & ->). destruct U as (u' & U & ->). exists r', t', u'. split; [exact R|]. split; [exact T|]. split; [exact U|]. apply v3_eq; cbn; ring.
    + intros (r & t & u & R & T & U & ->). exists (vx s * r), (vy s * t), (vz s * u). split; [apply Q; [assumption..|]; eauto|]. split; [apply Q; [assumption..|]; eauto|]. split; [apply Q; [assumption..|]; eauto|]. apply v3_eq; cbn; ring.
Qed.
(** Spheres: every factor, negative ones too. *)
Theorem C157_scale_sphere : forall s k y, in_ball (sphere_scale s k) y <-> exists x, in_ball s x /\ y = stretched (scenter s) (V3 k k k) x.
Proof.
  intros s k y. unfold in_ball, dist2, stretched. cbn [sphere_scale scenter radius vx vy vz]. set (c := scenter s). set (r := radius s). split.
  - intros H. destruct (Req_dec k 0) as [->|K].
    + exists c. split; [assert (Q := Rle_0_sqr r); unfold Rsqr in Q; nra|].
      assert (S1 := sqr_pos (vx y - vx c)). assert (S2 := sqr_pos (vy y - vy c)). assert (S3 := sqr_pos (vz y - vz c)). apply v3_eq; cbn; nra.
    + exists (V3 (vx c + (vx y - vx c) / k) (vy c + (vy y - vy c) / k) (vz c + (vz y - vz c) / k)). cbn [vx vy vz]. split; [|apply v3_eq; cbn; field; exact K].
      apply (Rmult_le_reg_r (k * k)); [assert (Q := Rle_0_sqr k); unfold Rsqr in Q; destruct Q as [Q|Q]; [exact Q|]; exfalso; apply K; symmetry in Q; apply Rmult_integral in Q; tauto|].
      match goal with |- ?a <= _ => replace a with ((vx y - vx c) * (vx y - vx c) + (vy y - vy c) * (vy y - vy c) + (vz y - vz c) * (vz y - vz c)) by (field; exact K) end. lra.
  - intros (x & H & ->). cbn [vx vy vz]. assert (Q := Rle_0_sqr k). unfold Rsqr in Q. assert (G := Rmult_le_compat_l (k * k) _ _ Q H). lra.
Qed.
(** Boxes: scaling by -1 leaves nothing. *)
Theorem C157_scale_negative_refuted : forall b y, 0 < vx (extents b) -> ~ in_box (box_scale b (V3 (-1) (-1) (-1))) y.
Proof. intros b y P [H _]. cbn in H. lra. Qed.

(* ------------------------------------------------------------------ C158: collision testers *)
Lemma corners_agree b : min_corner b = sub3 (center b) (extents b) /\ max_corner b = add3 (center b) (extents b).
Proof. split; apply v3_eq; cbn; ring. Qed.
Lemma tester_triangle b p0 p1 p2 : box_test_triangle (box_tester_of b) p0 p1 p2 = box_tri b p0 p1 p2.
Proof.
  unfold box_test_triangle, box_tri, box_tri_min_max, box_tester_of, with_corners. cbn [t_min t_max t_corners]. destruct (corners_agree b) as [<- <-].
  change [_; _; _; _; _; _; max_corner b] with (other_corners (corner_min_max (min_corner b) (max_corner b))).
  destruct (box_tri_1 _ _ _ _ _); [|reflexivity]. cbn [negb]. destruct (box_tri_2 _ _ _ _); [|reflexivity]. cbn [negb]. destruct (box_tri_3 _ _ _ _ _ _); reflexivity.
Qed.
(** A tester made from a box says what the box says, which is what the sets of points say; a tester made from the other shape makes no difference. *)
Theorem C158_box_tester : forall b, proper b -> let t := box_tester_of b in
  (forall x, box_test_point t x = true <-> in_box b x) /\
  (forall c, proper c -> (box_test_box t c = true <-> meet (in_box b) (in_box c)) /\ (box_test_tester t (box_tester_of c) = true <-> meet (in_box b) (in_box c))) /\
  (forall s, (box_test_sphere t s = true <-> meet (in_box b) (in_ball s)) /\ (box_test_sphere_tester t (sphere_tester_of s) = true <-> meet (in_box b) (in_ball s))) /\
  (forall p0 p1 p2, proper_triangle p0 p1 p2 -> meet (in_box b) (in_triangle p0 p1 p2) -> box_test_triangle t p0 p1 p2 = true /\ box_test_tri_tester t (tri_tester_of p0 p1 p2) = true) /\
  (forall p0 p1 p2, box_test_triangle t p0 p1 p2 = box_tri b p0 p1 p2 /\ box_test_tri_tester t (tri_tester_of p0 p1 p2) = box_tri b p0 p1 p2).
Proof.
  intros b P t. split; [apply box_contains_spec|]. split; [|split; [|split]].
  - intros c C. split; [exact (box_box_spec b c P C) | exact (box_box_spec b c P C)].
  - intros s. assert (E : box_test_sphere t s = box_sphere b (scenter s) (radius s)) by (unfold box_test_sphere, box_sphere, t, box_tester_of; cbn [t_min t_max]; destruct (corners_agree b) as [<- <-]; reflexivity).
    change (box_test_sphere_tester t (sphere_tester_of s)) with (box_test_sphere t s). rewrite E. split; apply box_sphere_spec; exact P.
  - intros p0 p1 p2 T M. change (box_test_tri_tester t (tri_tester_of p0 p1 p2)) with (box_test_triangle t p0 p1 p2). unfold t. rewrite tester_triangle. assert (Q : box_tri b p0 p1 p2 = true) by (apply box_tri_complete; assumption). split; exact Q.
  - intros p0 p1 p2. split; exact (tester_triangle b p0 p1 p2).
Qed.
Theorem C158_sphere_tester : forall s, let t := sphere_tester_of s in
  (forall b, proper b -> (sphere_test_box t b = true <-> meet (in_box b) (in_ball s)) /\ (sphere_test_box_tester t (box_tester_of b) = true <-> meet (in_box b) (in_ball s))) /\
  (forall u, 0 <= radius s -> 0 <= radius u -> (sphere_test_sphere t u = true -> meet (in_ball s) (in_ball u)) /\ (sphere_test_tester t (sphere_tester_of u) = true -> meet (in_ball s) (in_ball u))) /\
  (forall u, sphere_test_sphere t u = sphere_sphere s u /\ sphere_test_tester t (sphere_tester_of u) = sphere_sphere s u).
Proof.
  intros s t. split; [|split].
  - intros b P. assert (E : sphere_test_box t b = box_sphere b (scenter s) (radius s)) by (unfold sphere_test_box, box_sphere, t, sphere_tester_of; cbn [t_center t_radius_squared]; destruct (corners_agree b) as [<- <-]; reflexivity).
    change (sphere_test_box_tester t (box_tester_of b)) with (sphere_test_box t b). rewrite E. split; apply box_sphere_spec; exact P.
  - intros u Rs Ru. split; intros H; exact (sphere_sphere_sound s u Rs Ru H).
  - intros u. split; reflexivity.
Qed.
(** Spheres that overlap are not always found. *)
Theorem C158_spheres_refuted : exists s u, 0 < radius s /\ 0 < radius u /\ meet (in_ball s) (in_ball u) /\ sphere_test_sphere (sphere_tester_of s) u = false /\ sphere_test_tester (sphere_tester_of s) (sphere_tester_of u) = false.
Proof.
  exists (Sphere origin 3), (Sphere (V3 5 0 0) 3). split; [cbn; lra|]. split; [cbn; lra|]. split.
  - exists (V3 (5 / 2) 0 0). split; unfold in_ball, dist2; cbn; lra.
  - assert (E : sphere_test_sphere (sphere_tester_of (Sphere origin 3)) (Sphere (V3 5 0 0) 3) = false) by (unfold sphere_test_sphere; apply leb_false; rewrite dist2_eq; unfold dist2; cbn; lra). split; exact E.
Qed.
(** The testers of a sphere and of its bounding box have the same corners. *)
Theorem C158_sphere_corners : forall s, t_smin (sphere_tester_of s) = t_min (box_tester_of (from_sphere s)) /\ t_smax (sphere_tester_of s) = t_max (box_tester_of (from_sphere s)).
Proof. intros s. split; apply v3_eq; cbn; ring. Qed.
(** The corners of the tester are those of the box: each of the eight, and nothing else. *)
Theorem C158_corners : forall b x, In x (t_corners (box_tester_of b)) <->
  (vx x = vx (center b) - vx (extents b) \/ vx x = vx (center b) + vx (extents b)) /\ (vy x = vy (center b) - vy (extents b) \/ vy x = vy (center b) + vy (extents b)) /\
  (vz x = vz (center b) - vz (extents b) \/ vz x = vz (center b) + vz (extents b)).
Proof.
  intros b x. unfold box_tester_of. cbn [t_corners]. destruct (corners_agree b) as [-> ->]. cbn [In]. split.
  - intros H. repeat (destruct H as [<-|H]; [cbn; split; [auto|]; split; auto|]). destruct H.
  - intros ([X|X] & [Y|Y] & [Z|Z]); destruct x as [x1 x2 x3]; cbn in X, Y, Z; subst;
      [left | do 6 right; left | do 4 right; left | do 5 right; left | do 1 right; left | do 3 right; left | do 2 right; left | do 7 right; left]; reflexivity.
Qed.

(** Inhabitants: a quarter turn with a factor of 2 and a shift, a plane and a box it moves; a tester that finds a triangle. *)
Definition turn : list (list R) := [[0; 2; 0; 0]; [- (2); 0; 0; 0]; [0; 0; 2; 0]; [5; 6; 7; 1]].
Example C157_turn : affine turn /\ similarity 2 turn /\ image turn (V3 1 0 0) = V3 5 8 7.
Proof.
  split; [unfold affine, turn; cbn; lra|]. split; [split; [lra|]; intros u v; rewrite !inner_eq; unfold linear, shifted, image, row_times, sum; cbn; ring|].
  apply v3_eq; unfold image, row_times, sum; cbn; ring.
Qed.
Example C157_moved : forall j, exists q, plane_transform j (Plane (V3 1 0 0) (- (3))) turn = Some q /\ on_plane q (V3 0 12 0).
Proof.
  intros j. destruct C157_turn as (A & S & _). destruct (C157_plane j (Plane (V3 1 0 0) (- (3))) turn 2 A S) as (q & E & _ & _ & O); [unfold is_unit; rewrite inner_eq; cbn; ring|].
  exists q. split; [exact E|]. replace (V3 0 12 0) with (image turn (V3 3 (5 / 2) (- (7) / 2))) by (apply v3_eq; unfold image, row_times, sum; cbn; field). apply O. unfold on_plane. rewrite inner_eq. cbn. ring.
Qed.
Example C157_turned_box : keeps_axes (Obb origin (V3 1 2 3) (V3 1 0 0) (V3 0 1 0) (V3 0 0 1)) turn.
Proof. split; [|split]; intros Z; [assert (Q := f_equal vy Z) | assert (Q := f_equal vx Z) | assert (Q := f_equal vz Z)]; unfold linear, shifted, image, row_times, sum in Q; cbn in Q; lra. Qed.
Example C158_found : box_test_tri_tester (box_tester_of (Box origin (V3 1 1 1))) (tri_tester_of (V3 (-5) 0 0) (V3 5 0 0) (V3 0 5 5)) = true.
Proof.
  assert (P : proper (Box origin (V3 1 1 1))) by (unfold proper; cbn; lra).
  apply (proj1 (proj2 (proj2 (proj2 (C158_box_tester _ P))))).
  - apply proper_cross. intros Z. assert (Q := f_equal vz Z). cbn in Q. lra.
  - exists origin. split; [unfold in_box; cbn; lra|]. exists (1 / 2), (1 / 2), 0. split; [lra|]. split; [lra|]. split; [lra|]. split; [lra|]. apply v3_eq; cbn; lra.
Qed.

Print Assumptions C157_plane.
Print Assumptions C157_plane_stretched_refuted.
Print Assumptions C157_plane_unnormalized_refuted.
Print Assumptions C157_obb_image.
Print Assumptions C157_obb_similarity.
Print Assumptions C157_obb_sheared_refuted.
Print Assumptions C157_obb_flat_refuted.
Print Assumptions C157_translate.
Print Assumptions C157_scale.
Print Assumptions C157_scale_sphere.
Print Assumptions C157_scale_negative_refuted.
Print Assumptions C158_box_tester.
Print Assumptions C158_sphere_tester.
Print Assumptions C158_spheres_refuted.
Print Assumptions C158_sphere_corners.
Print Assumptions C158_corners.
