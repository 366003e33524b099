(** Transformations: positions and directions (C60), projections (C59), orthonormalisation (C83) and frames (C84). *)
From Coq Require Import Reals List Lra Psatz Lia.
From Verif Require Import Words MatModel MatSpec MatProofs MatProps VecModel VecSpec VecProofs VecProps QuatModel QuatSpec QuatProofs QuatProofs2 QuatProps XformModel XformSpec XformProofs.
Import ListNotations.
Local Open Scope R_scope.

(** * C60 *)
(** A 4x4 matrix acts on points in homogeneous coordinates; on the plane where the fourth coordinate vanishes nothing is said. *)
Theorem C60_homogeneous : forall j m p, row_times m 3 p <> 0 -> projects m p (transform_position j 4 4 m p).
Proof.
  intros j m p N. exists (row_times m 3 p). split; [exact N|split; [reflexivity|]]. intros i H. rewrite (tp4_comp j m p i H). unfold weight. field. exact N.
Qed.
Print Assumptions C60_homogeneous.
(** The other two shapes. *)
Theorem C60_other_shapes : forall j m p, (forall i, (i < 3)%nat -> comp (transform_position j 3 4 m p) i = row_times m i p) /\
  (forall i, (i < 3)%nat -> comp (transform_position j 3 3 m p) i = get R_ops m i 0 * vx p + get R_ops m i 1 * vy p + get R_ops m i 2 * vz p).
Proof.
  intros j m p. split; intros i H.
  - rewrite row_times_eq. destruct i as [|[|[|i]]]; [| | |lia]; unfold transform_position; cbn [Nat.eqb comp vx vy vz]; ring.
  - destruct i as [|[|[|i]]]; [| | |lia]; reflexivity.
Qed.
Print Assumptions C60_other_shapes.
(** Applying a product is applying the right factor, then the left one; no hypothesis but that no fourth coordinate vanishes. *)
Theorem C60_composes : forall j A B p, row_times B 3 p <> 0 -> row_times A 3 (transform_position j 4 4 B p) <> 0 ->
  transform_position j 4 4 (mat_mul R_ops j 4 4 4 A B) p = transform_position j 4 4 A (transform_position j 4 4 B p).
Proof. exact tp4_mul. Qed.
Print Assumptions C60_composes.
Theorem C60_affine_composes : forall j A B, affine A -> affine B -> affine (mat_mul R_ops j 4 4 4 A B) /\
  (forall p, transform_position j 4 4 (mat_mul R_ops j 4 4 4 A B) p = transform_position j 4 4 A (transform_position j 4 4 B p)) /\
  (forall p q, transform_without_translating A (sub3 q p) = sub3 (transform_position j 4 4 A q) (transform_position j 4 4 A p)).
Proof.
  intros j A B HA HB. split; [apply affine_mul; assumption|split].
  - intros p. apply tp4_mul; rewrite weight_affine by assumption; lra.
  - intros p q. rewrite !tp4_eq, !(weight_affine A) by exact HA. rewrite !row_times_eq. apply QuatProofs.v3_eq; cbn; field.
Qed.
Print Assumptions C60_affine_composes.
Theorem C60_linear_composes : forall j A B p,
  transform_position j 3 3 (mat_mul R_ops j 3 3 3 A B) p = transform_position j 3 3 A (transform_position j 3 3 B p).
Proof.
  intros j A B p. unfold transform_position. cbn [Nat.eqb]. unfold mat_vec, mat_mul. cbn [Nat.eqb andb]. unfold col_3x3, mul_3x3. set (a := get R_ops A). set (b := get R_ops B).
  unfold get, MatModel.at_. apply QuatProofs.v3_eq; cbn; ring.
Qed.
Print Assumptions C60_linear_composes.
(** The inverse matrix takes the point back. *)
Theorem C60_inverse : forall j A d p, determinant R_ops 4 A = Some d -> d <> 0 -> row_times A 3 p <> 0 ->
  exists B, invert R_ops 4 A = Some B /\ transform_position j 4 4 B (transform_position j 4 4 A p) = p.
Proof.
  intros j A d p D N W. destruct (C55_inverse R_ops R_field 4 j A d ltac:(lia) D N) as [B H]. exists B. split; [apply H|].
  assert (BA : mat_mul R_ops j 4 4 4 B A = identity R_ops 4 4) by apply H.
  assert (W' : row_times (mat_mul R_ops j 4 4 4 B A) 3 p = weight A p * row_times B 3 (transform_position j 4 4 A p)) by (apply row_mul_scaled; [lia|exact W]).
  rewrite BA, row_identity in W' by lia. cbn [comp] in W'.
  rewrite <- tp4_mul; [rewrite BA; apply tp_identity; right; right; split; reflexivity|exact W|]. unfold weight. intros Z. rewrite Z in W'. lra.
Qed.
Print Assumptions C60_inverse.
(** Constructors. *)
Theorem C60_translation : forall j rows x y z p, rows = 3%nat \/ rows = 4%nat ->
  transform_position j rows 4 (from_3d_translation rows 4 x y z) p = add3 p (V3 x y z) /\
  transform_without_translating (from_3d_translation rows 4 x y z) p = p.
Proof.
  intros j rows x y z p [->| ->]; (split; [unfold transform_position; cbn; apply QuatProofs.v3_eq; cbn; field|apply QuatProofs.v3_eq; cbn; ring]).
Qed.
Print Assumptions C60_translation.
Theorem C60_scale : forall j rows cols x y z p, shape rows cols ->
  transform_position j rows cols (from_3d_scale rows cols x y z) p = V3 (x * vx p) (y * vy p) (z * vz p) /\
  transform_position j rows cols (from_2d_scale rows cols x y) p = V3 (x * vx p) (y * vy p) (vz p) /\
  extract_3d_scale (from_3d_scale rows cols x y z) = V3 (Rabs x) (Rabs y) (Rabs z).
Proof.
  intros j rows cols x y z p Sh.
  assert (L : forall a b c, length3 (V3 a b c) = sqrt (Rsqr a + Rsqr b + Rsqr c)) by (intros; reflexivity).
  destruct Sh as [[-> ->]|[[-> ->]|[-> ->]]]; (split; [unfold transform_position; cbn; apply QuatProofs.v3_eq; cbn; field|split; [unfold transform_position; cbn; apply QuatProofs.v3_eq; cbn; field|]]);
    unfold extract_3d_scale, column3; cbn [from_3d_scale]; rewrite !L; cbv [from_3d_scale identity set]; cbn; f_equal; rewrite <- sqrt_Rsqr_abs; f_equal; unfold Rsqr; ring.
Qed.
Print Assumptions C60_scale.
(** A rotation matrix of any shape moved into any shape does what its upper left part did, without its translation. *)
Theorem C60_rotation : forall j rows cols r c rot p, shape rows cols -> shape r c -> dims r c rot ->
  transform_position j rows cols (from_3d_rotation rows cols r c rot) p = transform_without_translating rot p.
Proof.
  intros j rows cols r c rot p Sh Sh' _.
  destruct Sh as [[-> ->]|[[-> ->]|[-> ->]]], Sh' as [[-> ->]|[[-> ->]|[-> ->]]]; unfold from_3d_rotation, convert, transform_position, transform_without_translating; cbn [Nat.eqb andb Nat.leb];
    apply QuatProofs.v3_eq; unfold rget; set (G := get R_ops rot); cbn; (reflexivity || field).
Qed.
Print Assumptions C60_rotation.
(** A direction keeps its length and points where the matrix sends it. *)
Theorem C60_direction : forall m v, transform_without_translating m v <> origin ->
  length3 (transform_direction m v) = length3 v /\ exists l, 0 <= l /\ transform_direction m v = scale3 (transform_without_translating m v) l /\ (v <> origin -> 0 < l).
Proof.
  intros m v N. set (w := transform_without_translating m v) in *. destruct (normalize3_scale w N) as [l [P [E [F U]]]]. unfold transform_direction. fold w.
  destruct (length3_sqr v) as [A B]. split.
  - destruct (length3_sqr (scale3 (normalize3 w) (length3 v))) as [C D]. apply Rsqr_inj; [exact D|exact B|]. unfold Rsqr. rewrite C.
    transitivity (inner3 (normalize3 w) (normalize3 w) * (length3 v * length3 v)); [rewrite !inner3_eq; cbn; ring|rewrite U; ring].
  - exists (1 / l * length3 v). assert (Q : 0 < 1 / l) by (apply Rdiv_lt_0_compat; lra). split; [apply Rmult_le_pos; lra|]. split.
    + rewrite F. apply QuatProofs.v3_eq; cbn; ring.
    + intros H. apply Rmult_lt_0_compat; [exact Q|apply nonzero_length, H].
Qed.
Print Assumptions C60_direction.
(** The scale of a rotation, scaled first: its absolute value, whatever the translation. *)
Theorem C60_scale_of_product : forall j q x y z, unit q ->
  extract_3d_scale (mat_mul R_ops j 3 3 3 (mat_of_quat 3 3 q) (from_3d_scale 3 3 x y z)) = V3 (Rabs x) (Rabs y) (Rabs z).
Proof.
  intros j q x y z U. unfold extract_3d_scale.
  assert (L : forall v s u, inner3 v v = 1 -> u = scale3 v s -> length3 u = Rabs s).
  { intros v s u V ->. unfold length3. rewrite <- sqrt_Rsqr_abs. f_equal. unfold Rsqr, length_squared3. cbn.
    rewrite inner3_eq in V. transitivity ((vx v * vx v + vy v * vy v + vz v * vz v) * (s * s)); [ring|rewrite V; ring]. }
  assert (X : forall v, inner3 (rotate q v) (rotate q v) = inner3 v v) by (intros v; apply rotate_inner; exact U).
  f_equal; [apply (L (rotate q x_axis))|apply (L (rotate q y_axis))|apply (L (rotate q z_axis))]; try (rewrite X, inner3_eq; cbn; ring);
    unfold column3, rget; apply QuatProofs.v3_eq; cbn; ring.
Qed.
Print Assumptions C60_scale_of_product.
Example C60_witness : affine (from_3d_translation 4 4 1 2 3) /\ row_times (perspective_projection DirectX Right 1 1 1 2) 3 (V3 0 0 (-1)) <> 0 /\
  determinant R_ops 4 (from_3d_scale 4 4 2 3 4) <> None.
Proof. split; [repeat split|split; [rewrite row_times_eq; cbn; lra|discriminate]]. Qed.

(** * C59 *)
Section Projection.
  Variables (fov aspect near far : R).
  Hypotheses (Hf : 0 < fov < PI) (Ha : 0 < aspect) (Hnf : near < far).

  Lemma tan_half_pos : 0 < tan (fov / 2).
  Proof. apply tan_gt_0; lra. Qed.

  Lemma right_projection : forall j a p, 0 < ahead Right p ->
    let q := transform_position j 4 4 (perspective_projection a Right fov aspect near far) p in
    let d := ahead Right p in let t := d * tan (fov / 2) in
    vx q = vx p / (aspect * t) /\ vy q = vy p / t /\
    vz q = match a with DirectX => far * (d - near) / (d * (far - near)) | OpenGL => (d * (far + near) - 2 * far * near) / (d * (far - near)) end.
  Proof.
    intros j a p P q d t. pose proof tan_half_pos as T. cbn [ahead] in P. unfold q, d, t, transform_position, perspective_projection. cbn [ahead].
    assert (Q1 : far - near <> 0) by lra. assert (Q2 : near - far <> 0) by lra. assert (Q3 : vz p <> 0) by lra.
    destruct a; cbn; repeat split; field; repeat split; try lra; assumption.
  Qed.
End Projection.

(** Right-handed, both interfaces: exactly the points of the view frustum (among those in front of the camera) go to the clip volume; the near
    plane goes to the smallest depth, the far plane to 1, and depth grows with distance. *)
Theorem C59_right_handed_partial : forall j a fov aspect near far, 0 < fov < PI -> 0 < aspect -> 0 < near -> near < far ->
  let M := perspective_projection a Right fov aspect near far in
  (forall p, 0 < ahead Right p -> (in_frustum Right fov aspect near far p <-> in_clip_volume a (transform_position j 4 4 M p))) /\
  (forall p, ahead Right p = near -> vz (transform_position j 4 4 M p) = depth_min a) /\
  (forall p, ahead Right p = far -> vz (transform_position j 4 4 M p) = 1) /\
  (forall p q, 0 < ahead Right p < ahead Right q -> vz (transform_position j 4 4 M p) < vz (transform_position j 4 4 M q)).
Proof.
  intros j a fov aspect near far Hf Ha Hn Hnf M. pose proof (tan_half_pos fov Hf) as T.
  assert (RP := right_projection fov aspect near far Hf Ha Hnf j a). cbv zeta in RP. fold M in RP.
  assert (DIV : forall u v, 0 < v -> (-1 <= u / v <= 1 <-> Rabs u <= v)).
  { intros u v V. split; intros H.
    - apply Rabs_le. assert (E : u = u / v * v) by (field; lra). rewrite E. nra.
    - assert (E : - v <= u <= v) by (unfold Rabs in H; destruct (Rcase_abs u); lra). split; [apply (Rmult_le_reg_r v); [exact V|]|apply (Rmult_le_reg_r v); [exact V|]]; replace (u / v * v) with u by (field; lra); lra. }
  assert (LE : forall u v c, 0 < v -> (c <= u / v <-> c * v <= u) /\ (u / v <= c <-> u <= c * v)).
  { intros u v c V. assert (E : u / v * v = u) by (field; lra).
    split; split; intros H.
    - rewrite <- E. apply Rmult_le_compat_r; lra.
    - apply (Rmult_le_reg_r v); [exact V|]. rewrite E. exact H.
    - rewrite <- E. apply Rmult_le_compat_r; lra.
    - apply (Rmult_le_reg_r v); [exact V|]. rewrite E. exact H. }
  split; [|split; [|split]].
  - intros p P. destruct (RP p P) as [X [Y Z]]. set (q := transform_position j 4 4 M p) in *. set (d := ahead Right p) in *. set (t := tan (fov / 2)) in *.
    assert (DT : 0 < d * t) by (apply Rmult_lt_0_compat; assumption). assert (ADT : 0 < aspect * (d * t)) by (apply Rmult_lt_0_compat; assumption).
    unfold in_frustum, in_clip_volume. fold d t. rewrite X, Y, Z, !DIV by assumption.
    assert (DF : 0 < d * (far - near)) by (apply Rmult_lt_0_compat; lra).
    assert (ZZ : depth_min a <= match a with DirectX => far * (d - near) / (d * (far - near)) | OpenGL => (d * (far + near) - 2 * far * near) / (d * (far - near)) end <= 1 <-> near <= d <= far).
    { destruct a; cbn [depth_min].
      - destruct (LE (far * (d - near)) _ 0 DF) as [-> _]. destruct (LE (far * (d - near)) _ 1 DF) as [_ ->]. split; intros [A B]; split; nra.
      - destruct (LE (d * (far + near) - 2 * far * near) _ (-1) DF) as [-> _]. destruct (LE (d * (far + near) - 2 * far * near) _ 1 DF) as [_ ->]. split; intros [A B]; split; nra. }
    rewrite ZZ. tauto.
  - intros p E. destruct (RP p ltac:(lra)) as [_ [_ ->]]. rewrite E. destruct a; cbn; field; lra.
  - intros p E. destruct (RP p ltac:(lra)) as [_ [_ ->]]. rewrite E. destruct a; field; lra.
  - intros p q [P L]. destruct (RP p P) as [_ [_ ->]]. destruct (RP q ltac:(lra)) as [_ [_ ->]]. set (d := ahead Right p) in *. set (e := ahead Right q) in *.
    assert (I : / e < / d) by (apply Rinv_lt_contravar; [apply Rmult_lt_0_compat|]; lra).
    assert (K : 0 < far * near / (far - near)) by (apply Rdiv_lt_0_compat; [apply Rmult_lt_0_compat|]; lra).
    destruct a.
    + replace (far * (d - near) / (d * (far - near))) with (far / (far - near) - far * near / (far - near) * / d) by (field; lra).
      replace (far * (e - near) / (e * (far - near))) with (far / (far - near) - far * near / (far - near) * / e) by (field; lra). nra.
    + replace ((d * (far + near) - 2 * far * near) / (d * (far - near))) with ((far + near) / (far - near) - 2 * (far * near / (far - near)) * / d) by (field; lra).
      replace ((e * (far + near) - 2 * far * near) / (e * (far - near))) with ((far + near) / (far - near) - 2 * (far * near / (far - near)) * / e) by (field; lra). nra.
Qed.
Print Assumptions C59_right_handed_partial.
(** Left-handed: with DirectX the whole view frustum goes to negative depths (the sign of an entry is wrong), with OpenGL the depths come out
    reversed. *)
Theorem C59_left_handed_refuted : forall j fov aspect near far, 0 < near -> near < far -> forall p,
  (near <= ahead Left p <= far -> vz (transform_position j 4 4 (perspective_projection DirectX Left fov aspect near far) p) < 0) /\
  (ahead Left p = near -> vz (transform_position j 4 4 (perspective_projection OpenGL Left fov aspect near far) p) = 1) /\
  (ahead Left p = far -> vz (transform_position j 4 4 (perspective_projection OpenGL Left fov aspect near far) p) = -1).
Proof.
  intros j fov aspect near far Hn Hnf p. cbn [ahead]. unfold transform_position, perspective_projection, rget, get, MatModel.at_. cbn [Nat.eqb nth R_ops zero vz vx vy].
  split; [|split].
  - intros H. match goal with |- ?x < 0 => replace x with (- (far * (vz p + near) / (vz p * (far - near)))) by (field; lra) end.
    apply Ropp_lt_gt_0_contravar, Rdiv_lt_0_compat; apply Rmult_lt_0_compat; lra.
  - intros ->. field. lra.
  - intros ->. field. lra.
Qed.
Print Assumptions C59_left_handed_refuted.
(** The overload for a screen size forgets the mode. *)
Theorem C59_screen_size_refuted : forall fov x y near far, 0 < near < far ->
  (forall a h, perspective_projection_screen a h fov x y near far = perspective_projection DirectX Right fov (x / y) near far) /\
  perspective_projection_screen OpenGL Right fov x y near far <> perspective_projection OpenGL Right fov (x / y) near far /\
  perspective_projection_screen DirectX Left fov x y near far <> perspective_projection DirectX Left fov (x / y) near far.
Proof.
  intros fov x y near far H. split; [reflexivity|]. unfold perspective_projection_screen, perspective_projection. split; intros E; injection E.
  - intros E1 E2. assert (Q : far * near / (far - near) = 0).
    { transitivity (near * far / (near - far) - -2 * far * near / (far - near)); [field; lra|lra]. }
    assert (0 < far * near / (far - near)) by (apply Rdiv_lt_0_compat; [apply Rmult_lt_0_compat|]; lra). lra.
  - intros; lra.
Qed.
Print Assumptions C59_screen_size_refuted.
Example C59_witness : 0 < 1 < PI /\ in_frustum Right (PI / 2) 2 1 10 (V3 3 (-1) (-2)).
Proof.
  pose proof PI2_3_2. split; [lra|]. unfold in_frustum. cbn [ahead vx vy vz]. replace (PI / 2 / 2) with (PI / 4) by field. rewrite tan_PI4.
  rewrite (Rabs_left (-1)), (Rabs_pos_eq 3) by lra. lra.
Qed.

(** * C83: orthonormalize *)
Theorem C83_orthonormalize : forall rows cols m, shape rows cols -> dims rows cols m ->
  let x := column3 m 0 in let y := column3 m 1 in let z := column3 m 2 in triple x y z <> 0 ->
  let out := orthonormalize rows m in let X := column3 out 0 in let Y := column3 out 1 in let Z := column3 out 2 in
  dims rows cols out /\ orthonormal X Y Z /\
  (exists a b c u v w, 0 < a /\ 0 < b /\ 0 < c /\ x = scale3 X a /\ y = add3 (scale3 X u) (scale3 Y b) /\ z = add3 (add3 (scale3 X v) (scale3 Y w)) (scale3 Z c)) /\
  (0 < triple x y z -> triple X Y Z = 1) /\ (triple x y z < 0 -> triple X Y Z = -1) /\
  (forall r c, (3 <= r)%nat \/ (3 <= c)%nat -> get R_ops out r c = get R_ops m r c).
Proof.
  intros rows cols m Sh D x y z T out X Y Z.
  assert (B : (3 <= rows)%nat /\ (3 <= cols)%nat) by (destruct Sh as [[-> ->]|[[-> ->]|[-> ->]]]; lia). destruct B as [B1 B2].
  destruct (orthonormalize_columns rows cols m D B1 B2) as [D' [K [E1 [E2 E3]]]]. destruct (gram_schmidt x y z T) as [O [a [b [c (Pa & Pb & Pc & Ex & Ey & Ez & Et)]]]].
  unfold X, Y, Z, out. rewrite E1, E2, E3. fold x y z. split; [exact D'|]. split; [exact O|]. split.
  - exists a, b, c. do 3 eexists. split; [exact Pa|split; [exact Pb|split; [exact Pc|split; [exact Ex|split; [exact Ey|exact Ez]]]]].
  - destruct (orthonormal_triple _ _ _ O) as [V|V]; rewrite V in *; (assert (Q : 0 < a * b * c) by (repeat apply Rmult_lt_0_compat; assumption));
      (split; [intros; lra || reflexivity|split; [intros; lra || reflexivity|exact K]]).
Qed.
Print Assumptions C83_orthonormalize.
(** An orthonormal matrix stays as it is. *)
Theorem C83_fixed : forall rows cols m, shape rows cols -> dims rows cols m -> orthonormal (column3 m 0) (column3 m 1) (column3 m 2) -> orthonormalize rows m = m.
Proof.
  intros rows cols m Sh D O. assert (B : (3 <= rows)%nat /\ (3 <= cols)%nat) by (destruct Sh as [[-> ->]|[[-> ->]|[-> ->]]]; lia). destruct B as [B1 B2].
  destruct (orthonormalize_columns rows cols m D B1 B2) as [D' [K [E1 [E2 E3]]]]. set (out := orthonormalize rows m) in *. destruct O as (XX & YY & ZZ & XY & XZ & YZ).
  set (x := column3 m 0) in *. set (y := column3 m 1) in *. set (z := column3 m 2) in *.
  assert (W : forall v w, inner3 v w = 0 -> without v w = v) by (intros v w E; unfold without; rewrite E; apply QuatProofs.v3_eq; cbn; ring).
  assert (NX : normalize3 x = x) by (apply normalize3_unit; exact XX). assert (NY : normalize3 y = y) by (apply normalize3_unit; exact YY). assert (NZ : normalize3 z = z) by (apply normalize3_unit; exact ZZ).
  assert (YX : inner3 y x = 0) by (rewrite inner3_sym; exact XY). assert (ZX : inner3 z x = 0) by (rewrite inner3_sym; exact XZ). assert (ZY : inner3 z y = 0) by (rewrite inner3_sym; exact YZ).
  rewrite NX in *. rewrite (W y x YX) in *. rewrite NY in *. rewrite (W z x ZX) in *. rewrite (W z y ZY) in *. rewrite NZ in *.
  apply (mat_ext R_ops rows cols); [exact D'|exact D|]. intros r c R C.
  destruct (le_lt_dec 3 r) as [H|H]; [apply K; left; exact H|]. destruct (le_lt_dec 3 c) as [H'|H']; [apply K; right; exact H'|].
  destruct c as [|[|[|c]]]; [rename E1 into E|rename E2 into E|rename E3 into E|lia]; unfold x, y, z, column3, rget in E; injection E as F1 F2 F3; destruct r as [|[|[|r]]]; (assumption || lia).
Qed.
Print Assumptions C83_fixed.
(** So it does nothing the second time, and leaves no shear. *)
Theorem C83_no_shear : forall m, orthonormal (column3 m 0) (column3 m 1) (column3 m 2) -> has_3d_shear m = false.
Proof.
  intros m (XX & YY & ZZ & XY & XZ & YZ). unfold has_3d_shear. rewrite !normalize3_unit by assumption.
  assert (E : forall v w, dot3 v w = inner3 v w) by (intros; rewrite inner3_eq; reflexivity). rewrite !E, XY, XZ, YZ. unfold approx_equal. rewrite Rminus_0_r, Rabs_R0.
  destruct (Rlt_dec 0 (1 / 1000)); [reflexivity|lra].
Qed.
Print Assumptions C83_no_shear.
Example C83_witness : triple (V3 2 0 0) (V3 1 3 0) (V3 5 6 7) <> 0 /\ dims 4 4 (from_3d_scale 4 4 2 3 4).
Proof. split; [unfold triple; cbn; lra|]. split; [reflexivity|]. intros col H. cbn in H. repeat (destruct H as [<-|H]; [reflexivity|]). destruct H. Qed.

(** * C84: from_3d_direction *)
(** For a unit direction: a right-handed orthonormal frame that looks along the direction; unless the direction is (nearly) vertical its
    x axis is horizontal and its y axis not upside down. *)
Theorem C84_direction : forall eps rows cols dir, 0 < eps <= 1 / 2 -> shape rows cols -> inner3 dir dir = 1 ->
  let m := from_3d_direction eps rows cols dir in
  orthonormal (column3 m 0) (column3 m 1) (column3 m 2) /\ triple (column3 m 0) (column3 m 1) (column3 m 2) = 1 /\
  transform_without_translating m (V3 0 0 (-1)) = dir /\
  (eps <= Rabs (-1 - vy dir) -> eps <= Rabs (1 - vy dir) -> vy (column3 m 0) = 0 /\ 0 < vy (column3 m 1)).
Proof.
  intros eps rows cols dir He Sh U m.
  assert (CO : forall x y z k, column3 (from_axes rows cols x y z) k = match k with 0%nat => x | 1%nat => y | 2%nat => z | _ => column3 (from_axes rows cols x y z) k end).
  { intros [x1 x2 x3] [y1 y2 y3] [z1 z2 z3] k. destruct Sh as [[-> ->]|[[-> ->]|[-> ->]]]; destruct k as [|[|[|k]]]; reflexivity. }
  unfold m, from_3d_direction. set (z := neg3 dir). set (y0 := if approx_equal _ _ _ then _ else _).
  assert (UZ : inner3 z z = 1) by (rewrite <- U; unfold z; rewrite !inner3_eq; cbn; ring).
  rewrite inner3_eq in U.
  assert (ABS : forall t, Rabs t < eps -> - eps < t < eps) by (intros t; unfold Rabs; destruct (Rcase_abs t); lra).
  assert (N : cross y0 z <> origin).
  { unfold y0, approx_equal. destruct (Rlt_dec (Rabs (-1 - vy dir)) eps) as [H|H].
    - apply ABS in H. intros E. apply (f_equal vx) in E. unfold z in E. cbn in E. lra.
    - destruct (Rlt_dec (Rabs (1 - vy dir)) eps) as [H'|H'].
      + apply ABS in H'. intros E. apply (f_equal vx) in E. unfold z in E. cbn in E. lra.
      + intros E. assert (E1 := f_equal vx E). assert (E2 := f_equal vz E). unfold z in E1, E2. cbn in E1, E2.
        assert (Z0 : vz dir = 0) by lra. assert (X0 : vx dir = 0) by lra. rewrite Z0, X0 in U.
        assert (Q : (vy dir - 1) * (vy dir + 1) = 0) by lra. apply Rmult_integral in Q. destruct Q as [Q|Q].
        * apply H'. replace (1 - vy dir) with 0 by lra. rewrite Rabs_R0. lra.
        * apply H. replace (-1 - vy dir) with 0 by lra. rewrite Rabs_R0. lra. }
  set (x := normalize3 (cross y0 z)).
  destruct (normalize3_scale (cross y0 z) N) as [l [Pl [El [Fl UX]]]]. fold x in El, Fl, UX.
  assert (XZ : inner3 x z = 0) by (apply normalize3_facts; [exact N|rewrite inner3_eq; cbn; ring]).
  assert (CC : inner3 (cross z x) (cross z x) = 1) by (rewrite lagrange, UZ, UX, (inner3_sym z x), XZ; ring).
  assert (NY : normalize3 (cross z x) = cross z x) by (apply normalize3_unit; exact CC). rewrite NY.
  rewrite !CO.
  assert (O : orthonormal x (cross z x) z).
  { repeat split; [exact UX|exact CC|exact UZ|rewrite inner3_eq; cbn; ring|exact XZ|rewrite inner3_eq; cbn; ring]. }
  split; [exact O|]. split; [|split].
  - rewrite triple_cross. transitivity (inner3 x x * inner3 z z - inner3 x z * inner3 x z); [rewrite !inner3_eq; cbn; ring|rewrite UX, UZ, XZ; ring].
  - assert (Cz : column3 (from_axes rows cols x (cross z x) z) 2 = z) by (exact (CO x (cross z x) z 2%nat)). set (M := from_axes rows cols x (cross z x) z) in *. clearbody M.
    apply QuatProofs.v3_eq; [apply (f_equal vx) in Cz|apply (f_equal vy) in Cz|apply (f_equal vz) in Cz]; unfold z in Cz; cbn [column3 vx vy vz neg3] in Cz;
      unfold transform_without_translating; cbn [vx vy vz]; lra.
  - intros H1 H2. unfold y0, approx_equal in El, Fl. destruct (Rlt_dec (Rabs (-1 - vy dir)) eps); [lra|]. destruct (Rlt_dec (Rabs (1 - vy dir)) eps); [lra|].
    assert (XY : vy x = 0) by (rewrite Fl; cbn; ring). split; [exact XY|].
    assert (X1 := f_equal vx Fl). assert (X3 := f_equal vz Fl). cbn in X1, X3. cbn. rewrite X1, X3.
    assert (X2 := El). apply (f_equal (fun v => inner3 v v)) in X2.
    assert (Q : inner3 (scale3 x l) (scale3 x l) = l * l) by (transitivity (inner3 x x * (l * l)); [rewrite !inner3_eq; cbn; ring|rewrite UX; ring]). rewrite Q, inner3_eq in X2. cbn in X2.
    match goal with |- 0 < ?e => replace e with ((l * l) * (1 / l)) by (rewrite <- X2; ring) end. replace (l * l * (1 / l)) with l by (field; lra). exact Pl.
Qed.
Print Assumptions C84_direction.
Example C84_witness : inner3 (V3 (2 / 3) (1 / 3) (-2 / 3)) (V3 (2 / 3) (1 / 3) (-2 / 3)) = 1.
Proof. rewrite inner3_eq. cbn. field. Qed.
