(** Quaternions: product, rotation, conversions and interpolation (C57, C58, C80, C81, C82). *)
From Coq Require Import Reals List Lra Psatz Ratan.
From Verif Require Import Words MatModel VecModel VecSpec VecProofs VecProps QuatModel QuatSpec QuatProofs QuatProofs2.
Import ListNotations.
Local Open Scope R_scope.

(** * C57 *)
Theorem C57_product : (forall p q, coords (qmul p q) = hamilton (coords p) (coords q)) /\
  (forall p q r, qmul (qmul p q) r = qmul p (qmul q r)) /\ (forall p q, norm2 (qmul p q) = norm2 p * norm2 q) /\
  (forall q, qmul (Quat 1 origin) q = q /\ qmul q (Quat 1 origin) = q) /\
  (forall q, qmul q (conjugate q) = Quat (norm2 q) origin /\ qmul (conjugate q) q = Quat (norm2 q) origin).
Proof.
  split; [exact qmul_hamilton|split; [exact qmul_assoc|split; [exact norm2_mul|split; [|exact qmul_conj]]]].
  intros q. split; apply quat_eq; cbn; unfold dot3; cbn; ring.
Qed.
Print Assumptions C57_product.
Theorem C57_normalize : forall q, norm2 q <> 0 -> unit (qnormalize q) /\ exists l, 0 < l /\ q = Quat (qs (qnormalize q) * l) (scale3 (qv (qnormalize q)) l).
Proof. exact normalize_unit. Qed.
Print Assumptions C57_normalize.
(** Rotation is conjugation, the matrix does the same, and composition is multiplication. *)
Theorem C57_rotate : forall q v, unit q -> qmul (qmul q (Quat 0 v)) (conjugate q) = Quat 0 (rotate q v) /\
  (forall j, mat_vec R_ops j 3 3 (mat_of_quat 3 3 q) (l3 v) = l3 (rotate q v)) /\
  (forall p, unit p -> rotate (qmul p q) v = rotate p (rotate q v)) /\
  rotate (conjugate q) (rotate q v) = v /\ rotate q (rotate (conjugate q) v) = v.
Proof. intros q v U. split; [apply rotate_sandwich, U|split; [intros; apply mat_rotate|split; [intros; apply rotate_compose; assumption|apply rotate_conj, U]]]. Qed.
Print Assumptions C57_rotate.
(** It is a rigid motion: lengths, angles and orientation stay. *)
Theorem C57_rigid : forall q v w, unit q -> inner3 (rotate q v) (rotate q w) = inner3 v w /\ cross (rotate q v) (rotate q w) = rotate q (cross v w).
Proof. intros q v w U. split; [apply rotate_inner, U|apply rotate_cross, U]. Qed.
Print Assumptions C57_rigid.
(** Quaternion to matrix and back gives the same rotation, for each of the three matrix shapes and each branch. *)
Theorem C57_matrix_round_trip : forall rows cols q, (rows = 3 /\ cols = 3 \/ rows = 3 /\ cols = 4 \/ rows = 4 /\ cols = 4)%nat -> unit q ->
  same_rotation (quat_of_mat (mat_of_quat rows cols q)) q.
Proof. exact quat_of_mat_of_quat. Qed.
Print Assumptions C57_matrix_round_trip.
Theorem C57_same_rotation : forall p q, unit p -> unit q -> (same_rotation p q <-> forall v, rotate p v = rotate q v).
Proof.
  intros p q P Q. split.
  - intros [->| ->] v; [reflexivity|]. apply QuatProofs.v3_eq; cbn; ring.
  - intros H. apply same_matrix_same; [exact P|exact Q|].
    assert (X := mat_rotate 0 p x_axis). assert (X' := mat_rotate 0 q x_axis). assert (Y := mat_rotate 0 p y_axis). assert (Y' := mat_rotate 0 q y_axis).
    assert (Z := mat_rotate 0 p z_axis). assert (Z' := mat_rotate 0 q z_axis). rewrite H, <- X' in X. rewrite H, <- Y' in Y. rewrite H, <- Z' in Z. clear X' Y' Z'.
    unfold mat_vec, mat_of_quat, l3 in X, Y, Z. cbn [Nat.eqb andb repeat Nat.sub app get MatModel.at_ nth add mul R_ops x_axis y_axis z_axis vx vy vz] in X, Y, Z.
    injection X as X1 X2 X3. injection Y as Y1 Y2 Y3. injection Z as Z1 Z2 Z3.
    unfold get, MatModel.at_ in *. cbn [nth] in *. unfold mat_of_quat. cbn [Nat.eqb andb repeat Nat.sub app].
    f_equal; [f_equal; [lra|f_equal; [lra|f_equal; lra]]|f_equal; [f_equal; [lra|f_equal; [lra|f_equal; lra]]|f_equal; f_equal; [lra|f_equal; [lra|f_equal; lra]]]].
Qed.
Print Assumptions C57_same_rotation.
Example C57_witness : unit (Quat (3 / 5) (V3 0 (4 / 5) 0)) /\ unit (Quat 0 (V3 (-3 / 5) 0 (4 / 5))).
Proof. unfold unit, norm2. cbn. split; field. Qed.

(** * C58 *)
(** For vectors of equal length the quaternion is unit and rotates one onto the other; vectors closer to opposite than the tolerance
    give a half turn, that is the opposite of [from], which is then near [to]. *)
Theorem C58_equal_lengths_partial : forall eps from to k, 0 < eps -> 0 < k -> inner3 from from = k -> inner3 to to = k ->
  let q := from_rotation eps from to in
  unit q /\ (eps * k <= inner3 from to + k -> rotate q from = to) /\
  (inner3 from to + k < eps * k -> rotate q from = neg3 from /\ inner3 (sub3 (rotate q from) to) (sub3 (rotate q from) to) < 2 * eps * k).
Proof.
  intros eps f t k E K F T q. assert (D : dot3 f t = inner3 f t) by (rewrite inner3_eq; unfold dot3; ring).
  assert (LK : sqrt (length_squared3 f * length_squared3 f) = k).
  { replace (length_squared3 f) with k by (rewrite <- F; unfold length_squared3, inner3, l3; cbn; ring). apply sqrt_square. lra. }
  assert (CS : 0 <= inner3 f t + k).
  { assert (0 <= inner3 (add3 f t) (add3 f t)) as X by (rewrite inner3_eq; nra). replace (inner3 (add3 f t) (add3 f t)) with (inner3 f f + 2 * inner3 f t + inner3 t t) in X by (rewrite !inner3_eq; cbn; ring). lra. }
  assert (NZ : f <> origin) by (intros ->; rewrite inner3_eq in F; cbn in F; lra).
  destruct (C56_orthogonal f) as [P1 [_ P2]]. destruct (normalize3_facts (orthogonal f) (P2 NZ)) as [O1 O2].
  assert (APX : approx_equal (inner3 f t / k) (-1) eps = true <-> inner3 f t + k < eps * k).
  { unfold approx_equal. assert (EQ : Rabs (-1 - inner3 f t / k) = (inner3 f t + k) / k).
    { rewrite Rabs_minus_sym, Rabs_pos_eq; [field; lra|]. replace (inner3 f t / k - -1) with ((inner3 f t + k) / k) by (field; lra). apply Rle_mult_inv_pos; lra. }
    rewrite EQ. assert (IFF : (inner3 f t + k) / k < eps <-> inner3 f t + k < eps * k).
    { split; intros H; [apply (Rmult_lt_reg_r (/ k)); [apply Rinv_0_lt_compat, K|]; replace (eps * k * / k) with eps by (field; lra); exact H|].
      apply (Rmult_lt_reg_r k); [exact K|]. replace ((inner3 f t + k) / k * k) with (inner3 f t + k) by (field; lra). exact H. }
    destruct (Rlt_dec _ _) as [H|H]; rewrite <- IFF; split; intros; congruence || assumption || lra || contradiction. }
  unfold q, from_rotation. rewrite D, LK. destruct (approx_equal _ _ _) eqn:A.
  - assert (A' := proj1 APX eq_refl). split; [unfold unit; rewrite norm2_split; cbn [qs qv]; rewrite O1; ring|]. split; [intros H; lra|intros _].
    assert (R1 : rotate (Quat 0 (normalize3 (orthogonal f))) f = neg3 f) by (apply half_turn; [exact O1|apply O2, P1]).
    split; [exact R1|]. rewrite R1. replace (inner3 (sub3 (neg3 f) t) (sub3 (neg3 f) t)) with (inner3 f f + 2 * inner3 f t + inner3 t t) by (rewrite !inner3_eq; cbn; ring). rewrite F, T. lra.
  - assert (A' : ~ inner3 f t + k < eps * k) by (intros H; apply APX in H; discriminate). assert (Q : 0 < inner3 f t + k) by nra.
    split; [apply normalize_unit; rewrite (arc_norm f t k F T); nra|]. split; [intros _; apply arc_rotates; assumption|intros H; contradiction].
Qed.
Print Assumptions C58_equal_lengths_partial.
(** With different lengths the quaternion does not even turn towards [to] (the code multiplies the squared length of [from] by itself
    instead of by that of [to]): from x to 2y it turns by about 127 degrees, and from x to -2x not at all. *)
Theorem C58_refuted : (exists from to, from <> origin /\ to <> origin /\ inner3 from to = 0 /\
    forall eps, 0 < eps <= 1 -> ~ parallel (rotate (from_rotation eps from to) from) to) /\
  (exists from to, to = scale3 from (-2) /\ from <> origin /\ forall eps, 0 < eps <= 1 -> rotate (from_rotation eps from to) from = from).
Proof.
  assert (K1 : sqrt (length_squared3 (V3 1 0 0) * length_squared3 (V3 1 0 0)) = 1) by (unfold length_squared3, l3; cbn; transitivity (sqrt 1); [f_equal; ring|apply sqrt_1]).
  split.
  - exists (V3 1 0 0), (V3 0 2 0). split; [intros E; injection E; lra|]. split; [intros E; injection E; lra|]. split; [rewrite inner3_eq; cbn; ring|]. intros eps E P.
    unfold from_rotation in P. rewrite K1 in P. replace (dot3 (V3 1 0 0) (V3 0 2 0)) with 0 in P by (unfold dot3; cbn; ring).
    unfold approx_equal in P. replace (-1 - 0 / 1) with (-1) in P by field. rewrite Rabs_left in P by lra. destruct (Rlt_dec _ _) as [H|_]; [lra|].
    assert (R1 : rotate (qnormalize (Quat (0 + 1) (cross (V3 1 0 0) (V3 0 2 0)))) (V3 1 0 0) = V3 (-3 / 5) (4 / 5) 0).
    { unfold qnormalize. replace (qdot _ _) with 5 by (unfold qdot, dot3; cbn; ring). assert (S5 : sqrt 5 * sqrt 5 = 5) by (apply sqrt_sqrt; lra). assert (0 < sqrt 5) by (apply sqrt_lt_R0; lra).
      set (r := 1 / sqrt 5). assert (RR : r * r = 1 / 5) by (unfold r; transitivity (1 / (sqrt 5 * sqrt 5)); [field; lra|rewrite S5; reflexivity]).
      cbn [qs qv]. apply QuatProofs.v3_eq; cbn; nra. }
    rewrite R1 in P. destruct P as [a [b [[N|N] [E1 [E2 E3]]]]]; cbn in E1, E2, E3; apply N; lra.
  - exists (V3 1 0 0), (V3 (-2) 0 0). split; [apply QuatProofs.v3_eq; cbn; ring|]. split; [intros E; injection E; lra|]. intros eps E.
    unfold from_rotation. rewrite K1. replace (dot3 (V3 1 0 0) (V3 (-2) 0 0)) with (-2) by (unfold dot3; cbn; ring). unfold approx_equal. replace (-1 - -2 / 1) with 1 by field.
    rewrite Rabs_pos_eq by lra. destruct (Rlt_dec _ _) as [H|_]; [lra|]. unfold qnormalize. replace (qdot _ _) with 1 by (unfold qdot, dot3; cbn; ring). rewrite sqrt_1.
    apply QuatProofs.v3_eq; cbn; field.
Qed.
Print Assumptions C58_refuted.
Example C58_witness : inner3 (V3 0 3 4) (V3 0 3 4) = 25 /\ inner3 (V3 5 0 0) (V3 5 0 0) = 25 /\ (1 / 1000) * 25 <= inner3 (V3 0 3 4) (V3 5 0 0) + 25.
Proof. rewrite !inner3_eq. cbn. repeat split; lra. Qed.

(** * C80: axis and angle *)
Theorem C80_from_axis_angle : forall k t v, unit3 k -> unit (from_axis_angle k t) /\ rotate (from_axis_angle k t) v = rodrigues k t v.
Proof. intros k t v U. split; [apply from_axis_angle_unit, U|apply rotate_rodrigues, U]. Qed.
Print Assumptions C80_from_axis_angle.
(** Back again: a unit axis, an angle in the promised range, and the same rotation; without [shortest_path] the very same quaternion. *)
Theorem C80_to_axis_angle : forall q b, unit q -> let (a, t) := to_axis_angle q b in
  unit3 a /\ 0 <= t <= 2 * PI /\ same_rotation (from_axis_angle a t) q /\ (b = true -> t <= PI) /\ (b = false -> from_axis_angle a t = q) /\
  (forall v, rotate q v = rodrigues a t v).
Proof.
  intros q b U. pose proof (axis_angle_facts q b U) as F. pose proof (corr_same q b) as S0. destruct (to_axis_angle q b) as [a t] eqn:E. destruct F as [A [B [C D]]]. rewrite <- B in S0.
  split; [exact A|split; [exact C|split; [exact S0|split; [exact D|split]]]].
  - intros ->. rewrite B. unfold corr. cbn. apply quat_eq; cbn; ring.
  - intros v. rewrite <- rotate_rodrigues by exact A. symmetry. apply C57_same_rotation; [apply from_axis_angle_unit, A|exact U|exact S0].
Qed.
Print Assumptions C80_to_axis_angle.
(** [q * t] is the rotation about the same axis by [t] times the (shortest) angle. *)
Theorem C80_part : forall q t u, unit q -> unit (qpart q t) /\ same_rotation (qpart q 1) q /\ qpart q 0 = Quat 1 origin /\ qpart q (t + u) = qmul (qpart q t) (qpart q u) /\
  let (a, w) := to_axis_angle q true in forall v, rotate (qpart q t) v = rodrigues a (w * t) v.
Proof.
  intros q t u U. pose proof (qpart_eq q t U) as H. pose proof (qpart_eq q u U) as H'. pose proof (qpart_eq q 1 U) as H1. pose proof (qpart_eq q 0 U) as H0. pose proof (qpart_eq q (t + u) U) as Ha.
  pose proof (C80_to_axis_angle q true U) as F. destruct (to_axis_angle q true) as [a w]. destruct F as [A [_ [S0 _]]]. rewrite H, H', H1, H0, Ha.
  split; [apply from_axis_angle_unit, A|]. split; [rewrite Rmult_1_r; exact S0|]. split.
  - unfold from_axis_angle. replace (w * 0 * / 2) with 0 by ring. rewrite cos_0, sin_0. apply quat_eq; cbn; ring.
  - split; [rewrite from_axis_angle_add by exact A; f_equal; ring|intros v; apply rotate_rodrigues, A].
Qed.
Print Assumptions C80_part.
Example C80_witness : unit (Quat (-3 / 5) (V3 0 (4 / 5) 0)) /\ unit3 (V3 (2 / 3) (1 / 3) (-2 / 3)).
Proof. unfold unit, norm2, unit3. rewrite inner3_eq. cbn. split; field. Qed.

(** * C81: Euler angles *)
(** The code applies the yaw about the fixed up axis, then the pitch about the fixed right axis, then the roll about the fixed forward axis. *)
Theorem C81_order : forall yaw pitch roll v, unit (from_euler yaw pitch roll) /\
  rotate (from_euler yaw pitch roll) v = rodrigues z_axis (- roll) (rodrigues x_axis pitch (rodrigues y_axis (- yaw) v)).
Proof.
  intros yaw pitch roll v. split; [apply from_euler_unit|]. destruct axes_unit as [X [Y Z]]. rewrite from_euler_product.
  assert (M : forall p q, unit p -> unit q -> unit (qmul p q)) by (intros p q P Q; unfold unit; rewrite norm2_mul, P, Q; ring).
  rewrite !rotate_compose by (try apply M; apply from_axis_angle_unit; assumption). rewrite !rotate_rodrigues by assumption. reflexivity.
Qed.
Print Assumptions C81_order.
(** The documentation wants the pitch about the local right axis: the nose of the aircraft (-z) then points up or down after any yaw. In
    the code an aircraft that has turned right by 90 degrees stays level whatever its pitch. *)
Theorem C81_local_axes_refuted : exists yaw, forall pitch, rotate (from_euler yaw pitch 0) (V3 0 0 (-1)) = V3 1 0 0 /\
  (0 < pitch < PI -> rotate (qmul (from_axis_angle y_axis (- yaw)) (from_axis_angle x_axis pitch)) (V3 0 0 (-1)) <> V3 1 0 0).
Proof.
  exists (PI / 2). intros pitch. destruct axes_unit as [X [Y Z]]. rewrite rotate_compose by (apply from_axis_angle_unit; assumption).
  destruct (C81_order (PI / 2) pitch 0 (V3 0 0 (-1))) as [_ ->]. rewrite !rotate_rodrigues by assumption. unfold rodrigues. rewrite !cos_neg, !sin_neg, cos_PI2, sin_PI2, cos_0, sin_0. split.
  - apply QuatProofs.v3_eq; unfold inner3; cbn; ring.
  - intros P E. assert (H := f_equal vy E). unfold inner3 in H. cbn in H. assert (0 < sin pitch) by (apply sin_gt_0; lra). lra.
Qed.
Print Assumptions C81_local_axes_refuted.
(** Back: the same rotation, except for rotations nearer to the poles than the threshold but not on them. *)
Theorem C81_round_trip_partial : forall q, unit q -> let test := vy (qv q) * vz (qv q) + qs q * vx (qv q) in
  Rabs test <= 49995 / 100000 \/ Rabs test = 1 / 2 -> let '(yaw, pitch, roll) := to_euler q in same_rotation (from_euler yaw pitch roll) q.
Proof.
  intros q U test [H|H].
  - pose proof (euler_regular q U) as F. fold test in F. cbv zeta in F. destruct (to_euler q) as [[yaw pitch] roll]. apply F. unfold Rabs in H. destruct (Rcase_abs test); lra.
  - assert (E : 2 * test * (2 * test) = 1) by (unfold Rabs in H; destruct (Rcase_abs test); nra).
    pose proof (euler_pole q (2 * test) U E eq_refl) as F. destruct (to_euler q) as [[yaw pitch] roll]. apply F.
Qed.
Print Assumptions C81_round_trip_partial.
Theorem C81_near_pole_refuted : exists q, unit q /\ let '(yaw, pitch, roll) := to_euler q in ~ same_rotation (from_euler yaw pitch roll) q.
Proof.
  set (q := Quat (120 / 169) (V3 (119 / 169) 0 0)). exists q. split; [unfold unit, norm2, q; cbn; field|]. unfold to_euler, q. cbn [qs qv vx vy vz].
  destruct (Rlt_dec _ _) as [H|H]; [|exfalso; apply H; lra]. assert (T : atan2 0 (120 / 169) = 0) by (unfold atan2; destruct (Rlt_dec 0 (120 / 169)); [replace (0 / (120 / 169)) with 0 by field; apply atan_0|lra]).
  rewrite T. unfold from_euler. replace (- (-2 * 0) * / 2) with 0 by ring. replace (- 0 * / 2) with 0 by ring. rewrite cos_0, sin_0. destruct half_turn_trig as [-> [A B]]. set (c := cos _) in *.
  intros [E|E]; assert (E1 := f_equal qs E); assert (E2 := f_equal (fun a => vx (qv a)) E); cbn in E1, E2; lra.
Qed.
Print Assumptions C81_near_pole_refuted.
(** Angles inside the usual ranges come back unchanged. *)
Theorem C81_angles_back : forall yaw pitch roll, - PI <= yaw < PI -> - PI <= roll < PI -> - (PI / 2) < pitch < PI / 2 -> - (9999 / 10000) <= sin pitch <= 9999 / 10000 ->
  to_euler (from_euler yaw pitch roll) = (yaw, pitch, roll).
Proof. exact euler_angles_back. Qed.
Print Assumptions C81_angles_back.
Example C81_witness : - PI <= 1 < PI /\ - (9999 / 10000) <= sin 0 <= 9999 / 10000 /\ Rabs ((1 / 3) * (2 / 3) + 2 / 3 * 0) <= 49995 / 100000 /\ unit (Quat (2 / 3) (V3 0 (1 / 3) (2 / 3))).
Proof. pose proof PI2_3_2. rewrite sin_0, Rabs_pos_eq by lra. unfold unit, norm2. cbn. repeat split; lra. Qed.

(** * C82: spherical interpolation *)
Theorem C82_slerp : forall p q a, unit p -> unit q -> unit (slerp p q a) /\ slerp p q 0 = p /\ same_rotation (slerp p q 1) q.
Proof.
  intros p q a U V.
  assert (C0 : forall q', qcomb p q' 1 0 = p) by (intros q'; apply quat_eq; cbn; ring). assert (C1 : forall q', qcomb p q' 0 1 = q') by (intros q'; apply quat_eq; cbn; ring).
  destruct (Rle_dec (9995 / 10000) (Rabs (qdot p q))) as [H|H].
  - destruct (slerp_facts p q a U V) as [q' [_ [_ [F _]]]]. destruct (F H) as [-> P]. split; [apply normalize_unit; lra|].
    destruct (slerp_facts p q 0 U V) as [q0 [_ [_ [F0 _]]]]. destruct (F0 H) as [-> _]. rewrite Rminus_0_r, C0. split; [apply normalize_of_unit, U|].
    destruct (slerp_facts p q 1 U V) as [q1 [S1 [_ [F1 _]]]]. destruct (F1 H) as [-> _]. replace (1 - 1) with 0 by ring. rewrite C1. rewrite normalize_of_unit; [exact S1|].
    destruct S1 as [->| ->]; [exact V|]. unfold unit. transitivity (norm2 q); [unfold norm2; cbn; ring|exact V].
  - assert (H' : Rabs (qdot p q) < 9995 / 10000) by lra.
    destruct (slerp_facts p q a U V) as [q' [_ [_ [_ F]]]]. destruct (F H') as [s0 [s1 [_ [_ [_ [_ [A _]]]]]]]. split; [exact A|].
    destruct (slerp_facts p q 0 U V) as [q0 [_ [_ [_ F0]]]]. destruct (F0 H') as [s2 [s3 [-> [P [B [B' _]]]]]].
    destruct (slerp_facts p q 1 U V) as [q1 [S1 [_ [_ F1]]]]. destruct (F1 H') as [s4 [s5 [-> [_ [D [D' _]]]]]]. set (t := acos _) in *.
    rewrite Rminus_0_r, Rmult_1_l in B. rewrite Rmult_0_l, sin_0 in B'. replace ((1 - 1) * t) with 0 in D by ring. rewrite sin_0 in D. rewrite Rmult_1_l in D'.
    assert (s2 = 1) by nra. assert (s3 = 0) by nra. assert (s4 = 0) by nra. assert (s5 = 1) by nra. subst. rewrite C0, C1. split; [reflexivity|exact S1].
Qed.
Print Assumptions C82_slerp.
(** On the great arc: with [t] the angle between [p] and the nearer of [q] and [-q], the result makes the angle [a t] with [p] and [(1 - a) t] with
    the other end. Quaternions that are nearly equal are blended linearly and normalised instead. *)
Theorem C82_arc : forall p q a, unit p -> unit q -> exists q', same_rotation q' q /\ qdot p q' = Rabs (qdot p q) /\
  (Rabs (qdot p q) < 9995 / 10000 -> let t := acos (Rabs (qdot p q)) in
     qdot p (slerp p q a) = cos (a * t) /\ qdot (slerp p q a) q' = cos ((1 - a) * t) /\
     exists s0 s1, qs (slerp p q a) = qs p * s0 + qs q' * s1 /\ qv (slerp p q a) = add3 (scale3 (qv p) s0) (scale3 (qv q') s1)) /\
  (9995 / 10000 <= Rabs (qdot p q) -> exists l, 0 < l /\ slerp p q a = Quat ((qs p * (1 - a) + qs q' * a) * l) (scale3 (add3 (scale3 (qv p) (1 - a)) (scale3 (qv q') a)) l)).
Proof.
  intros p q a U V. destruct (slerp_facts p q a U V) as [q' [S0 [D [F G]]]]. exists q'. split; [exact S0|split; [exact D|split]].
  - intros H t. destruct (G H) as [s0 [s1 [E [_ [_ [_ [_ [A B]]]]]]]]. split; [exact A|split; [exact B|]]. exists s0, s1. rewrite E. split; reflexivity.
  - intros H. destruct (F H) as [-> P]. exists (1 / sqrt (norm2 (qcomb p q' (1 - a) a))). assert (0 < sqrt (norm2 (qcomb p q' (1 - a) a))) by (apply sqrt_lt_R0, P).
    split; [unfold Rdiv; rewrite Rmult_1_l; apply Rinv_0_lt_compat; assumption|]. unfold qnormalize. rewrite qdot_norm2. reflexivity.
Qed.
Print Assumptions C82_arc.
Example C82_witness : unit (Quat 1 origin) /\ unit (Quat (-3 / 5) (V3 (4 / 5) 0 0)) /\ qdot (Quat 1 origin) (Quat (-3 / 5) (V3 (4 / 5) 0 0)) = -3 / 5.
Proof. unfold unit, norm2, qdot, dot3. cbn. repeat split; field. Qed.
