From Coq Require Import Reals List Lra Psatz Ratan.
From Verif Require Import Words MatModel VecModel VecSpec VecProofs QuatModel QuatSpec QuatProofs.
Import ListNotations.
Local Open Scope R_scope.

Lemma length3_sqr v : length3 v * length3 v = inner3 v v /\ 0 <= length3 v.
Proof.
  split; [|apply sqrt_pos]. unfold length3. replace (inner3 v v) with (length_squared3 v) by (unfold length_squared3, inner3, l3; cbn; ring).
  apply sqrt_sqrt. unfold length_squared3, l3. nra.
Qed.
Lemma inner3_eq v w : inner3 v w = vx v * vx w + vy v * vy w + vz v * vz w.
Proof. unfold inner3, l3. cbn. ring. Qed.
Lemma norm2_split q : norm2 q = qs q * qs q + inner3 (qv q) (qv q).
Proof. rewrite inner3_eq. unfold norm2. ring. Qed.
Lemma normalize3_unit v : unit3 v -> normalize3 v = v.
Proof.
  intros U. destruct (length3_sqr v) as [A B]. unfold unit3 in U. assert (L : length3 v = 1) by nra.
  unfold normalize3. rewrite L. veq; field.
Qed.

Definition corr (q : quat) (shortest : bool) : R := if andb shortest (if Rlt_dec (qs q) 0 then true else false) then -1 else 1.
Lemma corr_sqr q b : corr q b * corr q b = 1.
Proof. unfold corr. destruct (andb _ _); ring. Qed.

Lemma axis_angle_facts q b : unit q -> let (a, t) := to_axis_angle q b in
  unit3 a /\ from_axis_angle a t = Quat (corr q b * qs q) (scale3 (qv q) (corr q b)) /\ 0 <= t <= 2 * PI /\ (b = true -> t <= PI).
Proof.
  intros U. unfold to_axis_angle. fold (corr q b). set (c := corr q b). assert (C : c * c = 1) by apply corr_sqr.
  destruct (length3_sqr (qv q)) as [L P]. set (len := length3 (qv q)) in *.
  unfold unit in U. rewrite norm2_split, <- L in U.
  destruct (atan2_polar (qs q * c) len) as [X Y].
  assert (R1 : sqrt (qs q * c * (qs q * c) + len * len) = 1) by (rewrite <- sqrt_1; f_equal; transitivity (qs q * qs q * (c * c) + len * len); [ring|rewrite C; lra]).
  rewrite R1 in X, Y. destruct (atan2_bound len (qs q * c)) as [B1 B2]. pose proof (atan2_pos_y len (qs q * c) P) as B3. set (t := atan2 len (qs q * c)) in *.
  assert (H2 : 2 * t * / 2 = t) by field.
  assert (SP : b = true -> 2 * t <= PI).
  { intros ->. assert (N : 0 <= qs q * c) by (unfold c, corr; cbn; destruct (Rlt_dec (qs q) 0); lra).
    destruct (Rle_dec (2 * t) PI) as [H|H]; [exact H|exfalso]. pose proof PI_RGT_0. assert (cos t < 0) by (apply cos_lt_0; lra). lra. }
  destruct (Req_EM_T len 0) as [Z|Z]; (split; [|split; [|split; [lra|exact SP]]]).
  - unfold unit3. rewrite inner3_eq. cbn. ring.
  - rewrite Z in L, Y. rewrite inner3_eq in L. unfold from_axis_angle. rewrite H2.
    assert (vx (qv q) = 0) by nra. assert (vy (qv q) = 0) by nra. assert (vz (qv q) = 0) by nra. qeq; nra.
  - unfold unit3. rewrite inner3_eq in *. cbn.
    transitivity (c * c * (vx (qv q) * vx (qv q) + vy (qv q) * vy (qv q) + vz (qv q) * vz (qv q)) / (len * len)); [field; exact Z|rewrite C, <- L; field; exact Z].
  - unfold from_axis_angle. rewrite H2. rewrite Rmult_1_l in X, Y. qeq; rewrite <- ?X, <- ?Y; try ring; field; exact Z.
Qed.

Lemma corr_same q b : same_rotation (Quat (corr q b * qs q) (scale3 (qv q) (corr q b))) q.
Proof. unfold corr, same_rotation, opposite. destruct (andb _ _); [right|left]; qeq; ring. Qed.
Lemma qpart_eq q t : unit q -> let (a, u) := to_axis_angle q true in qpart q t = from_axis_angle a (u * t).
Proof.
  intros U. pose proof (axis_angle_facts q true U) as F. unfold qpart. destruct (to_axis_angle q true) as [a u]. destruct F as [A _].
  rewrite (normalize3_unit a A). unfold from_axis_angle. replace (u * t * / 2) with (u * (t * / 2)) by ring. reflexivity.
Qed.
Lemma from_axis_angle_add a t u : unit3 a -> qmul (from_axis_angle a t) (from_axis_angle a u) = from_axis_angle a (t + u).
Proof.
  intros U. unfold unit3 in U. rewrite inner3_eq in U. assert (K : vx a * vx a = 1 - vy a * vy a - vz a * vz a) by lra.
  unfold from_axis_angle. rewrite Rmult_plus_distr_r, cos_plus, sin_plus. qeq; unfold dot3; cbn; ring [K].
Qed.

(** from one vector to another *)
Lemma rotate_scaled s v l f : l * l * (s * s + inner3 v v) = 1 ->
  rotate (Quat (s * l) (scale3 v l)) f = add3 f (scale3 (add3 (scale3 (cross v f) s) (cross v (cross v f))) (2 * (l * l))).
Proof. intros _. veq; ring. Qed.
Lemma half_turn u f : unit3 u -> inner3 u f = 0 -> rotate (Quat 0 u) f = neg3 f.
Proof.
  intros U P. unfold unit3 in U. rewrite inner3_eq in U, P. assert (K : vx u * vx u = 1 - vy u * vy u - vz u * vz u) by lra.
  veq.
  - transitivity (- vx f + 2 * vx u * (vx u * vx f + vy u * vy f + vz u * vz f)); [ring [K]|rewrite P; ring].
  - transitivity (- vy f + 2 * vy u * (vx u * vx f + vy u * vy f + vz u * vz f)); [ring [K]|rewrite P; ring].
  - transitivity (- vz f + 2 * vz u * (vx u * vx f + vy u * vy f + vz u * vz f)); [ring [K]|rewrite P; ring].
Qed.
Lemma lagrange f t : inner3 (cross f t) (cross f t) = inner3 f f * inner3 t t - inner3 f t * inner3 f t.
Proof. rewrite !inner3_eq. cbn. ring. Qed.
Lemma arc_norm f t k : inner3 f f = k -> inner3 t t = k -> norm2 (Quat (inner3 f t + k) (cross f t)) = 2 * k * (inner3 f t + k).
Proof. intros F T. rewrite norm2_split. cbn [qs qv]. rewrite lagrange, F, T. ring. Qed.
Lemma arc_rotates f t k : 0 < k -> inner3 f f = k -> inner3 t t = k -> 0 < inner3 f t + k -> rotate (qnormalize (Quat (inner3 f t + k) (cross f t))) f = t.
Proof.
  intros K F T P. set (d := inner3 f t) in *. set (v := cross f t). pose proof (arc_norm f t k F T) as N. fold d v in N.
  assert (N0 : norm2 (Quat (d + k) v) <> 0) by (rewrite N; assert (0 < k * (d + k)) by (apply Rmult_lt_0_compat; assumption); lra).
  unfold qnormalize. rewrite qdot_norm2, N. cbn [qs qv]. assert (Q : 0 < 2 * k * (d + k)) by (assert (0 < k * (d + k)) by (apply Rmult_lt_0_compat; assumption); lra).
  set (m := sqrt (2 * k * (d + k))). assert (M : m * m = 2 * k * (d + k)) by (apply sqrt_sqrt; lra). assert (M0 : 0 < m) by (apply sqrt_lt_R0; exact Q).
  rewrite rotate_scaled; cycle 1.
  { rewrite norm2_split in N. cbn [qs qv] in N. rewrite N, <- M. field. lra. }
  replace (2 * (1 / m * (1 / m))) with (1 / (k * (d + k))) by (apply Rmult_eq_reg_r with (m * m * (k * (d + k))); [transitivity (2 * (k * (d + k))); [rewrite M at 1; field; split; lra|field; lra]|rewrite M; nra]).
  set (r := 1 / (k * (d + k))). assert (Rr : r * k * (d + k) = 1) by (unfold r; field; split; lra).
  assert (E1 : cross v f = sub3 (scale3 t k) (scale3 f d)) by (unfold v, d; rewrite <- F, !inner3_eq; veq; ring).
  assert (E2 : cross v (cross v f) = scale3 f (d * d - k * k)).
  { transitivity (scale3 f (- inner3 v v)); [unfold v; rewrite inner3_eq; veq; ring|]. f_equal. unfold v. rewrite lagrange, F, T. fold d. ring. }
  rewrite E2, E1.
  assert (G : forall fi ti, fi + ((k * ti - d * fi) * (d + k) + fi * (d * d - k * k)) * r = ti).
  { intros fi ti. transitivity (fi + (r * k * (d + k)) * (ti - fi)); [ring|rewrite Rr; ring]. }
  clearbody d. clear - G. veq; [apply eq_trans with (2 := G (vx f) (vx t))|apply eq_trans with (2 := G (vy f) (vy t))|apply eq_trans with (2 := G (vz f) (vz t))]; ring.
Qed.
Lemma normalize3_facts v : v <> origin -> unit3 (normalize3 v) /\ forall w, inner3 v w = 0 -> inner3 (normalize3 v) w = 0.
Proof.
  intros N. destruct (length3_sqr v) as [A B]. assert (Z : length3 v <> 0).
  { intros Z. apply N. rewrite Z, inner3_eq in A. veq; nra. }
  split.
  - unfold unit3. transitivity (inner3 v v / (length3 v * length3 v)); [rewrite !inner3_eq; unfold normalize3; cbn; field; exact Z|rewrite A; field; rewrite <- A; nra].
  - intros w E. transitivity (inner3 v w / length3 v); [rewrite !inner3_eq; unfold normalize3; cbn; field; exact Z|rewrite E; field; exact Z].
Qed.

(** Equal matrices, equal rotations *)
Lemma same_matrix_same p q : unit p -> unit q -> mat_of_quat 3 3 p = mat_of_quat 3 3 q -> same_rotation p q.
Proof.
  intros P Q E. pose proof (quat_of_mat_of_quat 3 3 p (or_introl (conj eq_refl eq_refl)) P) as A. pose proof (quat_of_mat_of_quat 3 3 q (or_introl (conj eq_refl eq_refl)) Q) as B.
  rewrite E in A. unfold same_rotation in *. set (m := quat_of_mat _) in *.
  assert (O : forall a, opposite (opposite a) = a) by (intros a; qeq; ring).
  destruct A as [A|A], B as [B|B]; rewrite A in B; [left|right|right|left]; congruence || (rewrite <- B, ?O; congruence) || (rewrite <- (O p), <- (O q), B; rewrite ?O; reflexivity).
Qed.

(** Euler angles *)
Lemma from_euler_product yaw pitch roll : from_euler yaw pitch roll =
  qmul (from_axis_angle z_axis (- roll)) (qmul (from_axis_angle x_axis pitch) (from_axis_angle y_axis (- yaw))).
Proof. unfold from_euler, from_axis_angle. qeq; unfold dot3; cbn; ring. Qed.
Lemma axes_unit : unit3 x_axis /\ unit3 y_axis /\ unit3 z_axis.
Proof. unfold unit3. rewrite !inner3_eq. cbn. repeat split; ring. Qed.
Lemma from_euler_unit yaw pitch roll : unit (from_euler yaw pitch roll).
Proof.
  rewrite from_euler_product. unfold unit. destruct axes_unit as [X [Y Z]]. rewrite !norm2_mul.
  rewrite (from_axis_angle_unit _ _ X), (from_axis_angle_unit _ _ Y), (from_axis_angle_unit _ _ Z). ring.
Qed.
Lemma half_double t : cos t = 1 - 2 * (sin (t * / 2) * sin (t * / 2)) /\ sin t = 2 * (sin (t * / 2) * cos (t * / 2)) /\ cos (t * / 2) * cos (t * / 2) = 1 - sin (t * / 2) * sin (t * / 2).
Proof.
  set (h := t * / 2). replace t with (2 * h) by (unfold h; field). rewrite cos_2a_sin, sin_2a.
  pose proof (sin2_cos2 h) as X. unfold Rsqr in X. repeat split; try ring; lra.
Qed.
(** The matrix of Euler angles, with Y = -yaw, P = pitch and Z = -roll. *)
Lemma euler_matrix Y P Z : mat_of_quat 3 3 (from_euler (- Y) P (- Z)) =
  [[cos Z * cos Y - sin Z * sin P * sin Y; sin Z * cos Y + cos Z * sin P * sin Y; - (cos P * sin Y)];
   [- (sin Z * cos P); cos Z * cos P; sin P];
   [cos Z * sin Y + sin Z * sin P * cos Y; sin Z * sin Y - cos Z * sin P * cos Y; cos P * cos Y]].
Proof.
  unfold mat_of_quat, from_euler. rewrite !Ropp_involutive. cbn [Nat.eqb andb repeat Nat.sub app qs qv vx vy vz].
  destruct (half_double Y) as [-> [-> Y2]]. destruct (half_double P) as [-> [-> P2]]. destruct (half_double Z) as [-> [-> Z2]].
  repeat (f_equal; try ring [Y2 P2 Z2]).
Qed.

Lemma cos_one d : cos d = 1 -> - (2 * PI) < d < 2 * PI -> d = 0.
Proof.
  intros C [L U]. destruct (half_double d) as [E _]. rewrite C in E. set (h := d * / 2) in E. assert (S0 : sin h = 0) by nra.
  assert (H : d = 2 * h) by (unfold h; field). destruct (Rtotal_order h 0) as [T|[T|T]]; [|lra|].
  - assert (0 < sin (- h)) by (apply sin_gt_0; lra). rewrite sin_neg in *. lra.
  - assert (0 < sin h) by (apply sin_gt_0; lra). lra.
Qed.
Lemma atan2_unique r a : 0 < r -> - PI < a <= PI -> atan2 (r * sin a) (r * cos a) = a.
Proof.
  intros P [L U]. destruct (atan2_polar (r * cos a) (r * sin a)) as [X Y]. destruct (atan2_bound (r * sin a) (r * cos a)) as [B1 B2].
  pose proof (sin2_cos2 a) as T. unfold Rsqr in T.
  replace (r * cos a * (r * cos a) + r * sin a * (r * sin a)) with (r * r) in X, Y by (transitivity (r * r * (sin a * sin a + cos a * cos a)); [rewrite T|]; ring).
  rewrite sqrt_square in X, Y by lra. set (b := atan2 _ _) in *. apply Rmult_eq_reg_l in X; [|lra]. apply Rmult_eq_reg_l in Y; [|lra].
  assert (C : cos (b - a) = 1) by (rewrite cos_minus, <- X, <- Y; lra). assert (Z : b - a = 0) by (apply cos_one; [exact C|lra]). lra.
Qed.

Lemma asin_facts x : -1 < x < 1 -> sin (asin x) = x /\ 0 < cos (asin x) /\ cos (asin x) * cos (asin x) = 1 - x * x.
Proof.
  intros H. rewrite sin_asin by lra. rewrite cos_asin by lra. unfold Rsqr. assert (Q : 0 < 1 - x * x) by nra.
  repeat split; [apply sqrt_lt_R0; exact Q|apply sqrt_sqrt; lra].
Qed.

Lemma euler_regular q : unit q -> let test := vy (qv q) * vz (qv q) + qs q * vx (qv q) in - (49995 / 100000) <= test <= 49995 / 100000 ->
  let '(yaw, pitch, roll) := to_euler q in same_rotation (from_euler yaw pitch roll) q /\ sin pitch = 2 * test /\ 0 < cos pitch.
Proof.
  intros U test B. unfold to_euler. fold test. set (s := qs q) in *. set (x := vx (qv q)) in *. set (y := vy (qv q)) in *. set (z := vz (qv q)) in *.
  assert (N : x * x + y * y + z * z + s * s = 1) by (unfold unit, norm2 in U; fold s x y z in U; lra). rewrite N, !Rmult_1_r.
  destruct (Rlt_dec _ _) as [H|_]; [lra|]. destruct (Rlt_dec _ _) as [H|_]; [lra|].
  replace (2 * test / 1) with (2 * test) by field. set (P := asin (2 * test)). destruct (asin_facts (2 * test) ltac:(lra)) as [S1 [S2 S3]]. fold P in S1, S2, S3.
  split; [|split; assumption]. apply same_matrix_same; [apply from_euler_unit|exact U|].
  set (Y := atan2 (-2 * (x * z - s * y)) (s * s - x * x - y * y + z * z)). set (Z := atan2 (-2 * (x * y - s * z)) (s * s - x * x + y * y - z * z)).
  assert (SS : s * s = 1 - x * x - y * y - z * z) by lra.
  destruct (atan2_polar (s * s - x * x - y * y + z * z) (-2 * (x * z - s * y))) as [Y1 Y2]. fold Y in Y1, Y2.
  destruct (atan2_polar (s * s - x * x + y * y - z * z) (-2 * (x * y - s * z))) as [Z1 Z2]. fold Z in Z1, Z2.
  assert (RY : sqrt ((s * s - x * x - y * y + z * z) * (s * s - x * x - y * y + z * z) + -2 * (x * z - s * y) * (-2 * (x * z - s * y))) = cos P).
  { rewrite <- (sqrt_square (cos P)) by lra. f_equal. rewrite S3. unfold test. ring [SS]. }
  assert (RZ : sqrt ((s * s - x * x + y * y - z * z) * (s * s - x * x + y * y - z * z) + -2 * (x * y - s * z) * (-2 * (x * y - s * z))) = cos P).
  { rewrite <- (sqrt_square (cos P)) by lra. f_equal. rewrite S3. unfold test. ring [SS]. }
  rewrite RY in Y1, Y2. rewrite RZ in Z1, Z2. clear RY RZ.
  rewrite euler_matrix. unfold mat_of_quat. cbn [Nat.eqb andb repeat Nat.sub app]. fold s x y z. rewrite S1.
  assert (C0 : cos P * cos P <> 0) by nra.
  assert (K : forall a b, a * (cos P * cos P) = b * (cos P * cos P) -> a = b) by (intros a b E; apply Rmult_eq_reg_r with (cos P * cos P); assumption).
  f_equal; [f_equal; [|f_equal; [|f_equal]]|f_equal; [f_equal; [|f_equal; [|f_equal]]|f_equal; f_equal; [|f_equal; [|f_equal]]]].
  - apply K. transitivity ((cos P * cos Z) * (cos P * cos Y) - 2 * test * (cos P * sin Z) * (cos P * sin Y)); [ring|]. rewrite <- Y1, <- Y2, <- Z1, <- Z2, S3. unfold test. ring [SS].
  - apply K. transitivity ((cos P * sin Z) * (cos P * cos Y) + 2 * test * (cos P * cos Z) * (cos P * sin Y)); [ring|]. rewrite <- Y1, <- Y2, <- Z1, <- Z2, S3. unfold test. ring [SS].
  - rewrite <- Y2. ring.
  - rewrite Rmult_comm, <- Z2. ring.
  - rewrite Rmult_comm, <- Z1. ring [SS].
  - unfold test. ring.
  - apply K. transitivity ((cos P * cos Z) * (cos P * sin Y) + 2 * test * (cos P * sin Z) * (cos P * cos Y)); [ring|]. rewrite <- Y1, <- Y2, <- Z1, <- Z2, S3. unfold test. ring [SS].
  - apply K. transitivity ((cos P * sin Z) * (cos P * sin Y) - 2 * test * (cos P * cos Z) * (cos P * cos Y)); [ring|]. rewrite <- Y1, <- Y2, <- Z1, <- Z2, S3. unfold test. ring [SS].
  - rewrite <- Y1. ring [SS].
Qed.

(** At the poles the halves of the quaternion agree. *)
Lemma half_turn_trig : sin (PI / 2 * / 2) = cos (PI / 2 * / 2) /\ 2 * (cos (PI / 2 * / 2) * cos (PI / 2 * / 2)) = 1 /\ 0 < cos (PI / 2 * / 2).
Proof.
  replace (PI / 2 * / 2) with (PI / 4) by field. rewrite sin_cos_PI4. split; [reflexivity|]. pose proof PI_RGT_0. assert (P : 0 < cos (PI / 4)) by (apply cos_gt_0; lra).
  pose proof (sin2_cos2 (PI / 4)) as T. rewrite sin_cos_PI4 in T. unfold Rsqr in T. split; lra.
Qed.
Lemma euler_pole q e : unit q -> e * e = 1 -> 2 * (vy (qv q) * vz (qv q) + qs q * vx (qv q)) = e ->
  let '(yaw, pitch, roll) := to_euler q in same_rotation (from_euler yaw pitch roll) q /\ roll = 0 /\ pitch = e * (PI / 2).
Proof.
  intros U E T. set (s := qs q) in *. set (x := vx (qv q)) in *. set (y := vy (qv q)) in *. set (z := vz (qv q)) in *.
  assert (N : s * s + x * x + y * y + z * z = 1) by exact U.
  assert (X : x = e * s /\ y = e * z).
  { assert (Q : (x - e * s) * (x - e * s) + (y - e * z) * (y - e * z) = 0) by (transitivity (x * x + y * y + e * e * (s * s + z * z) - e * (2 * (y * z + s * x))); [ring|rewrite T, E; lra]).
    destruct (Rplus_sqr_eq_0 _ _ Q) as [Q1 Q2]. split; lra. }
  destruct X as [X Y]. assert (SZ : 2 * (s * s + z * z) = 1) by (rewrite X, Y in N; nra).
  destruct (atan2_polar s z) as [A B]. destruct half_turn_trig as [H1 [H2 H3]]. set (c := cos (PI / 2 * / 2)) in *.
  assert (RT : sqrt (s * s + z * z) = c) by (rewrite <- (sqrt_square c) by lra; f_equal; lra). rewrite RT in A, B.
  set (t := atan2 z s) in *.
  assert (C0 : - (0) * / 2 = 0) by ring.
  unfold to_euler. fold s x y z. replace (x * x + y * y + z * z + s * s) with 1 by lra. rewrite !Rmult_1_r. fold t.
  destruct (Req_dec e 1) as [E1|E1].
  - destruct (Rlt_dec _ _) as [G|G]; [|exfalso; lra]. split; [left|split; [reflexivity|rewrite E1; ring]]. unfold from_euler. rewrite C0, cos_0, sin_0.
    replace (- (-2 * t) * / 2) with t by field. rewrite H1. fold c. rewrite E1 in X, Y. qeq; fold s x y z; lra.
  - assert (E2 : e = -1) by nra. destruct (Rlt_dec _ _) as [G|G]; [exfalso; lra|]. destruct (Rlt_dec _ _) as [G2|G2]; [|exfalso; lra].
    split; [left|split; [reflexivity|rewrite E2; ring]]. unfold from_euler. rewrite C0, cos_0, sin_0.
    replace (- (2 * t) * / 2) with (- t) by field. replace (- (PI / 2) * / 2) with (- (PI / 2 * / 2)) by ring. rewrite !cos_neg, !sin_neg, H1. fold c.
    rewrite E2 in X, Y. qeq; fold s x y z; lra.
Qed.

Lemma euler_angles_back yaw pitch roll : - PI <= yaw < PI -> - PI <= roll < PI -> - (PI / 2) < pitch < PI / 2 -> - (9999 / 10000) <= sin pitch <= 9999 / 10000 ->
  to_euler (from_euler yaw pitch roll) = (yaw, pitch, roll).
Proof.
  intros Hy Hr Hp Hs. set (Y := - yaw). set (Z := - roll). replace yaw with (- Y) by (unfold Y; ring). replace roll with (- Z) by (unfold Z; ring).
  pose proof (from_euler_unit (- Y) pitch (- Z)) as U. pose proof (euler_matrix Y pitch Z) as M. set (q := from_euler _ _ _) in *.
  unfold mat_of_quat in M. cbn [Nat.eqb andb repeat Nat.sub app] in M. unfold to_euler. set (s := qs q) in *. set (x := vx (qv q)) in *. set (y := vy (qv q)) in *. set (z := vz (qv q)) in *.
  assert (N : x * x + y * y + z * z + s * s = 1) by (unfold unit, norm2 in U; fold s x y z in U; lra). rewrite N, !Rmult_1_r.
  injection M as M00 M10 M20 M01 M11 M21 M02 M12 M22.
  assert (T : y * z + s * x = sin pitch / 2) by lra. rewrite T.
  destruct (Rlt_dec _ _) as [H|_]; [lra|]. destruct (Rlt_dec _ _) as [H|_]; [lra|].
  assert (C : 0 < cos pitch) by (apply cos_gt_0; lra).
  replace (-2 * (x * z - s * y)) with (cos pitch * sin Y) by lra. replace (s * s - x * x - y * y + z * z) with (cos pitch * cos Y) by lra.
  replace (-2 * (x * y - s * z)) with (cos pitch * sin Z) by lra. replace (s * s - x * x + y * y - z * z) with (cos pitch * cos Z) by lra.
  rewrite !atan2_unique by (unfold Y, Z; lra). replace (2 * (sin pitch / 2) / 1) with (sin pitch) by field. rewrite asin_sin by lra. reflexivity.
Qed.

(** Slerp *)
Definition qcomb (p q : quat) (a b : R) : quat := Quat (qs p * a + qs q * b) (add3 (scale3 (qv p) a) (scale3 (qv q) b)).
Lemma qcomb_dot p q a b : qdot p (qcomb p q a b) = norm2 p * a + qdot p q * b /\ qdot (qcomb p q a b) q = qdot p q * a + norm2 q * b.
Proof. unfold qdot, norm2, dot3; cbn. split; ring. Qed.
Lemma qcomb_norm2 p q a b : norm2 (qcomb p q a b) = norm2 p * (a * a) + 2 * qdot p q * (a * b) + norm2 q * (b * b).
Proof. unfold qdot, norm2, dot3; cbn. ring. Qed.

Lemma slerp_facts p q a : unit p -> unit q -> exists q', same_rotation q' q /\ qdot p q' = Rabs (qdot p q) /\
  (9995 / 10000 <= Rabs (qdot p q) -> slerp p q a = qnormalize (qcomb p q' (1 - a) a) /\ 0 < norm2 (qcomb p q' (1 - a) a)) /\
  (Rabs (qdot p q) < 9995 / 10000 -> let t := acos (Rabs (qdot p q)) in exists s0 s1, slerp p q a = qcomb p q' s0 s1 /\ 0 < sin t /\
     s0 * sin t = sin ((1 - a) * t) /\ s1 * sin t = sin (a * t) /\
     unit (slerp p q a) /\ qdot p (slerp p q a) = cos (a * t) /\ qdot (slerp p q a) q' = cos ((1 - a) * t)).
Proof.
  intros U V. set (d := Rabs (qdot p q)). set (c := if Rlt_dec (qdot p q) 0 then -1 else 1).
  assert (CC : c * c = 1) by (unfold c; destruct (Rlt_dec _ _); ring).
  set (q' := Quat (qs q * c) (scale3 (qv q) c)). exists q'.
  assert (D : qdot p q' = d).
  { transitivity (qdot p q * c); [unfold qdot, dot3; cbn; ring|]. unfold d, c. destruct (Rlt_dec _ _) as [H|H]; [rewrite Rabs_left by exact H; ring|rewrite Rabs_pos_eq by lra; ring]. }
  assert (V' : norm2 q' = 1) by (transitivity (c * c * norm2 q); [unfold norm2; cbn; ring|rewrite CC, V; ring]).
  assert (D0 : 0 <= d) by apply Rabs_pos.
  assert (D1 : d <= 1).
  { pose proof (norm2_nonneg (qcomb p q' 1 (-1))) as X. rewrite qcomb_norm2, D, V' in X. unfold unit in U. rewrite U in X. lra. }
  assert (SE : (if Rlt_dec (qdot p q) 0 then (-1, - qdot p q) else (1, qdot p q)) = (c, d)).
  { unfold c, d. destruct (Rlt_dec _ _) as [H|H]; [rewrite Rabs_left by exact H|rewrite Rabs_pos_eq by lra]; reflexivity. }
  split; [|split; [exact D|split]].
  - unfold same_rotation, opposite, q', c. destruct (Rlt_dec _ _); [right|left]; qeq; ring.
  - intros H. unfold slerp. rewrite SE. destruct (Rle_dec _ d) as [_|N]; [|lra]. split.
    + f_equal. unfold qcomb, q'. qeq; ring.
    + rewrite qcomb_norm2, D, V'. unfold unit in U. rewrite U.
      assert (0 <= (2 * a - 1) * (2 * a - 1)) by (apply Rle_0_sqr). nra.
  - intros H t. assert (ST : 0 < sin t /\ sin t * sin t = 1 - d * d /\ cos t = d).
    { unfold t. fold d. rewrite sin_acos, cos_acos by lra. unfold Rsqr. assert (0 < 1 - d * d) by nra. split; [apply sqrt_lt_R0; assumption|split; [apply sqrt_sqrt; lra|reflexivity]]. }
    destruct ST as [S0 [S2 C0]].
    assert (E : slerp p q a = qcomb p q' (cos (t * a) - d * (sin (t * a) / sin t)) (sin (t * a) / sin t)).
    { unfold slerp. rewrite SE. destruct (Rle_dec _ d) as [N|_]; [lra|]. unfold t, qcomb, q'. fold d. qeq; ring. }
    pose proof (sin2_cos2 (t * a)) as PY. unfold Rsqr in PY. set (k := sin (t * a) / sin t) in *. assert (K : k * sin t = sin (t * a)) by (unfold k; field; lra).
    set (s0 := cos (t * a) - d * k) in *.
    assert (W : cos ((1 - a) * t) = d * cos (t * a) + sin t * sin (t * a)) by (replace ((1 - a) * t) with (t - t * a) by ring; rewrite cos_minus, C0; reflexivity).
    assert (W2 : sin ((1 - a) * t) = sin t * cos (t * a) - d * sin (t * a)) by (replace ((1 - a) * t) with (t - t * a) by ring; rewrite sin_minus, C0; reflexivity).
    rewrite (Rmult_comm a t). exists s0, k. split; [exact E|]. split; [exact S0|]. split; [rewrite W2, <- K; unfold s0; ring|]. split; [exact K|].
    rewrite E. destruct (qcomb_dot p q' s0 k) as [A B]. rewrite A, B, D, V'. unfold unit in U. rewrite U. split; [|split].
    + unfold unit. rewrite qcomb_norm2, D, V', U. unfold s0.
      transitivity (cos (t * a) * cos (t * a) + k * k * (1 - d * d)); [ring|]. rewrite <- S2. transitivity (cos (t * a) * cos (t * a) + (k * sin t) * (k * sin t)); [ring|]. rewrite K. lra.
    + unfold s0. ring.
    + rewrite W. unfold s0. transitivity (d * cos (t * a) + k * (1 - d * d)); [ring|]. rewrite <- S2, <- K. ring.
Qed.
