From Coq Require Import Reals List Lra Psatz Ratan.
From Verif Require Import Words MatModel VecModel VecSpec VecProofs QuatModel QuatSpec.
Import ListNotations.
Local Open Scope R_scope.

Lemma v3_eq a b : vx a = vx b -> vy a = vy b -> vz a = vz b -> a = b.
Proof. destruct a, b. cbn. intros -> -> ->. reflexivity. Qed.
Lemma quat_eq p q : qs p = qs q -> vx (qv p) = vx (qv q) -> vy (qv p) = vy (qv q) -> vz (qv p) = vz (qv q) -> p = q.
Proof. destruct p as [s v], q as [t w]. cbn. intros -> H1 H2 H3. f_equal. apply v3_eq; assumption. Qed.
Ltac qeq := apply quat_eq; cbn.
Ltac veq := apply v3_eq; cbn.
Ltac unit_sqr H q := assert (H : qs q * qs q = 1 - vx (qv q) * vx (qv q) - vy (qv q) * vy (qv q) - vz (qv q) * vz (qv q)) by
  (match goal with U : unit q |- _ => unfold unit, norm2 in U; lra end).

Lemma qmul_hamilton p q : coords (qmul p q) = hamilton (coords p) (coords q).
Proof. unfold coords, hamilton, qmul. cbn. f_equal; [f_equal; [f_equal|]|]; unfold dot3; ring. Qed.
Lemma qmul_assoc p q r : qmul (qmul p q) r = qmul p (qmul q r).
Proof. qeq; unfold dot3; cbn; ring. Qed.
Lemma norm2_mul p q : norm2 (qmul p q) = norm2 p * norm2 q.
Proof. unfold norm2; cbn; unfold dot3; ring. Qed.
Lemma norm2_conj q : norm2 (conjugate q) = norm2 q.
Proof. unfold norm2; cbn; ring. Qed.
Lemma qmul_conj q : qmul q (conjugate q) = Quat (norm2 q) origin /\ qmul (conjugate q) q = Quat (norm2 q) origin.
Proof. split; qeq; unfold dot3, norm2; cbn; ring. Qed.
Lemma norm2_nonneg q : 0 <= norm2 q.
Proof. unfold norm2. nra. Qed.
Lemma qdot_norm2 q : qdot q q = norm2 q.
Proof. unfold qdot, norm2, dot3. ring. Qed.

Lemma normalize_unit q : norm2 q <> 0 -> unit (qnormalize q) /\ exists l, 0 < l /\ q = Quat (qs (qnormalize q) * l) (scale3 (qv (qnormalize q)) l).
Proof.
  intros N. pose proof (norm2_nonneg q) as P. assert (P' : 0 < norm2 q) by lra. set (l := sqrt (norm2 q)).
  assert (L : l * l = norm2 q) by (apply sqrt_sqrt; exact P). assert (L' : 0 < l) by (apply sqrt_lt_R0; exact P').
  unfold qnormalize. rewrite qdot_norm2. fold l. split.
  - unfold unit. transitivity (norm2 q * (1 / l * (1 / l))); [unfold norm2; cbn; ring|]. rewrite <- L. field. lra.
  - exists l. split; [exact L'|]. qeq; field; lra.
Qed.
Lemma normalize_of_unit q : unit q -> qnormalize q = q.
Proof. intros U. unfold qnormalize. rewrite qdot_norm2, U, sqrt_1. qeq; field. Qed.

(** q (0, v) q* *)
Lemma rotate_sandwich q v : unit q -> qmul (qmul q (Quat 0 v)) (conjugate q) = Quat 0 (rotate q v).
Proof. intros U. unit_sqr H q. qeq; unfold dot3; cbn; ring [H]. Qed.
Lemma rotate_compose p q v : unit p -> unit q -> rotate (qmul p q) v = rotate p (rotate q v).
Proof.
  intros Up Uq. assert (U : unit (qmul p q)) by (unfold unit; rewrite norm2_mul, Up, Uq; ring).
  assert (E : Quat 0 (rotate (qmul p q) v) = Quat 0 (rotate p (rotate q v))).
  { rewrite <- !rotate_sandwich by assumption. unfold conjugate. qeq; unfold dot3; cbn; ring. }
  congruence.
Qed.
Lemma rotate_inner q v w : unit q -> inner3 (rotate q v) (rotate q w) = inner3 v w.
Proof. intros U. unit_sqr H q. unfold inner3. cbn. ring [H]. Qed.
Lemma rotate_cross q v w : unit q -> cross (rotate q v) (rotate q w) = rotate q (cross v w).
Proof. intros U. unit_sqr H q. veq; ring [H]. Qed.
Lemma rotate_conj q v : unit q -> rotate (conjugate q) (rotate q v) = v /\ rotate q (rotate (conjugate q) v) = v.
Proof.
  intros U. assert (U' : unit (conjugate q)) by (unfold unit; rewrite norm2_conj; exact U). destruct (qmul_conj q) as [A B].
  rewrite <- !rotate_compose by assumption. rewrite A, B, U. split; veq; ring.
Qed.

Lemma mat_rotate j q v : mat_vec R_ops j 3 3 (mat_of_quat 3 3 q) (l3 v) = l3 (rotate q v).
Proof.
  unfold mat_vec, mat_of_quat, col_3x3, l3, rotate. cbn [Nat.eqb andb repeat Nat.sub app get MatModel.at_ nth add mul R_ops qs qv vx vy vz cross scale3].
  f_equal; [ring|f_equal; [ring|f_equal; ring]].
Qed.

Lemma abs_cases x : x <> 0 -> (Rabs x = x /\ 0 < x) \/ (Rabs x = - x /\ x < 0).
Proof. intros N. destruct (Rcase_abs x) as [H|H]; [right; split; [apply Rabs_left, H|exact H]|left; split; [apply Rabs_right, H|lra]]. Qed.
Lemma sqrt_four x : sqrt (4 * (x * x)) = 2 * Rabs x.
Proof. replace (4 * (x * x)) with (Rsqr (2 * x)) by (unfold Rsqr; ring). rewrite sqrt_Rsqr_abs, Rabs_mult, (Rabs_pos_eq 2) by lra. reflexivity. Qed.

Lemma quat_of_mat_of_quat rows cols q : (rows = 3 /\ cols = 3 \/ rows = 3 /\ cols = 4 \/ rows = 4 /\ cols = 4)%nat -> unit q -> same_rotation (quat_of_mat (mat_of_quat rows cols q)) q.
Proof.
  intros RC U. destruct q as [s [x y z]]. unfold unit, norm2 in U. cbn [qs qv vx vy vz] in U.
  assert (E : quat_of_mat (mat_of_quat rows cols (Quat s (V3 x y z))) = quat_of_mat (mat_of_quat 3 3 (Quat s (V3 x y z)))) by (destruct RC as [[-> ->]|[[-> ->]|[-> ->]]]; reflexivity).
  rewrite E. clear E RC rows cols. unfold quat_of_mat, mat_of_quat. cbn [Nat.eqb andb repeat Nat.sub app get MatModel.at_ nth R_ops qs qv vx vy vz].
  unfold same_rotation, opposite. cbn [qs qv vx vy vz].
  destruct (Rlt_dec 0 _) as [T|T]; [|destruct (Rlt_dec _ (1 - 2 * (y * y + z * z))) as [T1|T1]; [destruct (Rlt_dec _ (1 - 2 * (y * y + z * z))) as [T2|T2]|]; cbn [andb]].
  1: { match goal with |- context [sqrt ?a] => replace a with (4 * (s * s)) by lra end. rewrite sqrt_four. assert (N : s <> 0) by nra.
       destruct (abs_cases s N) as [[-> P]|[-> P]]; [left|right]; qeq; field; lra. }
  1: { match goal with |- context [sqrt ?a] => replace a with (4 * (x * x)) by lra end. rewrite sqrt_four. assert (N : x <> 0) by nra.
       destruct (abs_cases x N) as [[-> P]|[-> P]]; [left|right]; qeq; field; lra. }
  all: destruct (Rlt_dec _ _) as [T3|T3].
  1, 3: match goal with |- context [sqrt ?a] => replace a with (4 * (y * y)) by lra end; rewrite sqrt_four; assert (N : y <> 0) by nra;
       destruct (abs_cases y N) as [[-> P]|[-> P]]; [left|right]; qeq; field; lra.
  all: match goal with |- context [sqrt ?a] => replace a with (4 * (z * z)) by lra end; rewrite sqrt_four; assert (N : z <> 0) by nra;
       destruct (abs_cases z N) as [[-> P]|[-> P]]; [left|right]; qeq; field; lra.
Qed.

Lemma rotate_rodrigues k t v : unit3 k -> rotate (from_axis_angle k t) v = rodrigues k t v.
Proof.
  intros U. unfold unit3, inner3, l3 in U. cbn in U. assert (HK : vx k * vx k = 1 - vy k * vy k - vz k * vz k) by lra.
  unfold from_axis_angle, rodrigues. set (h := t * / 2). assert (E : t = 2 * h) by (unfold h; field). rewrite E, cos_2a_sin, sin_2a.
  assert (HC : cos h * cos h = 1 - sin h * sin h) by (pose proof (sin2_cos2 h) as X; unfold Rsqr in X; lra).
  unfold inner3, l3. veq; ring [HK HC].
Qed.
Lemma from_axis_angle_unit k t : unit3 k -> unit (from_axis_angle k t).
Proof.
  intros U. unfold unit3, inner3, l3 in U. cbn in U. unfold unit, norm2, from_axis_angle. cbn. set (h := t * / 2).
  assert (HC : cos h * cos h = 1 - sin h * sin h) by (pose proof (sin2_cos2 h) as X; unfold Rsqr in X; lra).
  assert (HK : vx k * vx k = 1 - vy k * vy k - vz k * vz k) by lra. ring [HK HC].
Qed.

(** [atan2] gives the angle of the point. *)
Lemma atan_polar x y : 0 < x -> let r := sqrt (x * x + y * y) in x = r * cos (atan (y / x)) /\ y = r * sin (atan (y / x)).
Proof.
  intros P r. rewrite cos_atan, sin_atan. assert (E : 1 + Rsqr (y / x) = (x * x + y * y) / (x * x)) by (unfold Rsqr; field; lra).
  assert (Q : 0 < x * x + y * y) by nra. rewrite E, sqrt_div_alt by nra. rewrite (sqrt_square x) by lra. fold r.
  assert (R0 : 0 < r) by (apply sqrt_lt_R0; exact Q). split; field; lra.
Qed.
Lemma atan2_polar x y : let r := sqrt (x * x + y * y) in x = r * cos (atan2 y x) /\ y = r * sin (atan2 y x).
Proof.
  intros r. unfold atan2. destruct (Rlt_dec 0 x) as [H|H]; [apply atan_polar, H|].
  destruct (Rlt_dec x 0) as [H1|H1].
  - assert (E : y / x = - y / - x) by (field; lra). destruct (atan_polar (- x) (- y) ltac:(lra)) as [A B]. rewrite <- E in A, B.
    replace (- x * - x + - y * - y) with (x * x + y * y) in A, B by ring. fold r in A, B.
    destruct (Rle_dec 0 y); unfold Rminus; rewrite cos_plus, sin_plus, ?cos_neg, ?sin_neg, cos_PI, sin_PI; split; lra.
  - assert (X : x = 0) by lra. unfold r. rewrite X. replace (0 * 0 + y * y) with (Rsqr y) by (unfold Rsqr; ring). rewrite sqrt_Rsqr_abs.
    destruct (Rlt_dec 0 y); [rewrite cos_PI2, sin_PI2, Rabs_pos_eq by lra; split; ring|]. destruct (Rlt_dec y 0); [rewrite cos_neg, sin_neg, cos_PI2, sin_PI2, Rabs_left by lra; split; ring|].
    assert (Y : y = 0) by lra. rewrite Y, Rabs_R0. split; ring.
Qed.
Lemma atan2_bound y x : - PI < atan2 y x <= PI.
Proof.
  unfold atan2. pose proof PI_RGT_0. pose proof (atan_bound (y / x)).
  destruct (Rlt_dec 0 x); [lra|]. destruct (Rlt_dec x 0) as [L|L]; [|destruct (Rlt_dec 0 y); [lra|destruct (Rlt_dec y 0); lra]].
  destruct (Rle_dec 0 y) as [Y|Y].
  - assert (atan (y / x) <= 0); [|lra]. assert (Q : y / x <= 0) by (unfold Rdiv; assert (/ x < 0) by (apply Rinv_lt_0_compat; exact L); nra).
    destruct (Req_dec (y / x) 0) as [Z|Z]; [rewrite Z, atan_0; lra|]. rewrite <- atan_0. left. apply atan_increasing. lra.
  - assert (0 < atan (y / x)); [|lra]. rewrite <- atan_0. apply atan_increasing. unfold Rdiv. assert (/ x < 0) by (apply Rinv_lt_0_compat; exact L). nra.
Qed.
Lemma atan2_pos_y y x : 0 <= y -> 0 <= atan2 y x.
Proof.
  intros Y. destruct (atan2_polar x y) as [A B]. destruct (atan2_bound y x) as [L U]. destruct (Rlt_dec (atan2 y x) 0) as [N|N]; [|lra].
  exfalso. assert (SN : sin (atan2 y x) < 0) by (apply sin_lt_0_var; lra). set (r := sqrt (x * x + y * y)) in *. assert (0 <= r) by apply sqrt_pos.
  assert (R0 : r = 0) by nra. assert (Q : x * x + y * y = 0) by (apply sqrt_eq_0; [nra|exact R0]). assert (X0 : x = 0) by nra. assert (Y0 : y = 0) by nra.
  rewrite X0, Y0 in N. unfold atan2 in N. destruct (Rlt_dec 0 0); lra.
Qed.
