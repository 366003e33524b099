(** The compile-time tangent between zero and pi. *)
From Coq Require Import ZArith Bool List Reals Lra Lia Psatz.
From Flocq Require Import Core BinarySingleNaN Relative Plus_error.
From Verif Require Import FpModel FpProofs FpProofs2 TrigModel TrigSpec TrigProofs TrigProofs2 TrigProofs3 TrigProofs4 TrigProofs5.
Local Open Scope R_scope.

(** [v] is [y] up to the relative error [e]. *)
Definition rel (v y e : R) : Prop := exists d, Rabs d <= e /\ v = y * (1 + d).
Lemma rel_le v y e e' : rel v y e -> e <= e' -> rel v y e'.
Proof. intros (d & D & E) H. exists d. split; [lra|exact E]. Qed.
Lemma rel_abs v y e : y <> 0 -> Rabs (v - y) <= e * Rabs y -> rel v y e.
Proof.
  intros N H. exists ((v - y) / y). split; [|field; exact N]. unfold Rdiv. rewrite Rabs_mult, Rabs_inv.
  apply Rmult_le_reg_r with (Rabs y); [now apply Rabs_pos_lt|]. rewrite Rmult_assoc, Rinv_l, Rmult_1_r by (apply Rgt_not_eq, Rabs_pos_lt; exact N). exact H.
Qed.
Lemma rel_mult v y e w z g : 0 <= e <= 0.00001 -> 0 <= g <= 0.00001 -> rel v y e -> rel w z g -> rel (v * w) (y * z) (1.00001 * (e + g)).
Proof.
  intros He Hg (d & D & ->) (b & B & ->). exists (d + b + d * b). split; [|ring].
  apply Rle_trans with (1 := Rabs_triang _ _). pose proof (Rabs_triang d b). rewrite Rabs_mult.
  assert (Rabs d * Rabs b <= 0.00001 * g) by (apply Rmult_le_compat; try apply Rabs_pos; lra). lra.
Qed.
Lemma rel_inv v y e : 0 <= e <= 0.00001 -> y <> 0 -> rel v y e -> rel (/ v) (/ y) (1.00002 * e).
Proof.
  intros He N (d & D & ->). apply Rabs_le_inv in D as D'. exists (- d / (1 + d)). split; [|field; lra].
  unfold Rdiv. rewrite Rabs_mult, Rabs_Ropp, Rabs_inv, (Rabs_pos_eq (1 + d)) by lra.
  assert (/ (1 + d) <= 1.00002). { apply Rle_trans with (/ 0.99999); [apply Rinv_le; lra|lra]. }
  assert (0 < / (1 + d)) by (apply Rinv_0_lt_compat; lra).
  apply Rle_trans with (e * 1.00002); [|lra]. apply Rmult_le_compat; try apply Rabs_pos; lra.
Qed.
Lemma rel_trans v y z e g : 0 <= e <= 0.00001 -> 0 <= g <= 0.00001 -> rel v y e -> rel y z g -> rel v z (1.00001 * (e + g)).
Proof.
  intros He Hg (d & D & ->) (b & B & ->). exists (d + b + d * b). split; [|ring].
  apply Rle_trans with (1 := Rabs_triang _ _). pose proof (Rabs_triang d b). rewrite Rabs_mult.
  assert (Rabs d * Rabs b <= 0.00001 * g) by (apply Rmult_le_compat; try apply Rabs_pos; lra). lra.
Qed.

(** Sine, cosine and tangent of small angles *)
Lemma sin_low x : 0 <= x <= 0.786 -> 0.89 * x <= sin x <= x.
Proof.
  intros H. assert (X2 : x * x <= 0.62) by (assert (x * x <= 0.786 * 0.786) by (apply Rmult_le_compat; lra); lra).
  pose proof (tail 2 ltac:(lia) x x p_near ltac:(intros; unfold p_near; lra) (fun k => near_p 2 x k ltac:(lia) ltac:(lra)) (sin x) 1 (sin_series x)) as Q.
  change (Sum 2 x x 1) with (x + - (x * q 2 x 0)) in Q. rewrite A_S in Q by lia. unfold A in Q. cbn [T] in Q. rewrite (Rabs_pos_eq x) in Q by lra.
  assert (q0 : 0 <= q 2 x 0 <= 0.1034). { split; [apply q_nonneg; lia|]. unfold q, d. replace (IZR ((2 * Z.of_nat 0 + 2) * (2 * Z.of_nat 0 + 2 + 1))) with 6 by (cbn; lra). lra. }
  unfold p_near in Q. apply Rabs_le_inv in Q. assert (0 <= x * q 2 x 0 <= x * 0.1034) by (split; [apply Rmult_le_pos|apply Rmult_le_compat_l]; lra).
  split; [|].
  2:{ lra. }
  pose proof (tail 2 ltac:(lia) x x p_near ltac:(intros; unfold p_near; lra) (fun k => near_p 2 x k ltac:(lia) ltac:(lra)) (sin x) 2 (sin_series x)) as Q2.
  change (Sum 2 x x 2) with (x + - (x * q 2 x 0) + - (- (x * q 2 x 0) * q 2 x 1)) in Q2. rewrite !A_S in Q2 by lia. unfold A in Q2. cbn [T] in Q2. rewrite (Rabs_pos_eq x) in Q2 by lra.
  unfold p_near in Q2. apply Rabs_le_inv in Q2. assert (0 <= x * q 2 x 0 * q 2 x 1) by (apply Rmult_le_pos; [lra|apply q_nonneg; lia]). lra.
Qed.
Lemma cos_low x : 0 <= x <= 0.4 -> 0.91 <= cos x <= 1.
Proof.
  intros H. split; [|apply COS_bound]. assert (X2 : 0 <= x * x <= 0.16) by (split; [apply Rmult_le_pos|assert (x * x <= 0.4 * 0.4) by (apply Rmult_le_compat; lra)]; lra).
  pose proof (tail 1 ltac:(lia) x 1 p_near ltac:(intros; unfold p_near; lra) (fun k => near_p 1 x k ltac:(lia) ltac:(lra)) (cos x) 2 (cos_series x)) as Q.
  change (Sum 1 x 1 2) with (1 + - (1 * q 1 x 0) + - (- (1 * q 1 x 0) * q 1 x 1)) in Q. rewrite !A_S in Q by lia. unfold A in Q. cbn [T] in Q. rewrite Rabs_R1 in Q.
  unfold p_near in Q. apply Rabs_le_inv in Q.
  assert (q0 : 0 <= q 1 x 0 <= 0.08). { split; [apply q_nonneg; lia|]. unfold q, d. replace (IZR ((2 * Z.of_nat 0 + 1) * (2 * Z.of_nat 0 + 1 + 1))) with 2 by (cbn; lra). lra. }
  assert (q1 : 0 <= q 1 x 1) by (apply q_nonneg; lia). assert (0 <= q 1 x 0 * q 1 x 1) by (apply Rmult_le_pos; lra). lra.
Qed.
Lemma tan_pi8 : tan (PI / 8) = sqrt 2 - 1.
Proof.
  pose proof PI_bounds as B. assert (C8 : 0 < cos (PI / 8)) by (apply cos_gt_0; lra). assert (C4 : 0 < cos (PI / 4)) by (apply cos_gt_0; lra).
  assert (S8 : 0 < sin (PI / 8)) by (apply sin_gt_0; lra). set (t := tan (PI / 8)).
  assert (t0 : 0 < t) by (unfold t, tan; now apply Rdiv_lt_0_compat).
  assert (E : t * t + 2 * t = 1).
  { pose proof (cos_2a (PI / 8)) as E1. pose proof (sin_2a (PI / 8)) as E2. replace (2 * (PI / 8)) with (PI / 4) in * by field.
    rewrite sin_PI4 in E2. rewrite cos_PI4 in E1. assert (E3 : cos (PI / 8) * cos (PI / 8) - sin (PI / 8) * sin (PI / 8) = 2 * sin (PI / 8) * cos (PI / 8)) by lra.
    unfold t, tan. set (cc := cos (PI / 8)) in *. set (ss := sin (PI / 8)) in *.
    apply Rmult_eq_reg_r with (cc * cc); [|nra]. replace ((ss / cc * (ss / cc) + 2 * (ss / cc)) * (cc * cc)) with (ss * ss + 2 * ss * cc) by (field; lra). lra. }
  assert (Q : (t + 1) * (t + 1) = 2) by lra. rewrite <- Q. rewrite sqrt_square by lra. ring.
Qed.
Lemma sqrt2 : 1.414213 < sqrt 2 < 1.414214.
Proof. split; [rewrite <- (sqrt_square 1.414213)|rewrite <- (sqrt_square 1.414214)]; try lra; apply sqrt_lt_1; lra. Qed.
Lemma tan_small x : 0 < x <= PI / 8 -> 0 < tan x <= 0.414214.
Proof.
  intros H. pose proof PI_bounds as B. split; [apply tan_gt_0; lra|]. pose proof sqrt2.
  destruct (Req_dec x (PI / 8)) as [->|N]; [rewrite tan_pi8; lra|]. assert (tan x < tan (PI / 8)) by (apply tan_increasing; lra). rewrite tan_pi8 in H1. lra.
Qed.
Lemma tan_2x x : 0 < x <= PI / 8 -> tan (2 * x) = 2 * tan x / (1 - tan x * tan x).
Proof.
  intros H. pose proof PI_bounds as B. assert (C1 : 0 < cos x) by (apply cos_gt_0; lra). assert (C2 : 0 < cos (2 * x)) by (apply cos_gt_0; lra).
  unfold tan. rewrite sin_2a. rewrite cos_2a in *. field. split; lra.
Qed.
Lemma tan_compl x : 0 < x < PI / 2 -> tan (PI / 2 - x) = / tan x.
Proof.
  intros H. pose proof PI_bounds as B. assert (0 < cos x) by (apply cos_gt_0; lra). assert (0 < sin x) by (apply sin_gt_0; lra).
  unfold tan. rewrite sin_shift, cos_shift. field. lra.
Qed.

(** The doubling formula, with an error in the tangent of the half *)
Lemma double_rel t y e : 0 <= e <= 0.00001 -> 0 < y <= 0.41422 -> rel t y e -> rel (1 - t * t) (1 - y * y) (0.416 * e) /\ 0.8 <= 1 - t * t <= 1 /\ 0 < t < 0.4143.
Proof.
  intros He Hy (d & D & ->). apply Rabs_le_inv in D as D'.
  assert (y2 : 0 < y * y <= 0.17158). { split; [now apply Rmult_lt_0_compat|]. apply Rle_trans with (0.41422 * 0.41422); [apply Rmult_le_compat|]; lra. }
  assert (yd : - (0.00001 * 0.41422) <= y * d <= 0.00001 * 0.41422) by nra.
  assert (R : rel (1 - y * (1 + d) * (y * (1 + d))) (1 - y * y) (0.416 * e)).
  { apply rel_abs; [lra|]. replace (1 - y * (1 + d) * (y * (1 + d)) - (1 - y * y)) with (- (y * y * (d * (2 + d)))) by ring. rewrite Rabs_Ropp, !Rabs_mult, <- (Rabs_mult y y), (Rabs_pos_eq (y * y)), (Rabs_pos_eq (1 - y * y)), (Rabs_pos_eq (2 + d)) by lra.
    assert (M1 : Rabs d * (2 + d) <= e * 2.0001) by (apply Rmult_le_compat; try apply Rabs_pos; lra).
    assert (M2 : y * y * (Rabs d * (2 + d)) <= 0.17158 * (e * 2.0001)) by (apply Rmult_le_compat; try lra; apply Rmult_le_pos; [apply Rabs_pos|lra]).
    assert (M3 : 0.416 * e * 0.82842 <= 0.416 * e * (1 - y * y)) by (apply Rmult_le_compat_l; lra). lra. }
  split; [exact R|]. destruct R as (b & Bb & E). apply Rabs_le_inv in Bb.
  assert (t2 : 0 <= y * (1 + d) * (y * (1 + d)) <= 0.4143 * 0.4143) by (split; [apply Rmult_le_pos|apply Rmult_le_compat]; nra).
  split; [lra|]. nra.
Qed.

Section Tan.
  Variable prec emax : Z.
  Context (prec_gt_0_ : Prec_gt_0 prec).
  Context (prec_lt_emax_ : Prec_lt_emax prec emax).
  Notation float := (binary_float prec emax).
  Notation emin := (3 - emax - prec)%Z.
  Notation fexp := (FLT_exp emin prec).
  Notation rnd := (round radix2 fexp ZnearestE).
  Notation u := (bpow radix2 (- prec)).
  Hypothesis prec_ok : (53 <= prec <= 113)%Z.
  Hypothesis emax_ok : (1024 <= emax)%Z.
  Variable c : constants prec emax.
  Hypothesis c_ok : right_constants prec emax c.
  Notation P := (B2R (pi c)).
  Notation h := (B2R (pi_over_two c)).
  Notation f := (B2R (pi_over_four c)).
  Notation e := (B2R (pi_over_eight c)).
  Notation tangent := (tangent prec emax _ _ c).
  Notation trig := (trig prec emax _ _ c).
  Let U0 := u_pos prec.
  Let Ut := u_tiny prec prec_ok.
  Lemma Up : u <= 0.0000000001. Proof using prec_ok Ut. lra. Qed.

  Lemma rnd_normal v : bpow radix2 (-1000) <= Rabs v -> rel (rnd v) v u.
  Proof using prec_ok emax_ok prec_gt_0_.
    intros V. destruct (relative_error_N_FLT_ex radix2 emin prec prec_gt_0_ (fun x => negb (Z.even x)) v) as (d & Hd & E).
    - apply Rle_trans with (2 := V). apply bpow_le. lia.
    - exists d. split; [|exact E]. apply Rle_trans with (1 := Hd). rewrite bpow_plus. cbn. lra.
  Qed.
  Lemma e_facts : is_finite (pi_over_eight c) = true /\ 2 * e = f /\ Rabs (e - PI / 8) <= 0.4 * u.
  Proof using prec_ok emax_ok c_ok prec_gt_0_ U0.
    pose proof PI_bounds as B. destruct (c_facts prec emax _ prec_ok emax_ok c c_ok) as [_ (H2 & H3 & H4) (E1 & _) _].
    destruct (pi_over_eight_right _ _ _ c_ok) as [F V]. destruct (pi_over_four_right _ _ _ c_ok) as [F4 V4].
    assert (E : f = 2 * e). { rewrite V, V4. replace (PI / 4) with (PI / 8 * bpow radix2 1) by (cbn; field). rewrite (rnd_scale prec emax prec_ok emax_ok) by (lia || lra). cbn. ring. }
    split; [exact F|]. split; [lra|]. apply Rabs_le_inv in E1. apply Rabs_le. lra.
  Qed.
  Definition fine (r : option float) (y g : R) : Prop := exists v, r = Some v /\ is_finite v = true /\ rel (B2R v) (tan y) g /\ (B2R v = 0 \/ bpow radix2 (-1000) <= Rabs (B2R v) <= bpow radix2 200).
  Lemma fine_le r y g g' : fine r y g -> g <= g' -> fine r y g'.
  Proof using. intros (v & E & F & R & M) H. exists v. split; [exact E|]. split; [exact F|]. split; [now apply rel_le with g|exact M]. Qed.

  (** What is left after the reduction *)
  Definition tbody (fuel : nat) (x : float) : option float :=
    if Beqb x (pi c) then Some (zero prec emax)
    else if Beqb x (pi_over_four c) then Some Bone
    else if Beqb x (pi_over_eight c) then Some (Bminus mode_NE (sqrt_two c) Bone)
    else if between prec emax (pi_over_two c) x (pi c) then option_map (fun r => Bopp r) (tangent fuel (Bminus mode_NE (pi c) x))
    else if between prec emax (pi_over_four c) x (pi_over_two c) then match tangent fuel (Bminus mode_NE (pi_over_two c) x) with Some r => divide prec emax _ _ Bone r | None => None end
    else if between prec emax (pi_over_eight c) x (pi_over_four c) then
      match tangent fuel (Bdiv mode_NE x (of_Z prec emax _ _ 2)) with Some t => divide prec emax _ _ (Bplus mode_NE t t) (Bminus mode_NE Bone (Bmult mode_NE t t)) | None => None end
    else match trig fuel false x, trig fuel true x with Some s, Some k => divide prec emax _ _ s k | _, _ => None end.
  Lemma tangent_in fuel (x : float) : is_finite x = true -> 0 < B2R x <= P -> tangent (S fuel) x = tbody fuel x.
  Proof using prec_ok emax_ok c_ok prec_gt_0_.
    intros F H. destruct (c_facts prec emax _ prec_ok emax_ok c c_ok) as [(F1 & _) _ _ _]. cbn [TrigModel.tangent].
    rewrite !Beqb_correct by (assumption || reflexivity). rewrite (Req_bool_true (B2R x) (B2R x)) by reflexivity. cbn [B2R zero]. rewrite Req_bool_false by lra. cbn [orb negb].
    rewrite !Bltb_correct by (assumption || reflexivity). cbn [B2R zero]. rewrite !Rlt_bool_false by lra. cbn [orb]. unfold tbody. rewrite !Beqb_correct; try reflexivity; try assumption; apply c_ok.
  Qed.
  Ltac decide_ :=
    match goal with
    | |- context [Rlt_bool ?a ?b] => first [rewrite (Rlt_bool_true a b) by lra | rewrite (Rlt_bool_false a b) by lra]
    | |- context [Req_bool ?a ?b] => first [rewrite (Req_bool_true a b) by lra | rewrite (Req_bool_false a b) by lra]
    end; cbn [orb andb negb].
  Ltac compare_ := unfold tbody, between; rewrite ?Bltb_correct, ?Beqb_correct by (assumption || reflexivity); cbn [B2R zero]; repeat decide_.

  Lemma divide_ok (x y : float) : is_finite x = true -> is_finite y = true -> B2R y <> 0 -> bpow radix2 (-1000) <= Rabs (B2R x / B2R y) <= bpow radix2 200 ->
    exists v, divide prec emax _ _ x y = Some v /\ is_finite v = true /\ rel (B2R v) (B2R x / B2R y) u /\ bpow radix2 (-1000) <= Rabs (B2R v) <= bpow radix2 200.
  Proof using prec_ok emax_ok.
    intros Fx Fy N B. unfold divide. rewrite Beqb_correct by (assumption || reflexivity). cbn [B2R zero]. rewrite Req_bool_false by exact N.
    assert (FV : is_finite (Bdiv mode_NE x y) = true /\ B2R (Bdiv mode_NE x y) = rnd (B2R x / B2R y)).
    { pose proof (Bdiv_correct prec emax _ _ mode_NE x y N) as C. rewrite Rlt_bool_true in C by (apply (rnd_below prec emax _ prec_ok emax_ok 200); [lia|apply B]). rewrite Fx in C. split; apply C. }
    destruct FV as [F V]. eexists. split; [reflexivity|]. split; [exact F|]. rewrite V. split; [apply rnd_normal; apply B|].
    assert (G : forall k, (-1000 <= k)%Z -> generic_format radix2 fexp (bpow radix2 k)) by (intros k K; apply generic_format_bpow; unfold FLT_exp; lia).
    split; [apply abs_round_ge_generic|apply abs_round_le_generic]; try apply valid_rnd_N; try (apply FLT_exp_valid; exact prec_gt_0_); try apply B; apply G; lia.
  Qed.

  Lemma tiny_big : bpow radix2 (-900) <= 0.001 /\ bpow radix2 (-1000) <= 0.001 * bpow radix2 (-900) /\ 1000000 <= bpow radix2 100 <= bpow radix2 200 /\ 0 < bpow radix2 (-900).
  Proof using.
    split; [apply Rle_trans with (bpow radix2 (-10)); [apply bpow_le; lia|cbn; lra]|]. split; [|split; [split; [apply Rle_trans with (bpow radix2 20); [cbn; lra|apply bpow_le; lia]|apply bpow_le; lia]|apply bpow_gt_0]].
    apply Rle_trans with (bpow radix2 (-20) * bpow radix2 (-900)); [rewrite <- bpow_plus; apply bpow_le; lia|]. apply Rmult_le_compat_r; [apply bpow_ge_0|cbn; lra].
  Qed.

  (** Up to pi/8: the quotient of the sine and the cosine *)
  Lemma eighth fuel (x : float) : is_finite x = true -> bpow radix2 (-900) <= B2R x <= e -> fine (tangent (S (S fuel)) x) (if Req_bool (B2R x) e then PI / 8 else B2R x) (80 * u).
  Proof using prec_ok emax_ok c_ok prec_gt_0_ U0 Ut.
    intros F H. destruct (c_facts prec emax _ prec_ok emax_ok c c_ok) as [(F1 & F2 & F3 & F4 & F5) (H2 & H3 & H4) (E1 & _) (N1 & N2)].
    destruct e_facts as (F8 & H8 & E8). pose proof PI_bounds as B. pose proof tiny_big as (t1 & t2 & t3 & t4). pose proof Up as U1.
    rewrite tangent_in by (assumption || lra). destruct (Req_bool_spec (B2R x) e) as [Eq|Ne].
    - compare_. destruct (sqrt_two_right _ _ _ c_ok) as [Fs Vs]. pose proof sqrt2 as S2. pose proof (rnd_rel prec emax _ prec_ok emax_ok (sqrt 2) ltac:(lra)) as Rs. rewrite <- Vs in Rs.
      destruct (one_ok prec emax _ _) as [Fo Vo]. apply Rabs_le_inv in Rs as Rs'. assert (us : u * sqrt 2 <= u * 1.414214) by (apply Rmult_le_compat_l; lra).
      destruct (minus_sterbenz prec emax _ _ prec_ok emax_ok (sqrt_two c) Bone Fs Fo ltac:(lra)) as [Fm Vm].
      exists (Bminus mode_NE (sqrt_two c) Bone). split; [reflexivity|]. split; [exact Fm|]. rewrite Vm, Vo, tan_pi8. split; [|right; rewrite Rabs_pos_eq by lra; lra]. apply rel_abs; [lra|].
      replace (B2R (sqrt_two c) - 1 - (sqrt 2 - 1)) with (B2R (sqrt_two c) - sqrt 2) by ring. apply Rle_trans with (1 := Rs). rewrite (Rabs_pos_eq (sqrt 2 - 1)) by lra.
      assert (80 * u * 0.4 <= 80 * u * (sqrt 2 - 1)) by (apply Rmult_le_compat_l; lra). lra.
    - compare_. pose proof (sin_low (B2R x) ltac:(lra)) as Sl. pose proof (cos_low (B2R x) ltac:(lra)) as Cl.
      destruct (small_sin prec emax _ _ prec_ok emax_ok c c_ok fuel x F ltac:(lra)) as (s & Es & Fs & Vs).
      destruct (near_trig prec emax _ _ prec_ok emax_ok c c_ok fuel true x F ltac:(lra)) as (k & Ek & Fk & Vk). cbn [fn] in Vk. rewrite Es, Ek.
      assert (Rs : rel (B2R s) (sin (B2R x)) (39 * u)).
      { apply rel_abs; [lra|]. apply Rle_trans with (1 := Vs). rewrite Rabs_pos_eq by lra. apply Rle_trans with (39 * u * (0.89 * B2R x)); [|apply Rmult_le_compat_l; lra].
        assert (0 <= u * B2R x) by (apply Rmult_le_pos; lra). lra. }
      assert (Rk : rel (B2R k) (cos (B2R x)) (38 * u)).
      { apply rel_abs; [lra|]. apply Rle_trans with (1 := Vk). rewrite Rabs_pos_eq by lra. apply Rle_trans with (38 * u * 0.91); [lra|apply Rmult_le_compat_l; lra]. }
      apply Rabs_le_inv in Vk as Vk'. assert (Kp : 0.9 <= B2R k <= 1.1) by lra.
      pose proof (rel_mult _ _ (39 * u) _ _ (1.00002 * (38 * u)) ltac:(lra) ltac:(lra) Rs (rel_inv _ (cos (B2R x)) (38 * u) ltac:(lra) ltac:(lra) Rk)) as Rq. fold (B2R s / B2R k) (sin (B2R x) / cos (B2R x)) (tan (B2R x)) in Rq.
      apply Rabs_le_inv in Vs as Vs'. assert (ux : 34 * u * B2R x <= 0.01 * B2R x) by (apply Rmult_le_compat_r; lra).
      assert (iK : 0.9 <= / B2R k <= 1.12) by (split; [apply Rle_trans with (/ 1.1); [lra|apply Rinv_le; lra]|apply Rle_trans with (/ 0.9); [apply Rinv_le; lra|lra]]).
      assert (Qb : 0.7 * B2R x <= B2R s / B2R k <= 1.2).
      { unfold Rdiv. split; [apply Rle_trans with (0.8 * B2R x * 0.9); [lra|apply Rmult_le_compat; lra]|apply Rle_trans with (1.02 * 1.12); [apply Rmult_le_compat; lra|lra]]. }
      destruct (divide_ok s k Fs Fk ltac:(lra)) as (v & Ev & Fv & Rv & Mv). { rewrite Rabs_pos_eq by lra. lra. }
      exists v. split; [exact Ev|]. split; [exact Fv|]. split; [|right; exact Mv]. eapply rel_le; [apply (rel_trans _ _ _ _ _) with (3 := Rv) (4 := Rq); lra|lra].
  Qed.

  (** Up to pi/4 *)
  Lemma quarter fuel (x : float) : is_finite x = true -> bpow radix2 (-900) <= B2R x < f -> exists dx, Rabs dx <= 0.4 * u /\ 0 < B2R x + dx < PI / 4 + u /\ fine (tangent (S (S (S fuel))) x) (B2R x + dx) (118 * u).
  Proof using prec_ok emax_ok c_ok prec_gt_0_ U0 Ut.
    intros F H. destruct (c_facts prec emax _ prec_ok emax_ok c c_ok) as [(F1 & F2 & F3 & F4 & F5) (H2 & H3 & H4) (E1 & _) (N1 & N2)].
    destruct e_facts as (F8 & H8 & E8). pose proof PI_bounds as B. pose proof tiny_big as (t1 & t2 & t3 & t4). pose proof Up as U1. apply Rabs_le_inv in E8 as E8'.
    destruct (Rle_lt_dec (B2R x) e) as [Le|Ge].
    - pose proof (eighth (S fuel) x F ltac:(lra)) as Q. destruct (Req_bool_spec (B2R x) e) as [Eq|Ne].
      + exists (PI / 8 - e). split; [now rewrite Rabs_minus_sym|]. split; [lra|]. rewrite Eq. replace (e + (PI / 8 - e)) with (PI / 8) by ring. apply fine_le with (1 := Q). lra.
      + exists 0. rewrite Rabs_R0, Rplus_0_r. split; [lra|]. split; [lra|]. apply fine_le with (1 := Q). lra.
    - exists 0. rewrite Rabs_R0, Rplus_0_r. split; [lra|]. apply Rabs_le_inv in E1. split; [lra|].
      rewrite tangent_in by (assumption || lra). compare_.
      destruct (int_ok prec emax _ _ prec_ok emax_ok 2 ltac:(lia)) as [Fi Vi].
      destruct (div_ok prec emax _ _ prec_ok emax_ok x (of_Z prec emax _ _ 2) F ltac:(rewrite Vi; lra)) as [Fd Vd]. { rewrite Vi, Rabs_pos_eq; lra. }
      set (y := Bdiv mode_NE x _) in *.
      assert (Vy : B2R y = B2R x / 2).
      { rewrite Vd, Vi. pose proof (rnd_scale prec emax prec_ok emax_ok (B2R x / 2) 1 ltac:(lra) ltac:(lia)) as Sc.
        replace (B2R x / 2 * bpow radix2 1) with (B2R x) in Sc by (cbn; lra). rewrite (rnd_fmt prec emax) in Sc by apply fmt. cbn in Sc |- *. lra. }
      pose proof (eighth fuel y Fd ltac:(rewrite Vy; lra)) as Q. rewrite Vy, Req_bool_false in Q by lra. destruct Q as (t & Et & Ft & Rt & Mt). rewrite Et.
      assert (X8 : 0 < B2R x / 2 <= PI / 8 + 0.4 * u) by lra.
      assert (Tl : 0 < tan (B2R x / 2) <= 0.41422).
      { destruct (Rle_lt_dec (B2R x / 2) (PI / 8)) as [L|G]; [pose proof (tan_small (B2R x / 2) (conj (proj1 X8) L)) as TS; lra|]. split; [apply tan_gt_0; lra|].
        pose proof (sin_low (B2R x / 2) ltac:(lra)). pose proof (cos_low (B2R x / 2) ltac:(lra)).
        assert (S1 : sin (B2R x / 2) <= sin (PI / 8) + 0.4 * u). { pose proof (sin_lip (B2R x / 2) (PI / 8)) as L. rewrite (Rabs_pos_eq (B2R x / 2 - PI / 8)) in L by lra. apply Rabs_le_inv in L. lra. }
        assert (C1 : cos (PI / 8) - 0.4 * u <= cos (B2R x / 2)). { pose proof (cos_lip (B2R x / 2) (PI / 8)) as L. rewrite (Rabs_pos_eq (B2R x / 2 - PI / 8)) in L by lra. apply Rabs_le_inv in L. lra. }
        pose proof tan_pi8 as T8. pose proof sqrt2 as S2. pose proof (cos_low (PI / 8) ltac:(lra)) as C8. assert (S8 : sin (PI / 8) = (sqrt 2 - 1) * cos (PI / 8)) by (rewrite <- T8; unfold tan; field; lra).
        assert (S8' : sin (PI / 8) <= 0.414214 * cos (PI / 8)) by (rewrite S8; apply Rmult_le_compat_r; lra).
        unfold tan. apply Rmult_le_reg_r with (cos (B2R x / 2)); [lra|]. unfold Rdiv. rewrite Rmult_assoc, Rinv_l by lra. lra. }
      destruct (double_rel (B2R t) (tan (B2R x / 2)) (80 * u) ltac:(lra) Tl Rt) as (Rm & Bm & Bt).
      destruct (one_ok prec emax _ _) as [Fo Vo].
      assert (big : forall v, Rabs v <= 2 -> Rabs v <= bpow radix2 100) by (intros; lra).
      destruct (mult_ok prec emax _ _ prec_ok emax_ok t t Ft Ft) as [Fq Vq]. { apply big. apply Rabs_le. lra. }
      set (tt := Bmult mode_NE t t) in *.
      assert (Tp : 0.12 <= B2R t).
      { destruct Rt as (g & Hg & Eg). apply Rabs_le_inv in Hg. assert (0.15 <= tan (B2R x / 2)).
        { unfold tan. pose proof (sin_low (B2R x / 2) ltac:(lra)). pose proof (cos_low (B2R x / 2) ltac:(lra)). apply Rle_trans with (sin (B2R x / 2) * 1); [lra|]. apply Rmult_le_compat_l; [lra|].
          rewrite <- Rinv_1 at 1. apply Rinv_le; lra. }
        rewrite Eg. apply Rle_trans with (0.15 * 0.9); [lra|]. apply Rmult_le_compat; lra. }
      assert (t22 : 0.0144 <= B2R t * B2R t <= 0.2) by (split; [apply Rle_trans with (0.12 * 0.12); [lra|apply Rmult_le_compat; lra]|lra]).
      destruct (rnd_normal (B2R t * B2R t)) as (g & Hg & Eg). { rewrite Rabs_pos_eq by lra. lra. } rewrite Eg in Vq. apply Rabs_le_inv in Hg as Hg'.
      assert (tg : Rabs (B2R t * B2R t * g) <= 0.2 * u) by (rewrite Rabs_mult, (Rabs_pos_eq (B2R t * B2R t)) by lra; apply Rmult_le_compat; try apply Rabs_pos; lra).
      apply Rabs_le_inv in tg as tg'.
      destruct (minus_ok prec emax _ _ prec_ok emax_ok Bone tt Fo Fq) as [Fs Vs]. { apply big. rewrite Vo, Vq. apply Rabs_le. lra. }
      set (den := Bminus mode_NE Bone tt) in *. rewrite Vo in Vs.
      assert (Rd : rel (B2R den) (1 - B2R t * B2R t) (1.3 * u)).
      { destruct (rnd_normal (1 - B2R tt)) as (g2 & Hg2 & Eg2). { rewrite Vq, Rabs_pos_eq; lra. }
        rewrite Vs, Eg2. eapply rel_le; [apply (rel_trans _ (1 - B2R tt) _ u (0.25 * u)); [lra|lra|exists g2; auto|]|lra].
        apply rel_abs; [lra|]. rewrite Vq. replace (1 - B2R t * B2R t * (1 + g) - (1 - B2R t * B2R t)) with (- (B2R t * B2R t * g)) by ring. rewrite Rabs_Ropp, (Rabs_pos_eq (1 - _)) by lra.
        apply Rle_trans with (1 := tg). assert (0.25 * u * 0.8 <= 0.25 * u * (1 - B2R t * B2R t)) by (apply Rmult_le_compat_l; lra). lra. }
      destruct Rd as (g3 & Hg3 & Eg3). apply Rabs_le_inv in Hg3 as Hg3'.
      assert (Db : 0.79 <= B2R den <= 1.01). { rewrite Eg3. split; [apply Rle_trans with (0.8 * 0.99); [lra|apply Rmult_le_compat; lra]|apply Rle_trans with (1 * 1.01); [apply Rmult_le_compat; lra|lra]]. }
      destruct (plus_ok prec emax _ _ prec_ok emax_ok t t Ft Ft) as [Fn Vn]. { apply big. apply Rabs_le. lra. }
      set (num := Bplus mode_NE t t) in *.
      assert (Vn' : B2R num = 2 * B2R t).
      { rewrite Vn. replace (B2R t + B2R t) with (B2R t * bpow radix2 1) by (cbn; lra). rewrite (rnd_scale prec emax prec_ok emax_ok) by (lia || lra). rewrite (rnd_fmt prec emax) by apply fmt. cbn. lra. }
      assert (iD : 0.9 <= / B2R den <= 1.3) by (split; [apply Rle_trans with (/ 1.01); [lra|apply Rinv_le; lra]|apply Rle_trans with (/ 0.79); [apply Rinv_le; lra|lra]]).
      destruct (divide_ok num den Fn Fs ltac:(lra)) as (v & Ev & Fv & Rv & Mv).
      { rewrite Vn'. unfold Rdiv. rewrite Rabs_pos_eq by (apply Rmult_le_pos; lra). split; [apply Rle_trans with (0.24 * 0.9); [lra|apply Rmult_le_compat; lra]|apply Rle_trans with (0.9 * 1.3); [apply Rmult_le_compat; lra|lra]]. }
      exists v. split; [exact Ev|]. split; [exact Fv|]. split; [|right; exact Mv].
      replace (tan (B2R x)) with (2 * tan (B2R x / 2) / (1 - tan (B2R x / 2) * tan (B2R x / 2))).
      2:{ assert (C2 : 0 < cos (B2R x / 2)) by (apply cos_gt_0; lra). assert (C1 : 0 < cos (B2R x)) by (apply cos_gt_0; lra).
          replace (B2R x) with (2 * (B2R x / 2)) in C1 |- * at 4 by field. unfold tan. rewrite sin_2a. rewrite cos_2a in *. field. split; lra. }
      assert (Rd : rel (B2R den) (1 - B2R t * B2R t) (1.3 * u)) by (exists g3; auto).
      pose proof (rel_trans _ _ _ (1.3 * u) (0.416 * (80 * u)) ltac:(lra) ltac:(lra) Rd Rm) as Rdd.
      pose proof (rel_inv _ (1 - tan (B2R x / 2) * tan (B2R x / 2)) (1.00001 * (1.3 * u + 0.416 * (80 * u))) ltac:(lra) ltac:(assert (tan (B2R x / 2) * tan (B2R x / 2) <= 0.41422 * 0.41422) by (apply Rmult_le_compat; lra); lra) Rdd) as Ri.
      assert (Rn : rel (B2R num) (2 * tan (B2R x / 2)) (80 * u)) by (destruct Rt as (g4 & Hg4 & Eg4); exists g4; split; [exact Hg4|rewrite Vn', Eg4; ring]).
      pose proof (rel_mult _ _ (80 * u) _ _ (1.00002 * (1.00001 * (1.3 * u + 0.416 * (80 * u)))) ltac:(lra) ltac:(lra) Rn Ri) as Rq. fold (B2R num / B2R den) in Rq.
      eapply rel_le; [apply (rel_trans _ _ _ _ _) with (3 := Rv) (4 := Rq); lra|lra].
  Qed.

  (** Up to pi/2 *)
  Lemma right_angle fuel (x : float) : is_finite x = true -> bpow radix2 (-900) <= B2R x < h -> exists dx, Rabs dx <= 2.1 * u /\ 0 < B2R x + dx < PI / 2 /\ fine (tangent (S (S (S (S fuel)))) x) (B2R x + dx) (120 * u).
  Proof using prec_ok emax_ok c_ok prec_gt_0_ U0 Ut.
    intros F H. destruct (c_facts prec emax _ prec_ok emax_ok c c_ok) as [(F1 & F2 & F3 & F4 & F5) (H2 & H3 & H4) (E1 & _ & E3 & _) (N1 & N2)].
    destruct e_facts as (F8 & H8 & E8). pose proof PI_bounds as B. pose proof tiny_big as (t1 & t2 & t3 & t4). pose proof Up as U1. apply Rabs_le_inv in E1 as E1'.
    destruct (Rlt_le_dec (B2R x) f) as [L|G].
    - destruct (quarter (S fuel) x F ltac:(lra)) as (dx & D & I & Q). exists dx. split; [lra|]. split; [lra|]. apply fine_le with (1 := Q). lra.
    - destruct (Req_dec (B2R x) f) as [Eq|Ne].
      + exists (PI / 4 - f). split; [apply Rabs_le; lra|]. split; [lra|]. rewrite tangent_in by (assumption || lra). compare_.
        destruct (one_ok prec emax _ _) as [Fo Vo]. exists Bone. split; [reflexivity|]. split; [exact Fo|]. rewrite Vo, Eq. replace (f + (PI / 4 - f)) with (PI / 4) by ring. rewrite tan_PI4.
        split; [|right; rewrite Rabs_R1; lra]. exists 0. rewrite Rabs_R0. split; [lra|ring].
      + destruct (minus_sterbenz prec emax _ _ prec_ok emax_ok (pi_over_two c) x F3 F ltac:(lra)) as [Fm Vm].
        assert (Low : bpow radix2 (-120) <= h - B2R x).
        { (* neighbouring numbers are at least a unit apart *)
          pose proof (succ_le_lt radix2 (FLT_exp emin prec) (B2R x) h (fmt prec emax x) (fmt prec emax _) ltac:(lra)) as S. rewrite succ_eq_pos in S by lra.
          assert (bpow radix2 (-120) <= ulp radix2 (FLT_exp emin prec) (B2R x)); [|lra].
          rewrite ulp_neq_0 by lra. apply bpow_le. unfold cexp, FLT_exp. assert (-2 < mag radix2 (B2R x))%Z by (apply mag_gt_bpow; rewrite Rabs_pos_eq by lra; cbn; lra). lia. }
        assert (Low9 : bpow radix2 (-900) <= bpow radix2 (-120)) by (apply bpow_le; lia).
        destruct (quarter fuel _ Fm ltac:(rewrite Vm; lra)) as (dy & Dy & Iy & t & Et & Ft & Rt & Mt). rewrite Vm in Iy, Rt.
        exists (PI / 2 - h - dy). apply Rabs_le_inv in E3 as E3'. apply Rabs_le_inv in Dy as Dy'. split; [apply Rabs_le; lra|].
        split; [lra|]. rewrite tangent_in by (assumption || lra). compare_. rewrite Et.
        set (a := h - B2R x + dy) in *. replace (B2R x + (PI / 2 - h - dy)) with (PI / 2 - a) by (unfold a; ring).
        assert (Ta : 0 < tan a) by (apply tan_gt_0; lra). assert (Tu : tan a <= 1.5).
        { unfold tan. pose proof (sin_lip a (PI / 4)) as L1. pose proof (cos_lip a (PI / 4)) as L2. destruct (Rle_lt_dec a (PI / 4)) as [La|Ga].
          - destruct (Req_dec a (PI / 4)) as [->|Nn]; [fold (tan (PI / 4)); rewrite tan_PI4; lra|]. assert (tan a < tan (PI / 4)) by (apply tan_increasing; lra). rewrite tan_PI4 in H0. unfold tan in H0. lra.
          - rewrite (Rabs_pos_eq (a - PI / 4)) in L1, L2 by lra. apply Rabs_le_inv in L1. apply Rabs_le_inv in L2. pose proof sqrt2 as S2.
            assert (Q4 : 0.7 <= 1 / sqrt 2 <= 0.72). { unfold Rdiv. rewrite Rmult_1_l. split; [apply Rle_trans with (/ 1.414214); [lra|apply Rinv_le; lra]|apply Rle_trans with (/ 1.414213); [apply Rinv_le; lra|lra]]. }
            rewrite sin_PI4 in L1. rewrite cos_PI4 in L2. apply Rmult_le_reg_r with (cos a); [lra|]. unfold Rdiv. rewrite Rmult_assoc, Rinv_l by lra. lra. }
        assert (Tl : 0.4 * bpow radix2 (-120) <= tan a).
        { assert (u * 8 <= bpow radix2 (-50)). { change 8 with (bpow radix2 3). rewrite <- bpow_plus. apply bpow_le. lia. }
          assert (Al : 0.5 * (h - B2R x) <= a).
          { unfold a. assert (S : u <= h - B2R x); [|lra].
            pose proof (succ_le_lt radix2 (FLT_exp emin prec) (B2R x) h (fmt prec emax x) (fmt prec emax _) ltac:(lra)) as S. rewrite succ_eq_pos in S by lra.
            assert (u <= ulp radix2 (FLT_exp emin prec) (B2R x)); [|lra].
            rewrite ulp_neq_0 by lra. apply bpow_le. unfold cexp, FLT_exp. assert (-1 < mag radix2 (B2R x))%Z by (apply mag_gt_bpow; rewrite Rabs_pos_eq by lra; cbn; lra). lia. }
          pose proof (sin_low a ltac:(lra)) as Sa. assert (Ca : 0 < cos a <= 1) by (split; [apply cos_gt_0; lra|apply COS_bound]).
          apply Rle_trans with (sin a * 1); [lra|]. unfold tan. apply Rmult_le_compat_l; [lra|]. rewrite <- Rinv_1 at 1. apply Rinv_le; lra. }
        destruct Rt as (g & Hg & Eg). apply Rabs_le_inv in Hg as Hg'.
        assert (p200 : 0 < bpow radix2 (-120)) by apply bpow_gt_0.
        assert (tB : 0.25 * bpow radix2 (-120) <= B2R t <= 1.6). { rewrite Eg. split; [apply Rle_trans with (0.4 * bpow radix2 (-120) * 0.9); [lra|apply Rmult_le_compat; lra]|apply Rle_trans with (1.5 * 1.01); [apply Rmult_le_compat; lra|lra]]. }
        destruct (one_ok prec emax _ _) as [Fo Vo].
        destruct (divide_ok Bone t Fo Ft ltac:(lra)) as (v & Ev & Fv & Rv & Mv).
        { rewrite Vo. unfold Rdiv. rewrite Rmult_1_l, Rabs_pos_eq by (apply Rlt_le, Rinv_0_lt_compat; lra). split.
          - apply Rle_trans with (/ 1.6); [lra|apply Rinv_le; lra].
          - apply Rle_trans with (/ (0.25 * bpow radix2 (-120))); [apply Rinv_le; lra|].
            replace (0.25 * bpow radix2 (-120)) with (bpow radix2 (-122)) by (change (-122)%Z with (-2 + -120)%Z; rewrite bpow_plus; cbn [bpow]; cbn; lra).
            rewrite <- bpow_opp. apply bpow_le. lia. }
        exists v. split; [exact Ev|]. split; [exact Fv|]. split; [|right; exact Mv]. rewrite tan_compl by lra. rewrite Vo in Rv. unfold Rdiv in Rv. rewrite Rmult_1_l in Rv.
        assert (Ri : rel (/ B2R t) (/ tan a) (1.00002 * (118 * u))) by (apply rel_inv; [lra|lra|exists g; auto]).
        eapply rel_le; [apply (rel_trans _ _ _ _ _) with (3 := Rv) (4 := Ri); lra|lra].
  Qed.

  (** Up to pi *)
  Lemma half_turn fuel (x : float) : is_finite x = true -> bpow radix2 (-900) <= B2R x <= P -> B2R x <> h ->
    exists dx, Rabs dx <= 5.5 * u /\ fine (tangent (S (S (S (S (S fuel))))) x) (B2R x + dx) (120 * u).
  Proof using prec_ok emax_ok c_ok prec_gt_0_ U0 Ut.
    intros F H Nh. destruct (c_facts prec emax _ prec_ok emax_ok c c_ok) as [(F1 & F2 & F3 & F4 & F5) (H2 & H3 & H4) (E1 & _ & E3 & _) (N1 & N2)].
    destruct e_facts as (F8 & H8 & E8). pose proof PI_bounds as B. pose proof Up as U1. apply Rabs_le_inv in E1 as E1'.
    destruct (Rlt_le_dec (B2R x) h) as [L|G].
    - destruct (right_angle (S fuel) x F ltac:(lra)) as (dx & D & _ & Q). exists dx. split; [lra|exact Q].
    - destruct (Req_dec (B2R x) P) as [Eq|Ne].
      + exists (PI - P). split; [apply Rabs_le; lra|]. rewrite tangent_in by (assumption || lra). compare_.
        exists (zero prec emax). split; [reflexivity|]. split; [reflexivity|]. split; [|left; reflexivity]. exists 0. rewrite Rabs_R0. split; [lra|]. rewrite Eq. replace (P + (PI - P)) with PI by ring. rewrite tan_PI. cbn. ring.
      + destruct (minus_sterbenz prec emax _ _ prec_ok emax_ok (pi c) x F1 F ltac:(lra)) as [Fm Vm].
        assert (Low : bpow radix2 (-900) <= P - B2R x).
        { pose proof (succ_le_lt radix2 (FLT_exp emin prec) (B2R x) P (fmt prec emax x) (fmt prec emax _) ltac:(lra)) as S. rewrite succ_eq_pos in S by lra.
          assert (bpow radix2 (-900) <= ulp radix2 (FLT_exp emin prec) (B2R x)); [|lra].
          rewrite ulp_neq_0 by lra. apply bpow_le. unfold cexp, FLT_exp. assert (-2 < mag radix2 (B2R x))%Z by (apply mag_gt_bpow; rewrite Rabs_pos_eq by lra; cbn; lra). lia. }
        destruct (right_angle fuel _ Fm ltac:(rewrite Vm; lra)) as (dy & Dy & Iy & t & Et & Ft & Rt & Mt). rewrite Vm in Iy, Rt.
        exists (PI - P - dy). apply Rabs_le_inv in Dy as Dy'. split; [apply Rabs_le; lra|]. rewrite tangent_in by (assumption || lra). compare_. rewrite Et. cbn [option_map].
        exists (Bopp t). split; [reflexivity|]. split; [now rewrite is_finite_Bopp|]. rewrite B2R_Bopp. split; [|rewrite Rabs_Ropp; destruct Mt as [Mt|Mt]; [left; lra|right; exact Mt]]. destruct Rt as (g & Hg & Eg). exists g. split; [exact Hg|]. rewrite Eg.
        replace (B2R x + (PI - P - dy)) with (- (P - B2R x + dy) + PI) by ring. unfold tan. rewrite neg_sin, neg_cos, sin_neg, cos_neg.
        assert (0 < cos (P - B2R x + dy)) by (apply cos_gt_0; lra). field. lra.
  Qed.

  (** No constant expression at pi/2 *)
  Lemma tangent_h fuel (x : float) : is_finite x = true -> B2R x = h -> tangent fuel x = None.
  Proof using prec_ok emax_ok c_ok prec_gt_0_.
    intros F Eq. destruct (c_facts prec emax _ prec_ok emax_ok c c_ok) as [(F1 & F2 & F3 & F4 & F5) (H2 & H3 & H4) (E1 & _ & E3 & _) (N1 & N2)].
    destruct e_facts as (F8 & H8 & E8). destruct fuel as [|fuel]; [reflexivity|]. rewrite tangent_in by (assumption || lra). compare_.
    destruct (trig fuel false x) as [s|]; [|reflexivity]. destruct fuel as [|fuel]; [reflexivity|]. cbn [TrigModel.trig]. unfold reduce.
    rewrite !Bltb_correct by (assumption || reflexivity). cbn [B2R zero]. rewrite !Rlt_bool_false by lra. cbn [orb]. rewrite !Beqb_correct by (assumption || reflexivity). cbn [B2R zero].
    repeat decide_. unfold divide. rewrite Beqb_correct by reflexivity. cbn [B2R zero]. rewrite Req_bool_true by reflexivity. reflexivity.
  Qed.
End Tan.
