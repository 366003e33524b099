(** The compile-time atan2. *)
From Coq Require Import ZArith Bool List Reals Lra Lia Psatz.
From Flocq Require Import Core BinarySingleNaN Relative Plus_error.
From Verif Require Import FpModel FpProofs FpProofs2 SqrtModel SqrtProofs4 TrigSpec TrigProofs2 TrigProofs3 TrigProofs4 TrigProofs5 TrigProofs7 ArcModel ArcSpec ArcProofs ArcProofs2 ArcProofs3 ArcProofs4 QuadModel QuadSpec.
Local Open Scope R_scope.

(** The angle in terms of the arc tangent *)
Lemma angle_right x y : 0 < x -> angle_of x y (atan (y / x)).
Proof.
  intros X. pose proof PI_RGT_0 as P. pose proof (Ratan.atan_bound (y / x)) as B. split; [lra|]. set (t := y / x) in *. assert (Q : 0 < sqrt (1 + t²)) by (apply sqrt_lt_R0; pose proof (Rle_0_sqr t); lra).
  exists (x * sqrt (1 + t²)). split; [apply Rmult_lt_0_compat; assumption|]. rewrite cos_atan, sin_atan. split; [field; lra|]. replace y with (t * x) by (unfold t; field; lra). field. lra.
Qed.
Lemma angle_left x y : x < 0 -> angle_of x y (atan (y / x) + (if Rle_dec 0 y then PI else - PI)).
Proof.
  intros X. pose proof PI_RGT_0 as P. pose proof (Ratan.atan_bound (y / x)) as B. set (t := y / x) in *. assert (Q : 0 < sqrt (1 + t²)) by (apply sqrt_lt_R0; pose proof (Rle_0_sqr t); lra).
  assert (Y : y = t * x) by (unfold t; field; lra).
  assert (K : forall k, cos (atan t + k) = - cos (atan t) -> sin (atan t + k) = - sin (atan t) -> exists r, 0 < r /\ x = r * cos (atan t + k) /\ y = r * sin (atan t + k)).
  { intros k Kc Ks. exists (- x * sqrt (1 + t²)). split; [apply Rmult_lt_0_compat; lra|]. rewrite Kc, Ks, cos_atan, sin_atan. split; [field; lra|]. rewrite Y. field. lra. }
  destruct (Rle_dec 0 y) as [H|H].
  - split; [|apply K; [apply neg_cos|apply neg_sin]]. assert (T : t <= 0) by (unfold t, Rdiv; rewrite <- (Rmult_0_r y); apply Rmult_le_compat_l; [exact H|left; now apply Rinv_lt_0_compat]).
    assert (atan t <= 0) by (rewrite <- atan_0; now apply atan_le). lra.
  - split.
    + assert (T : 0 < t) by (unfold t, Rdiv; replace (y * / x) with (- y * - / x) by ring; apply Rmult_lt_0_compat; [lra|]; pose proof (Rinv_lt_0_compat x X); lra).
      assert (0 < atan t) by (rewrite <- atan_0; now apply atan_increasing). lra.
    + apply K.
      * replace (atan t + - PI) with (- (PI - atan t)) by ring. rewrite cos_neg, cos_minus, cos_PI, sin_PI. ring.
      * replace (atan t + - PI) with (- (PI - atan t)) by ring. rewrite sin_neg, sin_minus, cos_PI, sin_PI. ring.
Qed.
Lemma angle_up y : 0 < y -> angle_of 0 y (PI / 2).
Proof. intros H. pose proof PI_RGT_0. split; [lra|]. exists y. rewrite cos_PI2, sin_PI2. repeat split; lra. Qed.
Lemma angle_down y : y < 0 -> angle_of 0 y (- (PI / 2)).
Proof. intros H. pose proof PI_RGT_0. split; [lra|]. exists (- y). rewrite cos_neg, sin_neg, cos_PI2, sin_PI2. repeat split; lra. Qed.

Lemma angle_unique x y t t' : angle_of x y t -> angle_of x y t' -> t = t'.
Proof.
    intros (B & r & R & X & Y) (B' & r' & R' & X' & Y'). pose proof PI_RGT_0 as P.
      assert (Er : r = r').
      { assert (Sq : r * r = r' * r').
        { pose proof (sin2_cos2 t) as S1. pose proof (sin2_cos2 t') as S2. unfold Rsqr in *. replace (r * r) with ((r * cos t) * (r * cos t) + (r * sin t) * (r * sin t)) by (replace (r * cos t * (r * cos t) + r * sin t * (r * sin t)) with (r * r * (sin t * sin t + cos t * cos t)) by ring; rewrite S1; ring).
          rewrite <- X, <- Y, X', Y'. replace (r' * cos t' * (r' * cos t') + r' * sin t' * (r' * sin t')) with (r' * r' * (sin t' * sin t' + cos t' * cos t')) by ring. rewrite S2. ring. }
        apply Rsqr_inj; unfold Rsqr; lra. }
      subst r'. assert (C1 : cos t = cos t') by (apply Rmult_eq_reg_l with r; lra). assert (S1 : sin t = sin t') by (apply Rmult_eq_reg_l with r; lra).
      assert (D : cos (t - t') = 1) by (rewrite cos_minus, C1, S1; pose proof (sin2_cos2 t') as S2; unfold Rsqr in S2; lra).
      assert (H : sin ((t - t') / 2) = 0). { pose proof (cos_2a_sin ((t - t') / 2)) as K. replace (2 * ((t - t') / 2)) with (t - t') in K by field. rewrite D in K. assert (sin ((t - t') / 2) * sin ((t - t') / 2) = 0) as Z by lra. apply Rmult_integral in Z. tauto. }
      destruct (Rtotal_order ((t - t') / 2) 0) as [L|[L|L]]; [|lra|].
      - exfalso. pose proof (sin_gt_0 (- ((t - t') / 2)) ltac:(lra) ltac:(lra)) as G. rewrite sin_neg in G. lra.
      - exfalso. pose proof (sin_gt_0 ((t - t') / 2) ltac:(lra) ltac:(lra)) as G. lra.
Qed.

(** Arc tangents of neighbours *)
Lemma atan_near q t : 0 <= q * t -> Rabs (atan q - atan t) <= Rabs (q - t) / (1 + q * t).
Proof.
  intros H. assert (E : atan q - atan t = atan ((q - t) / (1 + q * t))).
  { pose proof (Ratan.atan_bound q) as Bq. pose proof (Ratan.atan_bound t) as Bt. pose proof PI_RGT_0 as P.
    assert (C : - PI / 2 < atan q - atan t < PI / 2).
    { destruct (Rle_lt_dec 0 q) as [Q|Q].
      - destruct (Rle_lt_dec 0 t) as [T|T].
        + pose proof (atan_nonneg q Q). pose proof (atan_nonneg t T). lra.
        + assert (q = 0) as -> by nra. rewrite atan_0. lra.
      - destruct (Rle_lt_dec t 0) as [T|T]; [|nra]. assert (atan q <= 0) by (rewrite <- atan_0; apply atan_le; lra). assert (atan t <= 0) by (rewrite <- atan_0; now apply atan_le). lra. }
    pose proof (atan_sub_correct q t ltac:(lra) C (Ratan.atan_bound _)) as A. unfold atan_sub in A. lra. }
  rewrite E. eapply Rle_trans; [apply atan_abs|]. unfold Rdiv. rewrite Rabs_mult, Rabs_inv, (Rabs_pos_eq (1 + q * t)) by lra. lra.
Qed.

Section Quad.
  Variable prec emax : Z.
  Context (prec_gt_0_ : Prec_gt_0 prec).
  Context (prec_lt_emax_ : Prec_lt_emax prec emax).
  Notation float := (binary_float prec emax).
  Notation emin := (3 - emax - prec)%Z.
  Notation fexp := (FLT_exp emin prec).
  Notation rnd := (round radix2 fexp ZnearestE).
  Notation format := (generic_format radix2 fexp).
  Notation u := (bpow radix2 (- prec)).
  Notation eta := (eta prec emax).
  Hypothesis prec_ok : (53 <= prec <= 113)%Z.
  Hypothesis emax_ok : (1024 <= emax)%Z.
  Notation good := (good prec emax).
  Variable c : arc_constants prec emax.
  Hypothesis c_ok : right_arc_constants prec emax c.
  Notation atan_naive := (atan_naive prec emax _ _ c).
  Notation atan2_naive := (atan2_naive prec emax _ _ c).
  Local Instance fexp_valid_q : Valid_exp fexp := FLT_exp_valid emin prec.

  Lemma rnd_far v : Rabs (rnd v - v) <= u * Rabs v + eta.
  Proof using prec_gt_0_.
    destruct (rnd_any prec emax _ v) as (d & e & D & E & R). rewrite R. replace (v * (1 + d) + e - v) with (v * d + e) by ring. eapply Rle_trans; [apply Rabs_triang|]. rewrite Rabs_mult.
    assert (Rabs v * Rabs d <= Rabs v * u) by (apply Rmult_le_compat_l; [apply Rabs_pos|exact D]). lra.
  Qed.
  Lemma rnd_sign v : 0 <= rnd v * v.
  Proof using prec_gt_0_.
    destruct (Rle_lt_dec 0 v) as [H|H].
    - apply Rmult_le_pos; [|exact H]. apply round_ge_generic; [typeclasses eauto|typeclasses eauto|apply generic_format_0|exact H].
    - assert (rnd v <= 0) by (apply round_le_generic; [typeclasses eauto|typeclasses eauto|apply generic_format_0|lra]). replace (rnd v * v) with (- rnd v * - v) by ring. apply Rmult_le_pos; lra.
  Qed.
  Lemma rnd_one v : 1 <= Rabs v -> 1 <= Rabs (rnd v).
  Proof using prec_gt_0_ prec_lt_emax_ prec_ok emax_ok.
    intros H. apply abs_round_ge_generic; [typeclasses eauto|typeclasses eauto| |exact H]. change 1 with (bpow radix2 0). apply generic_format_bpow. unfold FLT_exp. lia.
  Qed.
  Lemma eta_u : 0 < eta <= u / 1000000.
  Proof using prec_ok emax_ok prec_gt_0_ prec_lt_emax_. split; [apply bpow_gt_0|exact (eta_u3 prec emax _ _ prec_ok emax_ok)]. Qed.
  (** The rounding of the quotient *)
  Lemma quotient_near t : Rabs (atan (rnd t) - atan t) <= 2 * u.
  Proof using prec_gt_0_ prec_lt_emax_ prec_ok emax_ok.
    pose proof (rnd_far t) as F. pose proof (rnd_sign t) as S. pose proof (u_pos prec) as U. pose proof eta_u as [E0 E]. pose proof (atan_near (rnd t) t S) as A.
    eapply Rle_trans; [exact A|]. apply Rmult_le_reg_r with (1 + rnd t * t); [lra|]. unfold Rdiv. rewrite Rmult_assoc, Rinv_l, Rmult_1_r by lra. eapply Rle_trans; [exact F|].
    destruct (Rle_lt_dec (Rabs t) 1) as [L|L].
    - assert (u * Rabs t <= u * 1) by (apply Rmult_le_compat_l; lra). assert (0 <= u * (rnd t * t)) by (apply Rmult_le_pos; lra). lra.
    - pose proof (rnd_one t ltac:(lra)) as O. assert (G : Rabs t <= rnd t * t).
      { rewrite <- (Rabs_pos_eq (rnd t * t)) by exact S. rewrite Rabs_mult. rewrite <- (Rmult_1_l (Rabs t)) at 1. apply Rmult_le_compat_r; [lra|exact O]. }
      assert (u * Rabs t <= u * (rnd t * t)) by (apply Rmult_le_compat_l; lra). assert (0 <= u * Rabs t) by (apply Rmult_le_pos; lra). lra.
  Qed.

  Lemma pi_two_ok : is_finite (arc_pi_over_two c) = true /\ Rabs (B2R (arc_pi_over_two c) - PI / 2) <= 1.6 * u.
  Proof using prec_gt_0_ prec_lt_emax_ prec_ok emax_ok c_ok.
    destruct (arc_pi_over_two_right _ _ _ c_ok) as [F V]. split; [exact F|]. rewrite V. pose proof (rnd_far (PI / 2)) as R. pose proof PI_bounds as P. pose proof eta_u as [E0 E]. pose proof (u_pos prec) as U.
    rewrite (Rabs_pos_eq (PI / 2)) in R by lra. assert (u * (PI / 2) <= u * 1.58) by (apply Rmult_le_compat_l; lra). lra.
  Qed.
  Lemma pi_ok : is_finite (arc_pi c) = true /\ Rabs (B2R (arc_pi c) - PI) <= 3.2 * u.
  Proof using prec_gt_0_ prec_lt_emax_ prec_ok emax_ok c_ok.
    destruct (arc_pi_right _ _ _ c_ok) as [F V]. split; [exact F|]. rewrite V. pose proof (rnd_far PI) as R. pose proof PI_bounds as P. pose proof eta_u as [E0 E]. pose proof (u_pos prec) as U.
    rewrite (Rabs_pos_eq PI) in R by lra. assert (u * PI <= u * 3.15) by (apply Rmult_le_compat_l; lra). lra.
  Qed.

  (** The arc tangent of the quotient: [found] is what is known of the recursion. *)
  Definition found (q : float) : Prop := is_finite q = true -> good (atan_naive 5 q) (atan (B2R q)) (64 * u * Rabs (atan (B2R q))).
  Lemma quotient_ok (y x : float) : is_finite x = true -> is_finite y = true -> B2R x <> 0 -> found (Bdiv mode_NE y x) ->
    good (atan_naive 5 (Bdiv mode_NE y x)) (atan (B2R y / B2R x)) (103 * u).
  Proof using prec_gt_0_ prec_lt_emax_ prec_ok emax_ok c_ok.
    intros Fx Fy Nx Q. pose proof (u_pos prec) as U. pose proof (u_tiny prec prec_ok) as Ut. pose proof PI_bounds as P. pose proof eta_u as [E0 E]. set (t := B2R y / B2R x) in *.
    pose proof (Bdiv_correct prec emax _ _ mode_NE y x Nx) as C. fold t in C. cbn [round_mode] in C. match type of C with context [Rlt_bool ?a ?b] => change (Rlt_bool a b) with (Rlt_bool (Rabs (rnd t)) (bpow radix2 emax)) in C end. destruct (Rlt_bool_spec (Rabs (rnd t)) (bpow radix2 emax)) as [L|L].
    - destruct C as (V & F & _). rewrite Fy in F. destruct (Q F) as (r & Er & Fr & Br). exists r. split; [exact Er|]. split; [exact Fr|]. rewrite V in Br. change (round radix2 (SpecFloat.fexp prec emax) ZnearestE t) with (rnd t) in Br. pose proof (quotient_near t) as N.
      assert (A : Rabs (atan (rnd t)) <= 1.575) by (apply Rabs_le; pose proof (Ratan.atan_bound (rnd t)); lra). assert (64 * u * Rabs (atan (rnd t)) <= 64 * u * 1.575) by (apply Rmult_le_compat_l; lra).
      replace (B2R r - atan t) with ((B2R r - atan (rnd t)) + (atan (rnd t) - atan t)) by ring. eapply Rle_trans; [apply Rabs_triang|]. lra.
    - cbn [binary_overflow overflow_to_inf] in C. unfold binary_overflow in C. cbn [overflow_to_inf] in C. set (s := xorb (Bsign y) (Bsign x)) in *.
      assert (I : Bdiv mode_NE y x = B754_infinity s) by (destruct (Bdiv mode_NE y x) as [z|z| |z m e b]; cbn in C; congruence || (injection C as ->; reflexivity)).
      rewrite I. clear Q C I. assert (T : 1000 * / u <= Rabs t).
      { pose proof (rnd_far t) as F. assert (G : Rabs (rnd t) <= Rabs t + (u * Rabs t + eta)). { replace (rnd t) with (t + (rnd t - t)) by ring. eapply Rle_trans; [apply Rabs_triang|]. lra. }
        assert (u * Rabs t <= 1 * Rabs t) by (apply Rmult_le_compat_r; [apply Rabs_pos|lra]).
        assert (B : bpow radix2 emax >= 4000 * / u). { rewrite <- bpow_opp. replace (- - prec)%Z with prec by lia. apply Rle_ge. apply Rle_trans with (bpow radix2 12 * bpow radix2 prec); [apply Rmult_le_compat_r; [apply bpow_ge_0|cbn; lra]|]. rewrite <- bpow_plus. apply bpow_le. lia. }
        assert (1 < / u) by (rewrite <- Rinv_1; apply Rinv_lt_contravar; lra). lra. }
      assert (T1 : 1 < Rabs t) by (assert (1 < / u) by (rewrite <- Rinv_1; apply Rinv_lt_contravar; lra); lra).
      assert (Sy : B2R y <> 0) by (intros Z; unfold t in T1; rewrite Z in T1; unfold Rdiv in T1; rewrite Rmult_0_l, Rabs_R0 in T1; lra).
      assert (Sg : forall z : float, is_finite z = true -> B2R z <> 0 -> Rabs (B2R z) = if Bsign z then - B2R z else B2R z).
      { intros z Fz Nz. destruct z as [b|b| |b m e g]; try discriminate; [cbn in Nz; lra|]. cbn [Bsign B2R]. destruct b; [rewrite Rabs_left|rewrite Rabs_pos_eq]; try lra; unfold F2R; cbn [Fnum Fexp cond_Zopp].
        - assert (0 < IZR (Z.pos m) * bpow radix2 e) by (apply Rmult_lt_0_compat; [apply IZR_lt; lia|apply bpow_gt_0]). change (Z.neg m) with (- Z.pos m)%Z. rewrite opp_IZR. lra.
        - apply Rmult_le_pos; [apply IZR_le; lia|apply bpow_ge_0]. }
      assert (ST : t = if s then - Rabs t else Rabs t).
      { unfold t, Rdiv. rewrite Rabs_mult, Rabs_inv, (Sg y Fy Sy), (Sg x Fx Nx). unfold s. destruct (Bsign y), (Bsign x); cbn [xorb]; field; exact Nx. }
      assert (N : Rabs (atan (Rabs t) - PI / 2) <= u).
      { pose proof (atan_inv (Rabs t) ltac:(lra)) as AI. replace (atan (Rabs t) - PI / 2) with (- atan (/ Rabs t)) by lra. rewrite Rabs_Ropp. eapply Rle_trans; [apply atan_abs|]. rewrite Rabs_inv, Rabs_Rabsolu.
        apply Rle_trans with (/ / u); [|rewrite Rinv_inv; lra]. apply Rinv_le_contravar; [apply Rinv_0_lt_compat; lra|]. assert (0 < / u) by (apply Rinv_0_lt_compat; lra). lra. }
      destruct pi_two_ok as [Fp Vp]. destruct s; cbn [ArcModel.atan_naive]; cbn.
      + exists (Bopp (arc_pi_over_two c)). split; [reflexivity|]. split; [rewrite is_finite_Bopp; exact Fp|]. rewrite B2R_Bopp, ST, atan_opp. rewrite <- Rabs_Ropp. replace (- (- B2R (arc_pi_over_two c) - - atan (Rabs t))) with ((B2R (arc_pi_over_two c) - PI / 2) - (atan (Rabs t) - PI / 2)) by ring. unfold Rminus at 1. eapply Rle_trans; [apply Rabs_triang|]. rewrite Rabs_Ropp. lra.
      + exists (arc_pi_over_two c). split; [reflexivity|]. split; [exact Fp|]. rewrite ST. replace (B2R (arc_pi_over_two c) - atan (Rabs t)) with ((B2R (arc_pi_over_two c) - PI / 2) - (atan (Rabs t) - PI / 2)) by ring. unfold Rminus at 1. eapply Rle_trans; [apply Rabs_triang|]. rewrite Rabs_Ropp. lra.
  Qed.

  Lemma atan2_ok (y x : float) t : is_finite x = true -> is_finite y = true -> (B2R x <> 0 \/ B2R y <> 0) -> (B2R x <> 0 -> found (Bdiv mode_NE y x)) -> angle_of (B2R x) (B2R y) t ->
    good (atan2_naive 5 y x) t (112 * u).
  Proof using prec_gt_0_ prec_lt_emax_ prec_ok emax_ok c_ok.
    intros Fx Fy N Q A. pose proof (u_pos prec) as U. pose proof (u_tiny prec prec_ok) as Ut. pose proof PI_bounds as P. pose proof eta_u as [E0 E].
    assert (Un : forall t', angle_of (B2R x) (B2R y) t' -> t = t') by (intros t'; apply angle_unique; exact A).
    unfold QuadModel.atan2_naive. rewrite !Beqb_correct, !Bltb_correct, !Bleb_correct by (assumption || reflexivity). cbn [B2R zero]. rewrite !(Req_bool_true _ _ eq_refl). cbn [negb].
    destruct (Rtotal_order (B2R x) 0) as [L|[L|L]].
    - rewrite (Rlt_bool_false 0 (B2R x)), (Rlt_bool_true (B2R x) 0) by lra. cbn [andb]. rewrite (Un _ (angle_left _ (B2R y) L)). destruct (quotient_ok y x Fx Fy ltac:(lra) (Q ltac:(lra))) as (r & Er & Fr & Br). rewrite Er. cbn [option_map].
      destruct pi_ok as [Fp Vp]. pose proof (Ratan.atan_bound (B2R y / B2R x)) as AB. set (a := atan (B2R y / B2R x)) in *. apply Rabs_le_inv in Br, Vp. assert (103 * u <= 0.0000001) by lra.
      destruct (Rle_dec 0 (B2R y)) as [Y|Y].
      + rewrite Rle_bool_true by exact Y. destruct (plus_ok prec emax _ _ prec_ok emax_ok r (arc_pi c) Fr Fp) as [Fs Vs]. { apply Rle_trans with 5; [apply Rabs_le; lra|cbn; lra]. }
        eexists. split; [reflexivity|]. split; [exact Fs|]. rewrite Vs. pose proof (rnd_far (B2R r + B2R (arc_pi c))) as R. assert (W : Rabs (B2R r + B2R (arc_pi c)) <= 4.8) by (apply Rabs_le; lra).
        assert (u * Rabs (B2R r + B2R (arc_pi c)) <= u * 4.8) by (apply Rmult_le_compat_l; lra). apply Rabs_le_inv in R. apply Rabs_le. lra.
      + rewrite Rle_bool_false by lra. rewrite Rlt_bool_true by lra. destruct (minus_ok prec emax _ _ prec_ok emax_ok r (arc_pi c) Fr Fp) as [Fs Vs]. { apply Rle_trans with 5; [apply Rabs_le; lra|cbn; lra]. }
        eexists. split; [reflexivity|]. split; [exact Fs|]. rewrite Vs. pose proof (rnd_far (B2R r - B2R (arc_pi c))) as R. assert (W : Rabs (B2R r - B2R (arc_pi c)) <= 4.8) by (apply Rabs_le; lra).
        assert (u * Rabs (B2R r - B2R (arc_pi c)) <= u * 4.8) by (apply Rmult_le_compat_l; lra). apply Rabs_le_inv in R. apply Rabs_le. lra.
    - rewrite L. rewrite (Rlt_bool_false 0 0) by lra. rewrite Req_bool_true by reflexivity. cbn [andb]. destruct pi_two_ok as [Fp Vp]. destruct (Rtotal_order (B2R y) 0) as [Y|[Y|Y]]; [|exfalso; destruct N; lra|].
      + rewrite (Rlt_bool_false 0 (B2R y)), (Rlt_bool_true (B2R y) 0) by lra. assert (D : angle_of (B2R x) (B2R y) (- (PI / 2))) by (rewrite L; now apply angle_down). rewrite (Un _ D).
        eexists. split; [reflexivity|]. split; [rewrite is_finite_Bopp; exact Fp|]. rewrite B2R_Bopp. apply Rabs_le_inv in Vp. apply Rabs_le. lra.
      + rewrite (Rlt_bool_true 0 (B2R y)) by lra. assert (D : angle_of (B2R x) (B2R y) (PI / 2)) by (rewrite L; now apply angle_up). rewrite (Un _ D). eexists. split; [reflexivity|]. split; [exact Fp|]. lra.
    - rewrite (Rlt_bool_true 0 (B2R x)) by lra. rewrite (Un _ (angle_right _ (B2R y) L)). destruct (quotient_ok y x Fx Fy ltac:(lra) (Q ltac:(lra))) as (r & Er & Fr & Br). exists r. repeat split; try assumption. lra.
  Qed.

  Lemma plus_pi (r : float) a : is_finite r = true -> Rabs (B2R r - a) <= 2 * u -> Rabs a <= 1.6 -> 
    (is_finite (Bplus mode_NE r (arc_pi c)) = true /\ Rabs (B2R (Bplus mode_NE r (arc_pi c)) - (a + PI)) <= 12 * u) /\
    (is_finite (Bminus mode_NE r (arc_pi c)) = true /\ Rabs (B2R (Bminus mode_NE r (arc_pi c)) - (a - PI)) <= 12 * u).
  Proof using prec_gt_0_ prec_lt_emax_ prec_ok emax_ok c_ok.
    intros Fr Br A. pose proof (u_pos prec) as U. pose proof (u_tiny prec prec_ok) as Ut. pose proof PI_bounds as P. pose proof eta_u as [E0 E]. destruct pi_ok as [Fp Vp]. apply Rabs_le_inv in Br, Vp, A. split.
    - destruct (plus_ok prec emax _ _ prec_ok emax_ok r (arc_pi c) Fr Fp) as [Fs Vs]. { apply Rle_trans with 5; [apply Rabs_le; lra|cbn; lra]. }
      split; [exact Fs|]. rewrite Vs. pose proof (rnd_far (B2R r + B2R (arc_pi c))) as R. assert (W : Rabs (B2R r + B2R (arc_pi c)) <= 4.8) by (apply Rabs_le; lra).
      assert (u * Rabs (B2R r + B2R (arc_pi c)) <= u * 4.8) by (apply Rmult_le_compat_l; lra). apply Rabs_le_inv in R. apply Rabs_le. lra.
    - destruct (minus_ok prec emax _ _ prec_ok emax_ok r (arc_pi c) Fr Fp) as [Fs Vs]. { apply Rle_trans with 5; [apply Rabs_le; lra|cbn; lra]. }
      split; [exact Fs|]. rewrite Vs. pose proof (rnd_far (B2R r - B2R (arc_pi c))) as R. assert (W : Rabs (B2R r - B2R (arc_pi c)) <= 4.8) by (apply Rabs_le; lra).
      assert (u * Rabs (B2R r - B2R (arc_pi c)) <= u * 4.8) by (apply Rmult_le_compat_l; lra). apply Rabs_le_inv in R. apply Rabs_le. lra.
  Qed.
  Lemma infinite_y (x : float) s n : is_finite x = true -> good (atan2_naive (S n) (B754_infinity s) x) (if s then - (PI / 2) else PI / 2) (12 * u).
  Proof using prec_gt_0_ prec_lt_emax_ prec_ok emax_ok c_ok.
    intros F. pose proof (u_pos prec) as U. destruct pi_two_ok as [Fp Vp]. pose proof PI_bounds as P.
    assert (Fn : is_finite (Bopp (arc_pi_over_two c)) = true /\ Rabs (B2R (Bopp (arc_pi_over_two c)) - - (PI / 2)) <= 1.6 * u).
    { rewrite is_finite_Bopp, B2R_Bopp. split; [exact Fp|]. rewrite <- Rabs_Ropp. replace (- (- B2R (arc_pi_over_two c) - - (PI / 2))) with (B2R (arc_pi_over_two c) - PI / 2) by ring. exact Vp. }
    destruct Fn as [Fn Vn]. destruct (plus_pi (arc_pi_over_two c) (PI / 2) Fp ltac:(lra) ltac:(apply Rabs_le; lra)) as [_ [G1 G2]]. destruct (plus_pi (Bopp (arc_pi_over_two c)) (- (PI / 2)) Fn ltac:(lra) ltac:(apply Rabs_le; lra)) as [[G3 G4] _].
    replace (PI / 2 - PI) with (- (PI / 2)) in G2 by field. replace (- (PI / 2) + PI) with (PI / 2) in G4 by field.
    assert (X : Beqb x x = true) by (rewrite Beqb_correct by assumption; now apply Req_bool_true). unfold QuadModel.atan2_naive. rewrite X. clear X.
    destruct x as [t|t| |t m e b]; try discriminate; destruct s; try destruct t; eexists; (split; [reflexivity|]); split; try assumption; lra.
  Qed.
  Lemma infinite_x (y : float) s n : is_finite y = true -> good (atan2_naive (S n) y (B754_infinity s)) (if s then (if Rle_dec 0 (B2R y) then PI else - PI) else 0) (12 * u).
  Proof using prec_gt_0_ prec_lt_emax_ prec_ok emax_ok c_ok.
    intros F. pose proof (u_pos prec) as U. pose proof PI_bounds as P.
    assert (Z : forall t, Rabs (B2R (B754_zero t : float) - 0) <= 2 * u) by (intros t; cbn [B2R]; rewrite Rminus_0_r, Rabs_R0; lra).
    assert (A0 : Rabs 0 <= 1.6) by (rewrite Rabs_R0; lra).
    pose proof (fun t => plus_pi (B754_zero t) 0 eq_refl (Z t) A0) as G. rewrite Rplus_0_l in G. replace (0 - PI) with (- PI) in G by ring.
    assert (X : Beqb y y = true) by (rewrite Beqb_correct by assumption; now apply Req_bool_true). unfold QuadModel.atan2_naive. rewrite X. clear X.
    destruct s.
    - destruct (Rle_dec 0 (B2R y)) as [Y|Y].
      + destruct y as [t|t| |t m e b]; try discriminate; [|destruct t].
        * eexists. split; [reflexivity|]. apply G.
        * exfalso. cbn [B2R] in Y. assert (F2R (Float radix2 (cond_Zopp true (Z.pos m)) e) < 0) by (apply F2R_lt_0; reflexivity). lra.
        * eexists. split; [reflexivity|]. apply G.
      + destruct y as [t|t| |t m e b]; try discriminate; [cbn in Y; lra|destruct t].
        * eexists. split; [reflexivity|]. apply G.
        * exfalso. apply Y. apply F2R_ge_0. cbn. lia.
    - destruct y as [t|t| |t m e b]; try discriminate; eexists; (split; [reflexivity|]); (split; [reflexivity|]); change (Rabs (0 - 0) <= 12 * u); rewrite Rminus_0_r, Rabs_R0; lra.
  Qed.
End Quad.

(** By way of long double *)
Section Narrow.
  Variable p e P E : Z.
  Context (Hp : Prec_gt_0 p) (He : Prec_lt_emax p e) (HP : Prec_gt_0 P) (HE : Prec_lt_emax P E).
  Hypothesis p_ok : (1 < p <= P)%Z.
  Hypothesis e_ok : (p + 3 <= e <= E)%Z.
  Lemma narrow_near (r : option (binary_float P E)) v g : good P E r v g -> Rabs v <= 3.2 -> g <= 0.5 -> good p e (option_map (fp_cast P E p e _ _) r) v (2 * bpow radix2 (- p) + g).
  Proof using p_ok e_ok.
    intros (y & -> & F & B) V G. assert (Y : Rabs (B2R y) < 4). { replace (B2R y) with ((B2R y - v) + v) by ring. eapply Rle_lt_trans; [apply Rabs_triang|]. lra. }
    destruct (fp_cast_ok P E p e _ _ y F) as [Fc Vc].
    { apply Rle_lt_trans with (bpow radix2 2); [|apply bpow_lt; lia]. apply abs_round_le_generic; [apply FLT_exp_valid; exact Hp|apply valid_rnd_N|apply generic_format_bpow; unfold FLT_exp; lia|]. change (bpow radix2 2) with 4. lra. }
    eexists. split; [reflexivity|]. split; [exact Fc|]. rewrite Vc. set (f := FLT_exp (3 - e - p) p). change (SpecFloat.fexp p e) with f in *.
    assert (D : Rabs (round radix2 f ZnearestE (B2R y) - B2R y) <= 2 * bpow radix2 (- p)).
    { destruct (Req_dec (B2R y) 0) as [Z|Z]; [rewrite Z, round_0 by apply valid_rnd_N; rewrite Rminus_0_r, Rabs_R0; pose proof (bpow_gt_0 radix2 (- p)); lra|].
      eapply Rle_trans; [apply error_le_half_ulp; apply FLT_exp_valid; exact Hp|]. rewrite ulp_neq_0 by exact Z. assert (bpow radix2 (cexp radix2 f (B2R y)) <= bpow radix2 (2 - p)).
      { apply bpow_le. unfold cexp, f, FLT_exp. pose proof (mag_le_bpow radix2 (B2R y) 2 Z Y). lia. }
      unfold Z.sub in H. rewrite bpow_plus in H. change (bpow radix2 2) with 4 in H. lra. }
    replace (round radix2 f ZnearestE (B2R y) - v) with ((round radix2 f ZnearestE (B2R y) - B2R y) + (B2R y - v)) by ring. eapply Rle_trans; [apply Rabs_triang|]. unfold f in *. lra.
  Qed.
End Narrow.
