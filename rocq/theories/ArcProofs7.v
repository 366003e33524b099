(** The series for the arc sine on IEEE numbers. *)
From Coq Require Import ZArith Bool List Reals Lra Lia Psatz.
From Flocq Require Import Core BinarySingleNaN Relative Plus_error.
From Verif Require Import FpModel FpProofs FpProofs2 TrigProofs2 TrigProofs5 TrigProofs7 ArcModel ArcProofs ArcProofs2.
Local Open Scope R_scope.

Lemma bb_pow k z : bb k z = z ^ k * bb k 1.
Proof. induction k as [|k IH]; [cbn; ring|]. cbn [bb]. rewrite IH, <- tech_pow_Rmult. ring. Qed.
Lemma bb_wallis k : bb k 1 * bb k 1 * (2 * INR k + 1) <= 1.
Proof.
  induction k as [|k IH]; [cbn; lra|]. cbn [bb]. rewrite S_INR. pose proof (pos_INR k) as K. pose proof (bb_nonneg k 1 ltac:(lra)) as B. unfold rb. set (n := INR k) in *. set (b := bb k 1) in *.
  replace (b * (1 * ((2 * n + 1) / (2 * n + 2))) * (b * (1 * ((2 * n + 1) / (2 * n + 2)))) * (2 * (n + 1) + 1)) with (b * b * (2 * n + 1) * ((2 * n + 1) * (2 * n + 3) / ((2 * n + 2) * (2 * n + 2)))) by (field; lra).
  assert (Q : 0 <= (2 * n + 1) * (2 * n + 3) / ((2 * n + 2) * (2 * n + 2)) <= 1).
  { assert (0 < (2 * n + 2) * (2 * n + 2)) by (apply Rmult_lt_0_compat; lra). split; [apply Rmult_le_pos; [apply Rmult_le_pos; lra|left; now apply Rinv_0_lt_compat]|].
    apply Rmult_le_reg_r with ((2 * n + 2) * (2 * n + 2)); [assumption|]. unfold Rdiv. rewrite Rmult_assoc, Rinv_l by lra. lra. }
  assert (P : 0 <= b * b * (2 * n + 1)) by (apply Rmult_le_pos; [now apply Rmult_le_pos|lra]). apply Rle_trans with (1 * 1); [apply Rmult_le_compat; lra|lra].
Qed.

Section AsinLoop.
  Variable prec emax : Z.
  Context (prec_gt_0_ : Prec_gt_0 prec).
  Context (prec_lt_emax_ : Prec_lt_emax prec emax).
  Notation float := (binary_float prec emax).
  Notation emin := (3 - emax - prec)%Z.
  Notation fexp := (FLT_exp emin prec).
  Notation rnd := (round radix2 fexp ZnearestE).
  Notation format := (generic_format radix2 fexp).
  Notation u := (bpow radix2 (- prec)).
  Notation eta := (eta prec emax).
  Notation of_Z := (of_Z prec emax _ _).
  Hypothesis prec_ok : (53 <= prec <= 113)%Z.
  Hypothesis emax_ok : (1024 <= emax)%Z.
  Notation "x -. y" := (Bminus mode_NE x y) (at level 50, left associativity).
  Notation "x +. y" := (Bplus mode_NE x y) (at level 50, left associativity).
  Notation "x *! y" := (Bmult mode_NE x y) (at level 40, left associativity).
  Notation "x /! y" := (Bdiv mode_NE x y) (at level 40, left associativity).
  Notation tiny := (bpow radix2 (-1000)).
  Notation big := (bpow radix2 100).
  Let U0 := u_pos prec.
  Let Ut := u_tiny prec prec_ok.

  Variable x : float.
  Variable g : R.
  Hypothesis g_sign : g = 1 \/ g = -1.
  Notation X := (g * B2R x).
  Hypothesis x_fin : is_finite x = true.
  Hypothesis x_low : bpow radix2 (-400) <= X.
  Hypothesis x_high : X * X <= 0.5 * (1 + 4 * u).
  Notation z := (X * X).
  Notation h := 0.51.

  Lemma gg : g * g = 1. Proof using All. destruct g_sign as [-> | ->]; lra. Qed.
  Lemma g_abs v : Rabs (g * v) = Rabs v. Proof using All. rewrite Rabs_mult. replace (Rabs g) with 1; [ring|]. destruct g_sign as [-> | ->]; unfold Rabs; destruct Rcase_abs; lra. Qed.
  Lemma z_eq : z = B2R x * B2R x. Proof using All. replace z with (g * g * (B2R x * B2R x)) by ring. rewrite gg. ring. Qed.
  Lemma X_pos : 0 < bpow radix2 (-400). Proof using All. apply bpow_gt_0. Qed.
  Lemma z_range : bpow radix2 (-800) <= z <= 0.50001.
  Proof using All.
    pose proof X_pos. split; [change (-800)%Z with (-400 + -400)%Z; rewrite bpow_plus; apply Rmult_le_compat; lra|]. lra.
  Qed.
  Lemma X_high : X <= 0.70712.
  Proof using All. pose proof z_range. pose proof X_pos. apply Rnot_lt_le. intros L. assert (0.70712 * 0.70712 <= z) by (apply Rmult_le_compat; lra). lra. Qed.
  Lemma h_pow k : (k <= 120)%nat -> bpow radix2 (-130) <= h ^ k <= 1.
  Proof using All.
    intros K. split; [|rewrite <- (pow1 k); apply pow_incr; lra]. apply Rle_trans with ((/ 2) ^ k).
    - assert (E : forall k, (/ 2) ^ k = bpow radix2 (- Z.of_nat k)). { clear. induction k as [|k IH]; [reflexivity|]. rewrite <- tech_pow_Rmult, IH. change (/ 2) with (bpow radix2 (-1)). rewrite <- bpow_plus. f_equal. lia. }
      rewrite E. apply bpow_le. lia.
    - apply pow_incr. lra.
  Qed.
  Lemma eta_ok k : (k <= 120)%nat -> eta <= 0.000001 * (u * X * h ^ k).
  Proof using All.
    intros K. pose proof (h_pow k K) as H. pose proof X_pos. apply Rle_trans with (1 := eta_tiny prec emax _ _ prec_ok emax_ok).
    replace (0.000001 * (u * X * h ^ k)) with (u * (0.000001 * X * h ^ k)) by ring. apply Rmult_le_compat_l; [lra|].
    apply Rle_trans with (bpow radix2 (-20) * bpow radix2 (-400) * bpow radix2 (-130)); [rewrite <- !bpow_plus; apply bpow_le; lia|].
    assert (0 <= bpow radix2 (-20) <= 0.000001) by (split; [apply bpow_ge_0|cbn; lra]). pose proof (bpow_gt_0 radix2 (-130)).
    apply Rmult_le_compat; [apply Rmult_le_pos; lra|lra|apply Rmult_le_compat; lra|lra].
  Qed.

  (** The ideal terms *)
  Definition tau (k : nat) : R := X * bb (S k) z / (2 * INR k + 1).
  Definition qz (k : nat) : R := z * (2 * INR k + 1) / (2 * INR k + 4).
  Lemma tau_succ k : tau (S k) = tau k * qz k.
  Proof using All. unfold tau, qz. change (bb (S (S k)) z) with (bb (S k) z * (z * rb (S k))). unfold rb. rewrite S_INR. pose proof (pos_INR k). field. lra. Qed.
  Lemma pb_tau k : pb (S k) X = tau k * (2 * INR k + 1) / (2 * INR k + 3).
  Proof using All. unfold pb, tau. rewrite S_INR. pose proof (pos_INR k). field. lra. Qed.
  Lemma bb_h k : 0 <= bb (S k) z <= 0.5 * h ^ S k.
  Proof using All.
    pose proof z_range as Z. pose proof (bpow_gt_0 radix2 (-800)). split; [apply bb_nonneg; lra|]. induction k as [|k IH].
    - cbn. unfold rb. cbn. lra.
    - change (bb (S (S k)) z) with (bb (S k) z * (z * rb (S k))). rewrite <- (tech_pow_Rmult h (S k)). pose proof (rb_range (S k)) as R. pose proof (bb_nonneg (S k) z ltac:(lra)). assert (z * rb (S k) <= 0.51 * 1) by (apply Rmult_le_compat; lra).
      replace (0.5 * (h * h ^ S k)) with (0.5 * h ^ S k * (0.51 * 1)) by ring. apply Rmult_le_compat; try lra. apply Rmult_le_pos; lra.
  Qed.
  Lemma bb_h2 k : bb (S (S k)) z <= 0.375 * h ^ S (S k).
  Proof using All.
    pose proof z_range as Z. pose proof (bpow_gt_0 radix2 (-800)). induction k as [|k IH].
    - cbn [bb pow]. unfold rb. cbn [INR]. assert (z * z <= 0.51 * 0.51) by (apply Rmult_le_compat; lra). lra.
    - change (bb (S (S (S k))) z) with (bb (S (S k)) z * (z * rb (S (S k)))). rewrite <- (tech_pow_Rmult h (S (S k))). pose proof (rb_range (S (S k))) as R. pose proof (bb_nonneg (S (S k)) z ltac:(lra)). assert (z * rb (S (S k)) <= 0.51 * 1) by (apply Rmult_le_compat; lra).
      replace (0.375 * (h * h ^ S (S k))) with (0.375 * h ^ S (S k) * (0.51 * 1)) by ring. apply Rmult_le_compat; try lra. apply Rmult_le_pos; lra.
  Qed.
  Lemma tau_nonneg k : 0 <= tau k.
  Proof using All. unfold tau. pose proof (bb_h k). pose proof (pos_INR k). pose proof X_pos. apply Rmult_le_pos; [apply Rmult_le_pos; lra|left; apply Rinv_0_lt_compat; lra]. Qed.
  Lemma tau_h k : tau k * (2 * INR k + 1) <= 0.5 * (X * h ^ S k).
  Proof using All.
    unfold tau. pose proof (bb_h k). pose proof (pos_INR k). pose proof X_pos. replace (X * bb (S k) z / (2 * INR k + 1) * (2 * INR k + 1)) with (X * bb (S k) z) by (field; lra).
    replace (0.5 * (X * h ^ S k)) with (X * (0.5 * h ^ S k)) by ring. apply Rmult_le_compat_l; lra.
  Qed.
  Lemma tau_h2 k : tau (S k) * (2 * INR k + 3) <= 0.375 * (X * h ^ S (S k)).
  Proof using All.
    unfold tau. pose proof (bb_h2 k). pose proof (pos_INR k). pose proof X_pos. rewrite S_INR. replace (X * bb (S (S k)) z / (2 * (INR k + 1) + 1) * (2 * INR k + 3)) with (X * bb (S (S k)) z) by (field; lra).
    replace (0.375 * (X * h ^ S (S k))) with (X * (0.375 * h ^ S (S k))) by ring. apply Rmult_le_compat_l; lra.
  Qed.
  Lemma Sb_grow n : Sb n X <= Sb (S n) X.
  Proof using All. cbn [Sb]. pose proof X_pos. pose proof (pb_nonneg (S n) X ltac:(lra)). lra. Qed.
  Lemma asin_X : X <= asin X <= 1.12 * X /\ forall n, X <= Sb n X <= asin X.
  Proof using All.
    pose proof X_pos as X0. pose proof z_range as Z. pose proof (bpow_gt_0 radix2 (-800)) as Z0. split.
    - split; [pose proof (asin_series_bound 0 X ltac:(lra) ltac:(lra)) as B; cbn [Sb] in B; lra|].
      pose proof (asin_series_bound 4 X ltac:(lra) ltac:(lra)) as [_ B]. set (Y := X) in *.
      assert (Z2 : Y * Y * (Y * Y) <= 0.50001 * 0.50001) by (apply Rmult_le_compat; lra). assert (Z20 : 0 <= Y * Y * (Y * Y)) by (apply Rmult_le_pos; lra).
      assert (Z3 : Y * Y * (Y * Y) * (Y * Y) <= 0.50001 * 0.50001 * 0.50001) by (apply Rmult_le_compat; lra). assert (Z30 : 0 <= Y * Y * (Y * Y) * (Y * Y)) by (apply Rmult_le_pos; lra).
      assert (Z4 : Y * Y * (Y * Y) * (Y * Y) * (Y * Y) <= 0.50001 * 0.50001 * 0.50001 * 0.50001) by (apply Rmult_le_compat; lra).
      assert (Z5 : Y * Y * (Y * Y) * (Y * Y) * (Y * Y) * (Y * Y) <= 0.50001 * 0.50001 * 0.50001 * 0.50001 * 0.50001) by (apply Rmult_le_compat; try lra; apply Rmult_le_pos; lra).
      assert (E : Sb 4 Y + 4.3 * (Y * Y) * pb 4 Y = Y * (1 + Y * Y / 6 + 3 / 40 * (Y * Y * (Y * Y)) + 15 / 336 * (Y * Y * (Y * Y) * (Y * Y)) + 105 / 3456 * (Y * Y * (Y * Y) * (Y * Y) * (Y * Y)) + 4.3 * 105 / 3456 * (Y * Y * (Y * Y) * (Y * Y) * (Y * Y) * (Y * Y)))).
      { unfold Sb, pb, bb, rb. cbn [INR]. field. }
      apply Rle_trans with (Sb 4 Y + 4.3 * (Y * Y) * pb 4 Y); [lra|]. rewrite E, (Rmult_comm 1.12). apply Rmult_le_compat_l; [lra|]. lra.
    - intros n. pose proof (asin_series_bound n X ltac:(lra) ltac:(lra)) as [B _]. split; [|lra]. clear B. induction n as [|n IH]; [cbn [Sb]; lra|]. apply Rle_trans with (1 := IH). apply Sb_grow.
  Qed.

  (** The square and the quotient *)
  Notation xs := (x *! x).
  Lemma t800 : 1000000 * tiny <= bpow radix2 (-800) /\ 0 < bpow radix2 (-800).
  Proof using All.
    split; [|apply bpow_gt_0]. apply Rle_trans with (bpow radix2 20 * tiny); [apply Rmult_le_compat_r; [apply bpow_ge_0|cbn; lra]|]. rewrite <- bpow_plus. apply bpow_le. lia.
  Qed.
  Lemma asin_sq : is_finite xs = true /\ rel (B2R xs) z (1.0001 * u).
  Proof using All.
    pose proof z_range as S. pose proof t800. pose proof (big_big prec emax _ _ prec_ok emax_ok). pose proof (tiny_small prec emax _ _ prec_ok emax_ok). rewrite z_eq in *.
    destruct (mult_rel prec emax _ _ prec_ok emax_ok x x (B2R x) (B2R x) 0 0 x_fin x_fin ltac:(lra) ltac:(lra) (rel_refl _ 0 (Rle_refl 0)) (rel_refl _ 0 (Rle_refl 0))) as [F R]; [rewrite Rabs_pos_eq by lra; lra|].
    split; [exact F|]. apply rel_le with (1 := R). lra.
  Qed.
  Definition aquot (i : Z) : float := xs *! of_Z i /! of_Z (i + 3).
  Lemma aquot_ok k : (k <= 100)%nat -> let i := (2 * Z.of_nat k + 1)%Z in is_finite (aquot i) = true /\ rel (B2R (aquot i)) (qz k) (3.1 * u) /\ 0 < qz k <= h.
  Proof using All.
    intros K i. assert (I : (1 <= i <= 201)%Z) by (unfold i; lia). assert (Ir : 1 <= IZR i <= 201) by (split; apply IZR_le; lia). destruct asin_sq as [Fx Rx]. pose proof z_range as Z. pose proof t800 as [T1 T]. pose proof (big_big prec emax _ _ prec_ok emax_ok) as G. pose proof (tiny_small prec emax _ _ prec_ok emax_ok) as Tn.
    destruct (int_ok prec emax _ _ prec_ok emax_ok i ltac:(lia)) as [Fi Vi]. destruct (int_ok prec emax _ _ prec_ok emax_ok (i + 3) ltac:(lia)) as [Fj Vj]. rewrite plus_IZR in Vj.
    pose proof (rel_pos _ _ _ Rx ltac:(lra) ltac:(lra)) as B.
    assert (P1 : 0.9999 * bpow radix2 (-800) * 1 <= B2R xs * IZR i <= 0.6 * 201) by (split; apply Rmult_le_compat; lra).
    destruct (mult_rel prec emax _ _ prec_ok emax_ok xs (of_Z i) z (IZR i) (1.0001 * u) 0 Fx Fi ltac:(lra) ltac:(lra) Rx ltac:(rewrite Vi; apply rel_refl; lra)) as [F1 R1]; [rewrite Vi, Rabs_pos_eq by lra; lra|].
    assert (N1 : 1 * bpow radix2 (-800) <= IZR i * z <= 201 * 0.6) by (split; apply Rmult_le_compat; lra). rewrite (Rmult_comm (IZR i)) in N1.
    pose proof (rel_pos _ _ _ R1 ltac:(lra) ltac:(lra)) as B1. assert (J : / 204 <= / (IZR i + 3) <= / 4) by (split; apply Rinv_le_contravar; lra).
    destruct (div_rel prec emax _ _ prec_ok emax_ok (xs *! of_Z i) (of_Z (i + 3)) (z * IZR i) (IZR i + 3) (1.0001 * (u + 1.0001 * u + 0)) 0 F1) as [F2 R2]; [rewrite Vj; lra|lra|lra|lra|exact R1|rewrite Vj; apply rel_refl; lra| |].
    { rewrite Vj. unfold Rdiv. rewrite Rabs_pos_eq by (apply Rmult_le_pos; lra). split; [apply Rle_trans with (0.9 * bpow radix2 (-800) * / 204); [lra|apply Rmult_le_compat; lra]|apply Rle_trans with (1000 * / 4); [apply Rmult_le_compat; lra|lra]]. }
    assert (E : z * IZR i / (IZR i + 3) = qz k). { unfold qz, i. rewrite plus_IZR, mult_IZR, <- INR_IZR_INZ. pose proof (pos_INR k). field. repeat split; lra. }
    rewrite E in R2. split; [exact F2|]. split; [apply rel_le with (1 := R2); lra|]. rewrite <- E. split; [apply Rdiv_lt_0_compat; lra|]. unfold Rdiv. rewrite Rmult_assoc. assert (0 <= IZR i * / (IZR i + 3) <= 1).
    { split; [apply Rmult_le_pos; lra|]. apply Rmult_le_reg_r with (IZR i + 3); [lra|]. rewrite Rmult_assoc, Rinv_l by lra. lra. }
    apply Rle_trans with (0.51 * 1); [apply Rmult_le_compat; lra|lra].
  Qed.

  (** One pass *)
  Definition ainv (k : nat) (t s : float) : Prop :=
    is_finite t = true /\ is_finite s = true /\ Rabs (g * B2R t - tau k) <= 1.6 * (u * X * h ^ S k) /\ Rabs (g * B2R s - Sb k X) <= (1.13 * INR k + 1.8 * (1 - h ^ k)) * (u * X).
  Lemma apass_term k (t : float) : (k <= 99)%nat -> is_finite t = true -> Rabs (g * B2R t - tau k) <= 1.6 * (u * X * h ^ S k) ->
    let t' := t *! aquot (2 * Z.of_nat k + 1) in is_finite t' = true /\ Rabs (g * B2R t' - tau (S k)) <= 1.6 * (u * X * h ^ S (S k)).
  Proof using All.
    intros K Ft Ht t'. destruct (aquot_ok k ltac:(lia)) as (Fq & Rq & Bq). set (Q := aquot (2 * Z.of_nat k + 1)) in *. pose proof X_pos as X0. pose proof X_high as X1. pose proof (tau_nonneg k) as T0.
    pose proof (rel_dist _ _ _ Rq) as Dq. rewrite (Rabs_pos_eq (qz k)) in Dq by lra. apply Rabs_le_inv in Dq as Dq'. assert (M1 : 3.1 * u * qz k <= 0.000001 * qz k) by (apply Rmult_le_compat_r; lra).
    pose proof (pos_INR k) as K0. assert (K1 : INR k <= 99). { replace 99 with (INR 99) by (rewrite INR_IZR_INZ; reflexivity). now apply le_INR. }
    pose proof (h_pow (S k) ltac:(lia)) as P. pose proof (bpow_gt_0 radix2 (-130)) as B130. set (H := u * X * h ^ S k) in *. assert (H0 : 0 <= H) by (unfold H; apply Rmult_le_pos; [apply Rmult_le_pos|]; lra).
    assert (H1 : H <= u * X * 1) by (unfold H; apply Rmult_le_compat_l; [apply Rmult_le_pos; lra|lra]). assert (H2 : u * X <= u * 0.70712) by (apply Rmult_le_compat_l; lra).
    assert (Tk : tau k <= 0.5). { pose proof (tau_h k) as A. assert (X * h ^ S k <= 1 * 1) by (apply Rmult_le_compat; lra). assert (tau k * 1 <= tau k * (2 * INR k + 1)) by (apply Rmult_le_compat_l; lra). lra. }
    apply Rabs_le_inv in Ht as Ht'. assert (Gt : Rabs (B2R t) <= 1). { rewrite <- g_abs. apply Rabs_le. lra. }
    assert (Bq2 : 0 < B2R Q <= 0.52) by lra. pose proof (big_big prec emax _ _ prec_ok emax_ok) as G.
    destruct (mult_ok prec emax _ _ prec_ok emax_ok t Q Ft Fq) as [F' V']. { rewrite Rabs_mult. apply Rle_trans with (1 * 0.52); [apply Rmult_le_compat; try apply Rabs_pos; try lra; rewrite Rabs_pos_eq by lra; lra|lra]. }
    split; [exact F'|]. unfold t'. rewrite V'. destruct (rnd_any prec emax _ (B2R t * B2R Q)) as (d & e & Hd & He & Er). rewrite Er, tau_succ.
    replace (g * (B2R t * B2R Q * (1 + d) + e) - tau k * qz k) with ((g * B2R t - tau k) * B2R Q * (1 + d) + (tau k * (B2R Q - qz k) * (1 + d) + (tau k * qz k * d + g * e))) by ring.
    assert (Hd1 : Rabs (1 + d) <= 1.000001). { apply Rabs_le_inv in Hd. apply Rabs_le. lra. }
    assert (QB : B2R Q <= 1.000001 * qz k) by lra.
    assert (A1 : Rabs ((g * B2R t - tau k) * B2R Q * (1 + d)) <= 1.6 * H * (1.000001 * qz k) * 1.000001).
    { rewrite !Rabs_mult, (Rabs_pos_eq (B2R Q)) by lra. apply Rmult_le_compat; try apply Rabs_pos; [apply Rmult_le_pos; [apply Rabs_pos|lra]| |exact Hd1]. apply Rmult_le_compat; try apply Rabs_pos; lra. }
    assert (A2 : Rabs (tau k * (B2R Q - qz k) * (1 + d)) <= tau k * (3.1 * u * qz k) * 1.000001).
    { rewrite !Rabs_mult, (Rabs_pos_eq (tau k)) by lra. apply Rmult_le_compat; try apply Rabs_pos; [apply Rmult_le_pos; [lra|apply Rabs_pos]| |exact Hd1]. apply Rmult_le_compat_l; lra. }
    assert (A3 : Rabs (tau k * qz k * d) <= tau k * qz k * u). { rewrite Rabs_mult, (Rabs_pos_eq (tau k * qz k)) by (apply Rmult_le_pos; lra). apply Rmult_le_compat_l; [apply Rmult_le_pos; lra|exact Hd]. }
    assert (A4 : Rabs (g * e) <= 0.000001 * (u * X * h ^ S (S k))). { rewrite g_abs. apply Rle_trans with (1 := He). apply eta_ok. lia. }
    pose proof (tau_h2 k) as T2. rewrite tau_succ in T2. set (W := u * X * h ^ S (S k)) in *. assert (W0 : W = H * h) by (unfold W, H; rewrite <- (tech_pow_Rmult h (S k)); ring).
    assert (A5 : H * qz k <= W * ((2 * INR k + 1) / (2 * INR k + 4))).
    { rewrite W0. unfold qz. replace (H * (z * (2 * INR k + 1) / (2 * INR k + 4))) with (H * z * ((2 * INR k + 1) / (2 * INR k + 4))) by (field; lra). apply Rmult_le_compat_r; [apply Rmult_le_pos; [lra|left; apply Rinv_0_lt_compat; lra]|]. pose proof z_range. apply Rmult_le_compat_l; lra. }
    assert (A6 : u * (tau k * qz k) <= W * (0.375 / (2 * INR k + 3))).
    { apply Rmult_le_reg_r with (2 * INR k + 3); [lra|]. replace (W * (0.375 / (2 * INR k + 3)) * (2 * INR k + 3)) with (W * 0.375) by (field; lra).
      replace (u * (tau k * qz k) * (2 * INR k + 3)) with (u * (tau k * qz k * (2 * INR k + 3))) by ring. replace (W * 0.375) with (u * (0.375 * (X * h ^ S (S k)))) by (unfold W; ring). apply Rmult_le_compat_l; lra. }
    assert (Fr : 1.60001 * ((2 * INR k + 1) / (2 * INR k + 4)) + 4.10001 * (0.375 / (2 * INR k + 3)) + 0.000001 <= 1.6).
    { assert (P4 : 0 < (2 * INR k + 4) * (2 * INR k + 3)) by (apply Rmult_lt_0_compat; lra). apply Rmult_le_reg_r with ((2 * INR k + 4) * (2 * INR k + 3)); [exact P4|].
      replace ((1.60001 * ((2 * INR k + 1) / (2 * INR k + 4)) + 4.10001 * (0.375 / (2 * INR k + 3)) + 0.000001) * ((2 * INR k + 4) * (2 * INR k + 3))) with (1.60001 * (2 * INR k + 1) * (2 * INR k + 3) + 4.10001 * 0.375 * (2 * INR k + 4) + 0.000001 * ((2 * INR k + 4) * (2 * INR k + 3))) by (field; lra).
      assert (INR k * INR k <= 99 * INR k) by (apply Rmult_le_compat_r; lra). lra. }
    assert (W1 : 0 <= W) by (rewrite W0; lra).
    assert (Fr2 : W * (1.60001 * ((2 * INR k + 1) / (2 * INR k + 4)) + 4.10001 * (0.375 / (2 * INR k + 3)) + 0.000001) <= W * 1.6) by (apply Rmult_le_compat_l; assumption).
    assert (0 <= H * qz k) by (apply Rmult_le_pos; lra). assert (0 <= u * (tau k * qz k)) by (apply Rmult_le_pos; [lra|apply Rmult_le_pos; lra]).
    eapply Rle_trans; [apply Rabs_triang|]. eapply Rle_trans; [apply Rplus_le_compat_l, Rabs_triang|]. eapply Rle_trans; [apply Rplus_le_compat_l, Rplus_le_compat_l, Rabs_triang|]. lra.
  Qed.

  Definition addend (i : Z) (t : float) : float := t *! of_Z i /! of_Z (i + 2).
  Lemma kr k : (k <= 99)%nat -> 0 <= INR k <= 99.
  Proof using All. intros K. split; [apply pos_INR|]. replace 99 with (INR 99) by (rewrite INR_IZR_INZ; reflexivity). now apply le_INR. Qed.
  Lemma H_facts k : (k <= 110)%nat -> 0 <= u * X * h ^ k <= u * X.
  Proof using All. intros K. pose proof X_pos. pose proof (h_pow k ltac:(lia)) as P. pose proof (bpow_gt_0 radix2 (-130)). assert (0 <= u * X) by (apply Rmult_le_pos; lra). split; [apply Rmult_le_pos; lra|]. apply Rle_trans with (u * X * 1); [apply Rmult_le_compat_l; lra|lra]. Qed.
  Lemma addend_ok k (t : float) : (k <= 99)%nat -> is_finite t = true -> Rabs (g * B2R t - tau k) <= 1.6 * (u * X * h ^ S k) ->
    let a := addend (2 * Z.of_nat k + 1) t in is_finite a = true /\ Rabs (g * B2R a - pb (S k) X) <= 1.7 * (u * X * h ^ S k).
  Proof using All.
    intros K Ft Ht a. set (i := (2 * Z.of_nat k + 1)%Z) in *. assert (I : (1 <= i <= 199)%Z) by (unfold i; lia). assert (Ir : 1 <= IZR i <= 199) by (split; apply IZR_le; lia).
    assert (Ik : IZR i = 2 * INR k + 1) by (unfold i; now rewrite plus_IZR, mult_IZR, <- INR_IZR_INZ). pose proof (kr k K) as K0. pose proof (big_big prec emax _ _ prec_ok emax_ok) as G. pose proof (tiny_small prec emax _ _ prec_ok emax_ok) as Tn.
    destruct (int_ok prec emax _ _ prec_ok emax_ok i ltac:(lia)) as [Fi Vi]. destruct (int_ok prec emax _ _ prec_ok emax_ok (i + 2) ltac:(lia)) as [Fj Vj]. rewrite plus_IZR in Vj.
    pose proof (H_facts (S k) ltac:(lia)) as H0. pose proof X_pos as X0. pose proof X_high as X1. pose proof (tau_nonneg k) as T0. pose proof (h_pow (S k) ltac:(lia)) as P. pose proof (bpow_gt_0 radix2 (-130)) as B130.
    assert (H2 : u * X <= u * 0.70712) by (apply Rmult_le_compat_l; lra). pose proof (eta_ok (S k) ltac:(lia)) as Et. set (H := u * X * h ^ S k) in *.
    assert (Tk : tau k <= 0.5). { pose proof (tau_h k) as A. assert (X * h ^ S k <= 1 * 1) by (apply Rmult_le_compat; lra). assert (tau k * 1 <= tau k * (2 * INR k + 1)) by (apply Rmult_le_compat_l; lra). lra. }
    apply Rabs_le_inv in Ht as Ht'. assert (Gt : Rabs (B2R t) <= 1). { rewrite <- g_abs. apply Rabs_le. lra. }
    destruct (mult_ok prec emax _ _ prec_ok emax_ok t (of_Z i) Ft Fi) as [F1 V1]. { rewrite Vi, Rabs_mult, (Rabs_pos_eq (IZR i)) by lra. apply Rle_trans with (1 * 199); [apply Rmult_le_compat; try apply Rabs_pos; lra|lra]. }
    rewrite Vi in V1. destruct (rnd_any prec emax _ (B2R t * IZR i)) as (d1 & e1 & Hd1 & He1 & Er1). rewrite Er1 in V1. pose proof (eta_u3 prec emax _ _ prec_ok emax_ok) as Eu.
    assert (J : / 201 <= / (IZR i + 2) <= / 3) by (split; apply Rinv_le_contravar; lra). apply Rabs_le_inv in Hd1 as Hd1'. apply Rabs_le_inv in He1 as He1'.
    assert (B1 : Rabs (B2R (t *! of_Z i)) <= 200). { rewrite V1. apply Rle_trans with (1 := Rabs_triang _ _). rewrite !Rabs_mult, (Rabs_pos_eq (IZR i)) by lra. assert (Rabs (B2R t) * IZR i * Rabs (1 + d1) <= 1 * 199 * 1.001).
      { apply Rmult_le_compat; [apply Rmult_le_pos; [apply Rabs_pos|lra]|apply Rabs_pos|apply Rmult_le_compat; try apply Rabs_pos; lra|apply Rabs_le; lra]. } lra. }
    destruct (div_ok prec emax _ _ prec_ok emax_ok (t *! of_Z i) (of_Z (i + 2)) F1) as [F2 V2]; [rewrite Vj; lra| |].
    { rewrite Vj. unfold Rdiv. rewrite Rabs_mult, (Rabs_pos_eq (/ _)) by lra. apply Rle_trans with (200 * / 3); [apply Rmult_le_compat; try apply Rabs_pos; lra|lra]. }
    split; [exact F2|]. unfold a, addend. rewrite V2, Vj, V1. destruct (rnd_any prec emax _ ((B2R t * IZR i * (1 + d1) + e1) / (IZR i + 2))) as (d2 & e2 & Hd2 & He2 & Er2). rewrite Er2. apply Rabs_le_inv in Hd2 as Hd2'.
    rewrite pb_tau, Ik. replace (2 * INR k + 1 + 2) with (2 * INR k + 3) in * by ring. rewrite Ik in *.
    set (n := 2 * INR k + 1) in *. replace (2 * INR k + 3) with (n + 2) in * by (unfold n; ring). set (D := d1 + d2 + d1 * d2).
    assert (HD : Rabs D <= 2.00001 * u). { unfold D. apply Rle_trans with (1 := Rabs_triang _ _). pose proof (Rabs_triang d1 d2). rewrite Rabs_mult. assert (Rabs d1 * Rabs d2 <= 0.00001 * u) by (apply Rmult_le_compat; try apply Rabs_pos; lra). lra. }
    assert (Ni : 0 < / (n + 2)) by lra.
    replace (g * ((B2R t * n * (1 + d1) + e1) / (n + 2) * (1 + d2) + e2) - tau k * n / (n + 2)) with (((g * B2R t - tau k) * (1 + D) + tau k * D) * (n * / (n + 2)) + (g * (e1 * ((1 + d2) * / (n + 2))) + g * e2)) by (unfold D; field; lra).
    assert (C : 0 <= n * / (n + 2) /\ n * / (n + 2) = 1 - 2 * / (n + 2)) by (split; [apply Rmult_le_pos; lra|field; lra]).
    assert (A1 : Rabs ((g * B2R t - tau k) * (1 + D) + tau k * D) <= 1.6 * H * 1.00001 + 2.00001 * (u * tau k)).
    { apply Rle_trans with (1 := Rabs_triang _ _). rewrite !Rabs_mult, (Rabs_pos_eq (tau k)) by lra. apply Rabs_le_inv in HD as HD'. assert (Rabs (1 + D) <= 1.00001) by (apply Rabs_le; lra).
      assert (Rabs (g * B2R t - tau k) * Rabs (1 + D) <= 1.6 * H * 1.00001) by (apply Rmult_le_compat; try apply Rabs_pos; assumption). assert (tau k * Rabs D <= tau k * (2.00001 * u)) by (apply Rmult_le_compat_l; assumption). lra. }
    assert (A2 : Rabs (((g * B2R t - tau k) * (1 + D) + tau k * D) * (n * / (n + 2))) <= (1.6 * H * 1.00001 + 2.00001 * (u * tau k)) * (n * / (n + 2))).
    { rewrite Rabs_mult, (Rabs_pos_eq (n * / (n + 2))) by lra. apply Rmult_le_compat_r; lra. }
    assert (A3 : u * tau k * (n * / (n + 2)) <= 0.5 * H * / (n + 2)). { replace (u * tau k * (n * / (n + 2))) with (u * (tau k * n) * / (n + 2)) by ring. apply Rmult_le_compat_r; [lra|]. pose proof (tau_h k) as A. fold n in A. replace (0.5 * H) with (u * (0.5 * (X * h ^ S k))) by (unfold H; ring). apply Rmult_le_compat_l; lra. }
    assert (A4 : Rabs (g * (e1 * ((1 + d2) * / (n + 2)))) <= 0.000001 * H). { rewrite g_abs, Rabs_mult. apply Rle_trans with (eta * 1); [|lra]. apply Rmult_le_compat; try apply Rabs_pos; [exact He1|]. rewrite Rabs_mult, (Rabs_pos_eq (/ _)) by lra. apply Rle_trans with (1.001 * / 3); [apply Rmult_le_compat; try apply Rabs_pos; try lra; apply Rabs_le; lra|lra]. }
    assert (A5 : Rabs (g * e2) <= 0.000001 * H) by (rewrite g_abs; lra).
    eapply Rle_trans; [apply Rabs_triang|]. eapply Rle_trans; [apply Rplus_le_compat_l, Rabs_triang|].
    assert (A6 : H * (n * / (n + 2)) = H - 2 * (H * / (n + 2))) by (rewrite (proj2 C); ring). assert (0 <= H * / (n + 2)) by (apply Rmult_le_pos; lra). lra.
  Qed.

  Lemma apass k (t s : float) : (k <= 99)%nat -> ainv k t s ->
    let a := addend (2 * Z.of_nat k + 1) t in let t' := t *! aquot (2 * Z.of_nat k + 1) in let s' := s +. a in
    ainv (S k) t' s' /\ B2R s' = rnd (B2R s + B2R a) /\ Rabs (B2R s + B2R a) <= 1.122 * X /\ pb (S k) X <= Rabs (B2R a) + 1.7 * (u * X * h ^ S k).
  Proof using All.
    intros K (Ft & Fs & Ht & Hs) a t' s'. destruct (apass_term k t K Ft Ht) as [Ft' Ht']. destruct (addend_ok k t K Ft Ht) as [Fa Ha]. fold a in Fa, Ha. fold t' in Ft', Ht'.
    pose proof (kr k K) as K0. pose proof X_pos as X0. pose proof X_high as X1. pose proof (H_facts (S k) ltac:(lia)) as H0. pose proof (H_facts k ltac:(lia)) as H1. destruct asin_X as [A1 A2]. pose proof (A2 k) as S1. pose proof (A2 (S k)) as S2. cbn [Sb] in S2.
    assert (Hk : u * X * h ^ S k = h * (u * X * h ^ k)) by (rewrite <- tech_pow_Rmult; ring). assert (U2 : u * X <= 0.000001 * X) by (apply Rmult_le_compat_r; lra).
    set (H := u * X * h ^ k) in *. set (uX := u * X) in *. assert (Eu : eta <= 0.000001 * uX). { pose proof (eta_ok 0 ltac:(lia)) as E. cbn [pow] in E. fold uX in E. lra. }
    replace ((1.13 * INR k + 1.8 * (1 - h ^ k)) * uX) with (1.13 * INR k * uX + 1.8 * uX - 1.8 * H) in Hs by (unfold H, uX; ring).
    assert (Ku : INR k * uX <= 99 * uX) by (apply Rmult_le_compat_r; lra). assert (Ku0 : 0 <= INR k * uX) by (apply Rmult_le_pos; lra).
    assert (Ub : uX <= 1e-15 * X). { unfold uX. apply Rmult_le_compat_r; [lra|]. apply Rle_trans with (bpow radix2 (-53)); [apply bpow_le; lia|]. change (bpow radix2 (-53)) with (/ 9007199254740992). lra. }
    apply Rabs_le_inv in Hs as Hs'. apply Rabs_le_inv in Ha as Ha'. rewrite Hk in *.
    assert (B : Rabs (B2R s + B2R a) <= 1.122 * X). { rewrite <- g_abs. replace (g * (B2R s + B2R a)) with (g * B2R s + g * B2R a) by ring. apply Rabs_le. lra. }
    pose proof (big_big prec emax _ _ prec_ok emax_ok) as G.
    destruct (plus_ok prec emax _ _ prec_ok emax_ok s a Fs Fa ltac:(lra)) as [F2 V2].
    split; [|split; [exact V2|split; [exact B|]]].
    2:{ rewrite <- (g_abs (B2R a)). pose proof (Rle_abs (g * B2R a)). lra. }
    split; [exact Ft'|]. split; [exact F2|]. split; [exact Ht'|]. unfold s'. rewrite V2. destruct (rnd_any prec emax _ (B2R s + B2R a)) as (d & e & Hd & He & Er). rewrite Er. cbn [Sb].
    replace (g * ((B2R s + B2R a) * (1 + d) + e) - (Sb k X + pb (S k) X)) with ((g * B2R s - Sb k X) + ((g * B2R a - pb (S k) X) + (g * ((B2R s + B2R a) * d) + g * e))) by ring.
    assert (A7 : Rabs (g * ((B2R s + B2R a) * d)) <= 1.122 * uX). { rewrite g_abs, Rabs_mult. replace (1.122 * uX) with (1.122 * X * u) by (unfold uX; ring). apply Rmult_le_compat; try apply Rabs_pos; assumption. }
    assert (A8 : Rabs (g * e) <= 0.000001 * uX) by (rewrite g_abs; lra).
    eapply Rle_trans; [apply Rabs_triang|]. eapply Rle_trans; [apply Rplus_le_compat_l, Rabs_triang|]. eapply Rle_trans; [apply Rplus_le_compat_l, Rplus_le_compat_l, Rabs_triang|].
    fold uX. rewrite S_INR. replace ((1.13 * (INR k + 1) + 1.8 * (1 - h ^ S k)) * uX) with (1.13 * (INR k * uX) + 1.13 * uX + 1.8 * uX - 1.8 * (h * H)) by (rewrite <- tech_pow_Rmult; unfold H, uX; ring). lra.
  Qed.

  Lemma pb_last : 4.3 * z * pb 100 X <= 6.2 * (u * X).
  Proof using All.
    pose proof X_pos as X0. pose proof z_range as Z. pose proof t800 as [_ T8]. unfold pb. rewrite bb_pow. pose proof (bb_wallis 100) as W. pose proof (bb_nonneg 100 1 ltac:(lra)) as B0. set (b := bb 100 1) in *.
    replace (INR 100) with 100 in * by (rewrite INR_IZR_INZ; reflexivity).
    assert (Bb : b <= 0.070535). { apply Rnot_lt_le. intros L. assert (0.070535 * 0.070535 < b * b) by (apply Rmult_le_0_lt_compat; lra). lra. }
    assert (Ub : u <= bpow radix2 (-53)) by (apply bpow_le; lia). assert (B53 : bpow radix2 (-53) <= 1e-15) by (change (bpow radix2 (-53)) with (/ 9007199254740992); lra).
    assert (Zh : z <= 0.5 * (1 + 4e-15)) by lra. assert (P : z ^ 100 <= 1.0001 * bpow radix2 (-100)).
    { apply Rle_trans with ((0.5 * (1 + 4e-15)) ^ 100); [apply pow_incr; lra|]. rewrite Rpow_mult_distr. replace (0.5 ^ 100) with (bpow radix2 (-100)).
      2:{ replace 0.5 with (/ 2) by lra. rewrite pow_inv. change (-100)%Z with (Z.opp 100). rewrite bpow_opp. f_equal. change 2 with (IZR 2). rewrite pow_IZR. now rewrite <- (IZR_Zpower radix2) by lia. }
      rewrite (Rmult_comm 1.0001). apply Rmult_le_compat_l; [apply bpow_ge_0|].
      assert (Q : forall n, (n <= 100)%nat -> (1 + 4e-15) ^ n <= 1 + INR n * 1e-14). { induction n as [|n IH]; intros Hn; [rewrite pow_O; change (INR 0) with 0; lra|]. rewrite <- tech_pow_Rmult, S_INR. assert (INR n <= 100). { replace 100 with (INR 100) by (rewrite INR_IZR_INZ; reflexivity). apply le_INR. lia. } pose proof (pos_INR n). specialize (IH ltac:(lia)).
        apply Rle_trans with ((1 + 4e-15) * (1 + INR n * 1e-14)); [apply Rmult_le_compat_l; lra|lra]. }
      specialize (Q 100%nat ltac:(lia)). replace (INR 100) with 100 in Q by (rewrite INR_IZR_INZ; reflexivity). lra. }
    assert (P0 : 0 <= z ^ 100) by (apply pow_le; lra). assert (U : bpow radix2 (-113) <= u) by (apply bpow_le; lia).
    assert (E : bpow radix2 (-100) = 8192 * bpow radix2 (-113)). { change 8192 with (bpow radix2 13). now rewrite <- bpow_plus. }
    pose proof (bpow_gt_0 radix2 (-113)) as B113. set (w := z ^ 100) in *.
    assert (M1 : w * b <= 1.0001 * bpow radix2 (-100) * 0.070535) by (apply Rmult_le_compat; lra). assert (0 <= w * b) by (apply Rmult_le_pos; lra).
    assert (M2 : z * (w * b) <= 0.50001 * (1.0001 * bpow radix2 (-100) * 0.070535)) by (apply Rmult_le_compat; lra).
    replace (4.3 * z * (X * (w * b) / (2 * 100 + 1))) with (4.3 / 201 * X * (z * (w * b))) by field. replace (6.2 * (u * X)) with (X * (6.2 * u)) by ring.
    replace (4.3 / 201 * X * (z * (w * b))) with (X * (4.3 / 201 * (z * (w * b)))) by ring. apply Rmult_le_compat_l; [lra|]. lra.
  Qed.
  Lemma aloop_ok n : forall k t s, (n + k = 100)%nat -> ainv k t s ->
    let v := asin_loop prec emax _ _ n (2 * Z.of_nat k + 1) x t s in is_finite v = true /\ Rabs (g * B2R v - asin X) <= 122 * u * asin X.
  Proof using All.
    pose proof X_pos as X0. destruct asin_X as [A1 A2]. pose proof z_range as Z. pose proof t800 as [_ T8].
    assert (M : 122 * (u * X) <= 122 * u * asin X). { rewrite <- (Rmult_assoc 122). apply Rmult_le_compat_l; lra. } pose proof (H_facts 0 ltac:(lia)) as U. assert (U1 : 0 <= u * X) by (cbn in U; lra).
    induction n as [|n IH]; intros k t s N I.
    - cbn [asin_loop]. cbv zeta. replace k with 100%nat in * by lia. destruct I as (_ & F & _ & Hs). split; [exact F|]. pose proof (asin_series_bound 100 X ltac:(lra) ltac:(lra)) as B. pose proof pb_last as L.
      pose proof (h_pow 100 ltac:(lia)) as P. pose proof (bpow_gt_0 radix2 (-130)). assert ((1.13 * INR 100 + 1.8 * (1 - h ^ 100)) * (u * X) <= (1.13 * 100 + 1.8) * (u * X)). { apply Rmult_le_compat_r; [lra|]. replace (INR 100) with 100 by (rewrite INR_IZR_INZ; reflexivity). lra. }
      apply Rabs_le_inv in Hs. apply Rabs_le. lra.
    - cbn [asin_loop]. cbv zeta. fold (aquot (2 * Z.of_nat k + 1)). fold (addend (2 * Z.of_nat k + 1) t). destruct (apass k t s ltac:(lia) I) as ((Ft & Fs & Ht & Hs) & V & Bs & Pb). set (a := addend (2 * Z.of_nat k + 1) t) in *. set (s' := s +. a) in *. set (t' := t *! aquot (2 * Z.of_nat k + 1)) in *.
      rewrite Beqb_correct by (assumption || apply I). destruct (Req_bool_spec (B2R s) (B2R s')) as [Eq|Ne].
      + split; [exact Fs|]. pose proof (asin_series_bound (S k) X ltac:(lra) ltac:(lra)) as B.
        assert (T1 : Rabs (B2R a) <= 1.13 * (u * X)).
        { replace (B2R a) with (- (rnd (B2R s + B2R a) - (B2R s + B2R a))) by (rewrite <- V, <- Eq; ring). rewrite Rabs_Ropp. destruct (rnd_any prec emax _ (B2R s + B2R a)) as (d & e & Hd & He & ->).
          replace ((B2R s + B2R a) * (1 + d) + e - (B2R s + B2R a)) with ((B2R s + B2R a) * d + e) by ring. apply Rle_trans with (1 := Rabs_triang _ _). rewrite Rabs_mult.
          assert (Rabs (B2R s + B2R a) * Rabs d <= 1.122 * X * u) by (apply Rmult_le_compat; try apply Rabs_pos; assumption). pose proof (eta_ok 0 ltac:(lia)) as E. cbn [pow] in E. lra. }
        assert (Hh : u * X * h ^ S k <= h * (u * X)). { pose proof (H_facts k ltac:(lia)). rewrite <- tech_pow_Rmult. lra. }
        assert (T2 : pb (S k) X <= 2.1 * (u * X)) by lra. pose proof (pb_nonneg (S k) X ltac:(lra)) as P0.
        assert (T3 : 4.3 * z * pb (S k) X <= 4.3 * 0.50001 * (2.1 * (u * X))) by (apply Rmult_le_compat; lra).
        assert (Kr : INR (S k) <= 100). { replace 100 with (INR 100) by (rewrite INR_IZR_INZ; reflexivity). apply le_INR. lia. }
        assert (P : 0 <= h ^ S k) by (apply pow_le; lra).
        assert (M2 : (1.13 * INR (S k) + 1.8 * (1 - h ^ S k)) * (u * X) <= (1.13 * 100 + 1.8) * (u * X)) by (apply Rmult_le_compat_r; lra).
        apply Rabs_le_inv in Hs. apply Rabs_le. lra.
      + replace (2 * Z.of_nat k + 1 + 2)%Z with (2 * Z.of_nat (S k) + 1)%Z by lia. apply IH; [lia|]. now repeat split.
  Qed.
  Lemma ainv_0 : ainv 0 (x *! x *! x /! of_Z 2) x.
  Proof using All.
    destruct asin_sq as [Fx Rx]. pose proof z_range as Z. pose proof t800 as [T1 T]. pose proof (big_big prec emax _ _ prec_ok emax_ok) as G. pose proof (tiny_small prec emax _ _ prec_ok emax_ok) as Tn. pose proof X_pos as X0. pose proof X_high as X1.
    pose proof (rel_pos _ _ _ Rx ltac:(lra) ltac:(lra)) as B. assert (Gx : Rabs (B2R x) = X). { rewrite <- g_abs. apply Rabs_pos_eq. lra. }
    destruct (mult_ok prec emax _ _ prec_ok emax_ok xs x Fx x_fin) as [F1 V1]. { rewrite Rabs_mult, Gx, Rabs_pos_eq by lra. apply Rle_trans with (1 * 1); [apply Rmult_le_compat; lra|lra]. }
    destruct (rnd_any prec emax _ (B2R xs * B2R x)) as (d1 & e1 & Hd1 & He1 & Er1). rewrite Er1 in V1. pose proof (eta_u3 prec emax _ _ prec_ok emax_ok) as Eu. apply Rabs_le_inv in Hd1 as Hd1'. apply Rabs_le_inv in He1 as He1'.
    destruct (int_ok prec emax _ _ prec_ok emax_ok 2 ltac:(lia)) as [Fi Vi].
    assert (B1 : Rabs (B2R (xs *! x)) <= 2). { rewrite V1. apply Rle_trans with (1 := Rabs_triang _ _). rewrite !Rabs_mult, Gx, (Rabs_pos_eq (B2R xs)) by lra. assert (B2R xs * X * Rabs (1 + d1) <= 1 * 1 * 1.001); [|lra].
      apply Rmult_le_compat; [apply Rmult_le_pos; lra|apply Rabs_pos|apply Rmult_le_compat; lra|apply Rabs_le; lra]. }
    destruct (div_ok prec emax _ _ prec_ok emax_ok (xs *! x) (of_Z 2) F1) as [F2 V2]; [rewrite Vi; lra|rewrite Vi; unfold Rdiv; rewrite Rabs_mult, (Rabs_pos_eq (/ 2)) by lra; lra|]. rewrite Vi, V1 in V2.
    destruct (rnd_any prec emax _ ((B2R xs * B2R x * (1 + d1) + e1) / 2)) as (d2 & e2 & Hd2 & He2 & Er2). rewrite Er2 in V2. apply Rabs_le_inv in Hd2 as Hd2'.
    split; [exact F2|]. split; [exact x_fin|]. split.
    2:{ cbn [Sb pow INR]. rewrite Rminus_diag_eq, Rabs_R0 by reflexivity. lra. }
    rewrite V2. destruct Rx as (d0 & Hd0 & Ex). apply Rabs_le_inv in Hd0 as Hd0'. rewrite Ex. unfold tau. cbn [bb INR]. unfold rb. cbn [INR].
    set (D := d0 + d1 + d2 + (d0 * d1 + d0 * d2 + d1 * d2 + d0 * d1 * d2)).
    assert (HD : Rabs D <= 3.01 * u).
    { assert (U2 : u * u <= 0.000001 * u) by (apply Rmult_le_compat_r; lra). assert (P01 : Rabs (d0 * d1) <= 1.0001 * u * u) by (rewrite Rabs_mult; apply Rmult_le_compat; try apply Rabs_pos; assumption).
      assert (P02 : Rabs (d0 * d2) <= 1.0001 * u * u) by (rewrite Rabs_mult; apply Rmult_le_compat; try apply Rabs_pos; assumption). assert (P12 : Rabs (d1 * d2) <= u * u) by (rewrite Rabs_mult; apply Rmult_le_compat; try apply Rabs_pos; assumption).
      assert (P3 : Rabs (d0 * d1 * d2) <= 1.0001 * u * u * 1) by (rewrite (Rabs_mult (d0 * d1)); apply Rmult_le_compat; try apply Rabs_pos; lra).
      apply Rabs_le_inv in P01. apply Rabs_le_inv in P02. apply Rabs_le_inv in P12. apply Rabs_le_inv in P3. unfold D. apply Rabs_le. lra. }
    replace (g * ((z * (1 + d0) * B2R x * (1 + d1) + e1) / 2 * (1 + d2) + e2) - X * (1 * (z * ((2 * 0 + 1) / (2 * 0 + 2)))) / (2 * 0 + 1)) with (X * z / 2 * D + (g * (e1 * ((1 + d2) / 2)) + g * e2)) by (unfold D; field).
    assert (A1 : Rabs (X * z / 2 * D) <= 0.250005 * X * (3.01 * u)). { rewrite Rabs_mult. apply Rmult_le_compat; try apply Rabs_pos; [|exact HD]. assert (0 <= X * z <= X * 0.50001) by (split; [apply Rmult_le_pos|apply Rmult_le_compat_l]; lra). rewrite Rabs_pos_eq by lra. lra. }
    pose proof (eta_ok 1 ltac:(lia)) as Et. assert (A2 : Rabs (g * (e1 * ((1 + d2) / 2))) <= eta * 1). { rewrite g_abs, Rabs_mult. apply Rmult_le_compat; try apply Rabs_pos; [exact He1|apply Rabs_le; lra]. }
    assert (A3 : Rabs (g * e2) <= eta) by (rewrite g_abs; exact He2). rewrite pow_1 in *. assert (0 <= u * X) by (apply Rmult_le_pos; lra).
    eapply Rle_trans; [apply Rabs_triang|]. eapply Rle_trans; [apply Rplus_le_compat_l, Rabs_triang|]. lra.
  Qed.
  Theorem asin_series_big : let v := asin_series prec emax _ _ x in is_finite v = true /\ Rabs (g * B2R v - asin X) <= 122 * u * asin X.
  Proof using All. exact (aloop_ok 100 0 _ _ eq_refl ainv_0). Qed.
End AsinLoop.
