(** The Taylor loops of the compile-time sine and cosine on IEEE numbers. *)
From Coq Require Import ZArith Bool List Reals Lra Lia Psatz.
From Flocq Require Import Core BinarySingleNaN Relative Plus_error.
From Verif Require Import FpModel FpProofs FpProofs2 TrigModel TrigProofs.
Local Open Scope R_scope.

Lemma three_errors d1 d2 d3 u : 0 <= u <= / 1000000 -> Rabs d1 <= u -> Rabs d2 <= u -> Rabs d3 <= u -> Rabs (1 - (1 + d1) * (1 + d2) * (1 + d3)) <= 3.1 * u.
Proof.
  intros U H1 H2 H3.
  replace (1 - (1 + d1) * (1 + d2) * (1 + d3)) with (- (d1 + (d2 + (d3 + (d1 * d2 + (d1 * d3 + (d2 * d3 + d1 * d2 * d3))))))) by ring.
  rewrite Rabs_Ropp.
  assert (P : forall p q r, Rabs p <= u -> Rabs q <= r -> 0 <= r -> Rabs (p * q) <= / 1000000 * r).
  { intros p q r A B C. rewrite Rabs_mult. apply Rmult_le_compat; try apply Rabs_pos; lra. }
  assert (A1 := P d1 d2 u H1 H2 ltac:(lra)). assert (A2 := P d1 d3 u H1 H3 ltac:(lra)). assert (A3 := P d2 d3 u H2 H3 ltac:(lra)).
  assert (A4 := P d3 (d1 * d2) (/ 1000000 * u) H3 A1 ltac:(lra)). rewrite (Rmult_comm d3) in A4.
  repeat match goal with |- Rabs (?p + ?q) <= _ => eapply Rle_trans; [apply Rabs_triang|] end.
  set (X := Rabs (d2 + _)). assert (X <= Rabs d2 + (Rabs d3 + (Rabs (d1 * d2) + (Rabs (d1 * d3) + (Rabs (d2 * d3) + Rabs (d1 * d2 * d3)))))).
  { unfold X. repeat (eapply Rle_trans; [apply Rabs_triang|apply Rplus_le_compat_l]). apply Rle_refl. }
  lra.
Qed.

Section TrigFp.
  Variable prec emax : Z.
  Context (prec_gt_0_ : Prec_gt_0 prec).
  Context (prec_lt_emax_ : Prec_lt_emax prec emax).
  Notation float := (binary_float prec emax).
  Notation emin := (3 - emax - prec)%Z.
  Notation fexp := (FLT_exp emin prec).
  Notation rnd := (round radix2 fexp ZnearestE).
  Notation format := (generic_format radix2 fexp).
  Notation u := (bpow radix2 (- prec)).
  Notation of_Z := (of_Z prec emax _ _).
  Hypothesis prec_ok : (53 <= prec <= 113)%Z.
  Hypothesis emax_ok : (1024 <= emax)%Z.
  Local Instance fexp_valid2 : Valid_exp fexp := FLT_exp_valid emin prec.

  Lemma u_pos : 0 < u. Proof using. apply bpow_gt_0. Qed.
  Lemma u_tiny : u <= / 1000000000000000.
  Proof using prec_ok. apply Rle_trans with (bpow radix2 (-53)); [apply bpow_le; lia|]. cbn. lra. Qed.
  Lemma u_range : 0 <= u <= / 1000000. Proof using prec_ok. pose proof u_pos. pose proof u_tiny. lra. Qed.

  Definition eta : R := bpow radix2 (emin - 1).
  Lemma eta_pos : 0 < eta. Proof using. apply bpow_gt_0. Qed.
  Lemma eta_small : eta <= bpow radix2 (-1075).
  Proof using prec_ok emax_ok. apply bpow_le. lia. Qed.

  Lemma rnd_any v : exists d e, Rabs d <= u /\ Rabs e <= eta /\ rnd v = v * (1 + d) + e.
  Proof using prec_gt_0_.
    destruct (error_N_FLT radix2 emin prec prec_gt_0_ (fun x => negb (Z.even x)) v) as (d & e & Hd & He & _ & E).
    exists d, e. split; [|split; [|exact E]].
    - apply Rle_trans with (1 := Hd). rewrite bpow_plus. cbn. lra.
    - apply Rle_trans with (1 := He). unfold eta. replace (emin - 1)%Z with (emin + -1)%Z by lia. rewrite bpow_plus. cbn. lra.
  Qed.
  Lemma rnd_below k v : (-1000 <= k < emax)%Z -> Rabs v <= bpow radix2 k -> Rabs (rnd v) < bpow radix2 emax.
  Proof using prec_ok emax_ok prec_gt_0_.
    intros K H. apply Rle_lt_trans with (bpow radix2 k); [|apply bpow_lt; lia]. apply abs_round_le_generic; [apply FLT_exp_valid; exact prec_gt_0_|apply valid_rnd_N| |exact H].
    apply generic_format_bpow. unfold FLT_exp. lia.
  Qed.
  Notation big := (bpow radix2 100).

  Lemma mult_ok (x y : float) : is_finite x = true -> is_finite y = true -> Rabs (B2R x * B2R y) <= big ->
    is_finite (Bmult mode_NE x y) = true /\ B2R (Bmult mode_NE x y) = rnd (B2R x * B2R y).
  Proof using prec_ok emax_ok prec_gt_0_.
    intros Fx Fy H. pose proof (Bmult_correct prec emax _ _ mode_NE x y) as C.
    rewrite Rlt_bool_true in C by (apply (rnd_below 100); [lia|exact H]). rewrite Fx, Fy in C. split; apply C.
  Qed.
  Lemma div_ok (x y : float) : is_finite x = true -> B2R y <> 0 -> Rabs (B2R x / B2R y) <= big ->
    is_finite (Bdiv mode_NE x y) = true /\ B2R (Bdiv mode_NE x y) = rnd (B2R x / B2R y).
  Proof using prec_ok emax_ok prec_gt_0_.
    intros Fx Fy H. pose proof (Bdiv_correct prec emax _ _ mode_NE x y Fy) as C.
    rewrite Rlt_bool_true in C by (apply (rnd_below 100); [lia|exact H]). rewrite Fx in C. split; apply C.
  Qed.
  Lemma plus_ok (x y : float) : is_finite x = true -> is_finite y = true -> Rabs (B2R x + B2R y) <= big ->
    is_finite (Bplus mode_NE x y) = true /\ B2R (Bplus mode_NE x y) = rnd (B2R x + B2R y).
  Proof using prec_ok emax_ok prec_gt_0_.
    intros Fx Fy H. pose proof (Bplus_correct prec emax _ _ mode_NE x y Fx Fy) as C.
    rewrite Rlt_bool_true in C by (apply (rnd_below 100); [lia|exact H]). split; apply C.
  Qed.
  Lemma minus_ok (x y : float) : is_finite x = true -> is_finite y = true -> Rabs (B2R x - B2R y) <= big ->
    is_finite (Bminus mode_NE x y) = true /\ B2R (Bminus mode_NE x y) = rnd (B2R x - B2R y).
  Proof using prec_ok emax_ok prec_gt_0_.
    intros Fx Fy H. pose proof (Bminus_correct prec emax _ _ mode_NE x y Fx Fy) as C.
    rewrite Rlt_bool_true in C by (apply (rnd_below 100); [lia|exact H]). split; apply C.
  Qed.
  Lemma int_format n : (Z.abs n <= 2 ^ 53)%Z -> format (IZR n).
  Proof using prec_ok emax_ok prec_gt_0_.
    intros H. destruct (Z.eq_dec (Z.abs n) (2 ^ prec)) as [E|E].
    - assert (P : Rabs (IZR n) = bpow radix2 prec) by (rewrite <- abs_IZR, E, <- (IZR_Zpower radix2) by lia; reflexivity).
      apply generic_format_abs_inv. rewrite P. apply generic_format_bpow. unfold FLT_exp. lia.
    - apply generic_format_FLT. exists (Float radix2 n 0); [unfold F2R; cbn; lra| |cbn [Fexp]; lia]. cbn [Fnum].
      pose proof (Z.pow_le_mono_r 2 53 prec ltac:(lia) ltac:(lia)). change (Z.abs n < 2 ^ prec)%Z. lia.
  Qed.
  Lemma int_ok n : (Z.abs n <= 2 ^ 53)%Z -> is_finite (of_Z n) = true /\ B2R (of_Z n) = IZR n.
  Proof using prec_ok emax_ok prec_gt_0_.
    intros H. destruct (of_Z_val prec emax _ _ n) as [V F]; [now apply int_format| |now split].
    rewrite <- abs_IZR. apply Rle_lt_trans with (IZR (2 ^ 53)); [now apply IZR_le|].
    change (2 ^ 53)%Z with (Zpower radix2 53). rewrite IZR_Zpower by lia. apply bpow_lt. lia.
  Qed.
  Lemma one_ok : is_finite (Bone : float) = true /\ B2R (Bone : float) = 1.
  Proof using. split; [apply is_finite_Bone|apply Bone_correct]. Qed.

  (** A summand far below the sum's last place changes nothing. *)
  Lemma gap s : format s -> 0 < s -> u / 2 * s <= s - pred radix2 fexp s /\ u * s <= succ radix2 fexp s - s.
  Proof using prec_ok emax_ok prec_gt_0_.
    intros Fs P. destruct (mag radix2 s) as [e He] eqn:Em. assert (E := He ltac:(lra)). rewrite Rabs_pos_eq in E by lra.
    assert (M : (mag radix2 s : Z) = e) by (rewrite Em; reflexivity).
    assert (Ul : u * s <= ulp radix2 fexp s).
    { rewrite ulp_neq_0 by lra. unfold cexp. rewrite M. apply Rle_trans with (u * bpow radix2 e); [apply Rmult_le_compat_l; [apply bpow_ge_0|lra]|].
      rewrite <- bpow_plus. apply bpow_le. unfold FLT_exp. lia. }
    split.
    - rewrite pred_eq_pos by lra. unfold pred_pos. rewrite M.
      destruct (Req_bool_spec s (bpow radix2 (e - 1))) as [Eq|_].
      + replace (s - (s - bpow radix2 (fexp (e - 1)))) with (bpow radix2 (fexp (e - 1))) by ring. rewrite Eq.
        assert (bpow radix2 (e - 1 + - prec) <= bpow radix2 (fexp (e - 1))) by (apply bpow_le; unfold FLT_exp; lia).
        rewrite bpow_plus in H. pose proof (bpow_gt_0 radix2 (e - 1)). pose proof u_pos. pose proof (Rmult_lt_0_compat _ _ H0 H1). lra.
      + pose proof (Rmult_lt_0_compat _ _ u_pos P). lra.
    - rewrite succ_eq_pos by lra. lra.
  Qed.
  Lemma absorb_pos s t : format s -> 0 < s -> Rabs t <= u / 5 * s -> rnd (s + t) = s.
  Proof using prec_ok emax_ok prec_gt_0_.
    intros Fs P H. destruct (gap s Fs P) as [G1 G2]. apply Rabs_le_inv in H. pose proof (Rmult_lt_0_compat _ _ u_pos P).
    apply Rle_antisym; [apply round_N_le_midp|apply round_N_ge_midp]; try exact Fs; try apply FLT_exp_valid; try exact prec_gt_0_; lra.
  Qed.
  Lemma absorb s t : format s -> Rabs t <= u / 5 * Rabs s -> rnd (s + t) = s.
  Proof using prec_ok emax_ok prec_gt_0_.
    intros Fs H. destruct (Rtotal_order s 0) as [N|[->|P]].
    - replace (s + t) with (- (- s + - t)) by ring. rewrite rnd_opp. rewrite absorb_pos; [ring|now apply generic_format_opp|lra|].
      rewrite Rabs_Ropp. rewrite (Rabs_left s) in H by lra. lra.
    - rewrite Rabs_R0, Rmult_0_r in H. assert (t = 0). { pose proof (Rabs_pos t). destruct (Req_dec t 0) as [E|E]; [exact E|]. apply Rabs_pos_lt in E. lra. }
      subst t. rewrite Rplus_0_r. apply round_0. apply valid_rnd_N.
    - apply absorb_pos; [exact Fs|exact P|]. rewrite (Rabs_pos_eq s) in H by lra. exact H.
  Qed.
End TrigFp.
