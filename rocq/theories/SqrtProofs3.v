(** Rounding the compile-time square root to a narrower type. *)
From Coq Require Import ZArith Bool List Reals Lra Lia Psatz.
From Flocq Require Import Core BinarySingleNaN Relative Mult_error.
From Verif Require Import FpModel FpProofs SqrtModel SqrtProofs SqrtProofs2.
Import ListNotations.
Local Open Scope R_scope.

Section Near.
  Variable p emin : Z.
  Context (p_pos : Prec_gt_0 p).
  Notation fexp := (FLT_exp emin p).
  Notation rnd := (round radix2 fexp ZnearestE).
  Notation format := (generic_format radix2 fexp).
  Notation b e := (bpow radix2 e).

  Lemma p_ge_1 : (1 <= p)%Z. Proof using p_pos. unfold Prec_gt_0 in p_pos. lia. Qed.
  Lemma scaled_format (M : Z) e : (emin <= e)%Z -> 0 <= IZR M <= b p -> format (IZR M * b e).
  Proof using p_pos.
    intros He [HM0 HM]. pose proof p_ge_1 as P1. destruct (Rle_lt_or_eq_dec _ _ HM) as [K|K].
    - apply generic_format_FLT. exists (Float radix2 M e); [reflexivity|cbn|cbn; exact He]. apply le_IZR in HM0. rewrite Z.abs_eq by exact HM0. apply lt_IZR. rewrite (IZR_Zpower radix2) by lia. exact K.
    - rewrite K, <- bpow_plus. apply generic_format_bpow. unfold FLT_exp. lia.
  Qed.

  Lemma near_round (M e : Z) r : (emin <= e)%Z -> b (p - 1) <= IZR M <= b p -> (IZR M - / 2) * b e < r < (IZR M + / 2) * b e ->
    (IZR M = b (p - 1) -> (IZR M - / 4) * b e < r) -> rnd r = IZR M * b e.
  Proof using p_pos.
    intros He [M1 M2] [R1 R2] R3. pose proof p_ge_1 as P1. pose proof (bpow_gt_0 radix2 (p - 1)) as Pp. pose proof (bpow_gt_0 radix2 e) as Pe.
    assert (Fm : format (IZR M * b e)) by (apply scaled_format; [exact He|lra]). set (f := IZR M * b e) in *.
    assert (Pf : 0 < f) by (apply Rmult_lt_0_compat; lra).
    assert (V : Valid_exp fexp) by (apply FLT_exp_valid; exact p_pos).
    assert (Mon : Monotone_exp fexp) by apply FLT_exp_monotone.
    assert (Mag : (e + p <= mag radix2 f)%Z). { apply mag_ge_bpow. rewrite Rabs_pos_eq by lra. unfold f. replace (e + p - 1)%Z with ((p - 1) + e)%Z by lia. rewrite bpow_plus. apply Rmult_le_compat_r; lra. }
    apply Rle_antisym.
    - apply round_N_le_midp; [exact V|exact Fm|]. rewrite succ_eq_pos by lra.
      assert (U : b e <= ulp radix2 fexp f). { rewrite ulp_neq_0 by lra. apply bpow_le. unfold cexp, FLT_exp. lia. }
      unfold f in *. lra.
    - apply round_N_ge_midp; [exact V|exact Fm|]. rewrite pred_eq_pos by lra. unfold pred_pos.
      destruct (Rle_lt_or_eq_dec _ _ M1) as [K|K].
      + assert (U : b e <= f - (if Req_bool f (b (mag radix2 f - 1)) then f - b (fexp (mag radix2 f - 1)) else f - ulp radix2 fexp f)).
        { destruct (Req_bool_spec f (b (mag radix2 f - 1))) as [Q|Q].
          - replace (f - (f - b (fexp (mag radix2 f - 1)))) with (b (fexp (mag radix2 f - 1))) by ring. apply bpow_le.
            assert (L : (e + p - 1 < mag radix2 f - 1)%Z). { apply (lt_bpow radix2). rewrite <- Q. unfold f. replace (e + p - 1)%Z with ((p - 1) + e)%Z by lia. rewrite bpow_plus. apply Rmult_lt_compat_r; lra. }
            unfold FLT_exp. lia.
          - replace (f - (f - ulp radix2 fexp f)) with (ulp radix2 fexp f) by ring. rewrite ulp_neq_0 by lra. apply bpow_le. unfold cexp, FLT_exp. lia. }
        unfold f in *. lra.
      + assert (U : b (e - 1) <= f - (if Req_bool f (b (mag radix2 f - 1)) then f - b (fexp (mag radix2 f - 1)) else f - ulp radix2 fexp f)).
        { destruct (Req_bool_spec f (b (mag radix2 f - 1))) as [Q|Q].
          - replace (f - (f - b (fexp (mag radix2 f - 1)))) with (b (fexp (mag radix2 f - 1))) by ring. apply bpow_le. unfold FLT_exp. lia.
          - replace (f - (f - ulp radix2 fexp f)) with (ulp radix2 fexp f) by ring. rewrite ulp_neq_0 by lra. apply bpow_le. unfold cexp, FLT_exp. lia. }
        assert (Eh : b (e - 1) = / 2 * b e) by (unfold Z.sub; rewrite bpow_plus; cbn; lra). symmetry in K. specialize (R3 K). unfold f in *. lra.
  Qed.

  (** Near a number of the format: closer than a quarter of its last place, or half of it off the powers of two. *)
  Lemma near_format f r : format f -> b (emin + p - 1) <= f ->
    Rabs (r - f) < / 4 * b (cexp radix2 fexp f) \/ Rabs (r - f) < / 2 * b (cexp radix2 fexp f) /\ f <> b (mag radix2 f - 1) -> rnd r = f.
  Proof using p_pos.
    intros Ff Lf H. pose proof (bpow_gt_0 radix2 (emin + p - 1)) as P0. assert (Pf : 0 < f) by lra.
    assert (Mg : b (mag radix2 f - 1) <= f < b (mag radix2 f)). { clear H. destruct (mag radix2 f) as [m Hm]. cbn. specialize (Hm ltac:(lra)). rewrite Rabs_pos_eq in Hm by lra. exact Hm. }
    assert (Nm : (emin + p <= mag radix2 f)%Z) by (apply mag_ge_bpow; rewrite Rabs_pos_eq by lra; exact Lf).
    assert (C : cexp radix2 fexp f = (mag radix2 f - p)%Z) by (unfold cexp, FLT_exp; lia). set (e := cexp radix2 fexp f) in *.
    set (M := Ztrunc (scaled_mantissa radix2 fexp f)). assert (E : f = IZR M * b e) by exact Ff. assert (Pe : 0 < b e) by apply bpow_gt_0.
    assert (Q1 : b (mag radix2 f - 1) = b (p - 1) * b e) by (rewrite <- bpow_plus; f_equal; lia).
    assert (Q2 : b (mag radix2 f) = b p * b e) by (rewrite <- bpow_plus; f_equal; lia).
    rewrite E at 1. apply near_round.
    - lia.
    - split; apply Rmult_le_reg_r with (b e); try exact Pe; lra.
    - destruct H as [H|[H _]]; apply Rabs_def2 in H; lra.
    - intros K. destruct H as [H|[_ H]]; [apply Rabs_def2 in H; lra|]. exfalso. apply H. rewrite Q1, <- K. exact E.
  Qed.

  (** A number of the format, its root and an approximation of the root. *)
  Variable x : R.
  Hypothesis Fx : format x.
  Hypothesis x_pos : 0 < x.
  Hypothesis p3 : (3 <= p)%Z.
  Hypothesis emin_small : (emin <= - 2 * p)%Z.
  Notation s := (sqrt x).
  Notation e0 := (mag radix2 s - p)%Z.

  Lemma s_pos : 0 < s. Proof using x_pos. apply sqrt_lt_R0. exact x_pos. Qed.
  Lemma x_min : b emin <= x.
  Proof using Fx x_pos p_pos.
    destruct (FLT_format_generic radix2 emin p _ Fx) as [[m e] E _ He]. cbn in He. rewrite E in *. unfold F2R in *. cbn [Fnum Fexp] in *.
    assert (M : (0 < m)%Z). { apply lt_IZR. apply Rmult_lt_reg_r with (b e); [apply bpow_gt_0|]. lra. }
    apply Rle_trans with (1 * b e); [rewrite Rmult_1_l; apply bpow_le; exact He|]. apply Rmult_le_compat_r; [apply bpow_ge_0|]. apply IZR_le. lia.
  Qed.
  Lemma s_mag : b (mag radix2 s - 1) <= s < b (mag radix2 s).
  Proof using x_pos. pose proof s_pos as P. destruct (mag radix2 s) as [m Hm]. cbn. specialize (Hm ltac:(lra)). rewrite Rabs_pos_eq in Hm by lra. exact Hm. Qed.
  Lemma s_sq : s * s = x. Proof using x_pos. apply sqrt_sqrt. lra. Qed.
  Lemma e0_normal : (emin <= e0)%Z.
  Proof using Fx x_pos p_pos p3 emin_small.
    assert (K : (emin < 2 * mag radix2 s)%Z). { apply (lt_bpow radix2). pose proof s_mag as H. pose proof s_pos. apply Rle_lt_trans with (1 := x_min). apply Rle_lt_trans with (s * s); [rewrite s_sq; lra|]. replace (2 * mag radix2 s)%Z with (mag radix2 s + mag radix2 s)%Z by lia. rewrite bpow_plus. apply Rmult_le_0_lt_compat; lra. }
    lia.
  Qed.
  Lemma s_scaled : exists y, s = y * b e0 /\ b (p - 1) <= y < b p /\ exists k : Z, y * y = 4 * IZR k.
  Proof using Fx x_pos p_pos p3 emin_small.
    pose proof s_mag as H. pose proof (bpow_gt_0 radix2 e0) as Pe. exists (s * b (- e0)). assert (I : b (- e0) * b e0 = 1) by (rewrite <- bpow_plus; replace (- e0 + e0)%Z with 0%Z by lia; reflexivity).
    split; [rewrite Rmult_assoc, I; ring|]. assert (Pi : 0 < b (- e0)) by apply bpow_gt_0. split.
    - replace (p - 1)%Z with ((mag radix2 s - 1) + - e0)%Z by lia. replace (b p) with (b (mag radix2 s + - e0)) by (f_equal; lia). rewrite !bpow_plus. split; [apply Rmult_le_compat_r; lra|apply Rmult_lt_compat_r; lra].
    - replace (s * b (- e0) * (s * b (- e0))) with (x * b (- e0 + - e0)) by (rewrite bpow_plus; transitivity (s * s * (b (- e0) * b (- e0))); [rewrite s_sq; reflexivity|ring]).
      assert (Mx : (2 * mag radix2 s - 1 <= mag radix2 x)%Z). { apply mag_ge_bpow. rewrite Rabs_pos_eq by lra. apply Rle_trans with (s * s); [|rewrite s_sq; lra]. replace (2 * mag radix2 s - 1 - 1)%Z with ((mag radix2 s - 1) + (mag radix2 s - 1))%Z by lia. rewrite bpow_plus. apply Rmult_le_compat; try apply bpow_ge_0; lra. }
      set (c := cexp radix2 fexp x). assert (C : (2 * e0 + 2 <= c)%Z) by (unfold c, cexp, FLT_exp; lia).
      exists (Ztrunc (scaled_mantissa radix2 fexp x) * 2 ^ (c - (2 * e0 + 2)))%Z. rewrite mult_IZR. rewrite (IZR_Zpower radix2) by lia.
      rewrite Fx at 1. unfold F2R. cbn [Fnum Fexp]. fold c. change 4 with (b 2).
      replace (b 2 * (IZR (Ztrunc (scaled_mantissa radix2 fexp x)) * b (c - (2 * e0 + 2)))) with (IZR (Ztrunc (scaled_mantissa radix2 fexp x)) * (b 2 * b (c - (2 * e0 + 2)))) by ring.
      rewrite Rmult_assoc, <- !bpow_plus. do 2 f_equal. lia.
  Qed.

  Variable P : Z.
  Variable r : R.
  Hypothesis close : Rabs (r - s) <= 2 * b (- P) * s.

  Lemma sqrt_round_correct : (2 * p + 5 <= P)%Z -> rnd r = rnd s.
  Proof using All.
    intros HP. destruct s_scaled as (y & Es & Hy & k & Hk). pose proof e0_normal as He. pose proof s_pos as Ps. pose proof (bpow_gt_0 radix2 e0) as Pe. pose proof (bpow_gt_0 radix2 p) as Pp.
    assert (Err : 2 * b (- P) * y < / 16 * b (- p)).
    { apply Rlt_le_trans with (2 * b (- P) * b p); [apply Rmult_lt_compat_l; [pose proof (bpow_gt_0 radix2 (- P)); lra|lra]|].
      change 2 with (b 1). change (/ 16) with (b (-4)). rewrite <- !bpow_plus. apply bpow_le. lia. }
    assert (Rr : exists z, r = z * b e0 /\ Rabs (z - y) <= 2 * b (- P) * y).
    { assert (I : b (- e0) * b e0 = 1) by (rewrite <- bpow_plus; replace (- e0 + e0)%Z with 0%Z by lia; reflexivity). exists (r * b (- e0)). split; [rewrite Rmult_assoc, I; ring|].
      apply Rmult_le_reg_r with (b e0); [exact Pe|]. rewrite <- (Rabs_pos_eq (b e0)) at 1 by lra. rewrite <- Rabs_mult. replace ((r * b (- e0) - y) * b e0) with (r * (b (- e0) * b e0) - y * b e0) by ring. rewrite I, Rmult_1_r, <- Es.
      replace (2 * b (- P) * y * b e0) with (2 * b (- P) * (y * b e0)) by ring. rewrite <- Es. exact close. }
    destruct Rr as (z & Er & Hz). apply Rabs_le_inv in Hz.
    set (M := ZnearestE y).
    assert (HM : Rabs (y - IZR M) <= / 2) by apply Znearest_half. apply Rabs_le_inv in HM.
    assert (Rs : rnd s = IZR M * b e0).
    { unfold round, scaled_mantissa, F2R. cbn [Fnum Fexp]. assert (C : cexp radix2 fexp s = e0) by (unfold cexp, FLT_exp; lia). rewrite C. rewrite Es at 1. replace (y * b e0 * b (- e0)) with y; [reflexivity|].
      rewrite Rmult_assoc, <- bpow_plus. replace (e0 + - e0)%Z with 0%Z by lia. cbn. ring. }
    rewrite Rs. assert (b8 : 4 <= b (p - 1)) by (change 4 with (b 2); apply bpow_le; lia).
    assert (Bp : b p = 2 * b (p - 1)) by (change 2 with (b 1); rewrite <- bpow_plus; f_equal; lia).
    assert (M12 : b (p - 1) <= IZR M <= b p).
    { rewrite <- !(IZR_Zpower radix2) in * by lia. split; apply IZR_le.
      - apply Z.lt_pred_le. apply lt_IZR. unfold Z.pred. rewrite plus_IZR. lra.
      - apply Z.lt_succ_r. apply lt_IZR. unfold Z.succ. rewrite plus_IZR. lra. }
    assert (Bi : b (- p) * b p = 1) by (rewrite <- bpow_plus; replace (- p + p)%Z with 0%Z by lia; reflexivity).
    assert (Pm : 0 < b (- p)) by apply bpow_gt_0.
    assert (Sm : / 16 * b (- p) <= / 16 * / 8). { apply Rmult_le_compat_l; [lra|]. change (/ 8) with (b (-3)). apply bpow_le. lia. }
    (* the square of a midpoint is a quarter away from an integer *)
    assert (Up : IZR M + / 2 - y > / 16 * b (- p)).
    { assert (Q : (y * y) <= (IZR M + / 2) * (IZR M + / 2)) by (apply Rmult_le_compat; lra). rewrite Hk in Q.
      assert (Q2 : 4 * IZR k + / 4 <= (IZR M + / 2) * (IZR M + / 2)).
      { replace ((IZR M + / 2) * (IZR M + / 2)) with (IZR (M * M + M) + / 4) in Q |- * by (rewrite plus_IZR, mult_IZR; field). rewrite <- (mult_IZR 4) in Q |- *.
        apply Rplus_le_compat_r. apply IZR_le. apply Z.lt_succ_r. apply lt_IZR. unfold Z.succ. rewrite (plus_IZR _ 1). lra. }
      rewrite <- Hk in Q2. assert (D : / 4 <= (IZR M + / 2 - y) * (IZR M + / 2 + y)) by lra.
      apply Rnot_le_gt. intros N. assert (D2 : (IZR M + / 2 - y) * (IZR M + / 2 + y) <= / 16 * b (- p) * (3 * b p)) by (apply Rmult_le_compat; lra). lra. }
    assert (Lo : y - (IZR M - / 2) > / 16 * b (- p)).
    { assert (Q : (IZR M - / 2) * (IZR M - / 2) <= y * y) by (apply Rmult_le_compat; lra). rewrite Hk in Q.
      assert (Q2 : (IZR M - / 2) * (IZR M - / 2) + 3 / 4 <= 4 * IZR k).
      { replace ((IZR M - / 2) * (IZR M - / 2)) with (IZR (M * M - M) + / 4) in Q |- * by (rewrite minus_IZR, mult_IZR; field). rewrite <- (mult_IZR 4) in Q |- *.
        replace (IZR (M * M - M) + / 4 + 3 / 4) with (IZR (Z.succ (M * M - M))) by (unfold Z.succ; rewrite (plus_IZR _ 1); field). apply IZR_le. apply Z.le_succ_l. apply lt_IZR. lra. }
      rewrite <- Hk in Q2. assert (D : 3 / 4 <= (y - (IZR M - / 2)) * (y + (IZR M - / 2))) by lra.
      apply Rnot_le_gt. intros N. assert (D2 : (y - (IZR M - / 2)) * (y + (IZR M - / 2)) <= / 16 * b (- p) * (3 * b p)) by (apply Rmult_le_compat; lra). lra. }
    apply near_round; [exact He|exact M12| |].
    - rewrite Er. split; apply Rmult_lt_compat_r; lra.
    - intros EM. rewrite Er. apply Rmult_lt_compat_r; [exact Pe|]. lra.
  Qed.
End Near.
