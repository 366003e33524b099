(** The compile-time square root of the types narrower than long double, and of integers. *)
From Coq Require Import ZArith Bool List Reals Lra Lia Psatz.
From Flocq Require Import Core BinarySingleNaN Relative Mult_error.
From Verif Require Import FpModel FpProofs SqrtModel SqrtProofs SqrtProofs2 SqrtProofs3.
Import ListNotations.
Local Open Scope R_scope.
Notation b e := (bpow radix2 e).
Notation rnd p e := (round radix2 (FLT_exp (3 - e - p) p) ZnearestE).

Lemma fp_cast_ok p e p' e' (H1 : Prec_gt_0 p') (H2 : Prec_lt_emax p' e') (x : binary_float p e) : is_finite x = true ->
  Rabs (rnd p' e' (B2R x)) < b e' -> is_finite (fp_cast p e p' e' _ _ x) = true /\ B2R (fp_cast p e p' e' _ _ x) = rnd p' e' (B2R x).
Proof.
  intros Fx H. destruct x as [s|s| |s m ex Hx]; try discriminate Fx.
  - split; [reflexivity|]. cbn [fp_cast B2R]. symmetry. apply round_0. apply valid_rnd_N.
  - cbn [fp_cast]. pose proof (binary_normalize_correct p' e' _ _ mode_NE (cond_Zopp s (Zpos m)) ex s) as C. cbn zeta in C.
    change (round_mode mode_NE) with ZnearestE in C. change (SpecFloat.fexp p' e') with (FLT_exp (3 - e' - p') p') in C.
    change (F2R (Float radix2 (cond_Zopp s (Z.pos m)) ex)) with (B2R (B754_finite s m ex Hx)) in C.
    rewrite Rlt_bool_true in C by exact H. destruct C as (C1 & C2 & _). split; assumption.
Qed.
Lemma fp_cast_nan p e p' e' (H1 : Prec_gt_0 p') (H2 : Prec_lt_emax p' e') : fp_cast p e p' e' _ _ B754_nan = B754_nan.
Proof. reflexivity. Qed.

Section Narrow.
  Variable p e P E : Z.
  Context (Hp : Prec_gt_0 p) (He : Prec_lt_emax p e) (HP : Prec_gt_0 P) (HE : Prec_lt_emax P E).
  Hypothesis P_ok : (20 <= P <= 150)%Z.
  Hypothesis E_ok : (1024 <= E)%Z.
  Hypothesis p3 : (3 <= p <= P)%Z.
  Hypothesis e_ok : (p + 3 <= e <= E)%Z.

  Lemma widen (x : binary_float p e) : is_finite x = true -> is_finite (fp_cast p e P E _ _ x) = true /\ B2R (fp_cast p e P E _ _ x) = B2R x.
  Proof using e_ok p3.
    intros Fx. assert (F : generic_format radix2 (FLT_exp (3 - E - P) P) (B2R x)).
    { apply generic_inclusion_mag with (fexp1 := FLT_exp (3 - e - p) p); [|apply (fmt p e)]. intros _. unfold FLT_exp. lia. }
    assert (R : rnd P E (B2R x) = B2R x) by (apply round_generic; [apply valid_rnd_N|exact F]).
    destruct (fp_cast_ok p e P E HP HE x Fx) as [A B].
    - rewrite R. apply Rlt_le_trans with (1 := abs_B2R_lt_emax p e x). apply bpow_le. lia.
    - rewrite R in B. split; assumption.
  Qed.

  Lemma narrow_ok (x : binary_float p e) : is_finite x = true -> b (-160) <= B2R x <= b 160 ->
    exists r rr, sqrt_narrow p e P E _ _ _ _ x = Some r /\ is_finite r = true /\ B2R r = rnd p e rr /\ Rabs (rr - sqrt (B2R x)) <= 2 * b (- P) * sqrt (B2R x).
  Proof using E_ok P_ok e_ok p3.
    intros Fx Hx. destruct (widen x Fx) as [Fw Ew].
    destruct (sqrt_naive_ok P E HP HE P_ok E_ok (fp_cast p e P E _ _ x) Fw ltac:(rewrite Ew; exact Hx)) as (r & Hr & Fr & Br). rewrite Ew in Br.
    pose proof (bpow_gt_0 radix2 (-160)) as P0. set (s := sqrt (B2R x)) in *. assert (Ps : 0 < s) by (apply sqrt_lt_R0; lra). assert (Ss : s * s = B2R x) by (apply sqrt_sqrt; lra).
    assert (Us : 2 * b (- P) <= / 2). { apply Rle_trans with (2 * b (-20)); [apply Rmult_le_compat_l; [lra|apply bpow_le; lia]|]. cbn. lra. }
    assert (Rb : Rabs (B2R r) <= 2 * s). { assert (K : 2 * b (- P) * s <= / 2 * s) by (apply Rmult_le_compat_r; lra). apply Rabs_le_inv in Br. apply Rabs_le. lra. }
    assert (Sb : s <= b (e - 2)).
    { destruct (Rle_lt_dec s (b (e - 2))) as [K|K]; [exact K|exfalso]. assert (Q : b (e - 2) * b (e - 2) < s * s) by (apply Rmult_le_0_lt_compat; try apply bpow_ge_0; exact K).
      rewrite Ss, <- bpow_plus in Q. pose proof (abs_B2R_lt_emax p e x) as A. rewrite Rabs_pos_eq in A by lra. assert (b e <= b (e - 2 + (e - 2))) by (apply bpow_le; lia). lra. }
    destruct (fp_cast_ok P E p e Hp He r Fr) as [A B].
    - apply Rle_lt_trans with (b (e - 1)); [|apply bpow_lt; lia]. rewrite <- round_NE_abs by (apply FLT_exp_valid; exact Hp).
      apply Rle_trans with (rnd p e (b (e - 1))); [apply (rnd_le p e Hp); apply Rle_trans with (1 := Rb); apply Rle_trans with (2 * b (e - 2)); [lra|change 2 with (b 1); rewrite <- bpow_plus; apply bpow_le; lia]|].
      right. apply round_generic; [apply valid_rnd_N|]. apply generic_format_bpow. unfold FLT_exp. lia.
    - exists (fp_cast P E p e _ _ r), (B2R r). split; [unfold sqrt_narrow; rewrite Hr; reflexivity|]. split; [exact A|]. split; [exact B|exact Br].
  Qed.

  Lemma narrow_correct (x : binary_float p e) : (2 * p + 5 <= P)%Z -> is_finite x = true -> b (-160) <= B2R x <= b 160 ->
    exists r, sqrt_narrow p e P E _ _ _ _ x = Some r /\ is_finite r = true /\ B2R r = rnd p e (sqrt (B2R x)).
  Proof using E_ok P_ok e_ok p3.
    intros H Fx Hx. destruct (narrow_ok x Fx Hx) as (r & rr & A & B & C & D). exists r. split; [exact A|]. split; [exact B|]. rewrite C.
    pose proof (bpow_gt_0 radix2 (-160)) as P0. apply (sqrt_round_correct p (3 - e - p) Hp (B2R x) (fmt p e x) ltac:(lra) ltac:(lia) ltac:(lia) P rr D H).
  Qed.

  Lemma narrow_error (x : binary_float p e) : is_finite x = true -> b (-160) <= B2R x <= b 160 ->
    exists r, sqrt_narrow p e P E _ _ _ _ x = Some r /\ is_finite r = true /\ Rabs (B2R r - sqrt (B2R x)) <= (b (- p) + 3 * b (- P)) * sqrt (B2R x).
  Proof using E_ok P_ok e_ok p3.
    intros Fx Hx. destruct (narrow_ok x Fx Hx) as (r & rr & A & B & C & D). exists r. split; [exact A|]. split; [exact B|]. rewrite C.
    pose proof (bpow_gt_0 radix2 (-160)) as P0. assert (Px : 0 < B2R x) by lra.
    pose proof (e0_normal p (3 - e - p) Hp (B2R x) (fmt p e x) Px ltac:(lia) ltac:(lia)) as N. pose proof (s_mag (B2R x) Px) as M.
    set (s := sqrt (B2R x)) in *. assert (Ps : 0 < s) by (apply sqrt_lt_R0; lra).
    assert (Us : 2 * b (- P) <= / 2). { apply Rle_trans with (2 * b (-20)); [apply Rmult_le_compat_l; [lra|apply bpow_le; lia]|]. cbn. lra. }
    assert (K : 2 * b (- P) * s <= / 2 * s) by (apply Rmult_le_compat_r; lra). pose proof (Rabs_le_inv _ _ D) as D'.
    assert (N2 : (3 - e - p + p - 1 <= mag radix2 s - 2)%Z).
    { assert (Q : (3 - e - p < 2 * mag radix2 s)%Z). { apply (lt_bpow radix2). apply Rle_lt_trans with (1 := x_min p (3 - e - p) Hp (B2R x) (fmt p e x) Px). replace (2 * mag radix2 s)%Z with (mag radix2 s + mag radix2 s)%Z by lia. rewrite bpow_plus. apply Rle_lt_trans with (s * s); [unfold s; rewrite sqrt_sqrt; lra|apply Rmult_le_0_lt_compat; lra]. } lia. }
    pose proof (relative_error_N_FLT radix2 (3 - e - p) p Hp (fun x => negb (Z.even x)) rr) as R. rewrite Rabs_pos_eq in R by lra.
    assert (U : / 2 * b (- p + 1) = b (- p)) by (rewrite bpow_plus; cbn; lra). rewrite U in R.
    assert (R' : Rabs (rnd p e rr - rr) <= b (- p) * rr).
    { apply R. apply Rle_trans with (b (mag radix2 s - 2)); [apply bpow_le; exact N2|]. replace (b (mag radix2 s - 2)) with (/ 2 * b (mag radix2 s - 1)); [lra|]. change (/ 2) with (b (-1)). rewrite <- bpow_plus. f_equal. lia. }
    replace (rnd p e rr - s) with ((rnd p e rr - rr) + (rr - s)) by ring. apply Rle_trans with (1 := Rabs_triang _ _).
    assert (Up : 0 <= b (- p) <= / 8) by (split; [apply bpow_ge_0|change (/ 8) with (b (-3)); apply bpow_le; lia]).
    assert (b (- p) * rr <= b (- p) * (s + 2 * b (- P) * s)) by (apply Rmult_le_compat_l; lra).
    assert (b (- p) * (2 * b (- P) * s) <= / 8 * (2 * b (- P) * s)). { apply Rmult_le_compat_r; [|lra]. pose proof (bpow_gt_0 radix2 (- P)). apply Rmult_le_pos; lra. }
    assert (0 <= b (- P) * s) by (apply Rmult_le_pos; [apply bpow_ge_0|lra]). lra.
  Qed.

  Lemma narrow_exact (x y : binary_float p e) : (p + 3 <= P)%Z -> is_finite x = true -> b (-160) <= B2R x <= b 160 -> 0 < B2R y -> B2R y * B2R y = B2R x ->
    exists r, sqrt_narrow p e P E _ _ _ _ x = Some r /\ is_finite r = true /\ B2R r = B2R y.
  Proof using E_ok P_ok e_ok p3.
    intros H Fx Hx Py Hy. destruct (narrow_ok x Fx Hx) as (r & rr & A & B & C & D). exists r. split; [exact A|]. split; [exact B|]. rewrite C.
    pose proof (bpow_gt_0 radix2 (-160)) as P0. assert (Px : 0 < B2R x) by lra.
    assert (Es : sqrt (B2R x) = B2R y) by (rewrite <- Hy; apply sqrt_square; lra).
    pose proof (e0_normal p (3 - e - p) Hp (B2R x) (fmt p e x) Px ltac:(lia) ltac:(lia)) as N. pose proof (s_mag (B2R x) Px) as M. rewrite Es in *.
    apply near_format; [exact Hp|apply (fmt p e)|apply Rle_trans with (2 := proj1 M); apply bpow_le; lia|]. left. apply Rle_lt_trans with (1 := D).
    assert (Ce : cexp radix2 (FLT_exp (3 - e - p) p) (B2R y) = (mag radix2 (B2R y) - p)%Z) by (unfold cexp, FLT_exp; lia). rewrite Ce.
    apply Rlt_le_trans with (2 * b (- P) * b (mag radix2 (B2R y))); [apply Rmult_lt_compat_l; [pose proof (bpow_gt_0 radix2 (- P)); lra|lra]|].
    change 2 with (b 1). change (/ 4) with (b (-2)). rewrite <- !bpow_plus. apply bpow_le. lia.
  Qed.

  (** Whole squares. *)
  Lemma integer_square (k : Z) : (p + 10 <= P)%Z -> (6 <= p)%Z -> (p <= 80)%Z -> (1 <= k < 2 ^ p)%Z -> (2 * p <= e - 1)%Z ->
    exists r, sqrt_integer p e P E _ _ _ _ (k * k) = Some r /\ is_finite r = true /\ B2R r = IZR k.
  Proof using E_ok P_ok e_ok p3.
    intros H p6 p80 Hk Hpe. set (n := IZR (k * k)). assert (Kp : 1 <= IZR k < b p) by (split; [apply IZR_le; lia|rewrite <- (IZR_Zpower radix2) by lia; apply IZR_lt; apply Hk]).
    assert (En : n = IZR k * IZR k) by apply mult_IZR. assert (N1 : 1 <= n) by (rewrite En; replace 1 with (1 * 1) by ring; apply Rmult_le_compat; lra).
    assert (N2 : n < b (2 * p)) by (rewrite En; replace (2 * p)%Z with (p + p)%Z by lia; rewrite bpow_plus; apply Rmult_le_0_lt_compat; lra).
    set (a := mag radix2 (IZR k)). assert (Ka : b (a - 1) <= IZR k < b a). { unfold a. clear a. destruct (mag radix2 (IZR k)) as [m Hm]. cbn. specialize (Hm ltac:(lra)). rewrite Rabs_pos_eq in Hm by lra. exact Hm. }
    assert (A1 : (1 <= a)%Z) by (apply mag_ge_bpow; cbn; rewrite Rabs_pos_eq; lra).
    assert (Ap : (a <= p)%Z) by (apply mag_le_bpow; [lra|rewrite Rabs_pos_eq; lra]).
    assert (Pa : 0 < b (a - 1)) by apply bpow_gt_0. assert (Ba : b a = 2 * b (a - 1)) by (change 2 with (b 1); rewrite <- bpow_plus; f_equal; lia).
    (* the conversion *)
    assert (V : Valid_exp (FLT_exp (3 - e - p) p)) by (apply FLT_exp_valid; exact Hp).
    set (x := of_Z p e _ _ (k * k)). set (v := rnd p e n).
    assert (Fk : generic_format radix2 (FLT_exp (3 - e - p) p) (IZR k)).
    { replace (IZR k) with (IZR k * b 0) by (cbn; ring). apply scaled_format; [exact Hp|lia|lra]. }
    assert (V1 : 1 <= v <= b (2 * p)).
    { split.
      - apply Rle_trans with (rnd p e 1); [right; symmetry; apply round_generic; [apply valid_rnd_N|]; change 1 with (b 0); apply generic_format_bpow; unfold FLT_exp; lia|]. apply (rnd_le p e Hp). exact N1.
      - apply Rle_trans with (rnd p e (b (2 * p))); [apply (rnd_le p e Hp); lra|]. right. apply round_generic; [apply valid_rnd_N|]. apply generic_format_bpow; unfold FLT_exp; lia. }
    assert (Fv : is_finite x = true /\ B2R x = v).
    { unfold x, of_Z. pose proof (binary_normalize_correct p e _ _ mode_NE (k * k) 0 false) as C. cbn zeta in C. change (round_mode mode_NE) with ZnearestE in C. change (SpecFloat.fexp p e) with (FLT_exp (3 - e - p) p) in C.
      assert (EF : F2R (Float radix2 (k * k) 0) = n) by (unfold F2R; cbn; unfold n; ring). rewrite EF in C. rewrite Rlt_bool_true in C.
      - destruct C as (C1 & C2 & _). split; assumption.
      - fold v. rewrite Rabs_pos_eq by lra. apply Rle_lt_trans with (b (2 * p)); [lra|apply bpow_lt; lia]. }
    destruct Fv as [Fx Vx].
    assert (Rx : b (-160) <= B2R x <= b 160). { rewrite Vx. split; [apply Rle_trans with 1; [change 1 with (b 0); apply bpow_le; lia|lra]|apply Rle_trans with (b (2 * p)); [lra|apply bpow_le; lia]]. }
    destruct (narrow_ok x Fx Rx) as (r & rr & A & B & C & D). exists r. split; [exact A|]. split; [exact B|]. rewrite C.
    rewrite Vx in D. set (s := sqrt v) in *. assert (Ps : 1 <= s) by (unfold s; rewrite <- sqrt_1; apply sqrt_le_1_alt; lra). assert (Ss : s * s = v) by (apply sqrt_sqrt; lra).
    assert (Ce : cexp radix2 (FLT_exp (3 - e - p) p) (IZR k) = (a - p)%Z) by (unfold cexp, FLT_exp; fold a; lia).
    assert (Sp : s <= b a). { unfold s. rewrite <- (sqrt_square (b a)) by apply bpow_ge_0. apply sqrt_le_1_alt. rewrite <- bpow_plus. apply Rle_trans with (rnd p e (b (a + a))); [apply (rnd_le p e Hp); rewrite En, bpow_plus; apply Rmult_le_compat; lra|]. right. apply round_generic; [apply valid_rnd_N|]. apply generic_format_bpow; unfold FLT_exp; lia. }
    assert (Tiny : 2 * b (- P) * s <= / 128 * b (a - p)).
    { apply Rle_trans with (2 * b (- P) * b a); [apply Rmult_le_compat_l; [pose proof (bpow_gt_0 radix2 (- P)); lra|lra]|]. change 2 with (b 1). change (/ 128) with (b (-7)). rewrite <- !bpow_plus. apply bpow_le. lia. }
    assert (Pap : 0 < b (a - p)) by apply bpow_gt_0.
    assert (Pos : b (3 - e - p + p - 1) <= IZR k) by (apply Rle_trans with (2 := proj1 Kp); change 1 with (b 0); apply bpow_le; lia).
    apply near_format; [exact Hp|exact Fk|exact Pos|]. rewrite Ce. fold a.
    destruct (Req_dec (IZR k) (b (a - 1))) as [Q|Q].
    - left. assert (Ev : v = n). { apply round_generic; [apply valid_rnd_N|]. rewrite En, Q, <- bpow_plus. apply generic_format_bpow. unfold FLT_exp; lia. }
      assert (Es : s = IZR k) by (unfold s; rewrite Ev, En; apply sqrt_square; lra). rewrite Es in D, Tiny. lra.
    - right. split; [|exact Q].
      assert (Hu : Rabs (v - n) <= / 2 * ulp radix2 (FLT_exp (3 - e - p) p) n) by (apply error_le_half_ulp; exact V).
      rewrite ulp_neq_0 in Hu by lra.
      assert (Dk : Rabs (s - IZR k) * (s + IZR k) = Rabs (v - n)). { rewrite <- (Rabs_pos_eq (s + IZR k)) by lra. rewrite <- Rabs_mult. f_equal. rewrite <- Ss, En. ring. }
      assert (G : Rabs (s - IZR k) <= 4 / 10 * b (a - p)).
      { assert (Bsq : b (a + a) = b a * b a) by apply bpow_plus.
        assert (U2 : forall j, (mag radix2 n <= j)%Z -> (a <= j)%Z -> / 2 * b (cexp radix2 (FLT_exp (3 - e - p) p) n) <= / 2 * b (j - p)).
        { intros j Hj Hj2. apply Rmult_le_compat_l; [lra|]. apply bpow_le. unfold cexp, FLT_exp. lia. }
        assert (S14 : b (a - 1) <= s). { unfold s. rewrite <- (sqrt_square (b (a - 1))) by apply bpow_ge_0. apply sqrt_le_1_alt. rewrite <- bpow_plus. apply Rle_trans with (rnd p e (b (a - 1 + (a - 1)))); [right; symmetry; apply round_generic; [apply valid_rnd_N|]; apply generic_format_bpow; unfold FLT_exp; lia|]. apply (rnd_le p e Hp). rewrite En, bpow_plus. apply Rmult_le_compat; lra. }
        assert (Psk : 0 < s + IZR k) by lra.
        destruct (Rle_lt_dec (b (a + a - 1)) n) as [L|L].
        - (* the larger half *)
          assert (J : / 2 * b (cexp radix2 (FLT_exp (3 - e - p) p) n) <= / 2 * b (a + a - p)). { apply U2; [|lia]. apply mag_le_bpow; [lra|]. rewrite Rabs_pos_eq by lra. rewrite En, Bsq. apply Rmult_le_0_lt_compat; lra. }
          assert (B1 : b (a + a - 1) = / 2 * (b a * b a)) by (unfold Z.sub; rewrite bpow_plus, Bsq; cbn; lra).
          assert (Kb : 7 / 10 * b a <= IZR k). { apply Rnot_lt_le. intros Z. assert (IZR k * IZR k < 7 / 10 * b a * (7 / 10 * b a)) by (apply Rmult_le_0_lt_compat; lra). assert (0 < b a * b a) by (apply Rmult_lt_0_compat; lra). lra. }
          assert (Sb : 7 / 10 * b a <= s). { apply Rnot_lt_le. intros Z. assert (s * s < 7 / 10 * b a * (7 / 10 * b a)) by (apply Rmult_le_0_lt_compat; lra).
            assert (b (a + a - 1) <= v). { apply Rle_trans with (rnd p e (b (a + a - 1))); [right; symmetry; apply round_generic; [apply valid_rnd_N|]; apply generic_format_bpow; unfold FLT_exp; lia|]. apply (rnd_le p e Hp). exact L. }
            assert (0 < b a * b a) by (apply Rmult_lt_0_compat; lra). lra. }
          assert (T : b (a + a - p) = b a * b (a - p)) by (rewrite <- bpow_plus; f_equal; lia).
          apply Rmult_le_reg_r with (s + IZR k); [exact Psk|]. rewrite Dk. apply Rle_trans with (1 := Hu). apply Rle_trans with (1 := J). rewrite T.
          apply Rle_trans with (4 / 10 * b (a - p) * (14 / 10 * b a)); [assert (0 < b a * b (a - p)) by (apply Rmult_lt_0_compat; lra); lra|]. apply Rmult_le_compat_l; lra.
        - assert (A2 : (2 <= a)%Z). { destruct (Z.eq_dec a 1) as [Z|Z]; [|lia]. exfalso. rewrite Z in Ka, Q. cbn in Ka, Q. assert (k < 2)%Z by (apply lt_IZR; lra). assert (k = 1)%Z by lia. subst k. apply Q. reflexivity. }
          assert (J : / 2 * b (cexp radix2 (FLT_exp (3 - e - p) p) n) <= / 2 * b (a + a - 1 - p)). { apply U2; [|lia]. apply mag_le_bpow; [lra|]. rewrite Rabs_pos_eq by lra. exact L. }
          assert (T : b (a + a - 1 - p) = b (a - 1) * b (a - p)) by (rewrite <- bpow_plus; f_equal; lia).
          apply Rmult_le_reg_r with (s + IZR k); [exact Psk|]. rewrite Dk. apply Rle_trans with (1 := Hu). apply Rle_trans with (1 := J). rewrite T.
          apply Rle_trans with (4 / 10 * b (a - p) * (2 * b (a - 1))); [assert (0 < b (a - 1) * b (a - p)) by (apply Rmult_lt_0_compat; lra); lra|]. apply Rmult_le_compat_l; lra. }
      replace (rr - IZR k) with ((rr - s) + (s - IZR k)) by ring. apply Rle_lt_trans with (1 := Rabs_triang _ _). lra.
  Qed.
End Narrow.
