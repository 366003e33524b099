(** Packing with IEEE numbers: the levels differ from those of exact arithmetic by the rounding only. *)
From Coq Require Import ZArith Reals Lra Lia Psatz.
From Flocq Require Import Core BinarySingleNaN Relative Plus_error.
From Verif Require Import Words WordsProofs FpModel FpProofs PuvModel PuvSpec PuvProofs PuvProofs2 PuvProofs3 PuvProofs4.

Local Open Scope R_scope.

(** [v] is [y] up to the relative error [e]. *)
Definition rel (v y e : R) : Prop := exists d, Rabs d <= e /\ v = y * (1 + d).
Lemma rel_le v y e e' : rel v y e -> e <= e' -> rel v y e'.
Proof. intros (d & D & E) H. exists d. split; [lra|exact E]. Qed.
Lemma rel_refl v : rel v v 0.
Proof. exists 0. rewrite Rabs_R0. split; [lra|ring]. Qed.
Lemma rel_bounds v y e : 0 <= y -> rel v y e -> y * (1 - e) <= v <= y * (1 + e).
Proof.
  intros Y (d & D & ->). apply Rabs_le_inv in D. split; apply Rmult_le_compat_l; lra.
Qed.
Lemma rel_abs_le v y e : rel v y e -> Rabs (v - y) <= e * Rabs y.
Proof.
  intros (d & D & ->). replace (y * (1 + d) - y) with (d * y) by ring. rewrite Rabs_mult. apply Rmult_le_compat_r; [apply Rabs_pos|exact D].
Qed.
Lemma rel_trans v y z e g : 0 <= e <= 0.00001 -> 0 <= g <= 0.00001 -> rel v y e -> rel y z g -> rel v z (1.00001 * (e + g)).
Proof.
  intros He Hg (d & D & ->) (b & B & ->). exists (d + b + d * b). split; [|ring].
  apply Rle_trans with (1 := Rabs_triang _ _). pose proof (Rabs_triang d b). rewrite Rabs_mult.
  assert (Rabs d * Rabs b <= 0.00001 * g) by (apply Rmult_le_compat; try apply Rabs_pos; lra). lra.
Qed.
Lemma rel_mult v y e w z g : 0 <= e <= 0.00001 -> 0 <= g <= 0.00001 -> rel v y e -> rel w z g -> rel (v * w) (y * z) (1.00001 * (e + g)).
Proof.
  intros He Hg (d & D & ->) (b & B & ->). exists (d + b + d * b). split; [|ring].
  apply Rle_trans with (1 := Rabs_triang _ _). pose proof (Rabs_triang d b). rewrite Rabs_mult.
  assert (Rabs d * Rabs b <= 0.00001 * g) by (apply Rmult_le_compat; try apply Rabs_pos; lra). lra.
Qed.
Lemma rel_inv v y e : 0 <= e <= 0.00001 -> y <> 0 -> rel v y e -> rel (/ v) (/ y) (1.00002 * e).
Proof.
  intros He N (d & D & ->). apply Rabs_le_inv in D as D'. exists (- d / (1 + d)). split; [|field; lra].
  unfold Rdiv. rewrite Rabs_mult, Rabs_Ropp, Rabs_inv, (Rabs_pos_eq (1 + d)) by lra.
  assert (/ (1 + d) <= 1.00002). { apply Rle_trans with (/ 0.99999); [apply Rinv_le; lra|lra]. }
  assert (0 < / (1 + d)) by (apply Rinv_0_lt_compat; lra).
  apply Rle_trans with (e * 1.00002); [|lra]. apply Rmult_le_compat; try apply Rabs_pos; lra.
Qed.

Section Fp.
  Variable prec emax : Z.
  Context (prec_gt_0_ : Prec_gt_0 prec).
  Context (prec_lt_emax_ : Prec_lt_emax prec emax).
  Notation float := (binary_float prec emax).
  Notation emin := (3 - emax - prec)%Z.
  Notation fexp := (FLT_exp emin prec).
  Notation rnd := (round radix2 fexp ZnearestE).
  Notation format := (generic_format radix2 fexp).
  Notation u := (bpow radix2 (- prec)).
  Hypothesis prec_ok : (24 <= prec <= 113)%Z.
  Hypothesis emax_ok : (128 <= emax)%Z.
  Local Instance fexp_valid5 : Valid_exp fexp := FLT_exp_valid emin prec.
  Notation I := (ieee prec emax _ _).

  Lemma u_pos : 0 < u. Proof using. apply bpow_gt_0. Qed.
  Lemma u_tiny : u <= / 10000000.
  Proof using prec_ok. apply Rle_trans with (bpow radix2 (-24)); [apply bpow_le; lia|]. cbn. lra. Qed.

  Notation eta := (bpow radix2 (emin - 1)).
  Lemma eta_pos : 0 < eta. Proof using. apply bpow_gt_0. Qed.
  Lemma eta_small : eta <= u * bpow radix2 (-120).
  Proof using prec_ok emax_ok. rewrite <- bpow_plus. apply bpow_le. lia. Qed.

  Lemma rnd_any v : exists d e, Rabs d <= u /\ Rabs e <= eta /\ rnd v = v * (1 + d) + e.
  Proof using prec_gt_0_.
    destruct (error_N_FLT radix2 emin prec prec_gt_0_ (fun x => negb (Z.even x)) v) as (d & e & Hd & He & _ & E).
    exists d, e. split; [|split; [|exact E]].
    - apply Rle_trans with (1 := Hd). rewrite bpow_plus. cbn. lra.
    - apply Rle_trans with (1 := He). replace (emin - 1)%Z with (emin + -1)%Z by lia. rewrite bpow_plus. cbn. lra.
  Qed.

  Lemma rnd_normal v : bpow radix2 (-120) <= Rabs v -> rel (rnd v) v u.
  Proof using prec_gt_0_ prec_ok emax_ok.
    intros H. destruct (relative_error_N_FLT_ex radix2 emin prec prec_gt_0_ (fun x => negb (Z.even x)) v) as (d & D & E).
    { apply Rle_trans with (2 := H). apply bpow_le. lia. }
    exists d. split; [|exact E]. apply Rle_trans with (1 := D). rewrite bpow_plus. cbn. lra.
  Qed.

  Lemma rnd_plus x y : format x -> format y -> rel (rnd (x + y)) (x + y) u.
  Proof using prec_gt_0_.
    intros Fx Fy. destruct (FLT_plus_error_N_ex radix2 emin prec (fun x => negb (Z.even x)) x y Fx Fy) as (d & D & E).
    exists d. split; [|exact E]. apply Rle_trans with (1 := D). unfold u_ro. 
    assert (U : / 2 * bpow radix2 (- prec + 1) = u) by (rewrite bpow_plus; cbn; lra). rewrite U.
    pose proof u_pos. unfold Rdiv. apply Rle_trans with (u * 1); [|lra]. apply Rmult_le_compat_l; [lra|].
    rewrite <- Rinv_1. apply Rinv_le; lra.
  Qed.

  Lemma rnd_below k v : (-120 <= k < emax)%Z -> Rabs v <= bpow radix2 k -> Rabs (rnd v) < bpow radix2 emax.
  Proof using prec_ok emax_ok prec_gt_0_.
    intros K H. apply Rle_lt_trans with (bpow radix2 k); [|apply bpow_lt; lia].
    apply abs_round_le_generic; [apply FLT_exp_valid; exact prec_gt_0_|apply valid_rnd_N| |exact H].
    apply generic_format_bpow. unfold FLT_exp. lia.
  Qed.
  Notation big := (bpow radix2 120).

  Lemma mult_ok (x y : float) : is_finite x = true -> is_finite y = true -> Rabs (B2R x * B2R y) <= big ->
    is_finite (Bmult mode_NE x y) = true /\ B2R (Bmult mode_NE x y) = rnd (B2R x * B2R y).
  Proof using prec_ok emax_ok prec_gt_0_.
    intros Fx Fy H. pose proof (Bmult_correct prec emax _ _ mode_NE x y) as C.
    rewrite Rlt_bool_true in C by (apply (rnd_below 120); [lia|exact H]). rewrite Fx, Fy in C. split; apply C.
  Qed.
  Lemma div_ok (x y : float) : is_finite x = true -> B2R y <> 0 -> Rabs (B2R x / B2R y) <= big ->
    is_finite (Bdiv mode_NE x y) = true /\ B2R (Bdiv mode_NE x y) = rnd (B2R x / B2R y).
  Proof using prec_ok emax_ok prec_gt_0_.
    intros Fx Fy H. pose proof (Bdiv_correct prec emax _ _ mode_NE x y Fy) as C.
    rewrite Rlt_bool_true in C by (apply (rnd_below 120); [lia|exact H]). rewrite Fx in C. split; apply C.
  Qed.
  Lemma plus_ok (x y : float) : is_finite x = true -> is_finite y = true -> Rabs (B2R x + B2R y) <= big ->
    is_finite (Bplus mode_NE x y) = true /\ B2R (Bplus mode_NE x y) = rnd (B2R x + B2R y).
  Proof using prec_ok emax_ok prec_gt_0_.
    intros Fx Fy H. pose proof (Bplus_correct prec emax _ _ mode_NE x y Fx Fy) as C.
    rewrite Rlt_bool_true in C by (apply (rnd_below 120); [lia|exact H]). split; apply C.
  Qed.
  Lemma minus_ok (x y : float) : is_finite x = true -> is_finite y = true -> Rabs (B2R x - B2R y) <= big ->
    is_finite (Bminus mode_NE x y) = true /\ B2R (Bminus mode_NE x y) = rnd (B2R x - B2R y).
  Proof using prec_ok emax_ok prec_gt_0_.
    intros Fx Fy H. pose proof (Bminus_correct prec emax _ _ mode_NE x y Fx Fy) as C.
    rewrite Rlt_bool_true in C by (apply (rnd_below 120); [lia|exact H]). split; apply C.
  Qed.

  Lemma int_ok n : (Z.abs n <= 2 ^ prec)%Z -> is_finite (of_Z prec emax _ _ n) = true /\ B2R (of_Z prec emax _ _ n) = IZR n.
  Proof using prec_ok emax_ok prec_gt_0_.
    intros H. destruct (of_Z_val prec emax _ _ n) as [V F].
    - destruct (Z.eq_dec (Z.abs n) (2 ^ prec)) as [E|E].
      + assert (P : Rabs (IZR n) = bpow radix2 prec) by (rewrite <- abs_IZR, E, <- (IZR_Zpower radix2) by lia; reflexivity).
        apply generic_format_abs_inv. rewrite P. apply generic_format_bpow. unfold FLT_exp. lia.
      + apply generic_format_FLT. exists (Float radix2 n 0); [unfold F2R; cbn; lra| |cbn [Fexp]; lia]. cbn [Fnum].
        change (Z.abs n < 2 ^ prec)%Z. lia.
    - rewrite <- abs_IZR. apply Rle_lt_trans with (IZR (2 ^ prec)); [now apply IZR_le|].
      change (2 ^ prec)%Z with (Zpower radix2 prec). rewrite IZR_Zpower by lia. apply bpow_lt. exact prec_lt_emax_.
    - now split.
  Qed.

  Lemma one_ok : is_finite (one I : float) = true /\ B2R (one I : float) = 1.
  Proof using prec_ok emax_ok prec_gt_0_.
    apply (int_ok 1). cbn [Z.abs]. pose proof (Z.pow_le_mono_r 2 0 prec ltac:(lia) ltac:(lia)). lia.
  Qed.
  Lemma half_ok : is_finite (half I : float) = true /\ B2R (half I : float) = / 2.
  Proof using prec_ok emax_ok prec_gt_0_.
    pose proof (binary_normalize_correct prec emax _ _ mode_NE 1 (-1) false) as C.
    assert (E : F2R (Float radix2 1 (-1)) = / 2) by (unfold F2R; cbn; lra). rewrite E in C.
    assert (RE : rnd (/ 2) = / 2).
    { apply round_generic; [apply valid_rnd_N|]. replace (/ 2) with (bpow radix2 (-1)) by (cbn; lra).
      apply generic_format_bpow. unfold FLT_exp. lia. }
    assert (Er : round radix2 (SpecFloat.fexp prec emax) (round_mode mode_NE) (/ 2) = / 2) by exact RE. cbv zeta in C. rewrite Er in C.
    rewrite Rlt_bool_true in C.
    2: { rewrite Rabs_pos_eq by lra. apply Rle_lt_trans with (bpow radix2 0); [cbn; lra|apply bpow_lt; lia]. }
    destruct C as (V & F & _). split; assumption.
  Qed.

  (** ** The sign *)
  Lemma take_sign_ieee (x : float) k : is_finite x = true ->
    exists a : float, take_sign I x (N.shiftl 1 k) = (weight (neg (B2R x)) k, a) /\ is_finite a = true /\ B2R a = Rabs (B2R x).
  Proof using.
    intros Fx. unfold take_sign. cbn [nonneg opp ieee]. unfold neg. rewrite N.shiftl_1_l.
    assert (E : Bleb (B754_zero false : float) x = Rle_bool 0 (B2R x)) by (now rewrite Bleb_correct).
    rewrite E. destruct (Rle_bool_spec 0 (B2R x)) as [H|H].
    - exists x. rewrite Rlt_bool_false by lra. rewrite Rabs_pos_eq by lra. repeat split. exact Fx.
    - exists (Bopp x). rewrite Rlt_bool_true by lra. rewrite Rabs_left by lra. rewrite B2R_Bopp, is_finite_Bopp. repeat split. exact Fx.
  Qed.

  (** ** A level *)
  Section Level.
    Variable w d n xb : N.
    Hypothesis Hx : x_range w d = n.
    Hypothesis Hn : (n = 2 ^ xb - 1)%N.
    Hypothesis H7 : (7 <= n)%N.
    Hypothesis Hb : (Z.of_N xb <= prec - 4)%Z.
    Hypothesis Ha : (n < 2 ^ arith_bits w)%N.

    Lemma n_pow : real n + 1 = bpow radix2 (Z.of_N xb).
    Proof using Hn H7.
      clear Hx Ha Hb. rewrite <- (IZR_Zpower radix2) by lia. change (Zpower radix2 (Z.of_N xb)) with (2 ^ Z.of_N xb)%Z.
      unfold real. change 1 with (IZR 1). rewrite <- plus_IZR. f_equal. rewrite Hn. change 2%Z with (Z.of_N 2). rewrite <- N2Z.inj_pow.
      pose proof (pow2_pos xb). lia.
    Qed.

    (** The rounding of a level, at most 7/16. *)
    Definition slack : R := 7 * bpow radix2 (Z.of_N xb - prec).
    Lemma slack_small : 0 < slack <= 7 / 16.
    Proof using Hb.
      clear Hx Ha Hn H7. unfold slack. pose proof (bpow_gt_0 radix2 (Z.of_N xb - prec)). assert (bpow radix2 (Z.of_N xb - prec) <= bpow radix2 (-4)) by (apply bpow_le; lia).
      cbn in H0. change (bpow radix2 (-4)) with (/ 16) in H0. lra.
    Qed.
    Lemma slack_eq : slack = 7 * ((real n + 1) * u).
    Proof using Hn H7. unfold slack. rewrite n_pow, <- bpow_plus. reflexivity. Qed.

    Lemma n_float : is_finite (of_int I n : float) = true /\ B2R (of_int I n : float) = real n
      /\ is_finite (of_int I (n - 1) : float) = true /\ B2R (of_int I (n - 1) : float) = real n - 1.
    Proof using Hn H7 Hb prec_ok emax_ok prec_gt_0_.
      clear Hx Ha.
      assert (B : (Z.of_N n <= 2 ^ prec)%Z).
      { apply Z.le_trans with (2 ^ Z.of_N xb)%Z; [|apply Z.pow_le_mono_r; lia]. rewrite Hn. change 2%Z with (Z.of_N 2). rewrite <- N2Z.inj_pow. lia. }
      cbn [of_int ieee]. destruct (int_ok (Z.of_N n)) as (F1 & V1); [lia|]. destruct (int_ok (Z.of_N (n - 1))) as (F2 & V2); [lia|].
      rewrite V1, V2. repeat split; try assumption. apply (real_pred n). lia.
    Qed.

    Lemma n_real : 7 <= real n.
    Proof using H7. clear Hx Ha Hn Hb. apply (IZR_le 7). lia. Qed.

    Lemma quantize_ieee (r : float) t : is_finite r = true -> 0 <= B2R r -> 0 <= t <= 1 ->
      (exists c e, Rabs c <= 4.1 * u /\ Rabs e <= 2 * eta /\ B2R r = t * (1 + c) + e) ->
      exists i, quantize I w d r = Some i /\ (i <= n - 1)%N
        /\ t * (real n - 1) - / 2 - slack < real i <= t * (real n - 1) + / 2 + slack.
    Proof using Hx Hn H7 Hb Ha prec_ok emax_ok prec_gt_0_.
      intros Fr Pr Ht (c & e & Hc & He & Er). destruct n_float as (FN & VN & FK & VK). destruct half_ok as (FH & VH).
      pose proof n_real as R7. pose proof u_pos as U0. pose proof u_tiny as U1. pose proof eta_pos as E0. pose proof eta_small as E1.
      pose proof n_pow as NP. pose proof slack_small as SS. pose proof slack_eq as SE. set (K := real n - 1) in *.
      assert (NB : real n <= bpow radix2 113).
      { apply Rle_trans with (bpow radix2 (Z.of_N xb)); [lra|]. apply bpow_le. lia. }
      assert (SM : bpow radix2 113 * eta <= u * bpow radix2 (-7)).
      { apply Rle_trans with (bpow radix2 113 * (u * bpow radix2 (-120))); [apply Rmult_le_compat_l; [apply bpow_ge_0|exact E1]|].
        replace (bpow radix2 113 * (u * bpow radix2 (-120))) with (u * (bpow radix2 113 * bpow radix2 (-120))) by ring.
        rewrite <- (bpow_plus radix2 113). apply Rle_refl. }
      change (bpow radix2 (-7)) with (/ 128) in SM.
      assert (EK : K * eta <= u / 128).
      { apply Rle_trans with (bpow radix2 113 * eta); [apply Rmult_le_compat_r; [lra|unfold K; lra]|lra]. }
      assert (ET : eta <= u / 128).
      { apply Rle_trans with (K * eta); [|exact EK]. rewrite <- (Rmult_1_l eta) at 1. apply Rmult_le_compat_r; [lra|unfold K; lra]. }
      apply Rabs_le_inv in Hc. apply Rabs_le_inv in He.
      assert (TC : Rabs (t * c) <= 4.1 * u).
      { rewrite Rabs_mult, (Rabs_pos_eq t) by lra. rewrite <- (Rmult_1_l (4.1 * u)). apply Rmult_le_compat; try apply Rabs_pos; try lra. apply Rabs_le. lra. }
      apply Rabs_le_inv in TC.
      assert (R1 : B2R r <= 1.1) by (rewrite Er; lra).
      assert (RK : 0 <= B2R r * K <= 1.1 * K) by (unfold K in *; split; [apply Rmult_le_pos; lra|apply Rmult_le_compat_r; lra]).
      assert (B113 : bpow radix2 113 * 2 <= big).
      { replace (bpow radix2 113 * 2) with (bpow radix2 (113 + 1)) by (rewrite bpow_plus; cbn; lra). apply bpow_le. lia. }
      destruct (mult_ok r (of_int I (n - 1))) as (FM & VM); [exact Fr|exact FK|rewrite VK; rewrite Rabs_pos_eq by lra; unfold K in *; lra|].
      rewrite VK in VM. destruct (rnd_any (B2R r * K)) as (d2 & e2 & D2 & G2 & RM). rewrite RM in VM.
      apply Rabs_le_inv in D2. apply Rabs_le_inv in G2.
      (* the product *)
      assert (X1 : Rabs (B2R r * K - t * K) <= 4.1 * u * K + u / 64).
      { replace (B2R r * K - t * K) with (t * c * K + e * K) by (rewrite Er; ring). apply Rle_trans with (1 := Rabs_triang _ _).
        rewrite !Rabs_mult, (Rabs_pos_eq K) by (unfold K; lra). 
        assert (Rabs t * Rabs c * K <= 4.1 * u * K).
        { apply Rmult_le_compat_r; [unfold K; lra|]. rewrite <- Rabs_mult. apply Rabs_le. exact TC. }
        assert (Rabs e * K <= 2 * eta * K) by (apply Rmult_le_compat_r; [unfold K; lra|apply Rabs_le; exact He]). lra. }
      apply Rabs_le_inv in X1.
      assert (TK : 0 <= t * K <= K).
      { unfold K in *. split; [apply Rmult_le_pos; lra|]. rewrite <- (Rmult_1_l (real n - 1)) at 2. apply Rmult_le_compat_r; lra. }
      set (m := B2R (Bmult mode_NE r (of_int I (n - 1)))) in *.
      assert (X2 : Rabs (B2R r * K * d2) <= 1.1 * K * u).
      { rewrite Rabs_mult, (Rabs_pos_eq (B2R r * K)) by lra. apply Rmult_le_compat; try apply Rabs_pos; try lra. apply Rabs_le. lra. }
      apply Rabs_le_inv in X2.
      assert (UK : 0 < u * K <= 1 / 16).
      { assert (UKE : u * (real n + 1) <= / 16).
        { rewrite NP, <- bpow_plus. apply Rle_trans with (bpow radix2 (-4)); [apply bpow_le; lia|cbn; lra]. }
        assert (0 < u * K) by (apply Rmult_lt_0_compat; unfold K; lra).
        assert (u * K <= u * (real n + 1)) by (apply Rmult_le_compat_l; unfold K; lra). lra. }
      assert (KU : 6 * u <= u * K) by (rewrite (Rmult_comm 6); apply Rmult_le_compat_l; unfold K; lra).
      assert (X3 : Rabs (m - t * K) <= 5.3 * (u * K)).
      { replace (m - t * K) with ((B2R r * K - t * K) + (B2R r * K * d2) + e2) by (rewrite VM; ring).
        apply Rabs_le. lra. }
      apply Rabs_le_inv in X3.
      assert (M0 : 0 <= m).
      { rewrite VM, <- RM. apply round_ge_generic; [apply FLT_exp_valid; exact prec_gt_0_|apply valid_rnd_N|apply generic_format_0|lra]. }
      destruct (plus_ok (Bmult mode_NE r (of_int I (n - 1))) (half I)) as (FP & VP);
        [exact FM|exact FH|fold m; rewrite VH, Rabs_pos_eq by lra; unfold K in *; lra|].
      fold m in VP. rewrite VH in VP.
      destruct (rnd_plus m (/ 2)) as (d3 & D3 & RP).
      { unfold m. apply generic_format_B2R. }
      { rewrite <- VH. apply generic_format_B2R. }
      rewrite RP in VP. apply Rabs_le_inv in D3.
      set (p := B2R (Bplus mode_NE (Bmult mode_NE r (of_int I (n - 1))) (half I))) in *.
      assert (X4 : Rabs ((m + / 2) * d3) <= (K + 1) * u).
      { rewrite Rabs_mult, (Rabs_pos_eq (m + / 2)) by lra. apply Rmult_le_compat; try apply Rabs_pos; try lra. apply Rabs_le. lra. }
      apply Rabs_le_inv in X4.
      assert (X5 : Rabs (p - (t * K + / 2)) < slack).
      { replace (p - (t * K + / 2)) with ((m - t * K) + (m + / 2) * d3) by (rewrite VP; ring). rewrite SE. unfold K in *.
        apply Rle_lt_trans with (6.7 * (u * (real n - 1))); [apply Rabs_le; lra|lra]. }
      assert (P0 : 0 <= p) by (rewrite VP; apply Rmult_le_pos; lra).
      apply Rabs_def2 in X5.
      assert (FL : (0 <= Zfloor p < Z.of_N n)%Z).
      { split; [apply Zfloor_lub; exact P0|]. apply lt_IZR. apply Rle_lt_trans with (1 := Zfloor_lb _).
        change (IZR (Z.of_N n)) with (real n). unfold K in *. lra. }
      exists (Z.to_N (Zfloor p)). split.
      - unfold quantize. cbn [to_int mul add ieee]. rewrite Hx. rewrite FP. rewrite trunc_eq by exact prec_lt_emax_. fold p. rewrite Ztrunc_floor by exact P0.
        pose proof (lt_pow_Z n _ Ha) as A. unfold fit. rewrite (proj2 (Z.leb_le _ _)) by lia. rewrite (proj2 (Z.ltb_lt _ _)) by lia.
        cbn [andb option_bind]. rewrite (proj2 (N.leb_le _ _)) by lia. reflexivity.
      - split; [lia|]. assert (RI : real (Z.to_N (Zfloor p)) = IZR (Zfloor p)) by (unfold real; rewrite Z2N.id by lia; reflexivity). rewrite RI.
        pose proof (Zfloor_lb p). pose proof (Zfloor_ub p). fold K. lra.
    Qed.
  End Level.
End Fp.
