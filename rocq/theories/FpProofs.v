(** Proofs about the floating-point functions of math.h and the compensated sum. *)
From Coq Require Import ZArith Bool List Reals Lra Lia.
From Flocq Require Import Core BinarySingleNaN Relative Plus_error Pff2Flocq.
From Verif Require Import FpModel.
Import ListNotations.
Local Open Scope R_scope.

Section FpProofs.
  Variable prec emax : Z.
  Context (prec_gt_0_ : Prec_gt_0 prec).
  Context (prec_lt_emax_ : Prec_lt_emax prec emax).
  Notation float := (binary_float prec emax).
  Notation emin := (3 - emax - prec)%Z.
  Notation fexp := (FLT_exp emin prec).
  Notation rnd := (round radix2 fexp ZnearestE).
  Notation format := (generic_format radix2 fexp).
  Notation zero := (zero prec emax).
  Local Instance fexp_valid : Valid_exp fexp := FLT_exp_valid emin prec.
  Local Instance fexp_mono : Monotone_exp fexp := FLT_exp_monotone emin prec.

  Lemma fmt (x : float) : format (B2R x).
  Proof using. exact (generic_format_B2R prec emax x). Qed.
  Lemma rnd_fmt x : format x -> rnd x = x.
  Proof using. intros H. apply round_generic; [apply valid_rnd_N|exact H]. Qed.
  Lemma fmt_rnd x : format (rnd x).
  Proof using prec_gt_0_. apply generic_format_round; [apply FLT_exp_valid; exact prec_gt_0_|apply valid_rnd_N]. Qed.
  Lemma rnd_opp x : rnd (- x) = - rnd x.
  Proof using. apply round_NE_opp. Qed.
  Lemma rnd_le x y : x <= y -> rnd x <= rnd y.
  Proof using prec_gt_0_. intros H. apply round_le; [apply FLT_exp_valid; exact prec_gt_0_|apply valid_rnd_N|exact H]. Qed.
  Lemma rnd_0 : rnd 0 = 0.
  Proof using. apply round_0. apply valid_rnd_N. Qed.

  (* ---------------------------------------------------------------- operations with a finite result *)
  Lemma plus_finite (x y : float) : is_finite (Bplus mode_NE x y) = true ->
    is_finite x = true /\ is_finite y = true /\ B2R (Bplus mode_NE x y) = rnd (B2R x + B2R y).
  Proof using.
    intros H. assert (F : is_finite x = true /\ is_finite y = true).
    { destruct x as [sx|sx| |sx mx ex Hx], y as [sy|sy| |sy my ey Hy]; try (split; reflexivity); try discriminate H.
      cbn in H. destruct (Bool.eqb sx sy); discriminate H. }
    destruct F as [Fx Fy]. split; [exact Fx|]. split; [exact Fy|]. pose proof (Bplus_correct prec emax _ _ mode_NE x y Fx Fy) as C.
    destruct (Rlt_bool _ _); [exact (proj1 C)|]. destruct C as [C _]. exfalso.
    pose proof (is_finite_SF_B2SF prec emax (Bplus mode_NE x y)) as E. rewrite C, H in E. discriminate E.
  Qed.
  Lemma minus_finite (x y : float) : is_finite (Bminus mode_NE x y) = true ->
    is_finite x = true /\ is_finite y = true /\ B2R (Bminus mode_NE x y) = rnd (B2R x - B2R y).
  Proof using.
    intros H. assert (F : is_finite x = true /\ is_finite y = true).
    { destruct x as [sx|sx| |sx mx ex Hx], y as [sy|sy| |sy my ey Hy]; try (split; reflexivity); try discriminate H.
      cbn in H. destruct (Bool.eqb sx (negb sy)); discriminate H. }
    destruct F as [Fx Fy]. split; [exact Fx|]. split; [exact Fy|]. pose proof (Bminus_correct prec emax _ _ mode_NE x y Fx Fy) as C.
    destruct (Rlt_bool _ _); [exact (proj1 C)|]. destruct C as [C _]. exfalso.
    pose proof (is_finite_SF_B2SF prec emax (Bminus mode_NE x y)) as E. rewrite C, H in E. discriminate E.
  Qed.
  Lemma abs_Babs (x : float) : abs prec emax x = Babs x.
  Proof using. unfold abs. destruct x as [[]|[]| |[] m e H]; reflexivity. Qed.
  Lemma abs_finite (x : float) : is_finite (abs prec emax x) = is_finite x.
  Proof using. rewrite abs_Babs. apply is_finite_Babs. Qed.
  Lemma abs_val (x : float) : B2R (abs prec emax x) = Rabs (B2R x).
  Proof using. rewrite abs_Babs. apply B2R_Babs. Qed.

  (* ---------------------------------------------------------------- approx_equal *)
  Lemma lt_finite (x y : float) : is_finite y = true -> (0 <= B2R x) -> Bltb (Babs x) y = true -> is_finite x = true.
  Proof using.
    intros Fy Hx. destruct x as [s|s| |s m e H]; try reflexivity; intros E; exfalso; destruct y as [[]|[]| |[] m' e' H']; discriminate.
  Qed.
  Lemma approx_equal_sound (a b eps : float) : is_finite eps = true -> approx_equal prec emax _ _ a b eps = true ->
    is_finite a = true /\ is_finite b = true /\ Rabs (B2R b - B2R a) < B2R eps.
  Proof using.
    intros Fe H. unfold approx_equal in H. rewrite abs_Babs in H.
    assert (F : is_finite (Bminus mode_NE b a) = true).
    { destruct (Bminus mode_NE b a) as [s|s| |s m e K]; try reflexivity; exfalso; destruct eps as [[]|[]| |[] m' e' H']; discriminate. }
    destruct (minus_finite b a F) as (Fb & Fa & E). split; [exact Fa|]. split; [exact Fb|].
    rewrite Bltb_correct in H; [|rewrite is_finite_Babs; exact F|exact Fe]. rewrite B2R_Babs, E in H.
    destruct (Rlt_bool_spec (Rabs (rnd (B2R b - B2R a))) (B2R eps)) as [L|L]; [|discriminate].
    destruct (Rlt_or_le (Rabs (B2R b - B2R a)) (B2R eps)) as [K|K]; [exact K|exfalso].
    rewrite <- round_NE_abs in L by (apply FLT_exp_valid; exact prec_gt_0_). apply rnd_le in K. rewrite (rnd_fmt (B2R eps)) in K by apply fmt. lra.
  Qed.
  Lemma minus_swap (a b : float) : Babs (Bminus mode_NE b a) = Babs (Bminus mode_NE a b).
  Proof using.
    destruct (is_finite a) eqn:Fa; [destruct (is_finite b) eqn:Fb|].
    - pose proof (Bminus_correct prec emax _ _ mode_NE a b Fa Fb) as C1. pose proof (Bminus_correct prec emax _ _ mode_NE b a Fb Fa) as C2.
      assert (E : round radix2 (SpecFloat.fexp prec emax) (round_mode mode_NE) (B2R b - B2R a) = - round radix2 (SpecFloat.fexp prec emax) (round_mode mode_NE) (B2R a - B2R b)).
      { replace (B2R b - B2R a) with (- (B2R a - B2R b)) by ring. exact (rnd_opp (B2R a - B2R b)). }
      rewrite E, Rabs_Ropp in C2. destruct (Rlt_bool _ _).
      + destruct C1 as (R1 & F1 & _), C2 as (R2 & F2 & _). apply B2R_Bsign_inj; rewrite ?is_finite_Babs, ?B2R_Babs; auto.
        * rewrite R1, R2, Rabs_Ropp. reflexivity.
        * destruct (Bminus mode_NE a b); try discriminate F1; destruct (Bminus mode_NE b a); try discriminate F2; reflexivity.
      + destruct C1 as (S1 & _), C2 as (S2 & _).
        destruct (Bminus mode_NE a b) as [s|s| |s m e K]; try discriminate S1. destruct (Bminus mode_NE b a) as [s'|s'| |s' m' e' K']; try discriminate S2. reflexivity.
    - destruct a as [[]|[]| |[] m e H]; try discriminate Fa; destruct b as [[]|[]| |[] m' e' H']; try discriminate Fb; reflexivity.
    - destruct a as [[]|[]| |[] m e H]; try discriminate Fa; destruct b as [[]|[]| |[] m' e' H']; reflexivity.
  Qed.
  Lemma approx_equal_sym (a b eps : float) : approx_equal prec emax _ _ a b eps = approx_equal prec emax _ _ b a eps.
  Proof using. unfold approx_equal. rewrite !abs_Babs, minus_swap. reflexivity. Qed.
  Lemma approx_equal_complete (a b eps y : float) : is_finite a = true -> is_finite b = true -> is_finite eps = true -> is_finite y = true ->
    Rabs (B2R b - B2R a) <= B2R y -> B2R y < B2R eps -> approx_equal prec emax _ _ a b eps = true.
  Proof using.
    intros Fa Fb Fe Fy L1 L2. unfold approx_equal. rewrite abs_Babs.
    assert (L : Rabs (rnd (B2R b - B2R a)) <= B2R y).
    { rewrite <- round_NE_abs by (apply FLT_exp_valid; exact prec_gt_0_). apply rnd_le in L1. rewrite (rnd_fmt (B2R y)) in L1 by apply fmt. exact L1. }
    pose proof (Bminus_correct prec emax _ _ mode_NE b a Fb Fa) as C.
    rewrite Rlt_bool_true in C.
    - destruct C as (R1 & F1 & _). rewrite Bltb_correct; [|rewrite is_finite_Babs; exact F1|exact Fe]. rewrite B2R_Babs, R1. apply Rlt_bool_true.
      change (Rabs (rnd (B2R b - B2R a)) < B2R eps). lra.
    - change (Rabs (rnd (B2R b - B2R a)) < bpow radix2 emax). pose proof (abs_B2R_lt_emax prec emax y) as K. apply Rabs_def2 in K. lra.
  Qed.
  Lemma approx_equal_inf (a b : float) : is_finite a = true -> is_finite b = true -> is_finite (Bminus mode_NE b a) = true ->
    approx_equal prec emax _ _ a b (B754_infinity false) = true.
  Proof using. intros Fa Fb F. unfold approx_equal. rewrite abs_Babs. destruct (Bminus mode_NE b a) as [[]|[]| |[] m e H]; try discriminate F; reflexivity. Qed.

  (* ---------------------------------------------------------------- floor and ceil *)
  Lemma trunc_val (x : float) : IZR (Btrunc x) = IZR (Ztrunc (B2R x)).
  Proof using prec_lt_emax_.
    rewrite (Btrunc_correct prec emax prec_lt_emax_ x). unfold round, F2R, scaled_mantissa, cexp, FIX_exp. cbn. rewrite !Rmult_1_r. reflexivity.
  Qed.
  Lemma trunc_eq (x : float) : Btrunc x = Ztrunc (B2R x).
  Proof using prec_lt_emax_. apply eq_IZR, trunc_val. Qed.
  Lemma int_fmt (f : R -> Z) : Valid_rnd f -> forall x, format x -> format (IZR (f x)).
  Proof using prec_gt_0_.
    intros V x Fx. pose proof (generic_round_generic radix2 fexp (FIX_exp 0) f x Fx) as G.
    unfold round, F2R, scaled_mantissa, cexp, FIX_exp in G. cbn in G. rewrite !Rmult_1_r in G. exact G.
  Qed.
  Lemma of_Z_val n : format (IZR n) -> Rabs (IZR n) < bpow radix2 emax -> B2R (of_Z prec emax _ _ n) = IZR n /\ is_finite (of_Z prec emax _ _ n) = true.
  Proof using.
    intros F L. unfold of_Z. pose proof (binary_normalize_correct prec emax _ _ mode_NE n 0 false) as C. cbv zeta in C.
    assert (E : F2R (Float radix2 n 0) = IZR n) by (unfold F2R; cbn; apply Rmult_1_r). rewrite E in C.
    assert (Er : round radix2 (SpecFloat.fexp prec emax) (round_mode mode_NE) (IZR n) = IZR n) by exact (rnd_fmt _ F).
    rewrite Er, Rlt_bool_true in C by exact L. destruct C as (R1 & F1 & _). auto.
  Qed.
  Lemma le_emax (x : float) n : Rabs (IZR n) <= Rabs (B2R x) -> Rabs (IZR n) < bpow radix2 emax.
  Proof using. intros H. pose proof (abs_B2R_lt_emax prec emax x). lra. Qed.
  Lemma one_lt_emax : 1 < bpow radix2 emax.
  Proof using prec_gt_0_ prec_lt_emax_. change 1 with (bpow radix2 0). apply bpow_lt. unfold Prec_gt_0, Prec_lt_emax in *. lia. Qed.

  Lemma ztrunc_abs x : Rabs (IZR (Ztrunc x)) <= Rabs x.
  Proof using.
    clear. destruct (Rle_or_lt 0 x) as [H|H].
    - rewrite Ztrunc_floor by exact H. pose proof (Zfloor_lb x). assert (0 <= IZR (Zfloor x)) by (apply (IZR_le 0), Zfloor_lub; exact H).
      rewrite !Rabs_pos_eq by lra. lra.
    - rewrite Ztrunc_ceil by lra. pose proof (Zceil_ub x). assert (IZR (Zceil x) <= 0) by (apply (IZR_le _ 0), Zceil_glb; lra).
      rewrite !Rabs_left1 by lra. lra.
  Qed.
  Lemma zfloor_trunc x : Zfloor x = (Ztrunc x - (if Rlt_bool x (IZR (Ztrunc x)) then 1 else 0))%Z.
  Proof using.
    clear. destruct (Rle_or_lt 0 x) as [H|H].
    - rewrite Ztrunc_floor by exact H. pose proof (Zfloor_lb x). rewrite Rlt_bool_false by lra. lia.
    - rewrite Ztrunc_ceil by lra. pose proof (Zceil_ub x). destruct (Rlt_bool_spec x (IZR (Zceil x))) as [L|L].
      + rewrite Zceil_floor_neq; [lia|]. intros E. pose proof (Zfloor_lb x). assert (IZR (Zfloor x) = x) by exact E.
        assert (Zceil x = Zfloor x) by (rewrite <- E at 1; apply Zceil_IZR). rewrite H3 in L. lra.
      + assert (E : IZR (Zceil x) = x) by lra. rewrite <- E at 1. rewrite Zfloor_IZR. lia.
  Qed.
  Lemma zceil_trunc x : Zceil x = (Ztrunc x + (if Rlt_bool (IZR (Ztrunc x)) x then 1 else 0))%Z.
  Proof using.
    clear. destruct (Rle_or_lt 0 x) as [H|H].
    - rewrite Ztrunc_floor by exact H. pose proof (Zfloor_lb x). destruct (Rlt_bool_spec (IZR (Zfloor x)) x) as [L|L].
      + rewrite Zceil_floor_neq; [lia|]. lra.
      + assert (E : IZR (Zfloor x) = x) by lra. rewrite <- E at 1. rewrite Zceil_IZR. lia.
    - rewrite Ztrunc_ceil by lra. pose proof (Zceil_ub x). rewrite Rlt_bool_false by lra. lia.
  Qed.
  Lemma eq_zero (x : float) : is_finite x = true -> (Beqb x zero || negb (Beqb x x) = true <-> B2R x = 0).
  Proof using.
    intros F. rewrite Beqb_refl. assert (N : is_nan x = false) by (destruct x; (reflexivity || discriminate F)). rewrite N. cbn [negb]. rewrite orb_false_r.
    rewrite Beqb_correct by (auto; reflexivity). cbn [B2R FpModel.zero]. destruct (Req_bool_spec (B2R x) 0); intuition (discriminate || lra || reflexivity).
  Qed.
  Lemma zfloor_0 : Zfloor 0 = 0%Z. Proof using. clear. exact (Zfloor_IZR 0). Qed.
  Lemma zceil_0 : Zceil 0 = 0%Z. Proof using. clear. exact (Zceil_IZR 0). Qed.
  Lemma ztrunc_0 : Ztrunc 0 = 0%Z. Proof using. clear. exact (Ztrunc_IZR 0). Qed.

  Lemma int_abs (x : float) n : IZR n - 1 < B2R x < IZR n + 1 -> Rabs (IZR n) < bpow radix2 emax.
  Proof using prec_gt_0_ prec_lt_emax_.
    intros H. pose proof (abs_B2R_le_emax_minus_prec prec emax prec_gt_0_ x) as L.
    assert (B : 1 < bpow radix2 (emax - prec)) by (change 1 with (bpow radix2 0); apply bpow_lt; unfold Prec_lt_emax in *; lia).
    apply Rabs_def1; [|]; assert (- (bpow radix2 emax - bpow radix2 (emax - prec)) <= B2R x <= bpow radix2 emax - bpow radix2 (emax - prec)) by (apply Rabs_le_inv; exact L); lra.
  Qed.

  Lemma in_intmax_iff n : in_intmax n = true <-> (- 2 ^ 63 <= n < 2 ^ 63)%Z.
  Proof using. clear. unfold in_intmax. rewrite andb_true_iff, Z.leb_le, Z.ltb_lt. reflexivity. Qed.
  Lemma in_int_real n x : (- 2 ^ 63 <= n < 2 ^ 63)%Z -> Ztrunc x = n -> IZR (- 2 ^ 63) - 1 < x < IZR (2 ^ 63).
  Proof using.
    clear. intros [H1 H2] E. destruct (Rle_or_lt 0 x) as [H|H].
    - rewrite Ztrunc_floor in E by exact H. pose proof (Zfloor_ub x) as U. rewrite E in U. split.
      + assert (IZR (- 2 ^ 63) <= 0) by (apply (IZR_le _ 0); lia). lra.
      + assert (IZR (n + 1) <= IZR (2 ^ 63)) by (apply IZR_le; lia). rewrite plus_IZR in H0. lra.
    - rewrite Ztrunc_ceil in E by lra. assert (K : IZR n - 1 < x) by (rewrite <- E; pose proof (Zceil_lb x); lra). split.
      + assert (IZR (- 2 ^ 63) <= IZR n) by (apply IZR_le; lia). lra.
      + assert (0 <= IZR (2 ^ 63)) by (apply (IZR_le 0); lia). lra.
  Qed.

  Lemma floor_ok (x : float) : is_finite x = true -> IZR (- 2 ^ 63) <= B2R x < IZR (2 ^ 63) ->
    exists y, floor_naive prec emax _ _ x = Some y /\ is_finite y = true /\ B2R y = IZR (Zfloor (B2R x)).
  Proof using.
    intros F [H1 H2]. unfold floor_naive. destruct (Beqb x zero || negb (Beqb x x)) eqn:E.
    { apply (eq_zero x F) in E. exists x. split; [reflexivity|]. split; [exact F|]. rewrite E, zfloor_0. reflexivity. }
    unfold to_intmax. rewrite F, trunc_eq. cbn [andb].
    assert (T1 : (- 2 ^ 63 <= Ztrunc (B2R x))%Z) by (rewrite <- (Ztrunc_IZR (- 2 ^ 63)); apply Ztrunc_le; exact H1).
    assert (T2 : (Ztrunc (B2R x) < 2 ^ 63)%Z).
    { destruct (Rle_or_lt 0 (B2R x)) as [K|K].
      - rewrite Ztrunc_floor by exact K. apply lt_IZR. pose proof (Zfloor_lb (B2R x)). lra.
      - rewrite Ztrunc_ceil by lra. apply Z.le_lt_trans with 0%Z; [apply Zceil_glb; lra|lia]. }
    rewrite (proj2 (in_intmax_iff _)) by lia.
    assert (V : B2R (of_Z prec emax _ _ (Ztrunc (B2R x))) = IZR (Ztrunc (B2R x)) /\ is_finite (of_Z prec emax _ _ (Ztrunc (B2R x))) = true).
    { apply of_Z_val; [apply int_fmt; [apply valid_rnd_ZR|apply fmt]|]. apply (le_emax x), ztrunc_abs. }
    rewrite Bltb_correct by (auto; apply V). rewrite (proj1 V), <- zfloor_trunc.
    assert (T3 : (- 2 ^ 63 <= Zfloor (B2R x))%Z) by (apply Zfloor_lub; exact H1).
    assert (T4 : (Zfloor (B2R x) < 2 ^ 63)%Z) by (apply lt_IZR; pose proof (Zfloor_lb (B2R x)); lra).
    rewrite (proj2 (in_intmax_iff _)) by lia. eexists. split; [reflexivity|].
    apply and_comm. apply of_Z_val; [apply int_fmt; [apply valid_rnd_DN|apply fmt]|].
    apply (int_abs x). pose proof (Zfloor_lb (B2R x)). pose proof (Zfloor_ub (B2R x)). lra.
  Qed.
  Lemma floor_ub (x : float) : is_finite x = true -> B2R x < IZR (- 2 ^ 63) \/ IZR (2 ^ 63) <= B2R x -> floor_naive prec emax _ _ x = None.
  Proof using.
    intros F H. unfold floor_naive. destruct (Beqb x zero || negb (Beqb x x)) eqn:E.
    { apply (eq_zero x F) in E. exfalso. assert (IZR (- 2 ^ 63) <= 0) by (apply (IZR_le _ 0); lia). assert (0 < IZR (2 ^ 63)) by (apply (IZR_lt 0); lia). lra. }
    unfold to_intmax. rewrite F, trunc_eq. cbn [andb]. destruct (in_intmax (Ztrunc (B2R x))) eqn:K; [|reflexivity].
    apply in_intmax_iff in K. pose proof (in_int_real _ _ K eq_refl) as R. destruct H as [H|H]; [|lra].
    (* between the lowest value and the next integer: the subtraction overflows *)
    assert (V : B2R (of_Z prec emax _ _ (Ztrunc (B2R x))) = IZR (Ztrunc (B2R x)) /\ is_finite (of_Z prec emax _ _ (Ztrunc (B2R x))) = true).
    { apply of_Z_val; [apply int_fmt; [apply valid_rnd_ZR|apply fmt]|]. apply (le_emax x), ztrunc_abs. }
    rewrite Bltb_correct by (auto; apply V). rewrite (proj1 V), <- zfloor_trunc.
    assert (Zfloor (B2R x) < - 2 ^ 63)%Z by (apply lt_IZR; pose proof (Zfloor_lb (B2R x)); lra).
    destruct (in_intmax (Zfloor (B2R x))) eqn:K2; [|reflexivity]. apply in_intmax_iff in K2. lia.
  Qed.

  Lemma ceil_ok (x : float) : is_finite x = true -> IZR (- 2 ^ 63) - 1 < B2R x <= IZR (2 ^ 63 - 1) ->
    exists y, ceil_naive prec emax _ _ x = Some y /\ is_finite y = true /\ B2R y = IZR (Zceil (B2R x)).
  Proof using.
    intros F [H1 H2]. unfold ceil_naive. destruct (Beqb x zero || negb (Beqb x x)) eqn:E.
    { apply (eq_zero x F) in E. exists x. split; [reflexivity|]. split; [exact F|]. rewrite E, zceil_0. reflexivity. }
    unfold to_intmax. rewrite F, trunc_eq. cbn [andb].
    assert (T2 : (Ztrunc (B2R x) <= 2 ^ 63 - 1)%Z) by (rewrite <- (Ztrunc_IZR (2 ^ 63 - 1)); apply Ztrunc_le; exact H2).
    assert (T1 : (- 2 ^ 63 <= Ztrunc (B2R x))%Z).
    { destruct (Rle_or_lt 0 (B2R x)) as [K|K].
      - rewrite Ztrunc_floor by exact K. apply Z.le_trans with 0%Z; [lia|apply Zfloor_lub; exact K].
      - rewrite Ztrunc_ceil by lra. assert (- 2 ^ 63 - 1 < Zceil (B2R x))%Z; [|lia]. apply lt_IZR. rewrite minus_IZR. pose proof (Zceil_ub (B2R x)). lra. }
    rewrite (proj2 (in_intmax_iff _)) by lia.
    assert (V : B2R (of_Z prec emax _ _ (Ztrunc (B2R x))) = IZR (Ztrunc (B2R x)) /\ is_finite (of_Z prec emax _ _ (Ztrunc (B2R x))) = true).
    { apply of_Z_val; [apply int_fmt; [apply valid_rnd_ZR|apply fmt]|]. apply (le_emax x), ztrunc_abs. }
    rewrite Bltb_correct by (auto; apply V). rewrite (proj1 V), <- zceil_trunc.
    assert (T3 : (Zceil (B2R x) <= 2 ^ 63 - 1)%Z) by (apply Zceil_glb; exact H2).
    assert (T4 : (- 2 ^ 63 - 1 < Zceil (B2R x))%Z) by (apply lt_IZR; rewrite minus_IZR; pose proof (Zceil_ub (B2R x)); lra).
    rewrite (proj2 (in_intmax_iff _)) by lia. eexists. split; [reflexivity|].
    apply and_comm. apply of_Z_val; [apply int_fmt; [apply valid_rnd_UP|apply fmt]|].
    apply (int_abs x). pose proof (Zceil_ub (B2R x)). pose proof (Zceil_lb (B2R x)). lra.
  Qed.
  Lemma ceil_ub (x : float) : is_finite x = true -> B2R x <= IZR (- 2 ^ 63) - 1 \/ IZR (2 ^ 63 - 1) < B2R x -> ceil_naive prec emax _ _ x = None.
  Proof using.
    intros F H. assert (P0 : IZR (- 2 ^ 63) <= 0) by (apply (IZR_le _ 0); lia). assert (P1 : 0 < IZR (2 ^ 63 - 1)) by (apply (IZR_lt 0); lia).
    unfold ceil_naive. destruct (Beqb x zero || negb (Beqb x x)) eqn:E.
    { apply (eq_zero x F) in E. exfalso. lra. }
    unfold to_intmax. rewrite F, trunc_eq. cbn [andb]. destruct (in_intmax (Ztrunc (B2R x))) eqn:K; [|reflexivity].
    apply in_intmax_iff in K. pose proof (in_int_real _ _ K eq_refl) as R. destruct H as [H|H]; [lra|].
    assert (V : B2R (of_Z prec emax _ _ (Ztrunc (B2R x))) = IZR (Ztrunc (B2R x)) /\ is_finite (of_Z prec emax _ _ (Ztrunc (B2R x))) = true).
    { apply of_Z_val; [apply int_fmt; [apply valid_rnd_ZR|apply fmt]|]. apply (le_emax x), ztrunc_abs. }
    rewrite Bltb_correct by (auto; apply V). rewrite (proj1 V), <- zceil_trunc.
    assert (2 ^ 63 - 1 < Zceil (B2R x))%Z by (apply lt_IZR; pose proof (Zceil_ub (B2R x)); lra).
    destruct (in_intmax (Zceil (B2R x))) eqn:K2; [|reflexivity]. apply in_intmax_iff in K2. lia.
  Qed.
End FpProofs.
