(** The compensated sum, lerp, infinity_or_nan. *)
From Coq Require Import ZArith Bool List Reals Lra Lia.
From Flocq Require Import Core BinarySingleNaN Relative Plus_error Pff2Flocq.
From Flocq Require Binary Bits.
From Verif Require Import FpModel FpProofs.
Import ListNotations.
Local Open Scope R_scope.

Lemma bits_all x a n : (0 <= n)%Z -> (0 <= a)%Z ->
  infinity_or_nan (Z.shiftl (Z.ones n) a) x = ((x / 2 ^ a) mod 2 ^ n =? 2 ^ n - 1)%Z.
Proof.
  intros Hn Ha. unfold infinity_or_nan.
  assert (E : Z.land x (Z.shiftl (Z.ones n) a) = Z.shiftl ((x / 2 ^ a) mod 2 ^ n) a).
  { rewrite <- Z.shiftr_div_pow2, <- Z.land_ones by assumption. apply Z.bits_inj'. intros i Hi. rewrite Z.land_spec, !Z.shiftl_spec, Z.land_spec by assumption.
    destruct (Z.le_gt_cases a i) as [H|H].
    - rewrite Z.shiftr_spec by lia. replace (i - a + a)%Z with i by lia. reflexivity.
    - rewrite (Z.testbit_neg_r _ (i - a)), (Z.testbit_neg_r (Z.shiftr x a)) by lia. rewrite andb_false_r. reflexivity. }
  rewrite E, Z.ones_equiv. rewrite !Z.shiftl_mul_pow2 by exact Ha. assert (0 < 2 ^ a)%Z by (apply Z.pow_pos_nonneg; lia).
  destruct (Z.eqb_spec ((x / 2 ^ a) mod 2 ^ n * 2 ^ a) (Z.pred (2 ^ n) * 2 ^ a)) as [K|K], (Z.eqb_spec ((x / 2 ^ a) mod 2 ^ n) (2 ^ n - 1)) as [L|L]; try reflexivity; exfalso.
  - apply Z.mul_reg_r in K; lia.
  - apply K. rewrite L. f_equal; lia.
Qed.
Lemma decode_finite mw ew x : (0 <= mw)%Z -> (1 < ew)%Z ->
  Binary.is_finite_FF (Bits.binary_float_of_bits_aux mw ew x) = negb ((x / 2 ^ mw) mod 2 ^ ew =? 2 ^ ew - 1)%Z.
Proof.
  intros Hm He. unfold Bits.binary_float_of_bits_aux, Bits.split_bits. set (ex := ((x / 2 ^ mw) mod 2 ^ ew)%Z).
  assert (P : (0 < 2 ^ mw)%Z) by (apply Z.pow_pos_nonneg; lia). pose proof (Z.mod_pos_bound x (2 ^ mw) P) as M.
  assert (Q : (2 ^ 1 < 2 ^ ew)%Z) by (apply Z.pow_lt_mono_r; lia). change (2 ^ 1)%Z with 2%Z in Q.
  pose proof (Zeq_bool_if ex 0) as E0. pose proof (Zeq_bool_if ex (2 ^ ew - 1)) as E1.
  destruct (Zeq_bool ex 0); destruct (Zeq_bool ex (2 ^ ew - 1)); destruct (Z.eqb_spec ex (2 ^ ew - 1)); try lia.
  - destruct (x mod 2 ^ mw)%Z; (reflexivity || lia).
  - destruct (x mod 2 ^ mw)%Z; reflexivity.
  - destruct (x mod 2 ^ mw + 2 ^ mw)%Z eqn:E; (reflexivity || lia).
Qed.
Lemma x87_bits x : infinity_or_nan_x87 x = ((x / 2 ^ 63) mod 2 ^ 16 =? 2 ^ 16 - 1)%Z.
Proof.
  unfold infinity_or_nan_x87. change (0x7F * 65536 + 0xFF * 256 + 0x80)%Z with (Z.shiftl (Z.ones 16) 7).
  assert (E : (byte x 9 * 65536 + byte x 8 * 256 + byte x 7 = (x / 2 ^ 56) mod 2 ^ 24)%Z).
  { unfold byte. change (256 ^ 9)%Z with (2 ^ 56 * 65536)%Z. change (256 ^ 8)%Z with (2 ^ 56 * 256)%Z. change (256 ^ 7)%Z with (2 ^ 56)%Z.
    rewrite <- !Z.div_div by lia. generalize (x / 2 ^ 56)%Z. intros y. change (2 ^ 24)%Z with 16777216%Z. Z.div_mod_to_equations. lia. }
  rewrite E. change (Z.land ((x / 2 ^ 56) mod 2 ^ 24) (Z.shiftl (Z.ones 16) 7) =? Z.shiftl (Z.ones 16) 7)%Z with (infinity_or_nan (Z.shiftl (Z.ones 16) 7) ((x / 2 ^ 56) mod 2 ^ 24)).
  rewrite bits_all by lia. f_equal. change (2 ^ 63)%Z with (2 ^ 56 * 2 ^ 7)%Z. rewrite <- Z.div_div by lia. generalize (x / 2 ^ 56)%Z. intros y.
  change (2 ^ 24)%Z with 16777216%Z. change (2 ^ 7)%Z with 128%Z. change (2 ^ 16)%Z with 65536%Z. Z.div_mod_to_equations. lia.
Qed.

Definition rsum (l : list R) : R := fold_right Rplus 0 l.
Lemma rsum_app a b : rsum (a ++ b) = rsum a + rsum b.
Proof. unfold rsum in *. induction a as [|x a IH]; cbn [app fold_right]; [symmetry; apply Rplus_0_l|]. rewrite IH. ring. Qed.

Section FpProofs2.
  Variable prec emax : Z.
  Context (prec_gt_0_ : Prec_gt_0 prec).
  Context (prec_lt_emax_ : Prec_lt_emax prec emax).
  Hypothesis prec_2 : (1 < prec)%Z.
  Notation float := (binary_float prec emax).
  Notation emin := (3 - emax - prec)%Z.
  Notation fexp := (FLT_exp emin prec).
  Notation rnd := (round radix2 fexp ZnearestE).
  Notation format := (generic_format radix2 fexp).
  Notation zero := (zero prec emax).
  Notation u := (bpow radix2 (- prec)).

  Lemma u_eq : u_ro radix2 prec = u.
  Proof using. unfold u_ro. rewrite bpow_plus. change (bpow radix2 1) with 2. field. Qed.
  Lemma u_pos : 0 < u. Proof using. apply bpow_gt_0. Qed.
  Lemma plus_err x y : format x -> format y -> Rabs (rnd (x + y) - (x + y)) <= u * Rabs (x + y).
  Proof using prec_gt_0_.
    intros Fx Fy. destruct (FLT_plus_error_N_ex radix2 emin prec (fun z => negb (Z.even z)) x y Fx Fy) as (eps & B & E).
    change (Znearest (fun z => negb (Z.even z))) with ZnearestE in E. rewrite E. replace ((x + y) * (1 + eps) - (x + y)) with (eps * (x + y)) by ring.
    rewrite Rabs_mult. apply Rmult_le_compat_r; [apply Rabs_pos|]. rewrite u_eq in B. pose proof u_pos as U.
    apply Rle_trans with (1 := B). apply Rmult_le_reg_r with (1 + u); [lra|]. unfold Rdiv. rewrite Rmult_assoc, Rinv_l by lra.
    assert (0 <= u * u) by (apply Rmult_le_pos; lra). lra.
  Qed.
  Lemma even_sym x : negb (Z.even x) = negb (negb (Z.even (- (x + 1)))).
  Proof using. clear. rewrite Z.even_opp, Z.even_add. destruct (Z.even x); reflexivity. Qed.
  Lemma fast2sum x y : format x -> format y -> Rabs y <= Rabs x -> rnd (rnd (x - rnd (x + y)) + y) = x + y - rnd (x + y).
  Proof using prec_2 prec_lt_emax_ prec_gt_0_.
    intros Fx Fy H. pose proof (Fast2Sum_correct emin prec (fun z => negb (Z.even z)) prec_2 ltac:(unfold Prec_lt_emax in *; lia) even_sym x y Fx Fy H) as K.
    change (Znearest (fun z => negb (Z.even z))) with ZnearestE in K. rewrite (Rplus_comm (rnd (x - rnd (x + y))) y). lra.
  Qed.

  Lemma kahan_step s c x s' c' : kahan_add prec emax _ _ (s, c) x = (s', c') -> is_finite s' = true -> is_finite c' = true ->
    is_finite s = true /\ is_finite c = true /\ is_finite x = true /\ B2R s' = rnd (B2R s + B2R x) /\
    format (B2R s + B2R x - B2R s') /\ B2R c' = rnd (B2R c + (B2R s + B2R x - B2R s')).
  Proof using prec_2.
    unfold kahan_add. intros E Fs' Fc'. destruct (Bleb (abs prec emax x) (abs prec emax s)) eqn:L; injection E as <- <-;
      destruct (plus_finite prec emax _ _ _ _ Fs') as (Fs & Fx & Es); destruct (plus_finite prec emax _ _ _ _ Fc') as (Fc & Fe & Ec);
      destruct (plus_finite prec emax _ _ _ _ Fe) as (Fm & _ & Ee); destruct (minus_finite prec emax _ _ _ _ Fm) as (_ & _ & Em);
      (rewrite Bleb_correct in L by (rewrite abs_finite; assumption)); rewrite !abs_val in L;
      (split; [exact Fs|]); (split; [exact Fc|]); (split; [exact Fx|]); (split; [exact Es|]).
    - assert (K : Rabs (B2R x) <= Rabs (B2R s)) by (destruct (Rle_bool_spec (Rabs (B2R x)) (Rabs (B2R s))); [assumption|discriminate]).
      pose proof (fast2sum (B2R s) (B2R x) (fmt prec emax s) (fmt prec emax x) K) as T. rewrite <- Es in T.
      rewrite Em in Ee. rewrite T in Ee. split; [rewrite <- Ee; apply fmt; assumption|]. rewrite Ec, Ee. reflexivity.
    - assert (K : Rabs (B2R s) <= Rabs (B2R x)) by (destruct (Rle_bool_spec (Rabs (B2R x)) (Rabs (B2R s))); [discriminate|lra]).
      pose proof (fast2sum (B2R x) (B2R s) (fmt prec emax x) (fmt prec emax s) K) as T. rewrite (Rplus_comm (B2R x) (B2R s)), <- Es in T.
      rewrite Em in Ee. rewrite T in Ee. split; [rewrite <- Ee; apply fmt; assumption|]. rewrite Ec, Ee. reflexivity.
  Qed.

  Notation rs := (map (fun x : float => B2R x)).
  Notation mag := (fun l => rsum (map (fun x : float => Rabs (B2R x)) l)).
  Lemma kahan_inv first xs : forall s c, fold_left (kahan_add prec emax _ _) xs (first, zero) = (s, c) -> is_finite s = true -> is_finite c = true ->
    Forall (fun x => is_finite x = true) (first :: xs) /\
    let S := rsum (rs (first :: xs)) in let A := mag (first :: xs) in let n := INR (length xs) in let g := (1 + u) ^ length xs in
    exists E, S = B2R s + E /\ Rabs (B2R s) <= g * A /\ Rabs E <= n * u * g * A /\ Rabs (B2R c - E) <= n * n * (u * u) * g * A.
  Proof using prec_2.
    induction xs as [|x xs IH] using rev_ind; intros s c H Fs Fc.
    - cbn in H. injection H as <- <-. split; [repeat constructor; exact Fs|]. cbv zeta. exists 0. cbn [map rsum fold_right length INR pow].
      rewrite Rplus_0_r. rewrite !Rmult_1_l. split; [ring|]. split; [lra|]. cbn [B2R FpModel.zero]. rewrite Rminus_0_r, Rabs_R0. split; lra.
    - rewrite fold_left_app in H. cbn [fold_left] in H. destruct (fold_left (kahan_add prec emax _ _) xs (first, zero)) as [s0 c0] eqn:E0.
      destruct (kahan_step s0 c0 x s c H Fs Fc) as (Fs0 & Fc0 & Fx & Es & Fe & Ec). destruct (IH s0 c0 eq_refl Fs0 Fc0) as (FA & E & ES & Bs & BE & Bc).
      split.
      { inversion FA as [|? ? F1 F2]; subst. constructor; [exact F1|]. apply Forall_app. split; [exact F2|]. repeat constructor. exact Fx. }
      cbv zeta in *. rewrite app_length. cbn [length]. rewrite Nat.add_1_r, S_INR. cbn [pow].
      assert (EA : mag (first :: xs ++ [x]) = mag (first :: xs) + Rabs (B2R x)).
      { change (first :: xs ++ [x]) with ((first :: xs) ++ [x]). rewrite map_app, rsum_app. cbn [map rsum fold_right]. rewrite Rplus_0_r. reflexivity. }
      assert (ESS : rsum (rs (first :: xs ++ [x])) = rsum (rs (first :: xs)) + B2R x).
      { change (first :: xs ++ [x]) with ((first :: xs) ++ [x]). rewrite map_app, rsum_app. cbn [map rsum fold_right]. rewrite Rplus_0_r. reflexivity. }
      rewrite EA, ESS, ES. set (A := mag (first :: xs)) in *. set (g := (1 + u) ^ length xs) in *. set (n := INR (length xs)) in *. set (a := Rabs (B2R x)) in *.
      assert (U : 0 < u) by apply u_pos. assert (G1 : 1 <= g) by (apply pow_R1_Rle; lra). assert (N0 : 0 <= n) by apply pos_INR. assert (A0 : 0 <= a) by apply Rabs_pos.
      assert (AA : 0 <= A). { unfold A. clear. generalize (first :: xs). intros l. induction l as [|y l IHl]; cbn; [lra|]. unfold rsum in IHl. pose proof (Rabs_pos (B2R y)). lra. }
      pose proof (plus_err (B2R s0) (B2R x) (fmt prec emax s0) (fmt prec emax x)) as P1. rewrite <- Es in P1.
      pose proof (plus_err (B2R c0) (B2R s0 + B2R x - B2R s) (fmt prec emax c0) Fe) as P2. rewrite <- Ec in P2.
      set (e := B2R s0 + B2R x - B2R s) in *.
      assert (ga : a <= g * a). { rewrite <- (Rmult_1_l a) at 1. apply Rmult_le_compat_r; lra. }
      assert (T : Rabs (B2R s0 + B2R x) <= g * (A + a)). { pose proof (Rabs_triang (B2R s0) (B2R x)) as T. fold a in T. rewrite Rmult_plus_distr_l. lra. }
      assert (Be : Rabs e <= u * (g * (A + a))).
      { unfold e. rewrite <- Rabs_Ropp. replace (- (B2R s0 + B2R x - B2R s)) with (B2R s - (B2R s0 + B2R x)) by ring. apply Rle_trans with (1 := P1). apply Rmult_le_compat_l; lra. }
      assert (Q1 : 0 <= g * A) by (apply Rmult_le_pos; lra). assert (Q2 : 0 <= g * a) by (apply Rmult_le_pos; lra). set (h := g * (A + a)) in *.
      assert (Hh : 0 <= h) by (unfold h; rewrite Rmult_plus_distr_l; lra). assert (gAh : g * A <= h) by (unfold h; rewrite Rmult_plus_distr_l; lra).
      assert (uh : 0 <= u * h) by (apply Rmult_le_pos; lra).
      assert (nuh : 0 <= n * (u * h)) by (apply Rmult_le_pos; lra).
      assert (BE2 : Rabs (E + e) <= (n + 1) * (u * h)).
      { pose proof (Rabs_triang E e). assert (n * u * g * A <= n * (u * h)).
        { replace (n * u * g * A) with (n * (u * (g * A))) by ring. apply Rmult_le_compat_l; [lra|]. apply Rmult_le_compat_l; lra. } lra. }
      exists (E + e). split; [unfold e; ring|]. split; [|split].
      + pose proof (Rabs_triang (B2R s0 + B2R x) (B2R s - (B2R s0 + B2R x))) as TT. replace (B2R s0 + B2R x + (B2R s - (B2R s0 + B2R x))) with (B2R s) in TT by ring.
        replace ((1 + u) * g * (A + a)) with (h + u * h) by (unfold h; ring). assert (u * Rabs (B2R s0 + B2R x) <= u * h) by (apply Rmult_le_compat_l; lra). lra.
      + apply Rle_trans with (1 := BE2). replace ((n + 1) * u * ((1 + u) * g) * (A + a)) with ((n + 1) * (u * h) + u * ((n + 1) * (u * h))) by (unfold h; ring).
        assert (0 <= u * ((n + 1) * (u * h))); [|lra]. apply Rmult_le_pos; [lra|]. apply Rmult_le_pos; lra.
      + replace (B2R c - (E + e)) with ((B2R c0 - E) + (B2R c - (B2R c0 + e))) by ring. pose proof (Rabs_triang (B2R c0 - E) (B2R c - (B2R c0 + e))) as T1.
        assert (T2 : Rabs (B2R c0 + e) <= Rabs (B2R c0 - E) + Rabs (E + e)). { replace (B2R c0 + e) with ((B2R c0 - E) + (E + e)) by ring. apply Rabs_triang. }
        assert (Bd : Rabs (B2R c0 - E) <= n * n * (u * (u * h))).
        { apply Rle_trans with (1 := Bc). replace (n * n * (u * u) * g * A) with (n * n * (u * (u * (g * A)))) by ring. apply Rmult_le_compat_l; [apply Rmult_le_pos; lra|].
          apply Rmult_le_compat_l; [lra|]. apply Rmult_le_compat_l; lra. }
        set (w := u * (u * h)) in *. assert (w0 : 0 <= w) by (unfold w; apply Rmult_le_pos; lra).
        assert (T3 : u * Rabs (B2R c0 + e) <= u * (n * n * w + (n + 1) * (u * h))) by (apply Rmult_le_compat_l; lra).
        replace ((n + 1) * (n + 1) * (u * u) * ((1 + u) * g) * (A + a)) with ((n + 1) * (n + 1) * w + u * ((n + 1) * (n + 1) * w)) by (unfold w, h; ring).
        replace (u * (n * n * w + (n + 1) * (u * h))) with (u * (n * n * w) + (n + 1) * w) in T3 by (unfold w; ring).
        assert (nw : 0 <= n * w) by (apply Rmult_le_pos; lra). assert (nnw : 0 <= n * n * w) by (apply Rmult_le_pos; [apply Rmult_le_pos; lra|lra]).
        assert (U2 : u * (n * n * w) <= u * ((n + 1) * (n + 1) * w)) by (apply Rmult_le_compat_l; [lra|]; replace ((n + 1) * (n + 1) * w) with (n * n * w + 2 * (n * w) + w) by ring; lra).
        replace ((n + 1) * (n + 1) * w) with (n * n * w + 2 * (n * w) + w) in * by ring. lra.
  Qed.
  Lemma kahan_ok first xs : is_finite (kahan_sum prec emax _ _ first xs) = true ->
    Forall (fun x => is_finite x = true) (first :: xs) /\
    let S := rsum (rs (first :: xs)) in let A := mag (first :: xs) in let n := INR (length xs) in
    Rabs (B2R (kahan_sum prec emax _ _ first xs) - S) <= u * Rabs S + n * n * (u * u) * (1 + u) ^ (length xs + 1) * A.
  Proof using prec_2.
    unfold kahan_sum. destruct (fold_left (kahan_add prec emax _ _) xs (first, zero)) as [s c] eqn:E0. intros F.
    destruct (plus_finite prec emax _ _ _ _ F) as (Fs & Fc & Er). destruct (kahan_inv first xs s c E0 Fs Fc) as (FA & E & ES & Bs & BE & Bc). split; [exact FA|].
    cbv zeta in *. set (S := rsum (rs (first :: xs))) in *. set (A := mag (first :: xs)) in *. set (n := INR (length xs)) in *. rewrite Nat.add_1_r. cbn [pow]. set (g := (1 + u) ^ length xs) in *.
    pose proof (plus_err (B2R s) (B2R c) (fmt prec emax s) (fmt prec emax c)) as P. rewrite <- Er in P. set (r := B2R (Bplus mode_NE s c)) in *. clearbody r.
    pose proof u_pos as U. set (d := B2R c - E) in *. assert (Esc : B2R s + B2R c = S + d) by (rewrite ES; unfold d; ring). rewrite Esc in P.
    pose proof (Rabs_triang (r - (S + d)) d) as T1. replace (r - (S + d) + d) with (r - S) in T1 by ring. pose proof (Rabs_triang S d) as T2.
    assert (T3 : u * Rabs (S + d) <= u * (Rabs S + Rabs d)) by (apply Rmult_le_compat_l; lra). rewrite Rmult_plus_distr_l in T3.
    replace (n * n * (u * u) * ((1 + u) * g) * A) with (n * n * (u * u) * g * A + u * (n * n * (u * u) * g * A)) by ring.
    assert (u * Rabs d <= u * (n * n * (u * u) * g * A)) by (apply Rmult_le_compat_l; lra). lra.
  Qed.

  (* ---------------------------------------------------------------- lerp *)
  Lemma plus_exact (x y z : float) : is_finite x = true -> is_finite y = true -> B2R x + B2R y = B2R z -> is_finite (Bplus mode_NE x y) = true /\ B2R (Bplus mode_NE x y) = B2R z.
  Proof using.
    intros Fx Fy E. pose proof (Bplus_correct prec emax _ _ mode_NE x y Fx Fy) as C. rewrite E in C.
    assert (Er : round radix2 (SpecFloat.fexp prec emax) (round_mode mode_NE) (B2R z) = B2R z) by exact (rnd_fmt prec emax _ (fmt prec emax z)).
    rewrite Er, Rlt_bool_true in C by apply abs_B2R_lt_emax. split; apply C.
  Qed.
  Lemma minus_exact (x y : float) (z : float) : is_finite x = true -> is_finite y = true -> B2R x - B2R y = B2R z -> is_finite (Bminus mode_NE x y) = true /\ B2R (Bminus mode_NE x y) = B2R z.
  Proof using.
    intros Fx Fy E. pose proof (Bminus_correct prec emax _ _ mode_NE x y Fx Fy) as C. rewrite E in C.
    assert (Er : round radix2 (SpecFloat.fexp prec emax) (round_mode mode_NE) (B2R z) = B2R z) by exact (rnd_fmt prec emax _ (fmt prec emax z)).
    rewrite Er, Rlt_bool_true in C by apply abs_B2R_lt_emax. split; apply C.
  Qed.
  Lemma mult_exact (x y : float) (z : float) : is_finite x = true -> is_finite y = true -> B2R x * B2R y = B2R z -> is_finite (Bmult mode_NE x y) = true /\ B2R (Bmult mode_NE x y) = B2R z.
  Proof using.
    intros Fx Fy E. pose proof (Bmult_correct prec emax _ _ mode_NE x y) as C. rewrite E in C.
    assert (Er : round radix2 (SpecFloat.fexp prec emax) (round_mode mode_NE) (B2R z) = B2R z) by exact (rnd_fmt prec emax _ (fmt prec emax z)).
    rewrite Er, Rlt_bool_true, Fx, Fy in C by apply abs_B2R_lt_emax. split; apply C.
  Qed.
  Lemma fma_exact (x y z w : float) : is_finite x = true -> is_finite y = true -> is_finite z = true -> B2R x * B2R y + B2R z = B2R w ->
    is_finite (Bfma mode_NE x y z) = true /\ B2R (Bfma mode_NE x y z) = B2R w.
  Proof using.
    intros Fx Fy Fz E. pose proof (Bfma_correct prec emax _ _ mode_NE x y z Fx Fy Fz) as C. cbv zeta in C. rewrite E in C.
    assert (Er : round radix2 (SpecFloat.fexp prec emax) (round_mode mode_NE) (B2R w) = B2R w) by exact (rnd_fmt prec emax _ (fmt prec emax w)).
    rewrite Er, Rlt_bool_true in C by apply abs_B2R_lt_emax. split; apply C.
  Qed.
  Notation one := (Bone : float).
  Lemma lerp_end k (a b t : float) : is_finite a = true -> is_finite b = true -> is_finite t = true -> B2R t = 0 \/ B2R t = 1 ->
    let r := lerp prec emax _ _ k a b t in is_finite r = true /\ B2R r = (if Req_bool (B2R t) 0 then B2R a else B2R b).
  Proof using.
    intros Fa Fb Ft Ht. assert (F1 : is_finite one = true) by apply is_finite_Bone. assert (V1 : B2R one = 1) by apply Bone_correct. cbv zeta.
    destruct Ht as [H|H].
    - rewrite H, Req_bool_true by reflexivity.
      destruct (minus_exact one t one F1 Ft) as [Fm Em]; [rewrite H; ring|].
      destruct (mult_exact a (Bminus mode_NE one t) a Fa Fm) as [Fp Ep]; [rewrite Em, V1; ring|].
      destruct (mult_exact b t zero Fb Ft) as [Fq Eq]; [rewrite H; cbn; ring|].
      destruct k; cbn [lerp].
      + apply plus_exact; auto. rewrite Ep, Eq. cbn. ring.
      + apply fma_exact; auto. rewrite Em, Eq, V1. cbn. ring.
      + apply fma_exact; auto. rewrite H, Ep. ring.
    - rewrite H, Req_bool_false by lra.
      destruct (minus_exact one t zero F1 Ft) as [Fm Em]; [rewrite H, V1; cbn; ring|].
      destruct (mult_exact a (Bminus mode_NE one t) zero Fa Fm) as [Fp Ep]; [rewrite Em; cbn; ring|].
      destruct (mult_exact b t b Fb Ft) as [Fq Eq]; [rewrite H; ring|].
      destruct k; cbn [lerp].
      + apply plus_exact; auto. rewrite Ep, Eq. cbn. ring.
      + apply fma_exact; auto. rewrite Em, Eq. cbn. ring.
      + apply fma_exact; auto. rewrite H, Ep. cbn. ring.
  Qed.
End FpProofs2.
