(** Proofs about the arithmetic of halves: conversions between bit patterns and Flocq's floats, and faithful results. *)
From Coq Require Import ZArith NArith Bool Reals Lra Lia ZifyBool ZifyNat ZifyN.
From Flocq Require Import Core BinarySingleNaN.
From Verif Require Import Words WordsProofs HalfModel HalfSpec HalfProofs FpModel FpProofs HopModel HopSpec.
Local Open Scope R_scope.
Ltac Zify.zify_post_hook ::= idtac.

#[local] Existing Instances HopModel.float_prec HopModel.float_emax.
Notation fexp32 := (FLT_exp (-149) 24).
Notation rnd := (round radix2 fexp32 ZnearestE).
Notation format := (generic_format radix2 fexp32).

Lemma unit_pow : IZR (2 ^ 149) = bpow radix2 149.
Proof. rewrite <- IZR_Zpower by discriminate. reflexivity. Qed.
Lemma real_of_bpow s m : real_of s m = (if s then -1 else 1) * IZR (Z.of_N m) * bpow radix2 (-149).
Proof. unfold real_of. rewrite unit_pow. change (-149)%Z with (- (149))%Z. rewrite bpow_opp. reflexivity. Qed.
Lemma real_abs s m : Rabs (real_of s m) = IZR (Z.of_N m) * bpow radix2 (-149).
Proof.
  rewrite real_of_bpow, !Rabs_mult. rewrite (Rabs_pos_eq (bpow _ _)) by apply bpow_ge_0. rewrite (Rabs_pos_eq (IZR _)) by (apply IZR_le; lia).
  destruct s; [rewrite Rabs_left by lra | rewrite Rabs_pos_eq by lra]; ring.
Qed.
Lemma real_le s m t n : Rabs (real_of s m) <= Rabs (real_of t n) <-> (m <= n)%N.
Proof.
  rewrite !real_abs. pose proof (bpow_gt_0 radix2 (-149)) as P. split; intros H.
  - apply Rmult_le_reg_r in H; [|exact P]. apply le_IZR in H. lia.
  - apply Rmult_le_compat_r; [lra|]. apply IZR_le. lia.
Qed.

(** A number of at most 24 bits. *)
Lemma small_format (M E : Z) : (Z.abs M < 2 ^ 24)%Z -> (-149 <= E)%Z -> format (F2R (Float radix2 M E)).
Proof.
  intros HM HE. apply generic_format_FLT. exists (Float radix2 M E); [reflexivity | exact HM | exact HE].
Qed.

Lemma testbit_fs x : (x < 2 ^ 32)%N -> N.testbit x 31 = (fs x =? 1)%N.
Proof.
  intros H. destruct (fields x H) as (S & _ & _). unfold fs in *. rewrite N.testbit_eqb. rewrite N.mod_small by exact S. reflexivity.
Qed.
Lemma of_bits_finite x s m : (x < 2 ^ 32)%N -> f32_value x = Fin s m ->
  is_finite (float_of_bits x) = true /\ B2R (float_of_bits x) = real_of s m.
Proof.
  intros Hx V. destruct (fields x Hx) as (Hs & He & Hm). rewrite f32_fields in V. unfold float_of_bits. fold (fe x) (fm x). cbv zeta. rewrite (testbit_fs x Hx).
  destruct (N.eqb_spec (fe x) 255) as [E|E]; [destruct (fm x =? 0)%N; discriminate V|]. apply fin_inj in V. destruct V as [Vs Vm]. rewrite Vs.
  set (M := (if (fe x =? 0)%N then fm x else (2 ^ 23 + fm x)%N)) in *. set (Ex := (Z.of_N (N.max (fe x) 1) - 150)%Z).
  assert (BM : (M < 2 ^ 24)%N) by (unfold M; change (2 ^ 24)%N with 16777216%N; change (2 ^ 23)%N with 8388608%N in *; destruct (fe x =? 0)%N; lia).
  assert (BE : (-149 <= Ex <= 104)%Z) by (unfold Ex; lia).
  assert (Val : forall t : bool, F2R (Float radix2 (if t then - Z.of_N M else Z.of_N M)%Z Ex) = real_of t m).
  { intros t. rewrite real_of_bpow. unfold F2R. cbn [Fnum Fexp].
    assert (Q : IZR (Z.of_N M) * bpow radix2 Ex = IZR (Z.of_N m) * bpow radix2 (-149)).
    { rewrite <- Vm. unfold M, Ex. destruct (N.eqb_spec (fe x) 0) as [Z0|Z0].
      - rewrite Z0. reflexivity.
      - replace (N.max (fe x) 1) with (fe x) by lia. rewrite N2Z.inj_mul, mult_IZR, N2Z.inj_pow. replace (IZR (Z.of_N 2 ^ Z.of_N (fe x - 1))) with (bpow radix2 (Z.of_N (fe x - 1))).
        2:{ rewrite <- IZR_Zpower by lia. reflexivity. }
        rewrite Rmult_assoc, <- bpow_plus. f_equal. f_equal. lia. }
    destruct t; [rewrite opp_IZR|]; nra. }
  pose proof (binary_normalize_correct 24 128 _ _ mode_NE (if s then - Z.of_N M else Z.of_N M)%Z Ex s) as C. cbv zeta in C. rewrite (Val s) in C.
  assert (F : format (real_of s m)).
  { rewrite <- (Val s). apply small_format; [|lia]. destruct s; change (2 ^ 24)%Z with 16777216%Z; change (2 ^ 24)%N with 16777216%N in BM; lia. }
  assert (Er : round radix2 (SpecFloat.fexp 24 128) (round_mode mode_NE) (real_of s m) = real_of s m) by (apply round_generic; [apply valid_rnd_N | exact F]).
  rewrite Er in C. rewrite Rlt_bool_true in C.
  - destruct C as (C1 & C2 & _). split; assumption.
  - rewrite <- (Val s). rewrite <- F2R_Zabs. apply Rlt_le_trans with (F2R (Float radix2 (2 ^ 24) Ex)).
    + apply F2R_lt. destruct s; change (2 ^ 24)%Z with 16777216%Z; change (2 ^ 24)%N with 16777216%N in BM; lia.
    + unfold F2R. cbn [Fnum Fexp]. replace (IZR (2 ^ 24)) with (bpow radix2 24) by (rewrite <- IZR_Zpower by discriminate; reflexivity). rewrite <- bpow_plus. apply bpow_le. lia.
Qed.
Lemma of_bits_inf x s : (x < 2 ^ 32)%N -> f32_value x = Inf s -> float_of_bits x = B754_infinity s.
Proof.
  intros Hx V. rewrite f32_fields in V. unfold float_of_bits. fold (fe x) (fm x). rewrite (testbit_fs x Hx). destruct (fe x =? 255)%N; [|discriminate V].
  destruct (fm x =? 0)%N; [|discriminate V]. injection V as V. rewrite V. reflexivity.
Qed.
Lemma of_bits_nan x : (x < 2 ^ 32)%N -> f32_value x = NaN -> float_of_bits x = B754_nan.
Proof.
  intros Hx V. rewrite f32_fields in V. unfold float_of_bits. fold (fe x) (fm x). destruct (fe x =? 255)%N; [|discriminate V].
  destruct (fm x =? 0)%N; [discriminate V|reflexivity].
Qed.

(** Canonical mantissas. *)
Lemma canonical m e : SpecFloat.bounded 24 128 m e = true ->
  (Z.pos m < 2 ^ 24)%Z /\ (-149 <= e <= 104)%Z /\ ((Z.pos m < 2 ^ 23)%Z -> e = (-149)%Z).
Proof.
  intros B. apply andb_true_iff in B. destruct B as [B1 B2]. apply Zle_bool_imp_le in B2. unfold SpecFloat.canonical_mantissa in B1. apply Zeq_bool_eq in B1.
  rewrite Zpos_digits2_pos in B1. pose proof (Zdigits_correct radix2 (Z.pos m)) as D. change (Z.abs (Z.pos m)) with (Z.pos m) in D. set (d := Zdigits radix2 (Z.pos m)) in *.
  change (SpecFloat.fexp 24 128 (d + e)) with (Z.max (d + e - 24) (-149)) in B1. change (128 - 24)%Z with 104%Z in B2.
  assert (Pd : (0 < d)%Z) by (apply Zdigits_gt_0; discriminate).
  change (Zpower radix2 (d - 1)) with (2 ^ (d - 1))%Z in D. change (Zpower radix2 d) with (2 ^ d)%Z in D.
  assert (L : (d <= 24)%Z) by lia. split; [apply Z.lt_le_trans with (2 ^ d)%Z; [apply D|apply Z.pow_le_mono_r; lia]|]. split; [lia|].
  intros H. destruct (Z.eq_dec d 24) as [E|E]; [|lia]. exfalso. rewrite E in D. change (24 - 1)%Z with 23%Z in D. lia.
Qed.
Lemma bits_parts s E M : (E < 256)%N -> (M < 2 ^ 23)%N -> f32_value (sign_bit s + E * 2 ^ 23 + M) =
  (if E =? 255 then (if M =? 0 then Inf s else NaN) else Fin s (if E =? 0 then M else (2 ^ 23 + M) * 2 ^ (E - 1)))%N /\ (sign_bit s + E * 2 ^ 23 + M < 2 ^ 32)%N.
Proof.
  intros HE HM. set (t := if s then 1%N else 0%N). assert (Ht : (t < 2)%N) by (unfold t; destruct s; reflexivity).
  assert (E1 : (sign_bit s + E * 2 ^ 23 + M = 2 ^ 31 * t + 2 ^ 23 * E + M)%N) by (unfold t, sign_bit; destruct s; lia).
  rewrite E1. destruct (parts32 t E M Ht HE HM) as (P1 & P2 & P3 & P4). split.
  - rewrite f32_fields. rewrite P1, P2, P3. unfold t. destruct s; reflexivity.
  - exact P4.
Qed.
Lemma to_bits_finite (f : float32) : is_finite f = true ->
  (bits_of_float f < 2 ^ 32)%N /\ exists m, f32_value (bits_of_float f) = Fin (Bsign f) m /\ B2R f = real_of (Bsign f) m.
Proof.
  intros F. destruct f as [s|s| |s m e B]; try discriminate F; unfold bits_of_float; cbn [Bsign B2R].
  - destruct (bits_parts s 0 0 eq_refl eq_refl) as [V L]. rewrite N.mul_0_l, !N.add_0_r in V, L. split; [exact L|]. exists 0%N. split; [exact V|].
    rewrite real_of_bpow. cbn. ring.
  - destruct (canonical m e B) as (C1 & C2 & C3). change (2 ^ 24)%Z with 16777216%Z in C1. change (2 ^ 23)%Z with 8388608%Z in C3. destruct (N.ltb_spec (N.pos m) (2 ^ 23)) as [H|H].
    + destruct (bits_parts s 0 (N.pos m) eq_refl H) as [V L]. rewrite N.mul_0_l, N.add_0_r in V, L. split; [exact L|]. exists (N.pos m). split; [exact V|].
      change (2 ^ 23)%N with 8388608%N in H. rewrite (C3 ltac:(lia)). rewrite real_of_bpow. unfold F2R. cbn [Fnum Fexp]. change (Z.of_N (N.pos m)) with (Z.pos m).
      destruct s; cbn [cond_Zopp]; [rewrite opp_IZR|]; ring.
    + change (2 ^ 23)%N with 8388608%N in H. assert (HE : (Z.to_N (e + 150) < 256)%N) by lia. assert (HM : (N.pos m - 2 ^ 23 < 2 ^ 23)%N) by (change (2 ^ 23)%N with 8388608%N; lia).
      destruct (bits_parts s (Z.to_N (e + 150)) (N.pos m - 2 ^ 23) HE HM) as [V L]. split; [exact L|]. eexists. split.
      * rewrite V. replace (Z.to_N (e + 150) =? 255)%N with false by (symmetry; apply N.eqb_neq; lia). replace (Z.to_N (e + 150) =? 0)%N with false by (symmetry; apply N.eqb_neq; lia). reflexivity.
      * replace (2 ^ 23 + (N.pos m - 2 ^ 23))%N with (N.pos m) by (change (2 ^ 23)%N with 8388608%N; lia).
        rewrite real_of_bpow. unfold F2R. cbn [Fnum Fexp]. rewrite N2Z.inj_mul, mult_IZR, N2Z.inj_pow. change (Z.of_N (N.pos m)) with (Z.pos m).
        replace (IZR (Z.of_N 2 ^ Z.of_N (Z.to_N (e + 150) - 1))) with (bpow radix2 (Z.of_N (Z.to_N (e + 150) - 1))) by (rewrite <- IZR_Zpower by lia; reflexivity).
        replace (bpow radix2 e) with (bpow radix2 (Z.of_N (Z.to_N (e + 150) - 1)) * bpow radix2 (-149)) by (rewrite <- bpow_plus; f_equal; lia).
        destruct s; cbn [cond_Zopp]; [rewrite opp_IZR|]; ring.
Qed.
Lemma to_bits_inf s : (bits_of_float (B754_infinity s) < 2 ^ 32)%N /\ f32_value (bits_of_float (B754_infinity s)) = Inf s.
Proof. destruct s; split; reflexivity. Qed.
Lemma to_bits_nan : (bits_of_float B754_nan < 2 ^ 32)%N /\ f32_value (bits_of_float B754_nan) = NaN.
Proof. split; reflexivity. Qed.

(* ------------------------------------------------------------------ widening and narrowing *)
Lemma widen_finite h r : half_is h r -> exists x, widen h = Some x /\ is_finite x = true /\ B2R x = r.
Proof.
  intros (H & s & m & V & ->). destruct (widen_ok h H) as (x & X & L & Vx & _). unfold widen. rewrite X. cbn [option_bind]. eexists. split; [reflexivity|].
  rewrite V in Vx. apply of_bits_finite; assumption.
Qed.
Lemma widen_inf h s : (h < 2 ^ 16)%N -> f16_value h = Inf s -> widen h = Some (B754_infinity s).
Proof.
  intros H V. destruct (widen_ok h H) as (x & X & L & Vx & _). unfold widen. rewrite X. cbn [option_bind]. f_equal. apply of_bits_inf; congruence.
Qed.
Lemma widen_nan h : (h < 2 ^ 16)%N -> f16_value h = NaN -> widen h = Some B754_nan.
Proof.
  intros H V. destruct (widen_ok h H) as (x & X & L & Vx & _). unfold widen. rewrite X. cbn [option_bind]. f_equal. apply of_bits_nan; congruence.
Qed.
Lemma half_format h r : half_is h r -> format r.
Proof. intros H. destruct (widen_finite h r H) as (x & _ & _ & <-). exact (fmt 24 128 x). Qed.

Lemma real_bound s m k : (0 <= k + 149)%Z -> bpow radix2 k <= Rabs (real_of s m) <-> (2 ^ Z.to_N (k + 149) <= m)%N.
Proof.
  intros K. rewrite real_abs. pose proof (bpow_gt_0 radix2 (-149)) as P. replace (bpow radix2 k) with (IZR (2 ^ (k + 149)) * bpow radix2 (-149)).
  2:{ replace (IZR (2 ^ (k + 149))) with (bpow radix2 (k + 149)) by (rewrite <- IZR_Zpower by exact K; reflexivity). rewrite <- bpow_plus. f_equal. lia. }
  assert (Q : Z.of_N (2 ^ Z.to_N (k + 149)) = (2 ^ (k + 149))%Z) by (rewrite N2Z.inj_pow, Z2N.id by exact K; reflexivity). split; intros H.
  - apply Rmult_le_reg_r in H; [|exact P]. apply le_IZR in H. lia.
  - apply Rmult_le_compat_r; [lra|]. apply IZR_le. lia.
Qed.
Lemma real_bound_lt s m k : (0 <= k + 149)%Z -> Rabs (real_of s m) < bpow radix2 k <-> (m < 2 ^ Z.to_N (k + 149))%N.
Proof.
  intros K. pose proof (real_bound s m k K) as [A B]. split; intros H.
  - apply N.nle_gt. intros L. apply B in L. lra.
  - apply Rnot_le_lt. intros L. apply A in L. lia.
Qed.
(** Narrowing a float that is zero or in the range of normal halves: the greatest magnitude not above, same sign. *)
Lemma narrow_ok (f : float32) : is_finite f = true -> (bpow radix2 (-14) <= Rabs (B2R f) < bpow radix2 16 \/ B2R f = 0) ->
  exists r, half_is (narrow f) r /\ Rabs r <= Rabs (B2R f) /\ 0 <= r * B2R f /\ forall k q, half_is k q -> Rabs q <= Rabs (B2R f) -> Rabs q <= Rabs r.
Proof.
  intros F Rg. destruct (to_bits_finite f F) as (L & m & V & E). unfold narrow. destruct Rg as [[A B]|Z0].
  - rewrite E in A, B. apply real_bound in A; [|lia]. apply real_bound_lt in B; [|lia]. change (Z.to_N (-14 + 149)) with 135%N in A. change (Z.to_N (16 + 149)) with 165%N in B.
    destruct (normal_trunc _ _ _ L V A B) as (N & m' & V' & Lm & G). exists (real_of (Bsign f) m'). split; [split; [exact N|]; exists (Bsign f), m'; split; [exact V'|reflexivity]|].
    rewrite E. split; [apply real_le, Lm|]. split.
    + rewrite !real_of_bpow. pose proof (bpow_gt_0 radix2 (-149)). assert (0 <= IZR (Z.of_N m)) by (apply IZR_le; lia). assert (0 <= IZR (Z.of_N m')) by (apply IZR_le; lia).
      assert (0 <= IZR (Z.of_N m) * bpow radix2 (-149)) by nra. assert (0 <= IZR (Z.of_N m') * bpow radix2 (-149)) by nra. destruct (Bsign f); nra.
    + intros k q (Hk & t & n & Vk & ->) Lq. apply real_le in Lq. apply real_le. exact (G k t n Hk Vk Lq).
  - assert (M0 : m = 0%N). { pose proof (real_le (Bsign f) m false 0) as [H _]. rewrite <- E, Z0 in H. enough (m <= 0)%N by lia. apply H. rewrite Rabs_R0. apply Rabs_pos. }
    destruct (special_ok _ L) as (_ & _ & S & _). rewrite M0 in V. destruct (S _ _ V eq_refl) as [N V']. exists 0. rewrite Z0, Rabs_R0.
    split; [split; [exact N|]; exists (Bsign f), 0%N; split; [exact V'|rewrite real_of_bpow; cbn; ring]|]. repeat split; try lra; intros; assumption.
Qed.
