(** Floats and halves: no quotient of two of them is close enough to one of the numbers without an arc tangent. *)
From Coq Require Import ZArith Bool List Reals Lra Lia Psatz.
From Flocq Require Import Core BinarySingleNaN.
From Verif Require Import FpModel FpProofs SqrtModel ArcModel ArcSpec QuadModel QuadSpec QuadProofs.
Local Open Scope Z_scope.

(** Neighbouring convergents [p1/q1], [p2/q2] of [M / 2^d]: nothing with a denominator below [q2] is closer than [p1/q1]. *)
Lemma apart p1 q1 p2 q2 s M D m n : s * (p1 * q2 - p2 * q1) = 1 -> 0 < n < 2 ^ 24 -> 2 * Z.abs (m * D - n * M) <= n ->
  exists a b, n = a * q1 + b * q2 /\ m * D - n * M = a * (p1 * D - q1 * M) + b * (p2 * D - q2 * M).
Proof.
  intros S N H. exists (s * (m * q2 - n * p2)), (s * (n * p1 - m * q1)).
  assert (E1 : n = s * (p1 * q2 - p2 * q1) * n) by (rewrite S; ring). assert (E2 : m = s * (p1 * q2 - p2 * q1) * m) by (rewrite S; ring).
  split; [etransitivity; [exact E1|]; ring|]. rewrite E1 at 1. rewrite E2 at 1. ring.
Qed.
Ltac convergents p1 q1 p2 q2 s :=
  intros N H; match type of H with 2 * Z.abs (?m * ?D - ?n * ?M) <= _ => 
    destruct (apart p1 q1 p2 q2 s M D m n eq_refl N H) as (a & b & E1 & E2); rewrite E2 in H;
    let x := eval vm_compute in (p1 * D - q1 * M) in change (p1 * D - q1 * M) with x in H; let y := eval vm_compute in (p2 * D - q2 * M) in change (p2 * D - q2 * M) with y in H;
    clear E2; change (2 ^ 24) with 16777216 in N; destruct (Z.lt_trichotomy b 0) as [?|[?|?]]; lia end.
Lemma apart_0_62 m n : 0 < n < 2 ^ 24 -> 2 * Z.abs (m * 2 ^ 62 - n * 18446744073709551615) <= n -> False.
Proof. convergents 4 1 18446744073709551615 4611686018427387904 (1). Qed.
Lemma apart_0_63 m n : 0 < n < 2 ^ 24 -> 2 * Z.abs (m * 2 ^ 63 - n * 18446744073709551615) <= n -> False.
Proof. convergents 2 1 18446744073709551615 9223372036854775808 (1). Qed.
Lemma apart_0_64 m n : 0 < n < 2 ^ 24 -> 2 * Z.abs (m * 2 ^ 64 - n * 18446744073709551615) <= n -> False.
Proof. convergents 1 1 18446744073709551615 18446744073709551616 (1). Qed.
Lemma apart_0_65 m n : 0 < n < 2 ^ 24 -> 2 * Z.abs (m * 2 ^ 65 - n * 18446744073709551615) <= n -> False.
Proof. convergents 1 2 9223372036854775807 18446744073709551615 (1). Qed.
Lemma apart_1_62 m n : 0 < n < 2 ^ 24 -> 2 * Z.abs (m * 2 ^ 62 - n * 9885580355068146057) <= n -> False.
Proof. convergents 15731042 7338631 93821533 43768341 (-1). Qed.
Lemma apart_1_63 m n : 0 < n < 2 ^ 24 -> 2 * Z.abs (m * 2 ^ 63 - n * 9885580355068146057) <= n -> False.
Proof. convergents 7865521 7338631 101687054 94875313 (-1). Qed.
Lemma apart_1_64 m n : 0 < n < 2 ^ 24 -> 2 * Z.abs (m * 2 ^ 64 - n * 9885580355068146057) <= n -> False.
Proof. convergents 7865521 14677262 50843527 94875313 (-1). Qed.
Lemma apart_1_65 m n : 0 < n < 2 ^ 24 -> 2 * Z.abs (m * 2 ^ 65 - n * 9885580355068146057) <= n -> False.
Proof. convergents 2107560 7865521 5757961 21489003 (-1). Qed.
Lemma apart_2_62 m n : 0 < n < 2 ^ 24 -> 2 * Z.abs (m * 2 ^ 62 - n * 9885580355068146058) <= n -> False.
Proof. convergents 15731042 7338631 93821533 43768341 (-1). Qed.
Lemma apart_2_63 m n : 0 < n < 2 ^ 24 -> 2 * Z.abs (m * 2 ^ 63 - n * 9885580355068146058) <= n -> False.
Proof. convergents 7865521 7338631 101687054 94875313 (-1). Qed.
Lemma apart_2_64 m n : 0 < n < 2 ^ 24 -> 2 * Z.abs (m * 2 ^ 64 - n * 9885580355068146058) <= n -> False.
Proof. convergents 7865521 14677262 50843527 94875313 (-1). Qed.
Lemma apart_2_65 m n : 0 < n < 2 ^ 24 -> 2 * Z.abs (m * 2 ^ 65 - n * 9885580355068146058) <= n -> False.
Proof. convergents 2107560 7865521 5757961 21489003 (-1). Qed.
Lemma apart_3_62 m n : 0 < n < 2 ^ 24 -> 2 * Z.abs (m * 2 ^ 62 - n * 17211046529326033358) <= n -> False.
Proof. convergents 29354524 7865521 80198051 21489003 (1). Qed.
Lemma apart_3_63 m n : 0 < n < 2 ^ 24 -> 2 * Z.abs (m * 2 ^ 63 - n * 17211046529326033358) <= n -> False.
Proof. convergents 14677262 7865521 94875313 50843527 (1). Qed.
Lemma apart_3_64 m n : 0 < n < 2 ^ 24 -> 2 * Z.abs (m * 2 ^ 64 - n * 17211046529326033358) <= n -> False.
Proof. convergents 7338631 7865521 94875313 101687054 (1). Qed.
Lemma apart_3_65 m n : 0 < n < 2 ^ 24 -> 2 * Z.abs (m * 2 ^ 65 - n * 17211046529326033358) <= n -> False.
Proof. convergents 7338631 15731042 43768341 93821533 (1). Qed.
Lemma apart_4_62 m n : 0 < n < 2 ^ 24 -> 2 * Z.abs (m * 2 ^ 62 - n * 17211046529326033359) <= n -> False.
Proof. convergents 29354524 7865521 80198051 21489003 (1). Qed.
Lemma apart_4_63 m n : 0 < n < 2 ^ 24 -> 2 * Z.abs (m * 2 ^ 63 - n * 17211046529326033359) <= n -> False.
Proof. convergents 14677262 7865521 94875313 50843527 (1). Qed.
Lemma apart_4_64 m n : 0 < n < 2 ^ 24 -> 2 * Z.abs (m * 2 ^ 64 - n * 17211046529326033359) <= n -> False.
Proof. convergents 7338631 7865521 94875313 101687054 (1). Qed.
Lemma apart_4_65 m n : 0 < n < 2 ^ 24 -> 2 * Z.abs (m * 2 ^ 65 - n * 17211046529326033359) <= n -> False.
Proof. convergents 7338631 15731042 43768341 93821533 (1). Qed.
Lemma apart_5_62 m n : 0 < n < 2 ^ 24 -> 2 * Z.abs (m * 2 ^ 62 - n * 17211046529326033360) <= n -> False.
Proof. convergents 29354524 7865521 80198051 21489003 (1). Qed.
Lemma apart_5_63 m n : 0 < n < 2 ^ 24 -> 2 * Z.abs (m * 2 ^ 63 - n * 17211046529326033360) <= n -> False.
Proof. convergents 14677262 7865521 94875313 50843527 (1). Qed.
Lemma apart_5_64 m n : 0 < n < 2 ^ 24 -> 2 * Z.abs (m * 2 ^ 64 - n * 17211046529326033360) <= n -> False.
Proof. convergents 7338631 7865521 94875313 101687054 (1). Qed.
Lemma apart_5_65 m n : 0 < n < 2 ^ 24 -> 2 * Z.abs (m * 2 ^ 65 - n * 17211046529326033360) <= n -> False.
Proof. convergents 7338631 15731042 43768341 93821533 (1). Qed.

Local Open Scope R_scope.
(** A number of at most 24 bits *)
Lemma mantissa24 p e (x : binary_float p e) : (p <= 24)%Z -> is_finite x = true -> B2R x <> 0 -> exists n k, (2 ^ 23 <= n < 2 ^ 24)%Z /\ Rabs (B2R x) = IZR n * bpow radix2 k.
Proof.
  intros P F N. destruct x as [s|s| |s m ex b]; try discriminate; [cbn in N; lra|]. assert (D : (Zdigits radix2 (Zpos m) <= 24)%Z).
  { pose proof b as b'. unfold SpecFloat.bounded, SpecFloat.canonical_mantissa in b'. apply andb_true_iff in b'. destruct b' as [b' _]. apply Zeq_bool_eq in b'. rewrite Digits.Zpos_digits2_pos in b'. unfold SpecFloat.fexp in b'. lia. }
  set (d := Zdigits radix2 (Zpos m)) in *. assert (D0 : (0 < d)%Z) by (apply Zdigits_gt_0; discriminate).
  pose proof (Zdigits_correct radix2 (Zpos m)) as C. fold d in C. cbn [Z.abs] in C. change (Zpower radix2 (d - 1)) with (2 ^ (d - 1))%Z in C. change (Zpower radix2 d) with (2 ^ d)%Z in C.
  exists (Zpos m * 2 ^ (24 - d))%Z, (ex - (24 - d))%Z. split.
  - replace (2 ^ 23)%Z with (2 ^ (d - 1) * 2 ^ (24 - d))%Z by (rewrite <- Z.pow_add_r by lia; f_equal; lia). replace (2 ^ 24)%Z with (2 ^ d * 2 ^ (24 - d))%Z by (rewrite <- Z.pow_add_r by lia; f_equal; lia).
    assert (0 < 2 ^ (24 - d))%Z by (apply Z.pow_pos_nonneg; lia). split; [apply Z.mul_le_mono_nonneg_r; lia|apply Z.mul_lt_mono_pos_r; lia].
  - cbn [B2R]. rewrite <- F2R_Zabs. replace (Z.abs (cond_Zopp s (Zpos m))) with (Zpos m) by (destruct s; reflexivity). unfold F2R. cbn [Fnum Fexp]. rewrite mult_IZR. change (2 ^ (24 - d))%Z with (Zpower radix2 (24 - d)). rewrite IZR_Zpower by lia. rewrite Rmult_assoc, <- bpow_plus. f_equal. f_equal. lia.
Qed.

Lemma half_spacing q M k : (2 ^ 63 <= M < 2 ^ 64)%Z -> (-16445 <= k)%Z -> Rabs (rounded64 q) = IZR M * bpow radix2 k -> Rabs (Rabs q - IZR M * bpow radix2 k) <= / 2 * bpow radix2 k.
Proof.
  intros H K E. assert (V : Valid_exp (FLT_exp (-16445) 64)) by (apply FLT_exp_valid; reflexivity).
  pose proof (error_le_half_ulp_round radix2 (FLT_exp (-16445) 64) (fun z => negb (Z.even z)) q) as B. fold (rounded64 q) in B.
  assert (U : ulp radix2 (FLT_exp (-16445) 64) (rounded64 q) = bpow radix2 k).
  { rewrite <- ulp_abs, E. assert (P : bpow radix2 (64 + k - 1) <= IZR M * bpow radix2 k < bpow radix2 (64 + k)).
    { replace (64 + k - 1)%Z with (63 + k)%Z by lia. rewrite !bpow_plus. pose proof (bpow_gt_0 radix2 k) as G. rewrite <- (IZR_Zpower radix2 63), <- (IZR_Zpower radix2 64) by discriminate. split.
      - apply Rmult_le_compat_r; [lra|]. apply IZR_le. exact (proj1 H).
      - apply Rmult_lt_compat_r; [lra|]. apply IZR_lt. exact (proj2 H). }
    rewrite ulp_neq_0 by (pose proof (bpow_gt_0 radix2 (64 + k - 1)); lra). f_equal. unfold cexp. rewrite (mag_unique_pos radix2 _ (64 + k) P). unfold FLT_exp. lia. }
  rewrite U in B. rewrite <- E. rewrite <- Rabs_Ropp. replace (- (Rabs q - Rabs (rounded64 q))) with (Rabs (rounded64 q) - Rabs q) by ring. eapply Rle_trans; [apply Rabs_triang_inv2|exact B].
Qed.

Lemma never_lost p e (y x : binary_float p e) : (p <= 24)%Z -> is_finite x = true -> is_finite y = true -> B2R x <> 0 -> ~ lost_arctan (rounded64 (B2R y / B2R x)).
Proof.
  intros P Fx Fy Nx (M & k & I & E). assert (MM : (2 ^ 63 <= M < 2 ^ 64)%Z /\ (-65 <= k <= -62)%Z). { cbn [In endless] in I. repeat (destruct I as [I|I]; [injection I as <- <-; lia|]). destruct I. }
  destruct MM as [MM K]. pose proof (half_spacing _ M k MM ltac:(lia) E) as B.
  assert (Ny : B2R y <> 0). { intros Z. rewrite Z in E. unfold Rdiv, rounded64 in E. rewrite Rmult_0_l, round_0, Rabs_R0 in E by apply valid_rnd_N. assert (0 < IZR M * bpow radix2 k) by (apply Rmult_lt_0_compat; [apply IZR_lt; lia|apply bpow_gt_0]). lra. }
  destruct (mantissa24 p e x P Fx Nx) as (n & i & Hn & Vn). destruct (mantissa24 p e y P Fy Ny) as (m & j & Hm & Vm).
  assert (Q : Rabs (B2R y / B2R x) = IZR m / IZR n * bpow radix2 (j - i)).
  { unfold Rdiv. rewrite Rabs_mult, Rabs_inv, Vn, Vm. unfold Z.sub. rewrite bpow_plus, bpow_opp. field. split; [apply Rgt_not_eq, bpow_gt_0|apply Rgt_not_eq, IZR_lt; lia]. }
  rewrite Q in B. set (d := (j - i - k)%Z). assert (N0 : 0 < IZR n) by (apply IZR_lt; lia). assert (M0 : 0 < IZR m) by (apply IZR_lt; lia).
  assert (G : Rabs (IZR m * bpow radix2 d - IZR n * IZR M) <= / 2 * IZR n).
  { assert (K0 := bpow_gt_0 radix2 k). apply Rmult_le_reg_r with (bpow radix2 k / IZR n); [apply Rdiv_lt_0_compat; lra|]. replace (/ 2 * IZR n * (bpow radix2 k / IZR n)) with (/ 2 * bpow radix2 k) by (field; lra).
    rewrite <- (Rabs_pos_eq (bpow radix2 k / IZR n)) by (left; apply Rdiv_lt_0_compat; lra). rewrite <- Rabs_mult. replace (j - i)%Z with (d + k)%Z in B by (unfold d; ring). rewrite bpow_plus in B.
    replace ((IZR m * bpow radix2 d - IZR n * IZR M) * (bpow radix2 k / IZR n)) with (IZR m / IZR n * (bpow radix2 d * bpow radix2 k) - IZR M * bpow radix2 k) by (field; lra). exact B. }
  assert (Hn' : 8388608 <= IZR n <= 16777215) by (split; apply IZR_le; lia). assert (Hm' : 8388608 <= IZR m <= 16777215) by (split; apply IZR_le; lia).
  assert (HM : bpow radix2 63 <= IZR M <= bpow radix2 64 - 1) by (rewrite <- !IZR_Zpower by discriminate; rewrite <- minus_IZR; split; apply IZR_le; [exact (proj1 MM)|]; change (Zpower radix2 64) with (2 ^ 64)%Z; lia).
  apply Rabs_le_inv in G. assert (D : (62 <= d <= 65)%Z).
  { change (bpow radix2 63) with 9223372036854775808 in HM. change (bpow radix2 64) with 18446744073709551616 in HM. split.
    - destruct (Z_lt_le_dec d 62) as [L|L]; [exfalso|exact L]. assert (H : bpow radix2 d <= bpow radix2 61) by (apply bpow_le; lia). change (bpow radix2 61) with 2305843009213693952 in H.
      assert (IZR m * bpow radix2 d <= 16777215 * 2305843009213693952) by (apply Rmult_le_compat; try lra; apply bpow_ge_0). assert (8388608 * (9223372036854775808 - / 2) <= IZR n * (IZR M - / 2)) by (apply Rmult_le_compat; lra). lra.
    - destruct (Z_lt_le_dec 65 d) as [L|L]; [exfalso|exact L]. assert (H : bpow radix2 66 <= bpow radix2 d) by (apply bpow_le; lia). change (bpow radix2 66) with 73786976294838206464 in H.
      assert (8388608 * 73786976294838206464 <= IZR m * bpow radix2 d) by (apply Rmult_le_compat; lra). assert (IZR n * (IZR M + / 2) <= 16777215 * 18446744073709551616) by (apply Rmult_le_compat; lra). lra. }
  assert (W : (2 * Z.abs (m * 2 ^ d - n * M) <= n)%Z).
  { apply le_IZR. rewrite mult_IZR, abs_IZR, minus_IZR, !mult_IZR. change (2 ^ d)%Z with (Zpower radix2 d). rewrite IZR_Zpower by lia. assert (Rabs (IZR m * bpow radix2 d - IZR n * IZR M) <= / 2 * IZR n) by (apply Rabs_le; lra). lra. }
  assert (N24 : (0 < n < 2 ^ 24)%Z) by lia. clearbody d. clear - I D W N24. cbn [In endless] in I.
  assert (d = 62 \/ d = 63 \/ d = 64 \/ d = 65)%Z as T by lia.
  repeat (destruct I as [I|I]; [injection I as <- <-; destruct T as [->|[->|[->| ->]]]; revert N24 W|]); [..|destruct I].
  - apply apart_0_62.
  - apply apart_0_63.
  - apply apart_0_64.
  - apply apart_0_65.
  - apply apart_1_62.
  - apply apart_1_63.
  - apply apart_1_64.
  - apply apart_1_65.
  - apply apart_2_62.
  - apply apart_2_63.
  - apply apart_2_64.
  - apply apart_2_65.
  - apply apart_3_62.
  - apply apart_3_63.
  - apply apart_3_64.
  - apply apart_3_65.
  - apply apart_4_62.
  - apply apart_4_63.
  - apply apart_4_64.
  - apply apart_4_65.
  - apply apart_5_62.
  - apply apart_5_63.
  - apply apart_5_64.
  - apply apart_5_65.
Qed.
