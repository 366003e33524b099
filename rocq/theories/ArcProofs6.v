(** The compile-time arc tangent in the types narrower than long double; the depth of the recursion. *)
From Coq Require Import ZArith Bool List Reals Lra Lia String.
From Flocq Require Import Core BinarySingleNaN Relative.
From Verif Require Import FpModel FpProofs FpProofs2 SqrtModel SqrtProps SqrtProofs4 TrigSpec TrigProofs2 TrigProofs3 TrigProofs4 TrigProofs5 TrigProofs7 TrigProofs8 ArcModel ArcSpec ArcProofs ArcProofs2 ArcProofs3 ArcProofs4 ArcProofs5.
Local Open Scope R_scope.

Lemma atan_abs_eq v : Rabs (atan v) = atan (Rabs v).
Proof.
  destruct (Rle_lt_dec 0 v) as [H|H]; [rewrite !Rabs_pos_eq; [reflexivity|exact H|now apply atan_nonneg]|].
  rewrite (Rabs_left v) by exact H. rewrite atan_opp. rewrite <- (Rabs_Ropp (atan v)), <- atan_opp. rewrite Rabs_pos_eq; [now rewrite atan_opp|apply atan_nonneg; lra].
Qed.
Lemma atan_tiny_abs v : v * v <= 0.1 -> Rabs (v - atan v) <= v * v * Rabs v.
Proof.
  intros H. destruct (Rle_lt_dec 0 v) as [P|N].
  - pose proof (atan_near v P). pose proof (atan_tiny v P H). rewrite !Rabs_pos_eq by lra. lra.
  - pose proof (atan_near (- v) ltac:(lra)) as A. pose proof (atan_tiny (- v) ltac:(lra) ltac:(lra)) as B. rewrite atan_opp in A, B. rewrite (Rabs_left v) by lra. rewrite Rabs_left1 by lra. lra.
Qed.

Section Narrow.
  Variable p e P E : Z.
  Context (Hp : Prec_gt_0 p) (He : Prec_lt_emax p e) (HP : Prec_gt_0 P) (HE : Prec_lt_emax P E).
  Notation b := (bpow radix2).
  Hypothesis P_ok : (53 <= P <= 113)%Z.
  Hypothesis E_ok : (1024 <= E)%Z.
  Hypothesis p_ok : (3 <= p <= P)%Z.
  Hypothesis e_ok : (p + 3 <= e <= E)%Z.
  Notation rnd := (round radix2 (FLT_exp (3 - e - p) p) ZnearestE).
  Notation U := (b (- P)).

  (** Rounding the arc tangent of [x], where [x] is of the narrow type *)
  Lemma narrow_atan (x v : R) : generic_format radix2 (FLT_exp (3 - e - p) p) x -> Rabs (v - atan x) <= 64 * U * Rabs (atan x) -> Rabs (rnd v - atan x) <= (b (- p) + 136 * U) * Rabs (atan x).
  Proof using P_ok E_ok p_ok e_ok Hp.
    intros Fx H. pose proof (u_pos P) as U0. pose proof (u_tiny P P_ok) as Ut. pose proof (Rabs_pos (atan x)) as A0. set (A := atan x) in *.
    assert (p0 : 0 < b (- p) <= / 8). { split; [apply bpow_gt_0|]. apply Rle_trans with (b (-3)); [apply bpow_le; lia|cbn; lra]. }
    assert (Vb : Rabs v <= (1 + 64 * U) * Rabs A). { replace v with ((v - A) + A) by ring. apply Rle_trans with (1 := Rabs_triang _ _). lra. }
    assert (Va : Rabs A * (1 - 64 * U) <= Rabs v). { assert (Rabs A <= Rabs v + Rabs (v - A)); [|lra]. replace A with (v + - (v - A)) at 1 by ring. apply Rle_trans with (1 := Rabs_triang _ _). rewrite Rabs_Ropp. lra. }
    assert (S : Rabs (rnd v - A) <= Rabs (rnd v - v) + 64 * U * Rabs A). { replace (rnd v - A) with ((rnd v - v) + (v - A)) by ring. apply Rle_trans with (1 := Rabs_triang _ _). lra. }
    assert (UA : 0 <= U * Rabs A) by (apply Rmult_le_pos; lra).
    destruct (Rle_lt_dec (b (2 - e)) (Rabs v)) as [L|L].
    - assert (D : Rabs (rnd v - v) <= b (- p) * Rabs v).
      { destruct (relative_error_N_FLT_ex radix2 (3 - e - p) p Hp (fun x => negb (Z.even x)) v) as (d & Hd & Ed); [replace (3 - e - p + p - 1)%Z with (2 - e)%Z by lia; exact L|].
        rewrite Ed. replace (v * (1 + d) - v) with (d * v) by ring. rewrite Rabs_mult. apply Rmult_le_compat_r; [apply Rabs_pos|]. apply Rle_trans with (1 := Hd). rewrite bpow_plus. cbn. lra. }
      assert (D2 : b (- p) * Rabs v <= b (- p) * ((1 + 64 * U) * Rabs A)) by (apply Rmult_le_compat_l; lra).
      assert (D3 : b (- p) * (64 * (U * Rabs A)) <= / 8 * (64 * (U * Rabs A))) by (apply Rmult_le_compat_r; lra). lra.
    - assert (e0 : b (2 - e) <= / 16). { apply Rle_trans with (b (-4)); [apply bpow_le; lia|cbn; lra]. }
      assert (A1 : Rabs A <= 1.01 * b (2 - e)) by (assert (0 <= b (2 - e)) by apply bpow_ge_0; assert (U * Rabs A <= / 1000000 * Rabs A) by (apply Rmult_le_compat_r; lra); lra).
      assert (X1 : Rabs x <= 0.2).
      { apply Rnot_lt_le. intros G. assert (atan 0.2 <= atan (Rabs x)) by (apply atan_le; lra). rewrite <- atan_abs_eq in H0. fold A in H0. pose proof (atan_near 0.2 ltac:(lra)). lra. }
      assert (X2 : x * x <= 0.04). { rewrite <- (Rabs_pos_eq (x * x)) by (apply Rle_0_sqr). rewrite Rabs_mult. pose proof (Rabs_pos x). apply Rle_trans with (0.2 * 0.2); [apply Rmult_le_compat; lra|lra]. }
      pose proof (atan_tiny_abs x ltac:(lra)) as T. fold A in T. pose proof (Rabs_pos x) as X0.
      assert (X3 : Rabs x <= 1.05 * Rabs A). { assert (Rabs x <= Rabs A + Rabs (x - A)). { replace x with (A + (x - A)) at 1 by ring. apply Rabs_triang. } assert (x * x * Rabs x <= 0.04 * Rabs x) by (apply Rmult_le_compat_r; lra). lra. }
      assert (N : Rabs (rnd v - v) <= Rabs (x - v)). { apply (round_N_pt radix2 (FLT_exp (3 - e - p) p) (fun x => negb (Z.even x)) v). exact Fx. }
      assert (N2 : Rabs (x - v) <= Rabs (x - A) + 64 * U * Rabs A). { replace (x - v) with ((x - A) + - (v - A)) by ring. apply Rle_trans with (1 := Rabs_triang _ _). rewrite Rabs_Ropp. lra. }
      assert (X4 : x * x <= b (- p) / 2).
      { rewrite <- (Rabs_pos_eq (x * x)) by (apply Rle_0_sqr). rewrite Rabs_mult. assert (0 < b (2 - e)) by apply bpow_gt_0. apply Rle_trans with ((1.07 * b (2 - e)) * (1.07 * b (2 - e))); [apply Rmult_le_compat; lra|].
        assert (Q : b (2 - e) * b (2 - e) <= b (-2) * b (- p)) by (rewrite <- !bpow_plus; apply bpow_le; lia). change (b (-2)) with (/ 4) in Q. lra. }
      assert (X5 : x * x * Rabs x <= b (- p) / 2 * Rabs x) by (apply Rmult_le_compat_r; lra). assert (X6 : b (- p) / 2 * Rabs x <= b (- p) / 2 * (1.05 * Rabs A)) by (apply Rmult_le_compat_l; lra).
      assert (0 <= b (- p) * Rabs A) by (apply Rmult_le_pos; lra). lra.
  Qed.
  Lemma narrow_atan_good (c : arc_constants P E) (x : binary_float p e) fuel : is_finite x = true -> good P E (atan_naive P E _ _ c fuel (fp_cast p e P E _ _ x)) (atan (B2R x)) (64 * U * Rabs (atan (B2R x))) ->
    good p e (atan_narrow p e P E _ _ _ _ c fuel x) (atan (B2R x)) ((b (- p) + 136 * U) * Rabs (atan (B2R x))).
  Proof using P_ok E_ok p_ok e_ok.
    intros F (y & Ey & Fy & By). unfold atan_narrow, by_long_double. rewrite Ey. cbn [option_map]. pose proof (u_pos P) as U0. pose proof (u_tiny P P_ok) as Ut. pose proof PI_bounds as PB.
    assert (A2 : Rabs (atan (B2R x)) <= 1.6). { apply Rabs_le. pose proof (Ratan.atan_bound (B2R x)). lra. }
    destruct (fp_cast_ok P E p e _ _ y Fy) as [Fc Vc].
    { apply Rle_lt_trans with (b 1); [|apply bpow_lt; lia]. apply abs_round_le_generic; [apply FLT_exp_valid; exact Hp|apply valid_rnd_N|apply generic_format_bpow; unfold FLT_exp; lia|].
      assert (64 * U * Rabs (atan (B2R x)) <= 64 * U * 1.6) by (apply Rmult_le_compat_l; lra). change (b 1) with 2. replace (B2R y) with ((B2R y - atan (B2R x)) + atan (B2R x)) by ring. apply Rle_trans with (1 := Rabs_triang _ _). lra. }
    eexists. split; [reflexivity|]. split; [exact Fc|]. rewrite Vc. apply narrow_atan; [apply generic_format_B2R|exact By].
  Qed.
End Narrow.

(** Numbers of at most 53 bits are none of those at which the recursion does not end. *)
Lemma short_not p e m k : (1 < p <= 53)%Z -> (2 ^ 63 <= Zpos m < 2 ^ 64)%Z -> (Zpos m mod 2048 <> 0)%Z -> ~ generic_format radix2 (FLT_exp (3 - e - p) p) (IZR (Zpos m) * bpow radix2 k).
Proof.
  intros P M N F. apply N. set (v := IZR (Zpos m) * bpow radix2 k) in *.
  assert (B : bpow radix2 (64 + k - 1) <= v < bpow radix2 (64 + k)).
  { unfold v. split.
    - replace (64 + k - 1)%Z with (63 + k)%Z by lia. rewrite bpow_plus. apply Rmult_le_compat_r; [apply bpow_ge_0|]. rewrite <- IZR_Zpower by lia. apply IZR_le. exact (proj1 M).
    - rewrite bpow_plus. apply Rmult_lt_compat_r; [apply bpow_gt_0|]. rewrite <- IZR_Zpower by lia. apply IZR_lt. exact (proj2 M). }
  unfold generic_format in F. set (z := Ztrunc (scaled_mantissa radix2 (FLT_exp (3 - e - p) p) v)) in *. unfold F2R, cexp in F. cbn [Fnum Fexp] in F. rewrite (mag_unique_pos radix2 v (64 + k) B) in F.
  set (x := FLT_exp (3 - e - p) p (64 + k)) in *. assert (X : (k + 11 <= x)%Z) by (unfold x, FLT_exp; lia).
  assert (Q : Zpos m = (z * 2 ^ (x - k))%Z).
  { apply eq_IZR. rewrite mult_IZR. change 2%Z with (radix_val radix2). rewrite IZR_Zpower by lia. apply Rmult_eq_reg_r with (bpow radix2 k); [|apply Rgt_not_eq, bpow_gt_0]. rewrite Rmult_assoc, <- bpow_plus. replace (x - k + k)%Z with x by lia. exact F. }
  rewrite Q. replace (x - k)%Z with ((x - k - 11) + 11)%Z by lia. rewrite Z.pow_add_r by lia. change (2 ^ 11)%Z with 2048%Z. rewrite Z.mul_assoc. apply Z.mod_mul. lia.
Qed.
Lemma short_found p e (H1 : Prec_gt_0 p) (H2 : Prec_lt_emax p e) (x : binary_float p e) : (3 <= p <= 53)%Z -> (p + 3 <= e <= 16384)%Z -> is_finite x = true -> ~ lost (Babs (fp_cast p e 64 16384 p64 e16384 x)).
Proof.
  intros P E F L. destruct (widen p e 64 16384 p64 e16384 ltac:(lia) ltac:(lia) x F) as [Fw Vw].
  assert (G : generic_format radix2 (FLT_exp (3 - e - p) p) (B2R (Babs (fp_cast p e 64 16384 p64 e16384 x)))). { rewrite B2R_Babs, Vw. apply generic_format_abs, generic_format_B2R. }
  destruct L as [L|[L|[L|[L|[L|L]]]]]; rewrite L in G; unfold h1, l1, l2, r1, r2, r3 in G; rewrite num_value in G; revert G; apply short_not; try lia; intros Q; vm_compute in Q; discriminate Q.
Qed.
