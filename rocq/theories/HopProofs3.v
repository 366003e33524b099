(** Proofs about halves and integers, floor, ceil, square roots, and what happens outside the range of normal halves. *)
From Coq Require Import ZArith NArith Bool Reals Lra Lia ZifyBool ZifyNat ZifyN List.
From Flocq Require Import Core BinarySingleNaN Relative Operations.
From Verif Require Import Words WordsProofs HalfModel HalfSpec HalfProofs FpModel FpProofs HopModel HopSpec HopProofs HopProofs2.
Local Open Scope R_scope.
Ltac Zify.zify_post_hook ::= idtac.

#[local] Existing Instances HopModel.float_prec HopModel.float_emax.
#[local] Instance fexp_ok : Valid_exp fexp32 := FLT_exp_valid (-149) 24.
Notation flt_of_Z := (of_Z 24 128 _ _).

Lemma half_bound h q : half_is h q -> Rabs q < 65536.
Proof.
  intros H. destruct (half_parts h q H) as (M & E & -> & BM & BE). rewrite abs_parts. rewrite <- pow16. replace (bpow radix2 16) with (bpow radix2 11 * bpow radix2 5) by (rewrite <- bpow_plus; reflexivity).
  apply Rlt_le_trans with (bpow radix2 11 * bpow radix2 E); [|apply Rmult_le_compat_l; [apply bpow_ge_0 | apply bpow_le; lia]].
  apply Rmult_lt_compat_r; [apply bpow_gt_0|]. change (bpow radix2 11) with (IZR (2 ^ 11)). apply IZR_lt, BM.
Qed.
Lemma of_Z_round n : (Z.abs n <= 2 ^ 127)%Z -> is_finite (flt_of_Z n) = true /\ B2R (flt_of_Z n) = rnd (IZR n).
Proof.
  intros H. unfold of_Z. pose proof (binary_normalize_correct 24 128 _ _ mode_NE n 0 false) as C. cbv zeta in C.
  assert (E : F2R (Float radix2 n 0) = IZR n) by (unfold F2R; cbn; apply Rmult_1_r). rewrite E in C. rewrite Rlt_bool_true in C.
  - destruct C as (C1 & C2 & _). split; assumption.
  - change (Rabs (rnd (IZR n)) < bpow radix2 128). rewrite rabs, <- abs_IZR. apply Rle_lt_trans with (bpow radix2 127); [|apply bpow_lt; reflexivity].
    rewrite <- (rfmt (bpow radix2 127)) by (apply fmt_pow; lia). apply rle. change (bpow radix2 127) with (IZR (2 ^ 127)). apply IZR_le, H.
Qed.
(** Rounding an integer to float does not change how it compares with a half. *)
Lemma int_rel h q n : half_is h q -> (q < IZR n <-> q < rnd (IZR n)) /\ (IZR n < q <-> rnd (IZR n) < q) /\ (q = IZR n <-> q = rnd (IZR n)).
Proof.
  intros H. pose proof (half_bound h q H) as B. apply Rabs_def2 in B. destruct (Z_lt_le_dec (Z.abs n) (2 ^ 24)) as [S|L].
  - rewrite (rfmt (IZR n)) by (apply fmt_int, S). tauto.
  - destruct (Z_lt_le_dec n 0) as [Ng|Ps].
    + assert (A : IZR n <= -16777216) by (apply IZR_le; lia). pose proof (rle _ _ A) as A'. rewrite (rfmt (-16777216)) in A'. 2:{ replace (-16777216) with (- bpow radix2 24) by (cbn; lra). apply generic_format_opp, fmt_pow. lia. }
      lra.
    + assert (A : 16777216 <= IZR n) by (apply IZR_le; lia). pose proof (rle _ _ A) as A'. rewrite (rfmt 16777216) in A'. 2:{ replace 16777216 with (bpow radix2 24) by reflexivity. apply fmt_pow. lia. }
      lra.
Qed.
Lemma whole_real n : real_of (n <? 0)%Z (Z.to_N (Z.abs n) * one_unit) = IZR n.
Proof.
  rewrite real_signed. unfold signed. assert (Q : Z.of_N (Z.to_N (Z.abs n) * one_unit) = (Z.abs n * 2 ^ 149)%Z) by (rewrite N2Z.inj_mul, Z2N.id by lia; reflexivity).
  rewrite Q. assert (P : forall k, IZR (k * 2 ^ 149) * bpow radix2 (-149) = IZR k).
  { intros k. rewrite mult_IZR, unit_pow, Rmult_assoc, <- bpow_plus. cbn. ring. }
  destruct (Z.ltb_spec n 0) as [L|L].
  - rewrite <- Z.mul_opp_l, P. f_equal. lia.
  - rewrite P. f_equal. lia.
Qed.
Lemma int_stands n : (Z.abs n <= 2 ^ 127)%Z -> exists s m, stands (flt_of_Z n) (Fin s m).
Proof.
  intros H. destruct (of_Z_round n H) as [F E]. destruct (to_bits_finite _ F) as (_ & m & _ & V). exists (Bsign (flt_of_Z n)), m. split; assumption.
Qed.
Lemma int_compare h n : (h < 2 ^ 16)%N -> (Z.abs n <= 2 ^ 127)%Z -> exists f, widen h = Some f /\
  (Bltb f (flt_of_Z n) = true <-> below (f16_value h) (whole n)) /\ (Bltb (flt_of_Z n) f = true <-> below (whole n) (f16_value h)) /\
  (Beqb f (flt_of_Z n) = true <-> same (f16_value h) (whole n)).
Proof.
  intros H Hn. destruct (widen_stands h H) as (f & W & S). exists f. split; [exact W|]. destruct (int_stands n Hn) as (t & k & T).
  pose proof (ltb_stands _ _ _ _ S T) as L1. pose proof (ltb_stands _ _ _ _ T S) as L2. pose proof (eqb_stands _ _ _ _ S T) as L3. unfold whole.
  destruct (f16_value h) as [|s|s m] eqn:V; [exact (conj L1 (conj L2 L3)) .. |].
  destruct (of_Z_round n Hn) as [Fn En]. destruct S as [Ff Ef]. assert (Hi : half_is h (real_of s m)) by (split; [exact H|]; exists s, m; auto).
  destruct (int_rel h _ n Hi) as (R1 & R2 & R3). rewrite L1, L2, L3. cbn [below same]. rewrite <- !real_lt, <- !real_eq, !whole_real. destruct T as [_ Et]. rewrite <- Et, En. tauto.
Qed.

(* ------------------------------------------------------------------ integers that are halves *)
Definition int_code (k : N) : N := (2 ^ 10 * (N.log2 k + 15) + (k * 2 ^ (10 - N.log2 k) - 2 ^ 10))%N.
Definition int_check (k : N) : bool := ((int_code k <? 2 ^ 16) && match f16_value (int_code k) with Fin false m => m =? k * one_unit | _ => false end)%N.
Lemma int_sweep : forallb int_check (nseq (N.to_nat 1024) 1) = true.
Proof. vm_compute. reflexivity. Qed.
Lemma int_half k : (Z.abs k <= 1024)%Z -> exists h, half_is h (IZR k).
Proof.
  intros H. destruct (Z.eq_dec k 0) as [->|N0].
  { exists 0%N. split; [reflexivity|]. exists false, 0%N. split; [reflexivity|]. rewrite real_of_bpow. cbn. ring. }
  set (n := Z.to_N (Z.abs k)). assert (I : int_check n = true). { apply (proj1 (forallb_forall _ _) int_sweep n). apply in_nseq; unfold n; lia. }
  unfold int_check in I. apply andb_true_iff in I. destruct I as [I1 I2]. apply N.ltb_lt in I1. destruct (f16_value (int_code n)) as [|?|[] m] eqn:V; try discriminate I2. apply N.eqb_eq in I2.
  pose proof (whole_real k) as W. fold n in W. rewrite <- I2 in W. destruct (Z.ltb_spec k 0) as [L|L].
  - exists (half_neg (int_code n)). destruct (signs_ok _ I1) as (S1 & S2 & _). split; [exact S1|]. exists true, m. rewrite S2, V. split; [reflexivity|]. symmetry. exact W.
  - exists (int_code n). split; [exact I1|]. exists false, m. split; [exact V|]. symmetry. exact W.
Qed.
Lemma half_whole h r : half_is h r -> 1024 <= Rabs r -> exists k, r = IZR k.
Proof.
  intros H L. destruct (half_parts h r H) as (M & E & -> & BM & BE). rewrite abs_parts in L. destruct (Z_lt_le_dec E 0) as [Ng|Ps].
  - exfalso. assert (bpow radix2 E <= / 2) by (change (/ 2) with (bpow radix2 (-1)); apply bpow_le; lia). assert (IZR (Z.abs M) < 2048) by (apply (IZR_lt _ 2048), BM).
    assert (0 <= IZR (Z.abs M)) by (apply IZR_le; lia). pose proof (bpow_gt_0 radix2 E). nra.
  - exists (M * 2 ^ E)%Z. unfold F2R. cbn [Fnum Fexp]. rewrite mult_IZR. f_equal. rewrite <- IZR_Zpower by exact Ps. reflexivity.
Qed.
Lemma faithful_exact k q h : half_is k q -> faithful q h -> half_is h q.
Proof. intros K (r & H & B). destruct (B k q K) as [L U]. replace q with r; [exact H|]. apply Rle_antisym; [apply U | apply L]; lra. Qed.
Lemma good_int n : (Z.abs n <= 65535)%Z -> good (IZR n).
Proof.
  intros H. destruct (Z.eq_dec n 0) as [->|N0]; [right; reflexivity|]. left. rewrite <- abs_IZR. split.
  - apply Rle_trans with 1; [change 1 with (bpow radix2 0); apply bpow_le; lia|]. apply IZR_le. lia.
  - apply IZR_le, H.
Qed.
Lemma of_int_faithful n : (Z.abs n <= 65535)%Z -> faithful (IZR n) (half_of_int n).
Proof. intros H. destruct (of_Z_round n) as [F E]; [lia|]. apply faithful_narrow; [exact F | exact E | apply good_int, H]. Qed.
Lemma of_int_exact k n : half_is k (IZR n) -> half_is (half_of_int n) (IZR n).
Proof.
  intros H. apply (faithful_exact k); [exact H|]. apply of_int_faithful. pose proof (half_bound _ _ H) as B. rewrite <- abs_IZR in B. apply lt_IZR in B. lia.
Qed.
(** Rounding a half to an integer, downwards or upwards, gives a half. *)
Lemma rounded_half h r k : half_is h r -> IZR k - 1 < r < IZR k + 1 -> (forall j, r = IZR j -> k = j) -> exists j, half_is j (IZR k).
Proof.
  intros H B I. destruct (Rle_lt_dec 1024 (Rabs r)) as [L|L].
  - destruct (half_whole h r H L) as (j & E). exists h. rewrite (I j E), <- E. exact H.
  - apply int_half. apply Rabs_def2 in L. assert (IZR (-1025) < IZR k < IZR 1025) as [A C] by lra. apply lt_IZR in A, C. lia.
Qed.
Lemma to_int_trunc h r x : half_is h r -> is_finite x = true -> B2R x = r -> to_intmax 24 128 x = Some (Ztrunc r) /\ (Z.abs (Ztrunc r) <= 65535)%Z.
Proof.
  intros H F E. pose proof (half_bound _ _ H) as B. pose proof (ztrunc_abs r) as T. rewrite <- abs_IZR in T. assert (L : (Z.abs (Ztrunc r) < 65536)%Z) by (apply lt_IZR; lra).
  unfold to_intmax. rewrite F, (trunc_eq 24 128 _ x), E. cbn [andb]. replace (in_intmax (Ztrunc r)) with true; [split; [reflexivity|lia]|]. symmetry. apply in_intmax_iff. lia.
Qed.
Lemma floor_half h r : half_is h r -> exists j, half_floor h = Some j /\ half_is j (IZR (Zfloor r)).
Proof.
  intros H. destruct (widen_finite h r H) as (x & W & F & E). unfold half_floor, half_lt_int, with_int. rewrite W. cbn [option_bind].
  destruct (Beqb x (zero 24 128) || negb (Beqb x x)) eqn:Z0.
  - apply eq_zero in Z0; [|exact F]. rewrite E in Z0. exists h. split; [reflexivity|]. subst r. rewrite Z0, Zfloor_IZR in *. exact H.
  - destruct (to_int_trunc h r x H F E) as [T L]. rewrite T. cbn [option_bind]. eexists. split; [reflexivity|].
    destruct (of_Z_round (Ztrunc r)) as [Fn En]; [lia|]. rewrite (Bltb_correct 24 128 x _ F Fn), E, En, (rfmt (IZR (Ztrunc r))) by (apply fmt_int; lia). rewrite <- zfloor_trunc.
    destruct (rounded_half h r (Zfloor r) H) as (j & Hj); [pose proof (Zfloor_lb r); pose proof (Zfloor_ub r); lra | intros j ->; apply Zfloor_IZR |]. apply (of_int_exact j), Hj.
Qed.
Lemma ceil_half h r : half_is h r -> exists j, half_ceil h = Some j /\ half_is j (IZR (Zceil r)).
Proof.
  intros H. destruct (widen_finite h r H) as (x & W & F & E). unfold half_ceil, half_gt_int, with_int. rewrite W. cbn [option_bind].
  destruct (Beqb x (zero 24 128) || negb (Beqb x x)) eqn:Z0.
  - apply eq_zero in Z0; [|exact F]. rewrite E in Z0. exists h. split; [reflexivity|]. subst r. rewrite Z0, Zceil_IZR in *. exact H.
  - destruct (to_int_trunc h r x H F E) as [T L]. rewrite T. cbn [option_bind]. eexists. split; [reflexivity|].
    destruct (of_Z_round (Ztrunc r)) as [Fn En]; [lia|]. rewrite (Bltb_correct 24 128 _ x Fn F), E, En, (rfmt (IZR (Ztrunc r))) by (apply fmt_int; lia). rewrite <- zceil_trunc.
    destruct (rounded_half h r (Zceil r) H) as (j & Hj); [pose proof (Zceil_ub r); pose proof (Zceil_lb r); lra | intros j ->; apply Zceil_IZR |]. apply (of_int_exact j), Hj.
Qed.

(* ------------------------------------------------------------------ square roots *)
Lemma half_least h r : half_is h r -> r <> 0 -> bpow radix2 (-24) <= Rabs r.
Proof.
  intros H N. destruct (half_parts h r H) as (M & E & -> & BM & BE). rewrite abs_parts.
  assert (M0 : (1 <= Z.abs M)%Z). { destruct (Z.eq_dec M 0) as [->|M0]; [|lia]. exfalso. apply N. unfold F2R. cbn. ring. }
  apply IZR_le in M0. assert (bpow radix2 (-24) <= bpow radix2 E) by (apply bpow_le; lia). pose proof (bpow_gt_0 radix2 E). nra.
Qed.
Lemma sqrt_half h r : half_is h r -> 0 < r -> exists j, half_sqrt h = Some j /\ truncated (sqrt r) j.
Proof.
  intros H P. destruct (widen_finite h r H) as (x & W & F & E). unfold half_sqrt. rewrite W. cbn [option_bind]. eexists. split; [reflexivity|].
  pose proof (Bsqrt_correct 24 128 _ _ mode_NE x) as (C1 & C2 & _). rewrite E in C1.
  assert (Fs : is_finite (Bsqrt mode_NE x) = true). { rewrite C2. destruct x as [[]|[]| |[] m e B]; try reflexivity; try discriminate F. exfalso. rewrite <- E in P. cbn [B2R] in P.
    assert (F2R (Float radix2 (cond_Zopp true (Z.pos m)) e) < 0) by (apply F2R_lt_0; reflexivity). lra. }
  apply (root_truncated h); try assumption. left. rewrite Rabs_pos_eq by apply sqrt_pos. pose proof (half_least h r H ltac:(lra)) as L. pose proof (half_bound h r H) as U. rewrite Rabs_pos_eq in L, U by lra. split.
  - apply Rle_trans with (bpow radix2 (-12)); [apply bpow_le; lia|]. apply Rle_trans with (sqrt (bpow radix2 (-24))); [|apply sqrt_le_1_alt, L].
    right. symmetry. replace (bpow radix2 (-24)) with (bpow radix2 (-12) * bpow radix2 (-12)) by (rewrite <- bpow_plus; reflexivity). apply sqrt_square, bpow_ge_0.
  - apply Rle_trans with (sqrt (256 * 256)); [apply sqrt_le_1_alt; lra|]. rewrite sqrt_square by lra. lra.
Qed.

(* ------------------------------------------------------------------ out of range *)
Lemma subnormal_small h s m : (h < 2 ^ 16)%N -> f16_value h = Fin s m -> subnormal16 h <-> (0 < m < 2 ^ 135)%N.
Proof.
  intros H V. destruct (finite16 h s m V H) as (He & Hm & ->). unfold subnormal16. fold (he h) (hm h). change (2 ^ 135)%N with (2 ^ 125 * 1024)%N. change (2 ^ 10)%N with 1024%N in *.
  destruct (N.eqb_spec (he h) 0) as [Z0|Z0].
  - split; [intros [_ N]|intros [A B]; split; [exact Z0|]].
    + split; [apply N.mul_pos_pos; [reflexivity|lia]|]. apply N.mul_lt_mono_pos_l; [reflexivity|exact Hm].
    + intros C. rewrite C in A. rewrite N.mul_0_r in A. lia.
  - split; [intros [A _]; contradiction|]. intros [_ B]. exfalso. apply N.mul_lt_mono_pos_l in B; [|reflexivity]. pose proof (pow2_pos (he h - 1)). nia.
Qed.
Lemma subnormal_inj h k s m : (h < 2 ^ 16)%N -> (k < 2 ^ 16)%N -> subnormal16 h -> f16_value h = Fin s m -> f16_value k = Fin s m -> k = h.
Proof.
  intros H K S V W. assert (S' : subnormal16 k) by (apply (subnormal_small k s m K W), (subnormal_small h s m H V), S). destruct S as [S _], S' as [S' _]. fold (he h) in S. fold (he k) in S'.
  destruct (fields16 h H) as (A1 & _). destruct (fields16 k K) as (B1 & _). rewrite (f16_join h), (f16_join k), S, S'. rewrite f16_of_fields in V, W. rewrite S in V. rewrite S' in W. cbn [N.eqb] in V, W.
  apply fin_inj in V, W. destruct V as [V1 V2], W as [W1 W2]. assert (hm k = hm h) by (apply (N.mul_cancel_l _ _ (2 ^ 125)); [discriminate|congruence]).
  assert (hs k = hs h); [|congruence]. rewrite <- V1 in W1. destruct (N.eqb_spec (hs k) 1), (N.eqb_spec (hs h) 1); (lia || discriminate W1).
Qed.
(** A float equal to a subnormal half does not become that half. *)
Lemma narrow_subnormal h r f : half_is h r -> subnormal16 h -> is_finite f = true -> B2R f = r -> ~ half_is (narrow f) r.
Proof.
  intros (H & s & m & V & ->) S F E. destruct (widen_ok h H) as (x & X & L & Vx & _ & R). destruct (to_bits_finite f F) as (Lf & n & Vf & En).
  assert (P : (0 < m)%N) by (apply (subnormal_small h s m H V), S).
  assert (Uniq : forall t k, real_of t k = real_of s m -> t = s /\ k = m). { intros t k Q. apply real_eq in Q. unfold signed in Q. destruct t, s; split; try reflexivity; lia. }
  rewrite E in En. symmetry in En. destruct (Uniq _ _ En) as [S1 S2]. rewrite S1, S2 in Vf. rewrite V in Vx.
  assert (Bx : bits_of_float f = x) by (apply f32_value_inj; congruence). unfold narrow. rewrite Bx. intros (K & t & k & W & Q). symmetry in Q. destruct (Uniq _ _ Q) as [-> ->].
  apply (proj1 R); [|exact S]. apply (subnormal_inj h _ s m); assumption.
Qed.
Lemma lor_below k a b : (a < 2 ^ k -> b < 2 ^ k -> N.lor a b < 2 ^ k)%N.
Proof.
  intros A B. destruct (N.eq_dec (N.lor a b) 0) as [->|N0]; [apply pow2_pos|]. apply N.log2_lt_pow2; [lia|]. rewrite N.log2_lor. apply N.max_lub_lt.
  - destruct (N.eq_dec a 0) as [->|Na]; [|apply N.log2_lt_pow2; [lia|exact A]]. destruct (N.eq_dec k 0) as [->|]; [|change (N.log2 0) with 0%N; lia]. cbn in B. exfalso. apply N0. rewrite N.lor_0_l. lia.
  - destruct (N.eq_dec b 0) as [->|Nb]; [|apply N.log2_lt_pow2; [lia|exact B]]. destruct (N.eq_dec k 0) as [->|]; [|change (N.log2 0) with 0%N; lia]. cbn in A. exfalso. apply N0. rewrite N.lor_0_r. lia.
Qed.
Lemma narrow_range x : (f32_to_u16 x < 2 ^ 16)%N.
Proof.
  unfold f32_to_u16. cbv zeta. apply lor_below; [apply lor_below; apply trunc_lt|].
  assert (T : forall y, (trunc 16 y < 2 ^ 16)%N) by (intros; apply trunc_lt).
  repeat match goal with |- ((if ?c then _ else _) < _)%N => destruct c end; try reflexivity; try apply T.
  apply lor_below; [reflexivity|]. apply N.le_lt_trans with (2 := T (N.shiftr (N.land x 8388607) 13)). rewrite N.shiftr_div_pow2. apply N.div_le_upper_bound; [discriminate|]. change (2 ^ 2)%N with 4%N. lia.
Qed.
Lemma narrow_too_large f : is_finite f = true -> bpow radix2 17 <= Rabs (B2R f) < bpow radix2 18 -> exists r, half_is (narrow f) r /\ - bpow radix2 (-14) < r <= 0.
Proof.
  intros F [A B]. destruct (to_bits_finite f F) as (L & m & V & E). rewrite E in A, B. apply real_bound in A; [|lia]. apply real_bound_lt in B; [|lia].
  change (Z.to_N (17 + 149)) with 166%N in A. change (Z.to_N (18 + 149)) with 167%N in B. destruct (overflow_wrong _ _ _ L V A B) as (m' & V' & Lm).
  exists (real_of true m'). split; [split; [|exists true, m'; auto]|].
  - apply narrow_range.
  - assert (Lr : Rabs (real_of true m') < bpow radix2 (-14)) by (apply real_bound_lt; [lia|exact Lm]). apply Rabs_def2 in Lr. split; [apply Lr|]. rewrite real_of_bpow. assert (0 <= IZR (Z.of_N m')) by (apply IZR_le; lia). pose proof (bpow_gt_0 radix2 (-149)). nra.
Qed.
Lemma narrow_too_small f : is_finite f = true -> bpow radix2 (-16) <= Rabs (B2R f) < bpow radix2 (-15) -> f16_value (narrow f) = Inf true \/ f16_value (narrow f) = NaN.
Proof.
  intros F [A B]. destruct (to_bits_finite f F) as (L & m & V & E). rewrite E in A, B. apply real_bound in A; [|lia]. apply real_bound_lt in B; [|lia].
  exact (small_wrong _ _ _ L V A B).
Qed.
Lemma narrow_infinite f : is_finite f = true -> bpow radix2 16 <= Rabs (B2R f) < bpow radix2 17 -> f16_value (narrow f) = Inf (Rlt_bool (B2R f) 0).
Proof.
  intros F [A B]. destruct (to_bits_finite f F) as (L & m & V & E). pose proof (bpow_gt_0 radix2 16) as P. assert (Sg : Rlt_bool (B2R f) 0 = Bsign f).
  { rewrite E in A |- *. rewrite real_of_bpow in A |- *. assert (0 <= IZR (Z.of_N m)) by (apply IZR_le; lia). pose proof (bpow_gt_0 radix2 (-149)).
    assert (0 <= IZR (Z.of_N m) * bpow radix2 (-149)) by nra. destruct (Bsign f); [apply Rlt_bool_true | apply Rlt_bool_false]; [|nra].
    rewrite Rmult_assoc in A |- *. rewrite Rabs_left1 in A by nra. nra. }
  rewrite Sg. rewrite E in A, B. apply real_bound in A; [|lia]. apply real_bound_lt in B; [|lia]. destruct (special_ok _ L) as (_ & _ & _ & S). exact (proj2 (S _ _ V A B)).
Qed.
