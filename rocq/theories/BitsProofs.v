(** Proofs about the bit utilities. *)
From Verif Require Import Words WordsProofs BitsModel BitsSpec.
From Coq Require Import ZifyBool ZifyNat ZifyN.
Ltac Zify.zify_post_hook ::= Z.div_mod_to_equations.

(* ------------------------------------------------------------ countl_zero *)

Lemma land_pow2_eqb j x : (N.land (2 ^ j) x =? 0) = negb (N.testbit x j).
Proof.
  destruct (N.testbit x j) eqn:E; cbn [negb].
  - apply N.eqb_neq. intros H. assert (Hb : N.testbit (N.land (2 ^ j) x) j = true).
    { rewrite N.land_spec, E, N.pow2_bits_true. reflexivity. }
    rewrite H, N.bits_0 in Hb. discriminate.
  - apply N.eqb_eq, N.bits_inj. intros i. rewrite N.land_spec, N.pow2_bits_eqb, N.bits_0.
    destruct (N.eqb_spec j i) as [<-|]; [rewrite E|]; reflexivity.
Qed.

Lemma clz_loop_ok f j val c :
  (N.to_nat j < f)%nat -> val <> 0 -> val < 2 ^ (j + 1) ->
  clz_loop f (2 ^ j) val c = Some (c + (j - N.log2 val)).
Proof.
  revert j c; induction f as [|f IH]; intros j c Hf Hv Hlt; [lia|].
  cbn [clz_loop]. rewrite land_pow2_eqb.
  destruct (N.testbit val j) eqn:E; cbn [negb].
  - assert (j <= N.log2 val).
    { destruct (N.leb_spec j (N.log2 val)) as [H|H]; [exact H|].
      rewrite N.bits_above_log2 in E by exact H. discriminate. }
    f_equal; lia.
  - assert (Hl : N.log2 val < j + 1) by (apply N.log2_lt_pow2; lia).
    assert (Hn : N.log2 val <> j).
    { intros He. rewrite <- He, N.bit_log2 in E by exact Hv. discriminate. }
    assert (Hj : 0 < j) by lia.
    replace (N.shiftr (2 ^ j) 1) with (2 ^ (j - 1)).
    2:{ rewrite N.shiftr_div_pow2. replace j with ((j - 1) + 1) at 2 by lia.
        rewrite N.pow_add_r, N.div_mul; [reflexivity|discriminate]. }
    rewrite IH; [f_equal; lia|lia|exact Hv|].
    replace (j - 1 + 1) with j by lia. apply N.log2_lt_pow2; lia.
Qed.

Definition clz_val (w x : N) : N := if x =? 0 then w else w - 1 - N.log2 x.

Lemma log2_lt_w w x : x <> 0 -> x < 2 ^ w -> N.log2 x < w.
Proof. intros Hnz H. apply N.log2_lt_pow2; lia. Qed.

Lemma countl_zero_naive_ok w x : 0 < w -> x < 2 ^ w -> countl_zero_naive w x = Some (clz_val w x).
Proof.
  intros Hw Hx. unfold countl_zero_naive, clz_val.
  destruct (N.eqb_spec x 0) as [|Hnz]; [reflexivity|].
  unfold shl_checked, promoted. destruct (N.ltb_spec (w - 1) (N.max 32 w)); [|lia].
  cbn [option_bind]. rewrite N.shiftl_1_l, trunc_small by (apply N.pow_lt_mono_r; lia).
  pose proof (log2_lt_w w x Hnz Hx).
  rewrite clz_loop_ok; [f_equal; lia|lia|exact Hnz|].
  replace (w - 1 + 1) with w by lia. exact Hx.
Qed.

Lemma countl_zero_intrinsic_ok w x : 0 < w -> x < 2 ^ w -> countl_zero_intrinsic w x = Some (clz_val w x).
Proof.
  intros Hw Hx. unfold countl_zero_intrinsic, clz_val, builtin_clz.
  destruct (N.eqb_spec x 0) as [|Hnz]; [reflexivity|].
  pose proof (log2_lt_w w x Hnz Hx).
  destruct (N.leb_spec 32 w); cbn [option_bind]; f_equal; lia.
Qed.

Lemma countl_zero_le64_ok p w x : 0 < w -> x < 2 ^ w -> countl_zero_le64 p w x = Some (clz_val w x).
Proof. destruct p; [apply countl_zero_naive_ok|apply countl_zero_intrinsic_ok]. Qed.

Lemma log2_split x : 2 ^ 64 <= x -> N.log2 x = 64 + N.log2 (N.shiftr x 64).
Proof.
  intros H. rewrite N.log2_shiftr.
  assert (64 <= N.log2 x) by (apply N.log2_le_pow2; lia). lia.
Qed.

Lemma shiftr64_lt x : x < 2 ^ 128 -> N.shiftr x 64 < 2 ^ 64.
Proof.
  intros H. rewrite N.shiftr_div_pow2. apply N.div_lt_upper_bound; [discriminate|].
  rewrite <- N.pow_add_r. exact H.
Qed.

Lemma countl_zero_ok p w x : 0 < w -> x < 2 ^ w -> countl_zero p w x = Some (clz_val w x).
Proof.
  intros Hw Hx. unfold countl_zero.
  destruct (N.eqb_spec w 128) as [->|Hn]; [|apply countl_zero_le64_ok; assumption].
  rewrite countl_zero_le64_ok by (try apply trunc_lt; lia). cbn [option_bind].
  rewrite trunc_small by (apply shiftr64_lt; exact Hx).
  unfold clz_val at 1 2. destruct (N.eqb_spec (N.shiftr x 64) 0) as [Hz|Hz].
  - change (64 <? 64) with false. cbn iota.
    assert (Hlt : x < 2 ^ 64).
    { rewrite N.shiftr_div_pow2 in Hz. apply N.div_small_iff in Hz; [exact Hz|discriminate]. }
    rewrite countl_zero_le64_ok by (try apply trunc_lt; lia). cbn [option_bind].
    rewrite trunc_small by exact Hlt. unfold clz_val.
    destruct (N.eqb_spec x 0) as [|Hnz]; [reflexivity|].
    pose proof (log2_lt_w 64 x Hnz Hlt). f_equal; lia.
  - assert (Hge : 2 ^ 64 <= x).
    { destruct (N.leb_spec (2 ^ 64) x) as [H|H]; [exact H|].
      rewrite N.shiftr_div_pow2, N.div_small in Hz by exact H. congruence. }
    pose proof (log2_split x Hge) as Hl.
    pose proof (log2_lt_w 64 (N.shiftr x 64) Hz (shiftr64_lt x Hx)).
    destruct (N.ltb_spec (64 - 1 - N.log2 (N.shiftr x 64)) 64); [|lia].
    unfold clz_val. destruct (N.eqb_spec x 0) as [->|Hnz]; [now rewrite N.shiftr_0_l in Hz|].
    f_equal; lia.
Qed.

Lemma clz_val_leading w x : x < 2 ^ w -> leading false w x (clz_val w x).
Proof.
  intros Hx. unfold leading, clz_val. destruct (N.eqb_spec x 0) as [->|Hnz].
  - split; [lia|split; [intros; apply N.bits_0|lia]].
  - pose proof (log2_lt_w w x Hnz Hx). repeat split; [lia| |].
    + intros i Hi Hw. apply N.bits_above_log2. lia.
    + intros _. replace (w - 1 - (w - 1 - N.log2 x)) with (N.log2 x) by lia.
      cbn [negb]. apply N.bit_log2; exact Hnz.
Qed.

Lemma testbit_compl w x i : x < 2 ^ w -> N.testbit (compl w x) i = (i <? w) && negb (N.testbit x i).
Proof.
  intros Hx. unfold compl. rewrite N.lxor_spec. destruct (N.ltb_spec i w) as [H|H].
  - rewrite N.ones_spec_low by exact H. cbn [andb]. apply xorb_true_r.
  - rewrite N.ones_spec_high by exact H. rewrite (testbit_high w x i Hx H). reflexivity.
Qed.

Lemma compl_lt w x : x < 2 ^ w -> compl w x < 2 ^ w.
Proof.
  intros Hx. apply lt_pow2_bits. intros i Hi. rewrite testbit_compl by exact Hx.
  destruct (N.ltb_spec i w); [lia|reflexivity].
Qed.

Lemma leading_compl w x k : x < 2 ^ w -> leading false w (compl w x) k -> leading true w x k.
Proof.
  intros Hx (Hk & Hall & Hnext). repeat split; [exact Hk| |].
  - intros i Hi Hw. specialize (Hall i Hi Hw). rewrite testbit_compl in Hall by exact Hx.
    destruct (N.ltb_spec i w); [|lia]. destruct (N.testbit x i); [reflexivity|discriminate].
  - intros Hlt. specialize (Hnext Hlt). rewrite testbit_compl in Hnext by exact Hx.
    destruct (N.ltb_spec (w - 1 - k) w); [|lia].
    destruct (N.testbit x (w - 1 - k)); [discriminate|reflexivity].
Qed.

Lemma countl_zero_leading p w x :
  0 < w -> x < 2 ^ w -> exists k, countl_zero p w x = Some k /\ leading false w x k.
Proof.
  intros Hw Hx. exists (clz_val w x). split; [apply countl_zero_ok|apply clz_val_leading]; assumption.
Qed.

Lemma countl_one_leading p w x :
  0 < w -> x < 2 ^ w -> exists k, countl_one p w x = Some k /\ leading true w x k.
Proof.
  intros Hw Hx. unfold countl_one.
  destruct (countl_zero_leading p w (compl w x) Hw (compl_lt w x Hx)) as (k & Hk & Hl).
  exists k. split; [exact Hk|apply leading_compl; assumption].
Qed.

Lemma leading_unique b w x k k' : leading b w x k -> leading b w x k' -> k = k'.
Proof.
  intros (Hk & Ha & Hn) (Hk' & Ha' & Hn').
  destruct (N.lt_trichotomy k k') as [H|[H|H]]; [|exact H|].
  - specialize (Hn ltac:(lia)). rewrite Ha' in Hn by lia. destruct b; discriminate.
  - specialize (Hn' ltac:(lia)). rewrite Ha in Hn' by lia. destruct b; discriminate.
Qed.

(* ------------------------------------------------------------ countr_zero *)

Lemma ctz_pos_spec p :
  N.testbit (Npos p) (ctz_pos p) = true /\ (forall i, i < ctz_pos p -> N.testbit (Npos p) i = false).
Proof.
  induction p as [p IH|p IH|]; cbn [ctz_pos].
  - split; [reflexivity|intros; lia].
  - destruct IH as [H1 H2]. change (Npos (xO p)) with (2 * Npos p).
    split.
    + rewrite N.add_1_l, N.testbit_even_succ by lia. exact H1.
    + intros i Hi. destruct (N.eq_dec i 0) as [->|Hn]; [apply N.testbit_even_0|].
      replace i with (N.succ (i - 1)) by lia. rewrite N.testbit_even_succ by lia. apply H2. lia.
  - split; [reflexivity|intros; lia].
Qed.

Lemma ctz_loop_ok f bw j val t c :
  N.testbit val t = true -> (forall i, i < t -> N.testbit val i = false) ->
  j <= t -> t < bw -> (N.to_nat t < N.to_nat j + f)%nat ->
  ctz_loop f bw (2 ^ j) val c = Some (c + (t - j)).
Proof.
  intros Ht Hlow. revert j c; induction f as [|f IH]; intros j c Hj Hbw Hf; [lia|].
  cbn [ctz_loop]. rewrite land_pow2_eqb. destruct (N.testbit val j) eqn:E; cbn [negb].
  - destruct (N.lt_trichotomy j t) as [H|[H|H]]; [|f_equal; lia|lia].
    rewrite Hlow in E by exact H. discriminate.
  - assert (j <> t) by (intros ->; congruence).
    rewrite N.shiftl_mul_pow2. change (2 ^ 1) with 2.
    replace (2 ^ j * 2) with (2 ^ (j + 1)) by (rewrite N.pow_add_r; reflexivity).
    rewrite trunc_small by (apply N.pow_lt_mono_r; lia).
    rewrite IH by lia. f_equal; lia.
Qed.

Definition ctz_val (w x : N) : N := match x with N0 => w | Npos p => ctz_pos p end.

Lemma ctz_pos_lt w p : Npos p < 2 ^ w -> ctz_pos p < w.
Proof.
  intros H. destruct (ctz_pos_spec p) as [Ht _].
  destruct (N.ltb_spec (ctz_pos p) w) as [Hl|Hl]; [exact Hl|].
  rewrite (testbit_high w _ _ H Hl) in Ht. discriminate.
Qed.

Lemma countr_zero_le64_ok p w x : x < 2 ^ w -> countr_zero_le64 p w x = Some (ctz_val w x).
Proof.
  intros Hx. unfold countr_zero_le64. destruct x as [|q]; [reflexivity|].
  destruct (N.eqb_spec (Npos q) 0) as [H|_]; [discriminate|].
  destruct p; [|reflexivity]. unfold countr_zero_naive.
  destruct (N.eqb_spec (Npos q) 0) as [H|_]; [discriminate|]. cbn [ctz_val].
  destruct (ctz_pos_spec q) as [Ht Hl]. pose proof (ctz_pos_lt w q Hx).
  change 1 with (2 ^ 0) at 1. unfold promoted.
  rewrite (ctz_loop_ok _ _ 0 _ (ctz_pos q)) by (try assumption; lia). f_equal; lia.
Qed.

Lemma ctz_val_trailing w x : x < 2 ^ w -> trailing false w x (ctz_val w x).
Proof.
  intros Hx. unfold trailing. destruct x as [|p]; cbn [ctz_val].
  - split; [lia|split; [intros; apply N.bits_0|lia]].
  - pose proof (ctz_pos_lt w p Hx). destruct (ctz_pos_spec p) as [Ht Hl].
    repeat split; [lia|exact Hl|intros _; exact Ht].
Qed.

Lemma trailing_unique b w x k k' : trailing b w x k -> trailing b w x k' -> k = k'.
Proof.
  intros (Hk & Ha & Hn) (Hk' & Ha' & Hn').
  destruct (N.lt_trichotomy k k') as [H|[H|H]]; [|exact H|].
  - specialize (Hn ltac:(lia)). rewrite Ha' in Hn by lia. destruct b; discriminate.
  - specialize (Hn' ltac:(lia)). rewrite Ha in Hn' by lia. destruct b; discriminate.
Qed.

Lemma countr_zero_trailing p w x :
  x < 2 ^ w -> exists k, countr_zero p w x = Some k /\ trailing false w x k.
Proof.
  intros Hx. unfold countr_zero. destruct (N.eqb_spec w 128) as [->|Hn].
  2:{ rewrite countr_zero_le64_ok by exact Hx. eexists; split; [reflexivity|].
      apply ctz_val_trailing; exact Hx. }
  rewrite countr_zero_le64_ok by apply trunc_lt. cbn [option_bind].
  pose proof (ctz_val_trailing 64 _ (trunc_lt 64 x)) as (Hk & Ha & Hnx).
  destruct (N.ltb_spec (ctz_val 64 (trunc 64 x)) 64) as [Hl|Hl].
  - eexists; split; [reflexivity|]. repeat split; [lia| |].
    + intros i Hi. specialize (Ha i Hi). rewrite testbit_trunc in Ha.
      destruct (N.ltb_spec i 64); [exact Ha|lia].
    + intros _. specialize (Hnx Hl). rewrite testbit_trunc in Hnx.
      destruct (N.ltb_spec (ctz_val 64 (trunc 64 x)) 64); [exact Hnx|lia].
  - rewrite trunc_small with (x := N.shiftr x 64) by (apply shiftr64_lt; exact Hx).
    rewrite countr_zero_le64_ok by (apply shiftr64_lt; exact Hx). cbn [option_bind].
    eexists; split; [reflexivity|].
    pose proof (ctz_val_trailing 64 _ (shiftr64_lt x Hx)) as (Hk' & Ha' & Hnx').
    repeat split; [lia| |].
    + intros i Hi. destruct (N.ltb_spec i 64) as [Hlt|Hge].
      * specialize (Ha i ltac:(lia)). rewrite testbit_trunc in Ha.
        destruct (N.ltb_spec i 64); [exact Ha|lia].
      * specialize (Ha' (i - 64) ltac:(lia)). rewrite testbit_shiftr in Ha'.
        replace (i - 64 + 64) with i in Ha' by lia. exact Ha'.
    + intros Hlt. specialize (Hnx' ltac:(lia)). rewrite testbit_shiftr in Hnx'.
      rewrite N.add_comm. exact Hnx'.
Qed.

Lemma trailing_compl w x k : x < 2 ^ w -> trailing false w (compl w x) k -> trailing true w x k.
Proof.
  intros Hx (Hk & Hall & Hnext). repeat split; [exact Hk| |].
  - intros i Hi. specialize (Hall i Hi). rewrite testbit_compl in Hall by exact Hx.
    destruct (N.ltb_spec i w); [|lia]. destruct (N.testbit x i); [reflexivity|discriminate].
  - intros Hlt. specialize (Hnext Hlt). rewrite testbit_compl in Hnext by exact Hx.
    destruct (N.ltb_spec k w); [|lia].
    destruct (N.testbit x k); [discriminate|reflexivity].
Qed.

Lemma countr_one_trailing p w x :
  x < 2 ^ w -> exists k, countr_one p w x = Some k /\ trailing true w x k.
Proof.
  intros Hx. destruct (countr_zero_trailing p w _ (compl_lt w x Hx)) as (k & Hk & Ht).
  exists k. split; [exact Hk|apply trailing_compl; assumption].
Qed.

Lemma trailing_divide w x k :
  x < 2 ^ w -> trailing false w x k ->
  (2 ^ k | x) /\ (forall j, j <= w -> (2 ^ j | x) -> j <= k).
Proof.
  intros Hx (Hk & Ha & Hn). split.
  - exists (x / 2 ^ k). rewrite N.mul_comm.
    assert (Hm : x mod 2 ^ k = 0).
    { apply N.bits_inj. intros i. rewrite N.bits_0. destruct (N.ltb_spec i k) as [H|H].
      - rewrite N.mod_pow2_bits_low by exact H. apply Ha; exact H.
      - apply N.mod_pow2_bits_high; exact H. }
    pose proof (N.div_mod x (2 ^ k) ltac:(apply N.pow_nonzero; discriminate)). lia.
  - intros j Hj [q Hq]. destruct (N.leb_spec j k) as [H|H]; [exact H|].
    exfalso. specialize (Hn ltac:(lia)). rewrite Hq, N.mul_pow2_bits_low in Hn by exact H.
    discriminate.
Qed.

(* --------------------------------------------------------------- bit_floor *)

Lemma trunc_pow2 w k : k < w -> trunc w (2 ^ k) = 2 ^ k.
Proof. intros H. apply trunc_small, N.pow_lt_mono_r; lia. Qed.

Lemma bit_floor_ok p w x : 0 < w -> x < 2 ^ w -> x <> 0 -> bit_floor p w x = Some (2 ^ N.log2 x).
Proof.
  intros Hw Hx Hnz. unfold bit_floor. destruct (N.eqb_spec x 0); [congruence|].
  rewrite countl_zero_ok by assumption. cbn [option_bind]. unfold clz_val.
  destruct (N.eqb_spec x 0); [congruence|]. pose proof (log2_lt_w w x Hnz Hx).
  replace (w - 1 - (w - 1 - N.log2 x)) with (N.log2 x) by lia.
  unfold shl_checked, promoted. destruct (N.ltb_spec (N.log2 x) (N.max 32 w)); [|lia].
  cbn [option_bind]. rewrite N.shiftl_1_l.
  rewrite !trunc_pow2 by lia. reflexivity.
Qed.

Lemma bit_floor_bounds p w x :
  0 < w -> x < 2 ^ w ->
  exists r, bit_floor p w x = Some r /\ (x = 0 -> r = 0) /\
            (0 < x -> power_of_two r /\ r <= x /\ x < 2 * r).
Proof.
  intros Hw Hx. destruct (N.eq_dec x 0) as [->|Hnz].
  - exists 0. repeat split; lia.
  - exists (2 ^ N.log2 x). repeat split; [apply bit_floor_ok; assumption|congruence|eexists; reflexivity| |].
    + apply N.log2_spec; lia.
    + replace (2 * 2 ^ N.log2 x) with (2 ^ N.succ (N.log2 x)) by (rewrite N.pow_succ_r'; lia).
      apply N.log2_spec; lia.
Qed.

(* ---------------------------------------------------------------- bit_ceil *)

Lemma bit_ceil_shift p w x :
  0 < w -> x < 2 ^ w -> 1 < x ->
  bit_ceil p w x =
    (r <- shl_checked (promoted w) 1 (N.log2 (x - 1) + 1) ;; Some (trunc w r)).
Proof.
  intros Hw Hx H1. unfold bit_ceil. destruct (N.eqb_spec x 0); [lia|].
  rewrite countl_zero_ok by lia. cbn [option_bind]. unfold clz_val.
  destruct (N.eqb_spec (x - 1) 0); [lia|].
  pose proof (log2_lt_w w (x - 1) ltac:(lia) ltac:(lia)).
  replace (w - (w - 1 - N.log2 (x - 1))) with (N.log2 (x - 1) + 1) by lia. reflexivity.
Qed.

Lemma pow2_half w : 0 < w -> 2 ^ w = 2 * 2 ^ (w - 1).
Proof. intros H. rewrite <- N.pow_succ_r'. f_equal. lia. Qed.

Lemma bit_ceil_least p w x :
  0 < w -> x <= 2 ^ (w - 1) ->
  exists r, bit_ceil p w x = Some r /\ power_of_two r /\ x <= r /\
            (forall q, power_of_two q -> x <= q -> r <= q).
Proof.
  intros Hw Hx. pose proof (pow2_half w Hw) as Hh. pose proof (pow2_pos (w - 1)) as Hp.
  destruct (N.leb_spec x 1) as [H1|H1].
  - exists 1. repeat split.
    + destruct (N.eq_dec x 0) as [->|Hnz]; [reflexivity|].
      replace x with 1 by lia. unfold bit_ceil. change (1 =? 0) with false. cbn iota.
      change (1 - 1) with 0. rewrite countl_zero_ok by lia. cbn [option_bind clz_val].
      change (clz_val w 0) with w. rewrite N.sub_diag. unfold shl_checked, promoted.
      destruct (N.ltb_spec 0 (N.max 32 w)); [|lia]. cbn [option_bind].
      change (N.shiftl 1 0) with (2 ^ 0). rewrite !trunc_pow2 by lia. reflexivity.
    + exists 0. reflexivity.
    + exact H1.
    + intros q (k & ->) _. apply N.lt_pred_le. change (N.pred 1) with 0. apply pow2_pos.
  - exists (2 ^ (N.log2 (x - 1) + 1)).
    assert (Hl : N.log2 (x - 1) < w - 1) by (apply N.log2_lt_pow2; lia).
    pose proof (N.log2_spec (x - 1) ltac:(lia)) as [Hlo Hhi].
    repeat split.
    + rewrite bit_ceil_shift by lia. unfold shl_checked, promoted.
      destruct (N.ltb_spec (N.log2 (x - 1) + 1) (N.max 32 w)); [|lia]. cbn [option_bind].
      rewrite N.shiftl_1_l. rewrite !trunc_pow2 by lia. reflexivity.
    + eexists; reflexivity.
    + rewrite <- N.add_1_r in Hhi. lia.
    + intros q (k & ->) Hq. apply N.pow_le_mono_r; [discriminate|].
      destruct (N.ltb_spec (N.log2 (x - 1)) k) as [H|H]; [lia|].
      pose proof (N.pow_le_mono_r 2 k (N.log2 (x - 1)) ltac:(discriminate) H). lia.
Qed.

(** Above [2^(w-1)] there is no representable answer: 8/16-bit calls yield 0 (the shift happens in
    [int] and is truncated), 32 bits and wider perform an out-of-range shift. *)
Lemma bit_ceil_above p w x :
  0 < w -> 2 ^ (w - 1) < x -> x < 2 ^ w ->
  bit_ceil p w x = if w <? 32 then Some 0 else None.
Proof.
  intros Hw Hlo Hx. pose proof (pow2_half w Hw) as Hh. pose proof (pow2_pos (w - 1)) as Hp.
  assert (H1 : 1 < x) by lia.
  rewrite bit_ceil_shift by assumption.
  assert (Hl : N.log2 (x - 1) = w - 1).
  { apply N.log2_unique; [lia|]. rewrite <- N.add_1_r. replace (w - 1 + 1) with w by lia. lia. }
  rewrite Hl. replace (w - 1 + 1) with w by lia. unfold shl_checked, promoted.
  destruct (N.ltb_spec w 32) as [H32|H32].
  - destruct (N.ltb_spec w (N.max 32 w)); [|lia]. cbn [option_bind]. rewrite N.shiftl_1_l.
    rewrite trunc_small with (w := N.max 32 w) by (apply N.pow_lt_mono_r; lia).
    unfold trunc. rewrite N.mod_same by (apply N.pow_nonzero; discriminate). reflexivity.
  - destruct (N.ltb_spec w (N.max 32 w)); [lia|]. reflexivity.
Qed.

(* --------------------------------------------------------------- bit_width *)

Lemma bit_width_ok p w x :
  std_width w -> x < 2 ^ w ->
  exists k, countl_zero p w x = Some k /\ bit_width p w x = Some (w - k) /\
            x < 2 ^ (w - k) /\ (forall j, x < 2 ^ j -> w - k <= j).
Proof.
  intros Hstd Hx.
  assert (Hw : 0 < w) by (destruct Hstd as [->|[->|[->|[->| ->]]]]; lia).
  assert (Hww : w < 2 ^ w) by (destruct Hstd as [->|[->|[->|[->| ->]]]]; reflexivity).
  exists (clz_val w x). rewrite countl_zero_ok by assumption.
  assert (Hk : bit_width p w x = Some (w - clz_val w x)).
  { unfold bit_width. rewrite countl_zero_ok by assumption. cbn [option_bind].
    rewrite trunc_small by lia. reflexivity. }
  rewrite Hk. unfold clz_val. destruct (N.eqb_spec x 0) as [->|Hnz].
  - repeat split; try reflexivity; try lia. all: rewrite N.sub_diag; reflexivity || (intros; lia).
  - pose proof (log2_lt_w w x Hnz Hx).
    replace (w - (w - 1 - N.log2 x)) with (N.succ (N.log2 x)) by lia.
    repeat split; [apply N.log2_spec; lia|].
    intros j Hj. apply N.le_succ_l. apply N.log2_lt_pow2; lia.
Qed.
