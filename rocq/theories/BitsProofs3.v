(** Proofs about the bit utilities, third part: byte_reverse, masks, packing, selection, alignment. *)
From Verif Require Import Words WordsProofs BitsModel BitsSpec BitsProofs BitsProofs2.
From Coq Require Import ZifyBool ZifyNat ZifyN.
Ltac Zify.zify_post_hook ::= Z.div_mod_to_equations.

(* ------------------------------------------------------------ byte_reverse *)

Lemma testbit_land_r a m i : N.testbit (N.land a m) i = N.testbit m i && N.testbit a i.
Proof. rewrite N.land_spec. apply andb_comm. Qed.

Lemma testbit_shiftr_w w x s i : x < 2 ^ w -> N.testbit (N.shiftr x s) i = (i + s <? w) && N.testbit x (i + s).
Proof.
  intros Hx. rewrite testbit_shiftr. destruct (N.ltb_spec (i + s) w) as [H|H]; [reflexivity|].
  now rewrite (testbit_high w x _ Hx H).
Qed.

Lemma N_cases n (P : N -> Prop) :
  Forall P (map N.of_nat (seq 0 n)) -> forall k, k < N.of_nat n -> P k.
Proof.
  intros H k Hk. rewrite Forall_forall in H. apply H. replace k with (N.of_nat (N.to_nat k)) by lia.
  apply in_map, in_seq. lia.
Qed.

Lemma brev16_bits x k : x < 2 ^ 16 -> k < 16 ->
  N.testbit (byte_reverse_naive16 x) k = N.testbit x (8 * (1 - k / 8) + k mod 8).
Proof.
  intros Hx. revert k. apply (N_cases 16). cbn [seq map N.of_nat].
  repeat (constructor; [unfold byte_reverse_naive16; repeat (rewrite ?testbit_trunc, ?N.lor_spec);
    rewrite ?testbit_shiftl, ?(testbit_shiftr_w 16 _ _ _ Hx);
    generalize (N.testbit x); intros f; vm_compute; destruct (f _); reflexivity|]).
  constructor.
Qed.

Lemma brev32_bits x k : x < 2 ^ 32 -> k < 32 ->
  N.testbit (byte_reverse_naive32 x) k = N.testbit x (8 * (3 - k / 8) + k mod 8).
Proof.
  intros Hx. revert k. apply (N_cases 32). cbn [seq map N.of_nat].
  repeat (constructor; [unfold byte_reverse_naive32;
    repeat (rewrite ?testbit_trunc, ?N.lor_spec, ?testbit_land_r);
    rewrite ?testbit_shiftl, ?(testbit_shiftr_w 32 _ _ _ Hx);
    generalize (N.testbit x); intros f; vm_compute; destruct (f _); reflexivity|]).
  constructor.
Qed.

Lemma brev64_bits x k : x < 2 ^ 64 -> k < 64 ->
  N.testbit (byte_reverse_naive64 x) k = N.testbit x (8 * (7 - k / 8) + k mod 8).
Proof.
  intros Hx. revert k. apply (N_cases 64). cbn [seq map N.of_nat].
  repeat (constructor; [unfold byte_reverse_naive64;
    repeat (rewrite ?testbit_trunc, ?N.lor_spec, ?testbit_land_r);
    rewrite ?testbit_shiftl, ?(testbit_shiftr_w 64 _ _ _ Hx);
    generalize (N.testbit x); intros f; vm_compute; destruct (f _); reflexivity|]).
  constructor.
Qed.

Lemma bits_rev_bytes n x y :
  (forall k, k < 8 * N.of_nat n -> N.testbit y k = N.testbit x (8 * (N.of_nat n - 1 - k / 8) + k mod 8)) ->
  le_bytes n y = rev (le_bytes n x).
Proof.
  intros H. apply (nth_ext _ _ 0 0); [now rewrite rev_length, !le_bytes_length|].
  intros i Hi. rewrite le_bytes_length in Hi. rewrite rev_nth by (rewrite le_bytes_length; exact Hi).
  rewrite le_bytes_length, !le_bytes_nth by lia.
  change 256 with (2 ^ 8). apply N.bits_inj. intros j.
  destruct (N.ltb_spec j 8) as [Hj|Hj].
  - rewrite !N.mod_pow2_bits_low, !N.div_pow2_bits by exact Hj. rewrite H by lia. f_equal. lia.
  - rewrite !N.mod_pow2_bits_high by exact Hj. reflexivity.
Qed.

Lemma le_bytes_app n m x : le_bytes (n + m) x = le_bytes n x ++ le_bytes m (x / 2 ^ (8 * N.of_nat n)).
Proof.
  revert x; induction n as [|n IH]; intros x; cbn [Nat.add le_bytes app].
  - change (2 ^ (8 * N.of_nat 0)) with 1. now rewrite N.div_1_r.
  - rewrite IH, pow256, N.div_div; [reflexivity|discriminate|apply N.pow_nonzero; discriminate].
Qed.

Lemma le_bytes_mod n x : le_bytes n (x mod 2 ^ (8 * N.of_nat n)) = le_bytes n x.
Proof.
  apply (nth_ext _ _ 0 0); [now rewrite !le_bytes_length|].
  intros i Hi. rewrite le_bytes_length in Hi. rewrite !le_bytes_nth by exact Hi.
  change 256 with (2 ^ 8). apply N.bits_inj. intros j.
  destruct (N.ltb_spec j 8) as [Hj|Hj].
  - rewrite !N.mod_pow2_bits_low, !N.div_pow2_bits by exact Hj. apply N.mod_pow2_bits_low. lia.
  - rewrite !N.mod_pow2_bits_high by exact Hj. reflexivity.
Qed.

Lemma brev64_bytes x : x < 2 ^ 64 -> le_bytes 8 (byte_reverse_naive64 x) = rev (le_bytes 8 x).
Proof. intros Hx. apply bits_rev_bytes. intros k Hk. apply brev64_bits; assumption. Qed.

Lemma brev64_lt x : x < 2 ^ 64 -> byte_reverse_naive64 x < 2 ^ 64.
Proof.
  intros Hx. apply lt_pow2_bits. intros i Hi. unfold byte_reverse_naive64.
  repeat (rewrite ?testbit_trunc, ?N.lor_spec, ?testbit_land_r).
  destruct (N.ltb_spec i 64); [lia|]. cbn [andb].
  rewrite !andb_false_r. cbn [orb].
  rewrite !(testbit_shiftr_w 64 _ _ _ Hx).
  repeat match goal with |- context [?a <? 64] => destruct (N.ltb_spec a 64); [lia|] end.
  cbn [andb]. now rewrite !andb_false_r.
Qed.

Lemma brev16_lt x : byte_reverse_naive16 x < 2 ^ 16.
Proof. apply trunc_lt. Qed.

Lemma brev32_lt x : x < 2 ^ 32 -> byte_reverse_naive32 x < 2 ^ 32.
Proof.
  intros Hx. apply lt_pow2_bits. intros i Hi. unfold byte_reverse_naive32.
  repeat (rewrite ?testbit_trunc, ?N.lor_spec, ?testbit_land_r).
  destruct (N.ltb_spec i 32); [lia|]. cbn [andb].
  rewrite !andb_false_r. cbn [orb].
  rewrite !(testbit_shiftr_w 32 _ _ _ Hx).
  repeat match goal with |- context [?a <? 32] => destruct (N.ltb_spec a 32); [lia|] end.
  cbn [andb]. now rewrite !andb_false_r.
Qed.

Lemma lor_disjoint_add a b k : b < 2 ^ k -> N.lor (N.shiftl a k) b = a * 2 ^ k + b.
Proof.
  intros Hb. rewrite N.add_nocarry_lxor with (a := a * 2 ^ k).
  - rewrite N.lxor_lor; [now rewrite N.shiftl_mul_pow2|].
    apply N.bits_inj. intros i. rewrite N.land_spec, N.bits_0. destruct (N.ltb_spec i k) as [H|H].
    + rewrite N.mul_pow2_bits_low by exact H. reflexivity.
    + rewrite (testbit_high k b i Hb H). apply andb_false_r.
  - apply N.bits_inj. intros i. rewrite N.land_spec, N.bits_0. destruct (N.ltb_spec i k) as [H|H].
    + rewrite N.mul_pow2_bits_low by exact H. reflexivity.
    + rewrite (testbit_high k b i Hb H). apply andb_false_r.
Qed.

Lemma brev128_value x : x < 2 ^ 128 ->
  byte_reverse_naive128 x
  = byte_reverse_naive64 (x mod 2 ^ 64) * 2 ^ 64 + byte_reverse_naive64 (x / 2 ^ 64).
Proof.
  intros Hx. unfold byte_reverse_naive128.
  pose proof (shiftr64_lt x Hx) as Hh. rewrite (trunc_small 64 (N.shiftr x 64)) by exact Hh.
  pose proof (brev64_lt (trunc 64 x) (trunc_lt 64 x)) as Hlo.
  pose proof (brev64_lt _ Hh) as Hhi.
  rewrite trunc_small.
  - rewrite lor_disjoint_add by exact Hhi. rewrite N.shiftr_div_pow2. reflexivity.
  - rewrite N.shiftl_mul_pow2. change 128 with (64 + 64). rewrite N.pow_add_r.
    apply N.mul_lt_mono_pos_r; [reflexivity|exact Hlo].
Qed.

Lemma byte_reverse_bytes n w x :
  w = 8 * N.of_nat n -> w <> 8 -> std_width w -> x < 2 ^ w ->
  exists r, byte_reverse w x = Some r /\ r < 2 ^ w /\ le_bytes n r = rev (le_bytes n x).
Proof.
  intros Hn H8 Hstd Hx. destruct Hstd as [->|[->|[->|[->| ->]]]]; [congruence| | | |].
  - replace n with 2%nat in * by lia. eexists; split; [reflexivity|split; [apply brev16_lt|]].
    apply bits_rev_bytes. intros k Hk. apply brev16_bits; assumption.
  - replace n with 4%nat in * by lia. eexists; split; [reflexivity|split; [apply brev32_lt, Hx|]].
    apply bits_rev_bytes. intros k Hk. apply brev32_bits; assumption.
  - replace n with 8%nat in * by lia. eexists; split; [reflexivity|split; [apply brev64_lt, Hx|]].
    apply brev64_bytes, Hx.
  - replace n with (8 + 8)%nat in * by lia. eexists; split; [reflexivity|].
    rewrite brev128_value by exact Hx.
    assert (Hm : x mod 2 ^ 64 < 2 ^ 64) by (apply N.mod_lt; discriminate).
    assert (Hd : x / 2 ^ 64 < 2 ^ 64).
    { apply N.div_lt_upper_bound; [discriminate|]. rewrite <- N.pow_add_r. exact Hx. }
    pose proof (brev64_lt _ Hm) as H1. pose proof (brev64_lt _ Hd) as H2.
    split.
    + change 128 with (64 + 64). rewrite N.pow_add_r. nia.
    + rewrite !le_bytes_app, rev_app_distr. change (2 ^ (8 * N.of_nat 8)) with (2 ^ 64).
      f_equal.
      * rewrite <- brev64_bytes by exact Hd. rewrite <- le_bytes_mod.
        change (2 ^ (8 * N.of_nat 8)) with (2 ^ 64). f_equal.
        rewrite N.add_comm, N.mod_add by discriminate. apply N.mod_small, H2.
      * rewrite <- (le_bytes_mod 8 x). change (2 ^ (8 * N.of_nat 8)) with (2 ^ 64).
        rewrite <- brev64_bytes by exact Hm. f_equal.
        rewrite N.div_add_l by discriminate. rewrite N.div_small by exact H2. apply N.add_0_r.
Qed.

Lemma byte_reverse_involutive w x r :
  w <> 8 -> std_width w -> x < 2 ^ w -> byte_reverse w x = Some r -> byte_reverse w r = Some x.
Proof.
  intros H8 Hstd Hx Hr.
  assert (Hn : exists n, w = 8 * N.of_nat n).
  { destruct Hstd as [->|[->|[->|[->| ->]]]]; [exists 1%nat|exists 2%nat|exists 4%nat|exists 8%nat|exists 16%nat]; reflexivity. }
  destruct Hn as (n & Hn).
  destruct (byte_reverse_bytes n w x Hn H8 Hstd Hx) as (r1 & E1 & L1 & B1).
  rewrite Hr in E1. injection E1 as <-.
  destruct (byte_reverse_bytes n w r Hn H8 Hstd L1) as (r2 & E2 & L2 & B2).
  rewrite E2. f_equal. rewrite Hn in *. apply (le_bytes_inj n); [assumption..|].
  rewrite B2, B1. apply rev_involutive.
Qed.

(* ---------------------------------------------------------------- bit_fill *)

Lemma ones_lt w : N.ones w < 2 ^ w.
Proof. rewrite N.ones_equiv. pose proof (pow2_pos w). lia. Qed.

Lemma bit_fill_right_ok w count : 0 < w -> bit_fill_right w count = Some (2 ^ N.min count w - 1).
Proof.
  intros Hw. unfold bit_fill_right. destruct (N.eqb_spec count 0) as [->|H0].
  - rewrite N.min_0_l. reflexivity.
  - destruct (N.leb_spec w count) as [H|H].
    + rewrite N.min_r by exact H. rewrite N.ones_equiv, N.pred_sub. reflexivity.
    + rewrite N.min_l by lia. unfold shl_checked. assert (Hp : w <= promoted w) by (unfold promoted; lia).
      destruct (N.ltb_spec count (promoted w)); [|lia]. cbn [option_bind].
      rewrite N.shiftl_1_l, trunc_pow2 by lia. f_equal.
      pose proof (pow2_pos count). pose proof (pow2_pos (promoted w)).
      assert (2 ^ count < 2 ^ w) by (apply N.pow_lt_mono_r; lia).
      assert (2 ^ w <= 2 ^ promoted w) by (apply N.pow_le_mono_r; lia).
      replace (2 ^ count + 2 ^ promoted w - 1) with (2 ^ count - 1 + 1 * 2 ^ promoted w) by lia.
      unfold trunc. rewrite N.mod_add by lia. rewrite (N.mod_small _ (2 ^ promoted w)) by lia.
      apply N.mod_small. lia.
Qed.

Lemma bit_fill_left_ok w count : 0 < w ->
  bit_fill_left w count = Some (2 ^ w - 2 ^ (w - N.min count w)).
Proof.
  intros Hw. unfold bit_fill_left. destruct (N.eqb_spec count 0) as [->|H0].
  - rewrite N.min_0_l, N.sub_0_r, N.sub_diag. reflexivity.
  - destruct (N.leb_spec w count) as [H|H].
    + rewrite N.min_r by exact H. rewrite N.sub_diag, N.ones_equiv, N.pred_sub. reflexivity.
    + rewrite N.min_l by lia. rewrite bit_fill_right_ok by exact Hw. rewrite N.min_l by lia.
      cbn [option_bind]. unfold shl_checked. assert (Hp : w <= promoted w) by (unfold promoted; lia).
      destruct (N.ltb_spec (w - count) (promoted w)); [|lia]. cbn [option_bind]. f_equal.
      rewrite N.shiftl_mul_pow2, N.mul_sub_distr_r, <- N.pow_add_r, N.mul_1_l.
      replace (count + (w - count)) with w by lia.
      assert (2 ^ w <= 2 ^ promoted w) by (apply N.pow_le_mono_r; lia).
      pose proof (pow2_pos (w - count)). pose proof (pow2_pos w).
      rewrite !trunc_small; [reflexivity| |]; rewrite ?trunc_small; lia.
Qed.

Lemma bit_fill_right_bits w count r i : 0 < w -> bit_fill_right w count = Some r ->
  N.testbit r i = (i <? N.min count w).
Proof.
  intros Hw. rewrite bit_fill_right_ok by exact Hw. intros [= <-].
  rewrite <- N.pred_sub, <- N.ones_equiv. destruct (N.ltb_spec i (N.min count w)) as [H|H].
  - apply N.ones_spec_low, H.
  - apply N.ones_spec_high, H.
Qed.

Lemma bit_fill_left_bits w count r i : 0 < w -> bit_fill_left w count = Some r ->
  N.testbit r i = (w - N.min count w <=? i) && (i <? w).
Proof.
  intros Hw. rewrite bit_fill_left_ok by exact Hw. intros [= <-].
  set (c := N.min count w). assert (Hc : c <= w) by (unfold c; lia).
  assert (E : 2 ^ w - 2 ^ (w - c) = N.ones c * 2 ^ (w - c)).
  { rewrite N.ones_equiv, N.pred_sub, N.mul_sub_distr_r, <- N.pow_add_r, N.mul_1_l.
    replace (c + (w - c)) with w by lia. reflexivity. }
  rewrite E, <- N.shiftl_mul_pow2, testbit_shiftl. destruct (N.leb_spec (w - c) i) as [H|H]; [|reflexivity].
  cbn [andb]. destruct (N.ltb_spec i w) as [H'|H'].
  - apply N.ones_spec_low. lia.
  - apply N.ones_spec_high. lia.
Qed.

(* ---------------------------------------------------------------- bit_pack *)

Lemma total_bits_cons a l : total_bits (a :: l) = fst a + total_bits l.
Proof. reflexivity. Qed.

Lemma concat_value_lt args : args_ok args -> concat_value args < 2 ^ total_bits args.
Proof.
  induction args as [|[wd v] l IH]; intros H; [reflexivity|].
  inversion H as [|? ? Hv Hl]; subst. cbn [fst snd] in Hv. specialize (IH Hl).
  rewrite total_bits_cons, N.pow_add_r. cbn [concat_value fst].
  change (fold_right (fun a s => fst a + s) 0 l) with (total_bits l).
  set (P := 2 ^ total_bits l) in *. nia.
Qed.

Lemma bit_pack_ok rw args :
  args <> [] -> args_ok args -> Forall (fun a => 0 < fst a) args -> total_bits args <= rw ->
  bit_pack rw args = Some (concat_value args).
Proof.
  induction args as [|[wd v] l IH]; intros Hne Hok Hpos Hrw; [congruence|].
  inversion Hok as [|? ? Hv Hl]; subst. cbn [fst snd] in Hv.
  inversion Hpos as [|? ? Hwd Hpl]; subst. cbn [fst] in Hwd.
  rewrite total_bits_cons in Hrw. cbn [fst] in Hrw.
  assert (Hvr : v < 2 ^ rw).
  { apply N.lt_le_trans with (1 := Hv). apply N.pow_le_mono_r; [discriminate|lia]. }
  destruct l as [|a l'].
  - cbn [bit_pack concat_value fold_right]. rewrite trunc_small by exact Hvr. f_equal. rewrite N.pow_0_r. lia.
  - set (l := a :: l') in *. change (bit_pack rw ((wd, v) :: l)) with
      (hi <- shl_checked (promoted rw) (trunc rw v) (total_bits l) ;;
       lo <- bit_pack rw l ;; Some (trunc rw (N.lor (trunc rw hi) lo))).
    rewrite IH by (assumption || discriminate || lia).
    cbn [concat_value]. change (fold_right (fun a s => fst a + s) 0 l) with (total_bits l).
    pose proof (concat_value_lt l Hl) as Hc.
    assert (Hlt : v * 2 ^ total_bits l + concat_value l < 2 ^ rw).
    { pose proof (concat_value_lt ((wd, v) :: l) Hok) as Hlt. cbn [concat_value] in Hlt.
      change (fold_right (fun a s => fst a + s) 0 l) with (total_bits l) in Hlt.
      apply N.lt_le_trans with (1 := Hlt). apply N.pow_le_mono_r; [discriminate|exact Hrw]. }
    unfold shl_checked. assert (Hp : rw <= promoted rw) by (unfold promoted; lia).
    destruct (N.ltb_spec (total_bits l) (promoted rw)); [|lia]. cbn [option_bind].
    rewrite (trunc_small rw v) by exact Hvr.
    assert (Hsh : N.shiftl v (total_bits l) < 2 ^ rw) by (rewrite N.shiftl_mul_pow2; lia).
    rewrite (trunc_small (promoted rw)).
    2:{ apply N.lt_le_trans with (1 := Hsh). apply N.pow_le_mono_r; [discriminate|exact Hp]. }
    rewrite (trunc_small rw (N.shiftl v _)) by exact Hsh.
    rewrite lor_disjoint_add by exact Hc. rewrite trunc_small by exact Hlt. reflexivity.
Qed.

Lemma bit_pack_recover rw pre wd v post r :
  args_ok (pre ++ (wd, v) :: post) -> Forall (fun a => 0 < fst a) (pre ++ (wd, v) :: post) ->
  total_bits (pre ++ (wd, v) :: post) <= rw ->
  bit_pack rw (pre ++ (wd, v) :: post) = Some r ->
  N.land (N.shiftr r (total_bits post)) (N.ones wd) = v.
Proof.
  intros Hok Hpos Hrw. rewrite bit_pack_ok by (try assumption; destruct pre; discriminate).
  intros [= <-]. rewrite N.land_ones, N.shiftr_div_pow2. clear Hpos Hrw rw.
  induction pre as [|[wd' v'] pre IH]; cbn [app concat_value] in *.
  - inversion Hok as [|? ? Hv Hl]; subst. change (fold_right (fun a s => fst a + s) 0 post) with (total_bits post).
    pose proof (concat_value_lt post Hl) as Hc.
    rewrite N.div_add_l, (N.div_small (concat_value post)) by (try exact Hc; apply N.pow_nonzero; discriminate).
    rewrite N.add_0_r. apply N.mod_small. exact Hv.
  - inversion Hok as [|? ? Hv Hl]; subst. specialize (IH Hl).
    match goal with |- context [fold_right ?f 0 ?l] => set (T := fold_right f 0 l) end.
    assert (HT : exists q, T = q + wd + total_bits post).
    { unfold T. clear. induction pre as [|[a b] pre (q & IH)].
      - exists 0. cbn [app fold_right fst]. unfold total_bits. lia.
      - exists (a + q). cbn [app fold_right fst]. rewrite IH. lia. }
    destruct HT as (q & ->). rewrite <- IH at 2.
    replace (v' * 2 ^ (q + wd + total_bits post)) with (v' * 2 ^ q * 2 ^ wd * 2 ^ total_bits post)
      by (rewrite !N.pow_add_r; lia).
    rewrite N.div_add_l by (apply N.pow_nonzero; discriminate).
    rewrite N.add_comm, N.mod_add by (apply N.pow_nonzero; discriminate). reflexivity.
Qed.

Lemma bit_pack_injective rw a b r :
  map fst a = map fst b -> args_ok a -> args_ok b -> Forall (fun x => 0 < fst x) a ->
  total_bits a <= rw -> bit_pack rw a = Some r -> bit_pack rw b = Some r -> a = b.
Proof.
  intros Hw Ha Hb Hpos Hrw Ea Eb.
  assert (Hne : a <> []) by (intros ->; discriminate).
  assert (Hneb : b <> []) by (intros ->; discriminate).
  assert (Ht : forall a b : list arg, map fst a = map fst b -> total_bits a = total_bits b).
  { clear. induction a as [|x a IH]; intros [|y b] H; try discriminate; [reflexivity|].
    cbn [map] in H. injection H as H1 H2. rewrite !total_bits_cons, H1, (IH b H2). reflexivity. }
  assert (Hposb : Forall (fun x => 0 < fst x) b).
  { clear -Hw Hpos. revert b Hw. induction a as [|x a IH]; intros [|y b] H; try discriminate; constructor;
    cbn [map] in H; injection H as H1 H2; inversion Hpos as [|? ? Hx Hl]; subst; [lia|now apply IH]. }
  rewrite bit_pack_ok in Ea by assumption.
  rewrite bit_pack_ok in Eb by (try assumption; rewrite <- (Ht _ _ Hw); exact Hrw).
  assert (E : concat_value a = concat_value b) by congruence.
  clear -Hw Ha Hb E Ht. revert b Hw Hb E.
  induction a as [|[wa va] a IH]; intros [|[wb vb] b] Hw Hb E; try discriminate; [reflexivity|].
  cbn [map fst] in Hw. injection Hw as -> Hw'. cbn [concat_value] in E.
  change (fold_right (fun a s => fst a + s) 0 a) with (total_bits a) in E.
  change (fold_right (fun a s => fst a + s) 0 b) with (total_bits b) in E.
  rewrite (Ht _ _ Hw') in E. inversion Ha as [|? ? Hva Hla]; subst. inversion Hb as [|? ? Hvb Hlb]; subst.
  pose proof (concat_value_lt a Hla) as H1. pose proof (concat_value_lt b Hlb) as H2.
  rewrite (Ht _ _ Hw') in H1. set (P := 2 ^ total_bits b) in *.
  assert (va = vb).
  { assert (D1 : (va * P + concat_value a) / P = va) by (rewrite N.div_add_l, (N.div_small _ _ H1); lia).
    assert (D2 : (vb * P + concat_value b) / P = vb) by (rewrite N.div_add_l, (N.div_small _ _ H2); lia).
    congruence. }
  subst vb. f_equal. apply IH; try assumption. lia.
Qed.

Lemma bit_pack_auto_ok p args :
  args <> [] -> args_ok args -> Forall (fun a => 0 < fst a) args -> total_bits args <= 128 ->
  bit_pack_auto p args = Some (concat_value args).
Proof.
  intros Hne Hok Hpos Ht. unfold bit_pack_auto.
  destruct (bit_ceil_least p 64 (total_bits args) ltac:(reflexivity)) as (r & -> & _ & Hle & _).
  { apply N.le_trans with (1 := Ht). discriminate. }
  cbn [option_bind]. apply bit_pack_ok; assumption.
Qed.

(* ----------------------------------------------------- byte_select, swizzle *)

Lemma land_ff x : N.land x 0xFF = x mod 256.
Proof. change 0xFF with (N.ones 8). rewrite N.land_ones. reflexivity. Qed.

Lemma mod256_trunc8 x : trunc 8 x = x mod 256.
Proof. reflexivity. Qed.

(** Byte [i] (0 = least significant) of [x]. *)
Definition byte_at (i x : N) : N := (x / 2 ^ (8 * i)) mod 256.

Lemma byte_at_bound i x : byte_at i x < 256.
Proof. apply N.mod_lt. discriminate. Qed.

Lemma byte_select_static_ok w i x :
  std_width w -> x < 2 ^ w -> i < w / 8 -> byte_select_static w i x = Some (byte_at i x).
Proof.
  intros Hstd Hx Hi. unfold byte_select_static, byte_at. destruct (N.ltb_spec i (w / 8)) as [_|]; [|lia].
  destruct (N.eqb_spec w 8) as [->|H8].
  - change (8 / 8) with 1 in Hi. replace i with 0 by lia. change (2 ^ (8 * 0)) with 1.
    rewrite N.div_1_r, mod256_trunc8. reflexivity.
  - assert (Hiw : i * 8 + 8 <= w).
    { destruct Hstd as [->|[->|[->|[->| ->]]]]; [congruence|..]; lia. }
    unfold shl_checked, shr_checked. assert (Hp : w <= promoted w) by (unfold promoted; lia).
    destruct (N.ltb_spec (i * 8) (promoted w)); [|lia]. cbn [option_bind].
    rewrite (trunc_small (promoted w)).
    2:{ rewrite N.shiftl_mul_pow2. apply N.lt_le_trans with (2 ^ 8 * 2 ^ (i * 8)).
        - apply N.mul_lt_mono_pos_r; [apply pow2_pos|reflexivity].
        - rewrite <- N.pow_add_r. apply N.pow_le_mono_r; [discriminate|lia]. }
    destruct (N.eqb_spec i 0) as [->|Hi0].
    + change (N.shiftl 255 (0 * 8)) with 255. rewrite N.land_comm, land_ff. change (2 ^ (8 * 0)) with 1.
      rewrite N.div_1_r, mod256_trunc8. rewrite N.mod_mod by discriminate. reflexivity.
    + f_equal. rewrite N.shiftr_land, N.shiftr_shiftl_l by lia.
      rewrite N.sub_diag, N.shiftl_0_r, N.land_comm, land_ff, mod256_trunc8, N.mod_mod by discriminate.
      rewrite N.shiftr_div_pow2. now rewrite (N.mul_comm i).
Qed.

Lemma byte_select_ok w i x :
  std_width w -> x < 2 ^ w -> i < w / 8 -> byte_select w x i = Some (byte_at i x).
Proof.
  intros Hstd Hx Hi. unfold byte_select, byte_at. destruct (N.ltb_spec (w / 8) i) as [|_]; [lia|].
  destruct (N.eqb_spec w 8) as [->|H8].
  - change (8 / 8) with 1 in Hi. replace i with 0 by lia. change (2 ^ (8 * 0)) with 1.
    rewrite N.div_1_r. reflexivity.
  - assert (Hiw : i * 8 + 8 <= w).
    { destruct Hstd as [->|[->|[->|[->| ->]]]]; [congruence|..]; lia. }
    unfold shr_checked, promoted. destruct (N.ltb_spec (i * 8) (N.max 32 w)); [|lia]. cbn [option_bind].
    f_equal. rewrite land_ff, mod256_trunc8, N.mod_mod by discriminate.
    rewrite trunc_small.
    2:{ rewrite N.shiftr_div_pow2. apply N.le_lt_trans with (2 := Hx).
        apply N.div_le_upper_bound; [apply N.pow_nonzero; discriminate|].
        pose proof (pow2_pos (i * 8)). nia. }
    rewrite N.shiftr_div_pow2. now rewrite (N.mul_comm i).
Qed.

Lemma byte_select_beyond w i x : w / 8 < i -> byte_select w x i = Some 0.
Proof. intros H. unfold byte_select. destruct (N.ltb_spec (w / 8) i); [reflexivity|lia]. Qed.

Lemma byte_select_at_size w x :
  std_width w -> x < 2 ^ w ->
  byte_select w x (w / 8) = if w =? 8 then Some x else if w =? 16 then Some 0 else None.
Proof.
  intros Hstd Hx. unfold byte_select. rewrite N.ltb_irrefl.
  destruct Hstd as [->|[->|[->|[->| ->]]]]; try reflexivity.
  - cbn [N.eqb Pos.eqb]. f_equal. apply trunc_small, Hx.
  - cbn [N.eqb Pos.eqb]. change (16 / 8 * 8) with 16. unfold shr_checked.
    change (16 <? promoted 16) with true. cbn [option_bind].
    rewrite N.shiftr_div_pow2, N.div_small by exact Hx. reflexivity.
Qed.

Lemma select_all_ok w x idx :
  std_width w -> x < 2 ^ w -> Forall (fun i => i < w / 8) idx ->
  select_all w x idx = Some (map (fun i => (8, byte_at i x)) idx).
Proof.
  intros Hstd Hx H. induction H as [|i idx Hi Hidx IH]; [reflexivity|].
  cbn [select_all map]. rewrite byte_select_static_ok by assumption. cbn [option_bind]. rewrite IH. reflexivity.
Qed.

Lemma concat_bytes_value l :
  concat_value (map (fun b => (8, b)) l) = of_le_bytes (rev l).
Proof.
  induction l as [|b l IH]; [reflexivity|].
  cbn [map concat_value rev]. rewrite of_le_bytes_snoc, rev_length, IH.
  assert (E : forall l : list N, fold_right (fun (a : N * N) s => fst a + s) 0 (map (fun b => (8, b)) l) = 8 * N.of_nat (length l)).
  { clear. induction l as [|c l IH]; [reflexivity|]. cbn [map fold_right length fst]. rewrite IH. lia. }
  rewrite E. lia.
Qed.

Lemma swizzle_ok p w x idx :
  std_width w -> x < 2 ^ w -> idx <> [] -> Forall (fun i => i < w / 8) idx -> (length idx <= 16)%nat ->
  swizzle p w x idx = Some (of_le_bytes (rev (map (fun i => byte_at i x) idx))).
Proof.
  intros Hstd Hx Hne Hidx Hlen. unfold swizzle. rewrite select_all_ok by assumption. cbn [option_bind].
  set (n := 8 * N.of_nat (length idx)).
  assert (Hrw : exists rw, (if n =? w then Some w else bit_ceil p 64 n) = Some rw /\ n <= rw).
  { destruct (N.eqb_spec n w) as [->|_]; [exists w; split; [reflexivity|lia]|].
    destruct (bit_ceil_least p 64 n ltac:(reflexivity)) as (r & E & _ & Hle & _).
    { unfold n. apply N.le_trans with 128; [lia|discriminate]. }
    exists r. split; assumption. }
  destruct Hrw as (rw & -> & Hrw). cbn [option_bind].
  replace (map (fun i => (8, byte_at i x)) idx) with (map (fun b => (8, b)) (map (fun i => byte_at i x) idx))
    by apply map_map.
  rewrite bit_pack_ok.
  - now rewrite concat_bytes_value.
  - destruct idx; [congruence|discriminate].
  - apply Forall_forall. intros a Ha. apply in_map_iff in Ha. destruct Ha as (b & <- & Hb).
    apply in_map_iff in Hb. destruct Hb as (i & <- & _). apply byte_at_bound.
  - apply Forall_forall. intros a Ha. apply in_map_iff in Ha. destruct Ha as (b & <- & Hb). reflexivity.
  - apply N.le_trans with n; [|exact Hrw]. unfold n. clear. rewrite map_map.
    induction idx as [|i idx IH]; [reflexivity|]. cbn [map length]. rewrite total_bits_cons. cbn [fst]. lia.
Qed.

(* --------------------------------------------------------- apply_alignment *)

Ltac Zify.zify_post_hook ::= idtac.

Lemma land_align_mask uw k s : k <= uw -> s < 2 ^ uw ->
  N.land s (N.lxor (2 ^ k - 1) (N.ones uw)) = s - s mod 2 ^ k.
Proof.
  intros Hk Hs.
  assert (E : N.land s (N.lxor (2 ^ k - 1) (N.ones uw)) = N.shiftl (s / 2 ^ k) k).
  { apply N.bits_inj. intros i. rewrite N.land_spec, N.lxor_spec, <- N.pred_sub, <- N.ones_equiv, testbit_shiftl.
    rewrite N.div_pow2_bits. destruct (N.leb_spec k i) as [H|H].
    - rewrite (N.ones_spec_high k) by exact H. rewrite xorb_false_l. replace (i - k + k) with i by lia.
      destruct (N.ltb_spec i uw) as [H'|H'].
      + rewrite N.ones_spec_low by exact H'. cbn [andb]. apply andb_true_r.
      + rewrite (testbit_high uw s i Hs H'). reflexivity.
    - rewrite !N.ones_spec_low by lia. apply andb_false_r. }
  rewrite E, N.shiftl_mul_pow2. pose proof (N.div_mod s (2 ^ k) ltac:(apply N.pow_nonzero; discriminate)) as Hd.
  set (q := s / 2 ^ k) in *. set (m := s mod 2 ^ k) in *. clearbody q m. lia.
Qed.

(** The least multiple of [a] not below [v]. *)
Definition round_up (v a : N) : N := a * ((v + a - 1) / a).

Lemma round_up_spec v a : 0 < a ->
  (a | round_up v a) /\ v <= round_up v a /\ (forall m, (a | m) -> v <= m -> round_up v a <= m).
Proof.
  intros Ha. unfold round_up. split; [|split].
  - exists ((v + a - 1) / a). lia.
  - pose proof (N.div_mod (v + a - 1) a ltac:(lia)). pose proof (N.mod_lt (v + a - 1) a ltac:(lia)). lia.
  - intros m (q & ->) Hm. rewrite N.mul_comm. apply N.mul_le_mono_r.
    apply N.lt_succ_r. apply N.div_lt_upper_bound; [lia|]. nia.
Qed.

Lemma pow2_test k : N.land (2 ^ k) (2 ^ k - 1) = 0.
Proof.
  apply N.bits_inj. intros i. rewrite N.land_spec, N.pow2_bits_eqb, N.bits_0.
  destruct (N.eqb_spec k i) as [<-|]; [|reflexivity].
  rewrite <- N.pred_sub, <- N.ones_equiv, N.ones_spec_high by lia. reflexivity.
Qed.

Lemma align_core K W U cU v :
  0 < K -> 0 < W -> U = K * cU -> W <= U -> v < W ->
  (exists c, W = K * c) \/ (exists c, K = W * c) ->
  let s := v + K - 1 in
  ((s mod U) - (s mod U) mod K) mod W = if K * (s / K) <? W then K * (s / K) else 0.
Proof.
  intros HK HW HU HWU Hv Hrel s.
  pose proof (N.div_mod s K ltac:(lia)) as Hd. pose proof (N.mod_lt s K ltac:(lia)) as Hm.
  set (q := s / K) in *. set (m := s mod K) in *. clearbody q m.
  assert (Hup : K * q < W + K) by lia.
  destruct (N.ltb_spec q cU) as [Hq|Hq].
  - assert (Hle : K * (q + 1) <= U) by (rewrite HU; apply N.mul_le_mono_l; lia).
    rewrite N.mul_add_distr_l, N.mul_1_r in Hle.
    rewrite (N.mod_small s U) by lia.
    assert (Hsm : s mod K = m) by (symmetry; apply N.mod_unique with q; lia).
    rewrite Hsm. replace (s - m) with (K * q) by lia.
    destruct (N.ltb_spec (K * q) W) as [H|H]; [apply N.mod_small, H|].
    destruct Hrel as [(c & Hc)|(c & Hc)].
    + assert (c <= q) by (apply (N.mul_le_mono_pos_l _ _ K); lia).
      assert (q < c + 1).
      { apply (N.mul_lt_mono_pos_l K); [lia|]. rewrite N.mul_add_distr_l, N.mul_1_r. lia. }
      replace q with c by lia. rewrite <- Hc. apply N.mod_same. lia.
    + rewrite Hc. replace (W * c * q) with (c * q * W) by lia. apply N.mod_mul. lia.
  - assert (HKU : U <= K * q) by (rewrite HU; apply N.mul_le_mono_l; lia).
    assert (Hq' : q < cU + 1).
    { apply (N.mul_lt_mono_pos_l K); [lia|]. rewrite N.mul_add_distr_l, N.mul_1_r. lia. }
    assert (Hqe : q = cU) by lia. subst q.
    destruct (N.ltb_spec (K * cU) W) as [H|H]; [lia|].
    destruct (N.ltb_spec m U) as [HmU|HmU].
    + assert (Hsu : s mod U = m) by (symmetry; apply N.mod_unique with 1; lia).
      rewrite Hsu, (N.mod_small m K) by exact Hm. rewrite N.sub_diag. apply N.mod_0_l. lia.
    + exfalso. assert (cU <> 0) by (intros ->; lia).
      assert (K * 1 <= K * cU) by (apply N.mul_le_mono_l; lia). lia.
Qed.

Lemma trunc_sub1 uw x : 0 < x -> trunc uw (x + 2 ^ uw - 1) = (x - 1) mod 2 ^ uw.
Proof.
  intros H. pose proof (pow2_pos uw). unfold trunc.
  replace (x + 2 ^ uw - 1) with (x - 1 + 1 * 2 ^ uw) by lia. apply N.mod_add. lia.
Qed.

Lemma trunc_add_sub1 uw x : 0 < x -> trunc uw (trunc uw x + 2 ^ uw - 1) = (x - 1) mod 2 ^ uw.
Proof.
  intros H. pose proof (pow2_pos uw) as Hp. unfold trunc.
  pose proof (N.div_mod x (2 ^ uw) ltac:(lia)) as Hd. pose proof (N.mod_lt x (2 ^ uw) ltac:(lia)) as Hl.
  set (q := x / 2 ^ uw) in *. set (m := x mod 2 ^ uw) in *. clearbody q m. set (P := 2 ^ uw) in *. clearbody P.
  destruct (N.eq_dec m 0) as [->|Hm].
  - assert (Hq : q <> 0) by (intros ->; lia). assert (Hq' : exists q', q = q' + 1) by (exists (q - 1); lia).
    destruct Hq' as (q' & ->). replace (0 + P - 1) with (P - 1) by lia.
    replace (x - 1) with (P - 1 + q' * P) by lia. now rewrite N.mod_add by lia.
  - replace (m + P - 1) with (m - 1 + 1 * P) by lia.
    replace (x - 1) with (m - 1 + q * P) by lia. now rewrite !N.mod_add by lia.
Qed.

Lemma apply_alignment_ok sw w k v :
  v < 2 ^ w -> k < sw ->
  apply_alignment sw w v (2 ^ k) =
    Some (if round_up v (2 ^ k) <? 2 ^ w then round_up v (2 ^ k) else 0).
Proof.
  intros Hv Hk. unfold apply_alignment. set (uw := N.max w sw).
  pose proof (pow2_pos k) as Hpk. pose proof (pow2_pos w) as Hpw.
  destruct (N.eqb_spec (2 ^ k) 0) as [|_]; [lia|]. cbn [orb].
  rewrite pow2_test. cbn [N.eqb negb].
  assert (Hku : 2 ^ k < 2 ^ uw) by (apply N.pow_lt_mono_r; unfold uw; lia).
  assert (Hkk : k <= uw) by (unfold uw; lia).
  assert (Hwu : 2 ^ w <= 2 ^ uw) by (apply N.pow_le_mono_r; unfold uw; lia).
  rewrite trunc_add_sub1 by lia.
  rewrite trunc_sub1 by exact Hpk. rewrite (N.mod_small (2 ^ k - 1)) by lia.
  rewrite land_align_mask by (try exact Hkk; apply N.mod_lt; lia).
  f_equal. unfold trunc, round_up. apply (align_core (2 ^ k) (2 ^ w) (2 ^ uw) (2 ^ (uw - k)) v); try assumption.
  - rewrite <- N.pow_add_r. f_equal. lia.
  - destruct (N.leb_spec k w) as [H|H]; [left; exists (2 ^ (w - k))|right; exists (2 ^ (k - w))];
      rewrite <- N.pow_add_r; f_equal; lia.
Qed.

Lemma apply_alignment_idem sw w k v r :
  v < 2 ^ w -> k < sw -> apply_alignment sw w v (2 ^ k) = Some r ->
  r < 2 ^ w /\ apply_alignment sw w r (2 ^ k) = Some r.
Proof.
  intros Hv Hk Hr. rewrite apply_alignment_ok in Hr by assumption. injection Hr as Hr.
  pose proof (pow2_pos k) as Hpk. pose proof (pow2_pos w) as Hpw.
  destruct (round_up_spec v (2 ^ k) Hpk) as (Hd & Hle & _).
  destruct (N.ltb_spec (round_up v (2 ^ k)) (2 ^ w)) as [H|H].
  - subst r. split; [exact H|]. rewrite apply_alignment_ok by assumption.
    assert (E : round_up (round_up v (2 ^ k)) (2 ^ k) = round_up v (2 ^ k)).
    { destruct (round_up_spec (round_up v (2 ^ k)) (2 ^ k) Hpk) as (_ & Hle' & Hmin).
      apply N.le_antisymm; [|exact Hle']. apply Hmin; [exact Hd|lia]. }
    rewrite E. destruct (N.ltb_spec (round_up v (2 ^ k)) (2 ^ w)); [reflexivity|lia].
  - subst r. split; [exact Hpw|]. rewrite apply_alignment_ok by assumption.
    assert (E : round_up 0 (2 ^ k) = 0).
    { destruct (round_up_spec 0 (2 ^ k) Hpk) as (_ & _ & Hmin).
      specialize (Hmin 0 (N.divide_0_r _) ltac:(lia)). lia. }
    rewrite E. destruct (0 <? 2 ^ w); reflexivity.
Qed.
