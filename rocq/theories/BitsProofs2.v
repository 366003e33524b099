(** Proofs about the bit utilities, second part: popcount, byte_reverse, masks, packing, alignment. *)
From Verif Require Import Words WordsProofs BitsModel BitsSpec BitsProofs.
From Coq Require Import ZifyBool ZifyNat ZifyN.
Ltac Zify.zify_post_hook ::= Z.div_mod_to_equations.

(* ---------------------------------------------------------------- popcount *)

(** [n] byte lanes, each with value [m]. *)
Fixpoint rep (n : nat) (m : N) : N := match n with O => 0 | S k => m + 256 * rep k m end.

Lemma land_lanes a b x y : a < 256 -> b < 256 ->
  N.land (a + 256 * x) (b + 256 * y) = N.land a b + 256 * N.land x y.
Proof.
  intros Ha Hb. apply N.bits_inj. intros i. rewrite N.land_spec.
  assert (T : forall c z, c < 256 -> N.testbit (c + 256 * z) i =
                if i <? 8 then N.testbit c i else N.testbit z (i - 8)).
  { intros c z Hc. destruct (N.ltb_spec i 8) as [H|H].
    - rewrite <- (N.mod_pow2_bits_low (c + 256 * z) 8) by exact H. f_equal.
      change (2 ^ 8) with 256. lia.
    - replace i with (i - 8 + 8) at 1 by lia. rewrite <- N.div_pow2_bits. f_equal.
      change (2 ^ 8) with 256. lia. }
  rewrite !T; try assumption.
  - destruct (i <? 8); rewrite N.land_spec; reflexivity.
  - change 256 with (2 ^ 8). apply lt_pow2_bits. intros j Hj.
    rewrite N.land_spec, (testbit_high 8 a j Ha Hj). reflexivity.
Qed.

Lemma land_small k a m : m < 2 ^ k -> N.land a m = N.land (a mod 2 ^ k) m.
Proof.
  intros Hm. apply N.bits_inj. intros i. rewrite !N.land_spec.
  destruct (N.ltb_spec i k) as [H|H].
  - rewrite N.mod_pow2_bits_low by exact H. reflexivity.
  - rewrite (testbit_high k m i Hm H). now rewrite !andb_false_r.
Qed.

Lemma land_lt a m k : m < 2 ^ k -> N.land a m < 2 ^ k.
Proof.
  intros Hm. apply lt_pow2_bits. intros i Hi. rewrite N.land_spec, (testbit_high k m i Hm Hi).
  apply andb_false_r.
Qed.

(** Apply [f] to every byte lane. *)
Fixpoint lanes (f : N -> N) (n : nat) (x : N) : N :=
  match n with O => 0 | S k => f (x mod 256) + 256 * lanes f k (x / 256) end.

Lemma lanes_id n x : x < 2 ^ (8 * N.of_nat n) -> lanes (fun a => a) n x = x.
Proof.
  revert x; induction n as [|n IH]; intros x Hx; cbn [lanes].
  - change (2 ^ (8 * N.of_nat 0)) with 1 in Hx. lia.
  - rewrite pow256 in Hx. rewrite IH; [lia|]. apply N.div_lt_upper_bound; lia.
Qed.

Lemma lanes_ext f g n x : (forall a, a < 256 -> f a = g a) -> lanes f n x = lanes g n x.
Proof.
  intros H. revert x; induction n as [|n IH]; intros x; cbn [lanes]; [reflexivity|].
  rewrite IH, H by lia. reflexivity.
Qed.

Lemma lanes_add f g n x : lanes f n x + lanes g n x = lanes (fun a => f a + g a) n x.
Proof. revert x; induction n as [|n IH]; intros x; cbn [lanes]; [reflexivity|]. rewrite <- IH. lia. Qed.

Lemma lanes_sub f g n x : (forall a, a < 256 -> g a <= f a) ->
  lanes f n x - lanes g n x = lanes (fun a => f a - g a) n x.
Proof.
  intros H.
  assert (Hle : forall x, lanes g n x <= lanes f n x).
  { clear x. induction n as [|n IH]; intros x; cbn [lanes]; [lia|].
    specialize (IH (x / 256)). specialize (H (x mod 256) ltac:(lia)). lia. }
  revert x; induction n as [|n IH]; intros x; cbn [lanes]; [reflexivity|].
  assert (IHle : forall x, lanes g n x <= lanes f n x).
  { clear -H. induction n as [|n IH]; intros x; cbn [lanes]; [lia|].
    specialize (IH (x / 256)). specialize (H (x mod 256) ltac:(lia)). lia. }
  rewrite <- (IH IHle). specialize (H (x mod 256) ltac:(lia)).
  specialize (IHle (x / 256)). lia.
Qed.

Lemma lanes_bound f n x : (forall a, a < 256 -> f a < 256) -> lanes f n x < 2 ^ (8 * N.of_nat n).
Proof.
  intros H. revert x; induction n as [|n IH]; intros x; cbn [lanes]; [reflexivity|].
  rewrite pow256. specialize (IH (x / 256)). specialize (H (x mod 256) ltac:(lia)). lia.
Qed.

Lemma lanes_comp f g n x : (forall a, a < 256 -> g a < 256) ->
  lanes f n (lanes g n x) = lanes (fun a => f (g a)) n x.
Proof.
  intros H. revert x; induction n as [|n IH]; intros x; cbn [lanes]; [reflexivity|].
  pose proof (H (x mod 256) ltac:(lia)) as Hg.
  replace ((g (x mod 256) + 256 * lanes g n (x / 256)) mod 256) with (g (x mod 256)) by lia.
  replace ((g (x mod 256) + 256 * lanes g n (x / 256)) / 256) with (lanes g n (x / 256)) by lia.
  now rewrite IH.
Qed.

(** A shifted-and-masked word works lane by lane when the mask excludes the bits
    coming in from the next lane. *)
Lemma lanes_shift_mask s m n x :
  s < 8 -> m < 2 ^ (8 - s) ->
  N.land (N.shiftr x s) (rep n m) = lanes (fun a => N.land (N.shiftr a s) m) n x.
Proof.
  intros Hs Hm. revert x; induction n as [|n IH]; intros x; cbn [lanes rep].
  - apply N.land_0_r.
  - assert (Hm8 : m < 256).
    { apply N.lt_le_trans with (1 := Hm). change 256 with (2 ^ 8). apply N.pow_le_mono_r; lia. }
    assert (Hp : 2 ^ 8 = 2 ^ s * 2 ^ (8 - s)).
    { rewrite <- N.pow_add_r. f_equal. lia. }
    pose proof (pow2_pos s) as Hps. pose proof (pow2_pos (8 - s)) as Hpr.
    change (2 ^ 8) with 256 in Hp.
    rewrite !N.shiftr_div_pow2 in *.
    rewrite (N.div_mod (x / 2 ^ s) 256) at 1 by discriminate.
    rewrite N.add_comm, land_lanes by (try exact Hm8; apply N.mod_lt; discriminate).
    f_equal.
    + rewrite (land_small (8 - s)) by exact Hm. rewrite (land_small (8 - s) (x mod 256 / _)) by exact Hm.
      f_equal. apply N.bits_inj. intros i.
      destruct (N.ltb_spec i (8 - s)) as [Hi|Hi].
      * rewrite !N.mod_pow2_bits_low by exact Hi. change 256 with (2 ^ 8).
        rewrite N.mod_pow2_bits_low by lia. rewrite !N.div_pow2_bits.
        rewrite N.mod_pow2_bits_low by lia. reflexivity.
      * rewrite !N.mod_pow2_bits_high by exact Hi. reflexivity.
    + f_equal. rewrite N.div_div by lia. rewrite (N.mul_comm (2 ^ s)), <- N.div_div by lia.
      rewrite <- N.shiftr_div_pow2. rewrite IH. reflexivity.
Qed.

Lemma lanes_land m n x : m < 256 -> N.land x (rep n m) = lanes (fun a => N.land a m) n x.
Proof.
  intros Hm. rewrite <- (N.shiftr_0_r x) at 1. rewrite lanes_shift_mask; [|lia|exact Hm].
  apply lanes_ext. intros a _. now rewrite N.shiftr_0_r.
Qed.

(** Third step, [(v + (v >> 4)) & 0x0f..0f], when every nibble of [v] is at most 4. *)
Lemma lanes_step3 (f : N -> N) n x :
  (forall a, a < 256 -> f a < 256 /\ f a mod 16 <= 4 /\ f a / 16 <= 4) ->
  N.land (lanes f n x + N.shiftr (lanes f n x) 4) (rep n 15)
  = lanes (fun a => N.land (f a + N.shiftr (f a) 4) 15) n x.
Proof.
  intros Hf. revert x; induction n as [|n IH]; intros x; cbn [lanes rep].
  - apply N.land_0_r.
  - set (R := lanes f n (x / 256)) in *. destruct (Hf (x mod 256) ltac:(lia)) as (Ha & Hlo & Hhi).
    set (a := f (x mod 256)) in *.
    assert (HR : R mod 16 <= 4).
    { unfold R. destruct n as [|n']; cbn [lanes]; [cbn; lia|].
      destruct (Hf ((x / 256) mod 256) ltac:(lia)) as (Ha' & Hlo' & Hhi').
      revert Hlo'. generalize (f ((x / 256) mod 256)) (lanes f n' (x / 256 / 256)). intros; lia. }
    rewrite <- IH. fold R. clearbody R a. rewrite !N.shiftr_div_pow2. change (2 ^ 4) with 16.
    set (X := a + 256 * R + (a + 256 * R) / 16).
    rewrite (N.div_mod X 256) by discriminate. rewrite N.add_comm.
    rewrite land_lanes by (try reflexivity; apply N.mod_lt; discriminate).
    assert (HX : X / 256 = R + R / 16) by (unfold X; lia).
    rewrite HX. f_equal. rewrite (land_small 4) by reflexivity.
    rewrite (land_small 4 (a + a / 16)) by reflexivity. f_equal. change (2 ^ 4) with 16.
    unfold X. lia.
Qed.

(** Multiplying by [0x01..01] puts the sum of all lanes in the top lane. *)
Definition sum_list (l : list N) : N := fold_right N.add 0 l.

Fixpoint psum (acc : N) (l : list N) : list N :=
  match l with [] => [] | a :: r => (acc + a) :: psum (acc + a) r end.

Lemma psum_length acc l : length (psum acc l) = length l.
Proof. revert acc; induction l as [|a l IH]; intros acc; cbn [psum length]; [|rewrite IH]; reflexivity. Qed.

Lemma psum_value acc l : of_le_bytes (psum acc l) = acc * rep (length l) 1 + of_le_bytes (psum 0 l).
Proof.
  revert acc; induction l as [|a l IH]; intros acc; cbn [psum length rep of_le_bytes]; [lia|].
  rewrite (IH (acc + a)), (IH (0 + a)). lia.
Qed.

Lemma rep_S_top n : rep (S n) 1 = rep n 1 + 2 ^ (8 * N.of_nat n).
Proof. induction n as [|n IH]; [reflexivity|]. cbn [rep] in *. rewrite pow256. lia. Qed.

Lemma psum_mul l : exists q,
  of_le_bytes l * rep (length l) 1 = of_le_bytes (psum 0 l) + q * 2 ^ (8 * N.of_nat (length l)).
Proof.
  induction l as [|a l (q & IH)]; [exists 0; reflexivity|].
  cbn [length of_le_bytes psum]. rewrite rep_S_top, (psum_value (0 + a)), pow256.
  pose proof (rep_S_top (length l)) as Hr. cbn [rep] in Hr.
  exists (q + of_le_bytes l).
  set (V := of_le_bytes l) in *. set (P := 2 ^ (8 * N.of_nat (length l))) in *.
  set (W := of_le_bytes (psum 0 l)) in *. set (R := rep (length l) 1) in *.
  assert (Hs : a * (R + P) = a + 256 * (a * R)) by (rewrite <- Hr; lia).
  replace ((a + 256 * V) * (R + P)) with (a * (R + P) + 256 * (V * R) + 256 * (V * P)) by lia.
  rewrite Hs, IH. lia.
Qed.

Lemma psum_bound acc l b : acc + sum_list l < b -> Forall (fun x => x < b) (psum acc l).
Proof.
  revert acc; induction l as [|a l IH]; intros acc H; cbn [psum]; [constructor|]; change (sum_list (a :: l)) with (a + sum_list l) in H; constructor.
  - lia.
  - apply IH. lia.
Qed.

Lemma psum_snoc acc l a : psum acc (l ++ [a]) = psum acc l ++ [acc + sum_list l + a].
Proof.
  revert acc; induction l as [|b l IH]; intros acc; cbn [psum app].
  - cbn [sum_list fold_right]. now rewrite N.add_0_r.
  - rewrite IH. change (sum_list (b :: l)) with (b + sum_list l). 
    now replace (acc + (b + sum_list l) + a) with (acc + b + sum_list l + a) by lia.
Qed.

Lemma of_le_bytes_snoc l a : of_le_bytes (l ++ [a]) = of_le_bytes l + 2 ^ (8 * N.of_nat (length l)) * a.
Proof.
  induction l as [|b l IH]; cbn [app of_le_bytes length].
  - change (2 ^ (8 * N.of_nat 0)) with 1. lia.
  - rewrite IH, pow256. lia.
Qed.

Lemma mul_rep_top l n :
  length l = S n -> sum_list l < 256 ->
  (of_le_bytes l * rep (S n) 1) mod 2 ^ (8 * N.of_nat (S n)) / 2 ^ (8 * N.of_nat n) = sum_list l.
Proof.
  intros Hl Hs. destruct (psum_mul l) as (q & Hq). rewrite Hl in Hq. rewrite Hq.
  rewrite N.mod_add by (apply N.pow_nonzero; discriminate).
  pose proof (psum_bound 0 l 256 ltac:(lia)) as Hb.
  rewrite N.mod_small.
  2:{ rewrite <- Hl, <- (psum_length 0 l). apply of_le_bytes_bound; exact Hb. }
  destruct (exists_last (l := l)) as (u & t & ->); [intros ->; discriminate|].
  rewrite app_length in Hl. cbn [length] in Hl. assert (Hu : length u = n) by lia.
  rewrite psum_snoc, of_le_bytes_snoc, psum_length, Hu.
  rewrite psum_snoc in Hb. apply Forall_app in Hb. destruct Hb as [Hb _].
  pose proof (of_le_bytes_bound _ Hb) as Hb'. rewrite psum_length, Hu in Hb'.
  rewrite N.add_comm, N.mul_comm, N.div_add_l by (apply N.pow_nonzero; discriminate).
  rewrite N.div_small by exact Hb'.
  unfold sum_list. rewrite fold_right_app. cbn [fold_right].
  assert (E : forall u' z, fold_right N.add z u' = sum_list u' + z).
  { intros u' z. induction u' as [|c u' IHu]; cbn [fold_right]; [cbn; lia|].
    rewrite IHu. change (sum_list (c :: u')) with (c + sum_list u'). lia. }
  rewrite !E. lia.
Qed.

Lemma lanes_bytes f n x : lanes f n x = of_le_bytes (map f (le_bytes n x)).
Proof. revert x; induction n as [|n IH]; intros x; cbn [lanes le_bytes map of_le_bytes]; [|rewrite IH]; reflexivity. Qed.

(* what the three SWAR steps do to one byte *)
Definition b1 (a : N) := a - N.land (N.shiftr a 1) 0x55.
Definition b2 (a : N) := N.land (b1 a) 0x33 + N.land (N.shiftr (b1 a) 2) 0x33.
Definition b3 (a : N) := N.land (b2 a + N.shiftr (b2 a) 4) 15.

Definition byte_range : list N := map N.of_nat (seq 0 256).
Lemma byte_range_in a : a < 256 -> In a byte_range.
Proof.
  intros H. unfold byte_range. replace a with (N.of_nat (N.to_nat a)) by lia.
  apply in_map, in_seq. lia.
Qed.

Lemma byte_sweep (P : N -> bool) : forallb P byte_range = true -> forall a, a < 256 -> P a = true.
Proof. intros H a Ha. rewrite forallb_forall in H. apply H, byte_range_in, Ha. Qed.

Lemma b_facts a : a < 256 ->
  N.land (N.shiftr a 1) 0x55 <= a /\ b1 a < 256 /\ b2 a < 256 /\ b2 a mod 16 <= 4 /\ b2 a / 16 <= 4 /\ b3 a = count_bits 8 a.
Proof.
  intros Ha.
  pose proof (byte_sweep (fun a => (N.land (N.shiftr a 1) 0x55 <=? a) && (b1 a <? 256) && (b2 a <? 256) &&
     (b2 a mod 16 <=? 4) && (b2 a / 16 <=? 4) && (b3 a =? count_bits 8 a)) ltac:(vm_compute; reflexivity) a Ha) as H.
  cbv beta in H. rewrite !andb_true_iff, !N.leb_le, !N.ltb_lt, N.eqb_eq in H. tauto.
Qed.

Lemma count_bits_ext n x y : (forall i, i < N.of_nat n -> N.testbit x i = N.testbit y i) ->
  count_bits n x = count_bits n y.
Proof.
  induction n as [|n IH]; intros H; cbn [count_bits]; [reflexivity|].
  rewrite IH by (intros i Hi; apply H; lia). rewrite H by lia. reflexivity.
Qed.

Lemma count_bits_plus n m x :
  count_bits (n + m) x = count_bits m (N.shiftr x (N.of_nat n)) + count_bits n x.
Proof.
  induction m as [|m IH]; [rewrite Nat.add_0_r; reflexivity|].
  rewrite Nat.add_succ_r. cbn [count_bits]. rewrite IH, testbit_shiftr.
  replace (N.of_nat (n + m)) with (N.of_nat m + N.of_nat n) by lia. lia.
Qed.

Lemma count_bits_split n x : count_bits (8 + n) x = count_bits 8 (x mod 256) + count_bits n (x / 256).
Proof.
  rewrite count_bits_plus, N.shiftr_div_pow2. change (2 ^ N.of_nat 8) with 256.
  rewrite N.add_comm. f_equal. apply count_bits_ext. intros i Hi. change 256 with (2 ^ 8).
  rewrite N.mod_pow2_bits_low by exact Hi. reflexivity.
Qed.

Lemma count_bits_bytes n x : count_bits (8 * n) x = sum_list (map (count_bits 8) (le_bytes n x)).
Proof.
  revert x; induction n as [|n IH]; intros x; [reflexivity|].
  replace (8 * S n)%nat with (8 + 8 * n)%nat by lia. rewrite count_bits_split, IH. reflexivity.
Qed.

Lemma count_bits_le n x : count_bits n x <= N.of_nat n.
Proof. induction n as [|n IH]; cbn [count_bits]; [lia|]. destruct (N.testbit _ _); lia. Qed.

Lemma popcount_swar n x pt :
  let w := 8 * N.of_nat (S n) in
  (S n <= 31)%nat -> x <> 0 -> x < 2 ^ w ->
  popcount_traits_of w = Some pt ->
  pt_m1 pt = rep (S n) 0x55 -> pt_m2 pt = rep (S n) 0x33 -> pt_m4 pt = rep (S n) 15 ->
  pt_h01 pt = rep (S n) 1 -> pt_rsh pt = 8 * N.of_nat n ->
  popcount_naive w x = Some (count_bits (N.to_nat w) x).
Proof.
  intros w Hn Hx0 Hx Hpt E1 E2 E4 Eh Er. unfold popcount_naive.
  destruct (N.eqb_spec x 0) as [|_]; [congruence|]. rewrite Hpt. cbn [option_bind].
  rewrite E1, E2, E4, Eh, Er. f_equal.
  set (N' := S n) in *.
  assert (H1 : trunc w (x + 2 ^ w - N.land (N.shiftr x 1) (rep N' 0x55)) = lanes b1 N' x).
  { rewrite lanes_shift_mask by reflexivity.
    assert (Hs := lanes_sub (fun a => a) (fun a => N.land (N.shiftr a 1) 0x55) N' x
                    (fun a Ha => proj1 (b_facts a Ha))).
    rewrite lanes_id in Hs by exact Hx.
    assert (Hle : lanes (fun a => N.land (N.shiftr a 1) 0x55) N' x <= x).
    { rewrite <- (lanes_id N' x Hx) at 2. generalize N' as k. intros k. clear -k. revert x.
      induction k as [|k IH]; intros x; cbn [lanes]; [lia|].
      specialize (IH (x / 256)). pose proof (proj1 (b_facts (x mod 256) ltac:(lia))). lia. }
    fold b1 in Hs. change (lanes (fun a => a - N.land (N.shiftr a 1) 85) N' x) with (lanes b1 N' x) in Hs.
    rewrite <- Hs. unfold trunc.
    replace (x + 2 ^ w - lanes (fun a => N.land (N.shiftr a 1) 0x55) N' x)
      with (x - lanes (fun a => N.land (N.shiftr a 1) 0x55) N' x + 1 * 2 ^ w) by lia.
    rewrite N.mod_add by (apply N.pow_nonzero; discriminate). apply N.mod_small. lia. }
  rewrite H1.
  assert (Hb1 : forall a, a < 256 -> b1 a < 256) by (intros a Ha; apply b_facts, Ha).
  assert (Hb2 : forall a, a < 256 -> b2 a < 256) by (intros a Ha; apply b_facts, Ha).
  assert (H2 : trunc w (N.land (lanes b1 N' x) (rep N' 0x33) + N.land (N.shiftr (lanes b1 N' x) 2) (rep N' 0x33))
               = lanes b2 N' x).
  { rewrite lanes_shift_mask, lanes_land, lanes_add, lanes_comp by (reflexivity || exact Hb1).
    change (lanes (fun a => N.land (b1 a) 51 + N.land (N.shiftr (b1 a) 2) 51) N' x) with (lanes b2 N' x).
    apply trunc_small, lanes_bound, Hb2. }
  rewrite H2.
  assert (H3 : N.land (trunc (promoted w) (lanes b2 N' x + N.shiftr (lanes b2 N' x) 4)) (rep N' 15) = lanes b3 N' x).
  { transitivity (N.land (lanes b2 N' x + N.shiftr (lanes b2 N' x) 4) (rep N' 15)).
    - unfold trunc. symmetry. apply land_small.
      assert (rep N' 15 < 2 ^ w).
      { unfold w. clear. induction N' as [|k IH]; [reflexivity|]. rewrite pow256. cbn [rep]. lia. }
      apply N.lt_le_trans with (2 ^ w); [assumption|]. apply N.pow_le_mono_r; [discriminate|]. unfold promoted; lia.
    - rewrite lanes_step3; [reflexivity|]. intros a Ha. pose proof (b_facts a Ha). tauto. }
  rewrite H3. rewrite N.shiftr_div_pow2. unfold trunc.
  rewrite lanes_bytes.
  assert (Hmap : map b3 (le_bytes N' x) = map (count_bits 8) (le_bytes N' x)).
  { apply map_ext_in. intros a Ha. apply b_facts, (le_bytes_bound _ _ _ Ha). }
  rewrite Hmap. unfold w, N'. replace (N.to_nat (8 * N.of_nat (S n))) with (8 * S n)%nat by lia.
  rewrite count_bits_bytes. apply mul_rep_top.
  - rewrite map_length, le_bytes_length. reflexivity.
  - rewrite <- count_bits_bytes. pose proof (count_bits_le (8 * S n) x). lia.
Qed.

Lemma popcount_naive_ok w x : std_width w -> x <> 0 -> x < 2 ^ w ->
  popcount_naive w x = Some (count_bits (N.to_nat w) x).
Proof.
  intros [->|[->|[->|[->| ->]]]] Hx0 Hx.
  - refine (popcount_swar 0 x _ _ Hx0 Hx eq_refl eq_refl eq_refl eq_refl eq_refl eq_refl); lia.
  - refine (popcount_swar 1 x _ _ Hx0 Hx eq_refl eq_refl eq_refl eq_refl eq_refl eq_refl); lia.
  - refine (popcount_swar 3 x _ _ Hx0 Hx eq_refl eq_refl eq_refl eq_refl eq_refl eq_refl); lia.
  - refine (popcount_swar 7 x _ _ Hx0 Hx eq_refl eq_refl eq_refl eq_refl eq_refl eq_refl); lia.
  - refine (popcount_swar 15 x _ _ Hx0 Hx eq_refl eq_refl eq_refl eq_refl eq_refl eq_refl); lia.
Qed.

Lemma count_bits_0 n : count_bits n 0 = 0.
Proof. induction n as [|n IH]; cbn [count_bits]; [|rewrite IH, N.bits_0]; reflexivity. Qed.

Lemma count_bits_even n x : count_bits (S n) (2 * x) = count_bits n x.
Proof.
  induction n as [|n IH].
  - cbn [count_bits N.of_nat]. rewrite N.testbit_even_0. reflexivity.
  - cbn [count_bits] in IH |- *. rewrite IH.
    rewrite Nat2N.inj_succ, N.testbit_even_succ by lia. reflexivity.
Qed.

Lemma count_bits_odd n x : count_bits (S n) (2 * x + 1) = 1 + count_bits n x.
Proof.
  induction n as [|n IH].
  - cbn [count_bits N.of_nat]. rewrite N.testbit_odd_0. reflexivity.
  - cbn [count_bits] in IH |- *. rewrite IH.
    rewrite Nat2N.inj_succ, N.testbit_odd_succ by lia. lia.
Qed.

Lemma popcount_pos_ok n p : Npos p < 2 ^ N.of_nat n -> popcount_pos p = count_bits n (Npos p).
Proof.
  revert n; induction p as [p IH|p IH|]; intros n Hn.
  - destruct n as [|n]; [cbn in Hn; lia|]. rewrite Nat2N.inj_succ, N.pow_succ_r' in Hn.
    change (Npos p~1) with (2 * Npos p + 1) in *. rewrite count_bits_odd. cbn [popcount_pos].
    rewrite <- IH; lia.
  - destruct n as [|n]; [cbn in Hn; lia|]. rewrite Nat2N.inj_succ, N.pow_succ_r' in Hn.
    change (Npos p~0) with (2 * Npos p) in *. rewrite count_bits_even. cbn [popcount_pos].
    rewrite <- IH; lia.
  - destruct n as [|n]; [cbn in Hn; lia|]. change (Npos 1) with (2 * 0 + 1).
    rewrite count_bits_odd, count_bits_0. reflexivity.
Qed.

Lemma builtin_popcount_ok n x : x < 2 ^ N.of_nat n -> builtin_popcount x = count_bits n x.
Proof. intros H. destruct x as [|p]; cbn [builtin_popcount]; [now rewrite count_bits_0|now apply popcount_pos_ok]. Qed.

Lemma popcount_intrinsic_ok w x : x <> 0 -> x < 2 ^ w ->
  popcount_intrinsic w x = Some (count_bits (N.to_nat w) x).
Proof.
  intros Hx0 Hx. unfold popcount_intrinsic. destruct (N.eqb_spec x 0) as [|_]; [congruence|].
  destruct (N.eqb_spec w 128) as [->|_].
  - rewrite !(builtin_popcount_ok 64) by apply trunc_lt.
    rewrite trunc_small by (apply shiftr64_lt, Hx).
    change (N.to_nat 128) with (64 + 64)%nat. rewrite count_bits_plus. do 2 f_equal.
    apply count_bits_ext. intros i Hi. rewrite testbit_trunc.
    destruct (N.ltb_spec i 64); [reflexivity|lia].
  - rewrite (builtin_popcount_ok (N.to_nat w)); [reflexivity|]. rewrite N2Nat.id. exact Hx.
Qed.

Lemma popcount_ok p w x : std_width w -> x < 2 ^ w ->
  popcount p w x = Some (count_bits (N.to_nat w) x).
Proof.
  intros Hw Hx. unfold popcount. destruct (N.eqb_spec x 0) as [->|Hx0].
  - now rewrite count_bits_0.
  - destruct p; [apply popcount_naive_ok|apply popcount_intrinsic_ok]; assumption.
Qed.

Lemma has_single_bit_ok w x : x < 2 ^ w -> has_single_bit w x = true <-> power_of_two x.
Proof.
  intros Hx. unfold has_single_bit.
  assert (Hxp : x < 2 ^ promoted w).
  { apply N.lt_le_trans with (1 := Hx). apply N.pow_le_mono_r; [discriminate|unfold promoted; lia]. }
  rewrite andb_true_iff, negb_true_iff, N.eqb_neq, N.eqb_eq.
  assert (Hm : x <> 0 -> trunc (promoted w) (x + 2 ^ promoted w - 1) = x - 1).
  { intros H0. unfold trunc. replace (x + 2 ^ promoted w - 1) with (x - 1 + 1 * 2 ^ promoted w) by lia.
    rewrite N.mod_add by (apply N.pow_nonzero; discriminate). apply N.mod_small. lia. }
  split.
  - intros (H0 & H). rewrite Hm in H by exact H0.
    exists (N.log2 x). destruct (N.eq_dec x (2 ^ N.log2 x)) as [He|Hne]; [exact He|].
    exfalso. pose proof (N.log2_spec x ltac:(lia)) as [Hlo Hhi].
    assert (Hl : N.log2 (x - 1) = N.log2 x) by (apply N.log2_unique; lia).
    assert (Hpos : 0 < 2 ^ N.log2 x) by apply pow2_pos.
    assert (Hb : N.testbit (N.land x (x - 1)) (N.log2 x) = true).
    { rewrite N.land_spec, N.bit_log2 by exact H0.
      rewrite <- Hl at 1. rewrite N.bit_log2 by lia. reflexivity. }
    rewrite H, N.bits_0 in Hb. discriminate.
  - intros (k & ->). assert (H0 : 2 ^ k <> 0) by (apply N.pow_nonzero; discriminate).
    split; [exact H0|]. rewrite Hm by exact H0.
    apply N.bits_inj. intros i. rewrite N.land_spec, N.pow2_bits_eqb, N.bits_0.
    destruct (N.eqb_spec k i) as [<-|]; [|reflexivity].
    rewrite <- N.pred_sub, <- N.ones_equiv, N.ones_spec_high by lia. reflexivity.
Qed.
