From Coq Require Import Lia ZifyBool ZifyNat ZifyN.
From Verif Require Import Words WordsProofs BitsModel BitsSpec BitsProofs BitsProofs2 BitsProofs3 TptrModel TptrSpec.
Local Open Scope N_scope.
Ltac Zify.zify_post_hook ::= idtac.

Section Cfg.
  Variables (c : tcfg) (k : N).
  Hypothesis C : cfg_ok c k.
  Let W := t_w c.
  Let tb := k + t_free c.

  Lemma W_pos : 0 < W /\ std_width W /\ k < W /\ tb < W.
  Proof. destruct C as ([H|H] & _ & L); unfold W, tb, std_width; rewrite H in *; lia. Qed.

  Lemma tag_bits_ok : tag_bits c = Some tb.
  Proof.
    destruct W_pos as (P & S & K & _). destruct C as (_ & A & _). unfold tag_bits. rewrite A.
    assert (B : 2 ^ k < 2 ^ W) by (apply N.pow_lt_mono_r; lia).
    destruct (bit_width_ok Naive W (2 ^ k) S B) as (z & _ & E & H1 & H2). fold W. rewrite E. cbn [option_bind]. f_equal.
    assert (W - z = k + 1); [|unfold tb; lia].
    apply N.le_antisymm; [apply H2; apply N.pow_lt_mono_r; lia|]. apply N.pow_lt_mono_r_iff in H1; lia.
  Qed.

  Lemma tag_mask_ok : exists m, tag_mask c = Some m /\ m < 2 ^ W /\ forall i, N.testbit m i = (i <? tb).
  Proof.
    destruct W_pos as (P & S & K & T). unfold tag_mask. rewrite tag_bits_ok. cbn [option_bind]. fold W.
    pose proof (bit_fill_right_ok W tb P) as E. exists (2 ^ N.min tb W - 1). split; [exact E|].
    replace (N.min tb W) with tb in * by lia. split.
    - apply N.lt_le_trans with (2 ^ tb); [pose proof (pow2_pos tb); lia|]. apply N.pow_le_mono_r; lia.
    - intros i. rewrite (bit_fill_right_bits W tb _ i P E). f_equal. lia.
  Qed.

  Lemma ptr_mask_ok : exists m, ptr_mask c = Some m /\ forall i, N.testbit m i = (i <? W) && negb (i <? tb).
  Proof.
    destruct tag_mask_ok as (m & E & L & B). unfold ptr_mask. rewrite E. cbn [option_bind]. eexists. split; [reflexivity|].
    intros i. fold W. rewrite testbit_compl by exact L. rewrite B. reflexivity.
  Qed.

  (** The representation: tag in the low bits, pointer above. *)
  Definition Rep (p t bits : N) : Prop :=
    forall i, N.testbit bits i = if i <? tb then N.testbit t i else (i <? W) && N.testbit p (i - t_free c).
  Definition Inv (p t bits : N) : Prop := pointer c k p /\ t < 2 ^ tb /\ Rep p t bits.

  Lemma aligned_bits p i : p mod 2 ^ k = 0 -> i < k -> N.testbit p i = false.
  Proof. intros H L. rewrite <- (N.mod_pow2_bits_low p k i L), H. apply N.bits_0. Qed.

  Lemma unchecked_bits p i : N.testbit (pack_ptr_unchecked c p) i = (i <? W) && ((t_free c <=? i) && N.testbit p (i - t_free c)).
  Proof. unfold pack_ptr_unchecked. rewrite testbit_trunc, testbit_shiftl. reflexivity. Qed.

  Lemma pack_ptr_ok p : pointer c k p -> exists b, pack_ptr c p = Some b /\ Rep p 0 b.
  Proof.
    intros [[L _] M]. destruct W_pos as (P & S & K & T). unfold pack_ptr. fold W. fold W in L.
    destruct (bit_floor_bounds Naive W p P L) as (f & E & H0 & H1). rewrite E. cbn [option_bind].
    assert (G : (p =? 0) || (t_align c <=? f) = true).
    { apply orb_true_iff. destruct (p =? 0) eqn:Z; [left; reflexivity|right]. apply N.eqb_neq in Z. apply N.leb_le.
      destruct C as (_ & -> & _). destruct H1 as ((j & Hj) & Q & Q'); [lia|].
      assert (2 ^ k <= p). { pose proof (pow2_pos k). apply N.mod_divide in M; [|lia]. destruct M as [q Eq]. assert (Hq : q <> 0) by (intros ->; lia). rewrite Eq. clear - Hq. generalize (2 ^ k). intros x. nia. }
      subst f. apply N.pow_le_mono_r; [lia|]. assert (k < j + 1); [|lia]. apply (N.pow_lt_mono_r_iff 2); [lia|].
      rewrite N.add_1_r, N.pow_succ_r'. lia. }
    rewrite G. eexists. split; [reflexivity|]. intros i. rewrite unchecked_bits, N.bits_0.
    destruct (N.ltb_spec i tb) as [H|H].
    - destruct (N.leb_spec (t_free c) i) as [H'|H']; [|apply andb_false_r]. rewrite aligned_bits; [apply andb_false_r|exact M|unfold tb in H; lia].
    - destruct (N.leb_spec (t_free c) i) as [H'|H']; [reflexivity|unfold tb in H; lia].
  Qed.

  (** Addresses are determined by their low bits. *)
  Lemma high_part p n : n <= W -> 2 ^ W - 2 ^ n <= p -> p < 2 ^ W -> forall i, n <= i -> N.testbit p i = (i <? W).
  Proof.
    intros Hn H1 H2 i Hi. assert (E : 2 ^ W = 2 ^ n * 2 ^ (W - n)) by (rewrite <- N.pow_add_r; f_equal; lia).
    assert (D : p / 2 ^ n = N.ones (W - n)).
    { symmetry. rewrite N.ones_equiv. apply (N.div_unique _ _ _ (p - (2 ^ W - 2 ^ n))); pose proof (pow2_pos n); pose proof (pow2_pos (W - n)).
      - assert (2 ^ n <= 2 ^ W) by (apply N.pow_le_mono_r; lia). lia.
      - rewrite N.pred_sub, N.mul_sub_distr_l, N.mul_1_r, <- E. assert (2 ^ n <= 2 ^ W) by (apply N.pow_le_mono_r; lia). lia. }
    replace i with ((i - n) + n) by lia. rewrite <- testbit_shiftr, N.shiftr_div_pow2, D.
    destruct (N.ltb_spec (i - n + n) W); [apply N.ones_spec_low; lia|apply N.ones_spec_high; lia].
  Qed.

  Lemma get_ptr_ok p t b : Inv p t b -> get_ptr c b = Some p.
  Proof.
    intros ((A & M) & Ht & R). destruct W_pos as (P & S & K & T). destruct ptr_mask_ok as (pm & E & B). unfold get_ptr. rewrite E. cbn [option_bind].
    destruct A as [L A]. fold W in L.
    assert (X : forall i, N.testbit (N.land b pm) i = (i <? W) && (t_free c <=? i) && N.testbit p (i - t_free c)).
    { intros i. rewrite N.land_spec, B, R. destruct (N.ltb_spec i tb) as [H|H]; cbn [negb]; rewrite ?andb_false_r, ?andb_true_r.
      - destruct (N.leb_spec (t_free c) i) as [H'|H']; [|rewrite andb_false_r; reflexivity]. rewrite (aligned_bits p (i - t_free c)) by (assumption || (unfold tb in H; lia)).
        rewrite !andb_false_r. reflexivity.
      - replace (t_free c <=? i) with true by (symmetry; apply N.leb_le; unfold tb in H; lia). destruct (i <? W); destruct (N.testbit p (i - t_free c)); reflexivity. }
    destruct (N.ltb_spec 0 (t_free c)) as [F|F].
    2:{ f_equal. apply N.bits_inj. intros i. rewrite X. replace (t_free c) with 0 by lia. rewrite N.sub_0_r. replace (0 <=? i) with true by (symmetry; apply N.leb_le; lia). rewrite andb_true_r.
        destruct (N.ltb_spec i W); [reflexivity|]. symmetry. apply testbit_high with W; assumption. }
    assert (U : t_used c <= W /\ 0 < t_used c /\ t_used c + t_free c = W) by (unfold t_used; fold W; unfold tb in T; lia). destruct U as (U & U0 & U1).
    assert (Y : forall j, N.testbit (N.shiftr (N.land b pm) (t_free c)) j = (j <? t_used c) && N.testbit p j).
    { intros j. rewrite testbit_shiftr, X. replace (j + t_free c - t_free c) with j by lia. replace (t_free c <=? j + t_free c) with true by (symmetry; apply N.leb_le; lia).
      rewrite andb_true_r. f_equal. apply eq_true_iff_eq. rewrite !N.ltb_lt. lia. }
    assert (Z : (N.land (N.shiftr (N.land b pm) (t_free c)) (N.shiftl 1 (t_used c - 1)) =? 0) = negb (N.testbit p (t_used c - 1))).
    { rewrite N.shiftl_1_l, N.land_comm, land_pow2_eqb, Y. replace (t_used c - 1 <? t_used c) with true by (symmetry; apply N.ltb_lt; lia). reflexivity. }
    rewrite Z, negb_involutive. destruct A as [A|A]; [lia|]. destruct (t_amd64 c); cbn [andb].
    - destruct A as [A|A].
      + rewrite (testbit_high (t_used c - 1)) by (assumption || lia). f_equal. apply N.bits_inj. intros j. rewrite Y.
        destruct (N.ltb_spec j (t_used c)); [reflexivity|]. symmetry. apply testbit_high with (t_used c - 1); [exact A|lia].
      + pose proof (high_part p (t_used c - 1) ltac:(lia) A L) as Hh. rewrite Hh by lia. replace (t_used c - 1 <? W) with true by (symmetry; apply N.ltb_lt; lia).
        fold W. rewrite bit_fill_right_ok by exact P. cbn [option_bind]. f_equal. apply N.bits_inj. intros j.
        rewrite N.lor_spec, Y, testbit_trunc, testbit_shiftl. rewrite (bit_fill_right_bits W (t_free c) _ _ P (bit_fill_right_ok W (t_free c) P)).
        destruct (N.ltb_spec j (t_used c)) as [J|J].
        * replace (t_used c <=? j) with false by (symmetry; apply N.leb_gt; lia). rewrite andb_false_r, orb_false_r. reflexivity.
        * rewrite Hh by lia. cbn [andb orb]. replace (t_used c <=? j) with true by (symmetry; apply N.leb_le; lia). cbn [andb].
          destruct (N.ltb_spec j W) as [J'|J']; [|reflexivity]. cbn [andb]. apply N.ltb_lt. lia.
    - f_equal. apply N.bits_inj. intros j. rewrite Y. destruct (N.ltb_spec j (t_used c)); [reflexivity|]. symmetry. apply testbit_high with (t_used c); [exact A|lia].
  Qed.

  Lemma get_tag_ok p t b : Inv p t b -> get_tag c b = Some t.
  Proof.
    intros (_ & Ht & R). destruct tag_mask_ok as (m & E & _ & B). unfold get_tag. rewrite tag_bits_ok. cbn [option_bind]. rewrite E. cbn [option_bind].
    f_equal. destruct (N.eqb_spec tb 0) as [Z|Z].
    - rewrite Z in Ht. change (2 ^ 0) with 1 in Ht. lia.
    - apply N.bits_inj. intros i. rewrite N.land_spec, B, R. destruct (N.ltb_spec i tb) as [H|H]; [apply andb_true_r|].
      rewrite andb_false_r. symmetry. apply testbit_high with tb; assumption.
  Qed.

  Lemma get_tag_bit_ok p t b i : Inv p t b -> i < tb -> get_tag_bit c b i = Some (N.testbit t i).
  Proof.
    intros (_ & Ht & R) H. destruct W_pos as (P & S & K & T). unfold get_tag_bit. rewrite tag_bits_ok. cbn [option_bind].
    replace (i <? tb) with true by (symmetry; apply N.ltb_lt; exact H). rewrite N.shiftl_1_l, trunc_pow2 by (fold W; lia).
    rewrite N.land_comm, land_pow2_eqb, negb_involutive, R. replace (i <? tb) with true by (symmetry; apply N.ltb_lt; exact H). reflexivity.
  Qed.

  Lemma bool_ok p t b : Inv p t b -> tptr_bool c b = Some (negb (p =? 0)).
  Proof.
    intros I. pose proof (get_ptr_ok p t b I) as G. destruct I as ((A & M) & Ht & R). destruct ptr_mask_ok as (pm & E & B).
    unfold tptr_bool. rewrite E. cbn [option_bind]. do 2 f_equal. destruct (N.eqb_spec (N.land b pm) 0) as [Z|Z].
    - symmetry. apply N.eqb_eq. unfold get_ptr in G. rewrite E in G. cbn [option_bind] in G. rewrite Z, N.shiftr_0_l, N.land_0_l in G.
      cbn [N.eqb negb] in G. rewrite andb_false_r in G. destruct (0 <? t_free c); injection G as <-; reflexivity.
    - symmetry. apply N.eqb_neq. intros ->. apply Z. apply N.bits_inj_0. intros i. rewrite N.land_spec, B, R, N.bits_0, andb_false_r.
      destruct (i <? tb); cbn [negb]; rewrite ?andb_false_r; reflexivity.
  Qed.

  Lemma inv_unique p t b p' t' b' : Inv p t b -> Inv p' t' b' -> (b = b' <-> p = p' /\ t = t').
  Proof.
    intros I I'. split.
    - intros <-. pose proof (get_ptr_ok _ _ _ I) as E. rewrite (get_ptr_ok _ _ _ I') in E. pose proof (get_tag_ok _ _ _ I) as E'. rewrite (get_tag_ok _ _ _ I') in E'.
      split; congruence.
    - intros [<- <-]. destruct I as (_ & _ & R), I' as (_ & _ & R'). apply N.bits_inj. intros i. rewrite R, R'. reflexivity.
  Qed.

  (** Integer tags. *)
  Lemma int_tag_ok sgn w v : 0 < w -> v < 2 ^ w -> v < 2 ^ tb -> 0 < tb -> (sgn = true -> v < 2 ^ (w - 1)) -> int_tag_bits c sgn w v = Some v.
  Proof.
    intros Hw Hv Ht Hp Hs. destruct W_pos as (P & S & K & T). destruct tag_mask_ok as (m & Em & _ & Bm). destruct ptr_mask_ok as (pm & Ep & Bp).
    assert (U : to_uintptr c sgn w v = v).
    { unfold to_uintptr. replace (sgn && N.testbit v (w - 1)) with false.
      - apply trunc_small. fold W. apply N.lt_trans with (2 ^ tb); [exact Ht|]. apply N.pow_lt_mono_r; lia.
      - destruct sgn; [|reflexivity]. symmetry. cbn [andb]. apply testbit_high with (w - 1); [apply Hs; reflexivity|lia]. }
    unfold int_tag_bits, can_store_tag. rewrite tag_bits_ok. cbn [option_bind]. rewrite Em, Ep. cbn [option_bind tag_size]. rewrite U.
    destruct (N.ltb_spec tb w) as [H|H]; [|reflexivity]. replace (tb =? 0) with false by (symmetry; apply N.eqb_neq; lia).
    replace (w <=? tb) with false by (symmetry; apply N.leb_gt; exact H).
    replace (N.land v pm =? 0) with true.
    - f_equal. apply N.bits_inj. intros i. rewrite N.land_spec, Bm. destruct (N.ltb_spec i tb); [apply andb_true_r|]. rewrite andb_false_r.
      symmetry. apply testbit_high with tb; assumption.
    - symmetry. apply N.eqb_eq. apply N.bits_inj_0. intros i. rewrite N.land_spec, Bp. destruct (N.ltb_spec i tb); [rewrite !andb_false_r; reflexivity|].
      rewrite (testbit_high tb) by assumption. reflexivity.
  Qed.

  Lemma or_tag p b v : v < 2 ^ tb -> Rep p 0 b -> Rep p v (N.lor b v).
  Proof.
    intros Hv R i. rewrite N.lor_spec, R, N.bits_0. destruct (N.ltb_spec i tb) as [H|H]; [reflexivity|]. rewrite (testbit_high tb v) by assumption. apply orb_false_r.
  Qed.
  Lemma clear_tag_rep p t b pm : (forall i, N.testbit pm i = (i <? W) && negb (i <? tb)) -> Rep p t b -> Rep p 0 (N.land b pm).
  Proof.
    intros B R i. rewrite N.land_spec, B, R, N.bits_0. destruct (i <? tb); cbn [negb]; rewrite ?andb_false_r, ?andb_true_r; [reflexivity|].
    destruct (i <? W), (N.testbit p (i - t_free c)); reflexivity.
  Qed.

  (** Tags of other types. *)
  Lemma of_le_app a b : of_le_bytes (a ++ b) = of_le_bytes a + 2 ^ (8 * N.of_nat (length a)) * of_le_bytes b.
  Proof.
    induction a as [|x a IH]; [cbn [app length of_le_bytes]; change (2 ^ (8 * N.of_nat 0)) with 1; lia|].
    cbn [app length of_le_bytes]. rewrite IH, pow256. lia.
  Qed.
  Lemma skip_le n m x : skipn m (le_bytes n x) = le_bytes (n - m) (x / 2 ^ (8 * N.of_nat m)).
  Proof.
    revert n x. induction m as [|m IH]; intros n x; [cbn [skipn]; rewrite Nat.sub_0_r; change (2 ^ (8 * N.of_nat 0)) with 1; rewrite N.div_1_r; reflexivity|].
    destruct n as [|n]; [reflexivity|]. cbn [le_bytes skipn Nat.sub]. rewrite IH, pow256, N.div_div by (pose proof (pow2_pos (8 * N.of_nat m)); lia). reflexivity.
  Qed.
  Lemma overwrite_bits bits bytes i : t_be c = false -> Forall (fun x => x < 256) bytes -> bits < 2 ^ W -> 8 * N.of_nat (length bytes) <= W ->
    N.testbit (overwrite c bits bytes) i = if i <? 8 * N.of_nat (length bytes) then N.testbit (of_le_bytes bytes) i else N.testbit bits i.
  Proof.
    intros Hbe F L Hl. unfold overwrite. rewrite Hbe. set (n := N.to_nat (t_w c / 8)). rewrite of_le_app, skip_le, of_le_bytes_le_bytes.
    set (s := 8 * N.of_nat (length bytes)) in *. assert (Hn : 8 * N.of_nat n = W). { unfold n, W. destruct C as ([-> | ->] & _); reflexivity. }
    assert (D : 8 * N.of_nat (n - length bytes) = W - s) by (unfold s in *; lia). rewrite D.
    rewrite N.mod_small. 2:{ apply N.div_lt_upper_bound; [pose proof (pow2_pos s); lia|]. rewrite <- N.pow_add_r. replace (s + (W - s)) with W by lia. exact L. }
    pose proof (of_le_bytes_bound bytes F) as B. fold s in B.
    destruct (N.ltb_spec i s) as [H|H].
    - rewrite <- (N.mod_pow2_bits_low _ s i H). f_equal. symmetry. apply (N.mod_unique _ _ (bits / 2 ^ s)); [exact B|lia].
    - replace i with ((i - s) + s) by lia. rewrite <- !testbit_shiftr, !N.shiftr_div_pow2. f_equal. symmetry.
      apply (N.div_unique _ _ _ (of_le_bytes bytes)); [exact B|lia].
  Qed.
  Lemma rep_bound p t b : Rep p t b -> b < 2 ^ W.
  Proof.
    intros R. destruct W_pos as (_ & _ & _ & T). apply lt_pow2_bits. intros i H. rewrite R. replace (i <? tb) with false by (symmetry; apply N.ltb_ge; lia).
    replace (i <? W) with false by (symmetry; apply N.ltb_ge; lia). reflexivity.
  Qed.
  Lemma pod_ok p t b bytes : Rep p t b -> t_be c = false -> Forall (fun x => x < 256) bytes -> 8 * N.of_nat (length bytes) <= tb ->
    exists b', pod_tag c b bytes = Some b' /\ Rep p (of_le_bytes bytes) b'.
  Proof.
    intros R Hbe F Hl. destruct W_pos as (P & S & K & T). destruct ptr_mask_ok as (pm & Ep & Bp).
    unfold pod_tag. rewrite tag_bits_ok, Ep. cbn [option_bind tag_size]. replace (tb <? 8 * N.of_nat (length bytes)) with false by (symmetry; apply N.ltb_ge; exact Hl).
    eexists. split; [reflexivity|]. intros i. set (x := if 8 * N.of_nat (length bytes) <? tb then N.land b pm else b).
    assert (X : exists u, Rep p u x /\ (forall j, 8 * N.of_nat (length bytes) <= j -> j < tb -> N.testbit u j = false)).
    { unfold x. destruct (N.ltb_spec (8 * N.of_nat (length bytes)) tb) as [H|H].
      - exists 0. split; [apply (clear_tag_rep p t); assumption|]. intros. apply N.bits_0.
      - exists t. split; [exact R|]. intros. lia. }
    destruct X as (u & Ru & Z). rewrite overwrite_bits; try assumption; [|apply (rep_bound p u), Ru|lia]. rewrite Ru.
    pose proof (of_le_bytes_bound bytes F) as B.
    destruct (N.ltb_spec i (8 * N.of_nat (length bytes))) as [H|H].
    - replace (i <? tb) with true by (symmetry; apply N.ltb_lt; lia). reflexivity.
    - destruct (N.ltb_spec i tb) as [H'|H']; [|reflexivity]. rewrite Z by assumption. symmetry. apply testbit_high with (8 * N.of_nat (length bytes)); assumption.
  Qed.

  Lemma get_object_ok p bytes b : t_be c = false -> Forall (fun x => x < 256) bytes -> 8 * N.of_nat (length bytes) <= tb -> Inv p (of_le_bytes bytes) b ->
    get_tag_object c b (length bytes) = Some bytes.
  Proof.
    intros Hbe F Hl (_ & _ & R). destruct W_pos as (P & S & K & T). unfold get_tag_object. rewrite tag_bits_ok. cbn [option_bind].
    replace (tb <? 8 * N.of_nat (length bytes)) with false by (symmetry; apply N.ltb_ge; exact Hl). f_equal. rewrite Hbe.
    set (n := N.to_nat (t_w c / 8)). assert (Hn : 8 * N.of_nat n = W). { unfold n, W. destruct C as ([-> | ->] & _); reflexivity. }
    assert (FL : forall m n x, (m <= n)%nat -> firstn m (le_bytes n x) = le_bytes m x).
    { clear. induction m as [|m IH]; intros [|n] x H; try reflexivity; [lia|]. cbn [le_bytes firstn]. rewrite IH by lia. reflexivity. }
    rewrite FL by lia. rewrite <- (le_bytes_of_le_bytes bytes F) at 2. rewrite <- (le_bytes_mod _ b), <- (le_bytes_mod _ (of_le_bytes bytes)). f_equal. apply N.bits_inj. intros i.
    destruct (N.lt_ge_cases i (8 * N.of_nat (length bytes))) as [H|H].
    - rewrite !N.mod_pow2_bits_low by exact H. rewrite R. replace (i <? tb) with true by (symmetry; apply N.ltb_lt; lia). reflexivity.
    - rewrite !N.mod_pow2_bits_high by exact H. reflexivity.
  Qed.

  Lemma tag_bound t : storable c tb t -> tag_value c t < 2 ^ tb.
  Proof.
    intros [H _]. destruct t as [s w v|w v|b]; cbn [tag_value]; [apply H|apply H|]. destruct H as (F & L & _).
    apply N.lt_le_trans with (2 ^ (8 * N.of_nat (length b))); [apply of_le_bytes_bound, F|]. apply N.pow_le_mono_r; lia.
  Qed.

  Lemma set_bit_bits t i b j : N.testbit (set_bit t i b) j = if j =? i then b else N.testbit t j.
  Proof.
    assert (A : forall t, N.testbit t i = false -> forall j, N.testbit (t + 2 ^ i) j = if j =? i then true else N.testbit t j).
    { clear. intros t H j. assert (Q : t + 2 ^ i = N.lor t (2 ^ i)).
      { rewrite <- N.lxor_lor; [apply N.add_nocarry_lxor|]; apply N.bits_inj_0; intros x; rewrite N.land_spec, N.pow2_bits_eqb; destruct (N.eqb_spec i x) as [<-|]; rewrite ?H, ?andb_false_r; reflexivity. }
      rewrite Q, N.lor_spec, N.pow2_bits_eqb. rewrite N.eqb_sym. destruct (N.eqb_spec j i) as [->|]; [rewrite orb_true_r|rewrite orb_false_r]; reflexivity. }
    unfold set_bit. destruct b; destruct (N.testbit t i) eqn:E.
    - destruct (N.eqb_spec j i) as [->|]; [exact E|reflexivity].
    - apply A, E.
    - assert (L : t = (t - 2 ^ i) + 2 ^ i).
      { assert (2 ^ i <= t); [|lia]. destruct (N.le_gt_cases (2 ^ i) t) as [H|H]; [exact H|]. rewrite (testbit_high i t i H) in E; [discriminate|lia]. }
      set (u := t - 2 ^ i) in *. assert (U : N.testbit u i = false).
      { destruct (N.testbit u i) eqn:Eu; [|reflexivity]. exfalso.
        assert (K : N.testbit (u / 2 ^ i) 0 = true) by (rewrite <- N.shiftr_div_pow2, testbit_shiftr; exact Eu).
        assert (K' : N.testbit (t / 2 ^ i) 0 = true) by (rewrite <- N.shiftr_div_pow2, testbit_shiftr; exact E).
        assert (D : t / 2 ^ i = u / 2 ^ i + 1). { rewrite L. pose proof (pow2_pos i). replace (u + 2 ^ i) with (u + 1 * 2 ^ i) by lia. apply N.div_add. lia. }
        rewrite D in K'. rewrite !N.bit0_odd in *. rewrite N.odd_add, K in K'. discriminate. }
      clearbody u. subst t. destruct (N.eqb_spec j i) as [->|Hne]; [exact U|]. rewrite (A u U). destruct (N.eqb_spec j i); [contradiction|reflexivity].
    - destruct (N.eqb_spec j i) as [->|]; [exact E|reflexivity].
  Qed.

  Lemma zero_pointer : pointer c k 0.
  Proof.
    split; [|apply N.mod_0_l; pose proof (pow2_pos k); lia]. split; [apply pow2_pos|]. right. destruct (t_amd64 c); [left|]; apply pow2_pos.
  Qed.
  Lemma inv_zero : Inv 0 0 0.
  Proof. split; [apply zero_pointer|]. split; [apply pow2_pos|]. intros i. rewrite !N.bits_0, andb_false_r. destruct (i <? tb); reflexivity. Qed.

  Lemma step_ok p t b o : Inv p t b -> op_ok c k o ->
    exists b', tptr_step c b o = Some b' /\ Inv (fst (spec_step c (p, t) o)) (snd (spec_step c (p, t) o)) b'.
  Proof.
    intros I O. destruct W_pos as (P & S & K & T). destruct tag_mask_ok as (m & Em & _ & Bm). destruct ptr_mask_ok as (pm & Ep & Bp). pose proof (pow2_pos tb) as P0.
    assert (ST : forall q x u, pointer c k q -> Rep q 0 x -> storable c tb u ->
       exists b', (match u with TInt s w v => y <- int_tag_bits c s w v ;; Some (N.lor x y) | TEnum w v => y <- int_tag_bits c false w v ;; Some (N.lor x y) | TPod l => pod_tag c x l end) = Some b' /\ Inv q (tag_value c u) b').
    { intros q x u Q R Hu. pose proof (tag_bound u Hu) as TB. destruct Hu as [Hu Z]. destruct u as [s w v|w v|l].
      - rewrite int_tag_ok by (try apply Hu; exact Z). eexists. split; [reflexivity|]. split; [exact Q|]. split; [exact TB|]. apply or_tag; assumption.
      - rewrite int_tag_ok by (try apply Hu; try exact Z; discriminate). eexists. split; [reflexivity|]. split; [exact Q|]. split; [exact TB|]. apply or_tag; assumption.
      - destruct Hu as (F & L & Hbe). destruct (pod_ok q 0 x l R Hbe F L) as (b' & E & R'). exists b'. split; [exact E|]. split; [exact Q|]. split; assumption. }
    destruct o as [|q|q u|q| |u|i v|]; cbn [tptr_step spec_step fst snd op_ok] in *.
    - exists 0. split; [reflexivity|apply inv_zero].
    - destruct (pack_ptr_ok q O) as (b' & E & R). exists b'. split; [exact E|]. split; [exact O|]. split; assumption.
    - destruct O as [Q Hu]. destruct (pack_ptr_ok q Q) as (x & E & R). unfold pack_both. rewrite E. cbn [option_bind]. apply ST; assumption.
    - destruct (pack_ptr_ok q O) as (x & E & R). unfold set_ptr. rewrite tag_bits_ok, Em, E. cbn [option_bind]. eexists. split; [reflexivity|].
      destruct I as (_ & Ht & Rt). split; [exact O|]. split; [exact Ht|]. destruct (N.eqb_spec tb 0) as [Z|Z].
      + intros i. rewrite R. replace (i <? tb) with false by (symmetry; apply N.ltb_ge; lia). reflexivity.
      + intros i. rewrite N.lor_spec, N.land_spec, R, Bm, Rt, N.bits_0. destruct (i <? tb); rewrite ?andb_true_r, ?andb_false_r, ?orb_false_r; reflexivity.
    - rewrite Em. cbn [option_bind]. eexists. split; [reflexivity|]. destruct I as (_ & Ht & Rt). split; [apply zero_pointer|]. split; [exact Ht|].
      intros i. rewrite N.land_spec, Bm, Rt, N.bits_0. destruct (i <? tb); rewrite ?andb_true_r, ?andb_false_r; reflexivity.
    - destruct I as (Q & Ht & Rt). unfold set_tag. rewrite Ep. cbn [option_bind].
      pose proof (clear_tag_rep p t b pm Bp Rt) as R0. destruct u as [s w v|w v|l]; try (apply (ST p (N.land b pm) _ Q R0 O)).
      destruct O as [(F & L & Hbe) Z]. destruct (pod_ok p t b l Rt Hbe F L) as (b' & E & R'). exists b'. split; [exact E|]. split; [exact Q|].
      split; [|exact R']. apply (tag_bound (TPod l)). split; [|exact Z]. split; [exact F|]. split; assumption.
    - destruct I as (Q & Ht & Rt). unfold set_tag_bit. rewrite tag_bits_ok. cbn [option_bind]. replace (i <? tb) with true by (symmetry; apply N.ltb_lt; exact O).
      rewrite N.shiftl_1_l, trunc_pow2 by (fold W; unfold tb in *; lia). eexists. split; [reflexivity|]. split; [exact Q|]. split.
      + apply lt_pow2_bits. intros j H. rewrite set_bit_bits. destruct (N.eqb_spec j i); [unfold tb in *; lia|]. apply testbit_high with tb; assumption.
      + intros j. rewrite set_bit_bits. assert (HiW : 2 ^ i < 2 ^ W) by (apply N.pow_lt_mono_r; unfold tb in *; lia).
        destruct v.
        * rewrite N.lor_spec, Rt, N.pow2_bits_eqb, N.eqb_sym. destruct (N.eqb_spec j i) as [->|].
          -- replace (i <? tb) with true by (symmetry; apply N.ltb_lt; exact O). apply orb_true_r.
          -- apply orb_false_r.
        * fold W. rewrite N.land_spec, testbit_compl, Rt, N.pow2_bits_eqb by exact HiW. rewrite (N.eqb_sym i j). destruct (N.eqb_spec j i) as [->|].
          -- replace (i <? tb) with true by (symmetry; apply N.ltb_lt; exact O). rewrite !andb_false_r. reflexivity.
          -- destruct (N.ltb_spec j tb); [replace (j <? W) with true by (symmetry; apply N.ltb_lt; lia)|destruct (j <? W); rewrite ?andb_false_r; try reflexivity]; apply andb_true_r.
    - rewrite Ep. cbn [option_bind]. eexists. split; [reflexivity|]. destruct I as (Q & Ht & Rt). split; [exact Q|]. split; [exact P0|]. apply (clear_tag_rep p t); assumption.
  Qed.

  Lemma run_ok ops : forall p t b, Inv p t b -> Forall (op_ok c k) ops ->
    exists b', tptr_run c b ops = Some b' /\ Inv (fst (fold_left (spec_step c) ops (p, t))) (snd (fold_left (spec_step c) ops (p, t))) b'.
  Proof.
    induction ops as [|o ops IH]; intros p t b I F; [exists b; split; [reflexivity|exact I]|].
    apply Forall_cons_iff in F. destruct F as [O F]. destruct (step_ok p t b o I O) as (b1 & E & I1). cbn [tptr_run fold_left]. rewrite E. cbn [option_bind].
    destruct (spec_step c (p, t) o) as [p1 t1]. apply IH; assumption.
  Qed.

  (** Negative signed tags no wider than the tag area. *)
  Lemma negative_ok p t b w v : Inv p t b -> 0 < w -> w <= tb -> v < 2 ^ w -> 2 ^ (w - 1) <= v ->
    exists b', set_tag c b (TInt true w v) = Some b' /\ forall i, tb <= i -> i < W -> N.testbit b' i = true.
  Proof.
    intros (Q & Ht & R) Hw Hwt Hv Hn. destruct W_pos as (P & S & K & T). destruct tag_mask_ok as (m & Em & _ & Bm). destruct ptr_mask_ok as (pm & Ep & Bp).
    unfold set_tag, int_tag_bits. rewrite Ep, tag_bits_ok, Em. cbn [option_bind]. replace (tb <? w) with false by (symmetry; apply N.ltb_ge; exact Hwt).
    cbn [option_bind]. eexists. split; [reflexivity|]. intros i H1 H2. rewrite N.lor_spec. apply orb_true_iff. right.
    assert (TB : N.testbit v (w - 1) = true).
    { rewrite N.testbit_eqb. apply N.eqb_eq. assert (v / 2 ^ (w - 1) = 1); [|lia || (rewrite H; reflexivity)].
      symmetry. apply (N.div_unique _ _ _ (v - 2 ^ (w - 1))); [|lia]. assert (2 ^ w = 2 * 2 ^ (w - 1)) by (apply pow2_half; lia). lia. }
    unfold to_uintptr. rewrite TB. cbn [andb]. fold W. replace (N.max W w) with W by lia. rewrite testbit_trunc. replace (i <? W) with true by (symmetry; apply N.ltb_lt; lia).
    cbn [andb]. rewrite (high_part _ w); [apply N.ltb_lt; lia| lia | lia | | lia]. assert (2 ^ w <= 2 ^ W) by (apply N.pow_le_mono_r; lia). lia.
  Qed.
End Cfg.
