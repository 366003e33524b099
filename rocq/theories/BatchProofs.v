From Coq Require Import Lia.
From Verif Require Import Words CoreModel CoreProofs BatchModel BatchSpec.
Local Open Scope Z_scope.

(* ---------------------------------------------------------------- integers *)
Lemma mod_mod_pow a b x : 0 <= b <= a -> (x mod 2 ^ a) mod 2 ^ b = x mod 2 ^ b.
Proof.
  intros H. assert (0 < 2 ^ b) by (apply Z.pow_pos_nonneg; lia). assert (0 < 2 ^ (a - b)) by (apply Z.pow_pos_nonneg; lia).
  replace (2 ^ a) with (2 ^ b * 2 ^ (a - b)) by (rewrite <- Z.pow_add_r by lia; f_equal; lia).
  rewrite Z.rem_mul_r by lia. rewrite (Z.mul_comm (2 ^ b)), Z.mod_add by lia. apply Z.mod_mod. lia.
Qed.
Lemma conv_conv st ot x : isigned st = false -> 0 < ibits ot <= ibits st -> conv ot (conv st x) = conv ot x.
Proof. intros U B. apply conv_mod; [lia|]. unfold conv. rewrite U. cbn [andb]. apply mod_mod_pow. lia. Qed.
Lemma conv_plus t x y : 0 < ibits t -> conv t (conv t x + y) = conv t (x + y).
Proof.
  intros B. apply conv_mod; [exact B|]. assert (2 ^ ibits t <> 0) by (apply Z.pow_nonzero; lia).
  rewrite Z.add_mod, conv_cong, <- Z.add_mod by assumption. reflexivity.
Qed.
Lemma stop_eq st ot s n : isigned st = false -> 0 < ibits ot <= ibits st -> conv ot (conv st (conv st s + n)) = conv ot (s + n).
Proof. intros U B. rewrite conv_plus by lia. apply conv_conv; assumption. Qed.
Lemma conv_small st x : isigned st = false -> 0 <= ibits st -> 0 <= x < 2 ^ ibits st -> conv st x = x.
Proof. intros U B H. unfold conv. rewrite U. cbn [andb]. apply Z.mod_small. exact H. Qed.

(* ---------------------------------------------------------------- sizes *)
Fixpoint sizes (k : nat) (c o : Z) : list Z :=
  match k with O => [] | S k => if o =? 0 then c :: sizes k c 0 else (c + 1) :: sizes k c (o - 1) end.
Definition zsum (l : list Z) : Z := fold_right Z.add 0 l.
Definition valid (st : ity) (k : nat) (g : gen) : Prop :=
  0 <= g_constant g /\ 0 <= g_overflow g <= Z.of_nat k /\ (g_constant g = 0 -> g_overflow g = Z.of_nat k) /\
  g_remaining g = Z.of_nat k * g_constant g + g_overflow g /\ g_remaining g < 2 ^ ibits st.

Lemma sizes_zero k c : sizes k c 0 = repeat c k.
Proof. induction k as [|k IH]; cbn; [reflexivity|]. f_equal. exact IH. Qed.
Lemma sizes_length k : forall c o, length (sizes k c o) = k.
Proof. induction k as [|k IH]; intros c o; cbn [sizes]; [reflexivity|]. destruct (o =? 0); cbn [length]; rewrite IH; reflexivity. Qed.
Lemma sizes_sum k : forall c o, 0 <= o <= Z.of_nat k -> zsum (sizes k c o) = Z.of_nat k * c + o.
Proof.
  induction k as [|k IH]; intros c o H; cbn [sizes zsum fold_right]; [lia|]. rewrite Nat2Z.inj_succ. destruct (Z.eqb_spec o 0) as [->|N]; cbn [fold_right].
  - fold (zsum (sizes k c 0)). rewrite IH; lia.
  - fold (zsum (sizes k c (o - 1))). rewrite IH; lia.
Qed.
Lemma sizes_in k : forall c o x, 0 <= o <= Z.of_nat k -> (c = 0 -> o = Z.of_nat k) -> 0 <= c -> In x (sizes k c o) -> 1 <= x /\ c <= x <= c + 1.
Proof.
  induction k as [|k IH]; intros c o x H0 H1 H2; cbn [sizes]; [intros []|]. destruct (Z.eqb_spec o 0) as [->|N]; intros [<-|H].
  - assert (c <> 0) by (intros Q; specialize (H1 Q); lia). lia.
  - assert (c <> 0) by (intros Q; specialize (H1 Q); lia). apply (IH c 0 x); [lia|intros Q; lia|exact H2|exact H].
  - lia.
  - apply (IH c (o - 1) x); [lia|intros Q; specialize (H1 Q); lia|exact H2|exact H].
Qed.

Lemma gen_zero st g : valid st 0 g -> gen_next st g = (0, g).
Proof. intros (A & B & C & D & E). unfold gen_next. replace (g_remaining g =? 0) with true by (symmetry; apply Z.eqb_eq; lia). reflexivity. Qed.
Lemma gen_succ st k g : isigned st = false -> 0 < ibits st -> valid st (S k) g ->
  exists n g', gen_next st g = (n, g') /\ valid st k g' /\ sizes (S k) (g_constant g) (g_overflow g) = n :: sizes k (g_constant g') (g_overflow g').
Proof.
  intros U B (A & O & Z & R & L). unfold gen_next. set (c := g_constant g) in *. set (o := g_overflow g) in *.
  replace (g_remaining g =? 0) with false by (symmetry; apply Z.eqb_neq; nia). cbn [sizes].
  assert (BD : forall x, 0 <= x <= g_remaining g -> conv st x = x) by (intros x Hx; apply conv_small; [exact U|lia|lia]).
  destruct (Z.eqb_spec o 0) as [E|E].
  - eexists _, _. split; [reflexivity|]. cbn [g_constant g_overflow]. split; [|reflexivity].
    assert (conv st (g_remaining g - c) = g_remaining g - c) as -> by (apply BD; nia).
    unfold valid; cbn [g_remaining g_constant g_overflow]. repeat split; try nia.
  - eexists _, _. split; [reflexivity|]. cbn [g_constant g_overflow].
    assert (conv st (o - 1) = o - 1) as -> by (apply BD; nia). assert (conv st (c + 1) = c + 1) as -> by (apply BD; nia).
    split; [|reflexivity]. assert (conv st (g_remaining g - (c + 1)) = g_remaining g - (c + 1)) as -> by (apply BD; nia).
    unfold valid; cbn [g_remaining g_constant g_overflow]. repeat split; nia.
Qed.
Definition batches (J W : Z) : nat := Z.to_nat (if J <? W then J else W).
Lemma gen_init_valid st J W : 1 <= J -> 1 <= W -> J < 2 ^ ibits st -> valid st (batches J W) (gen_init J W).
Proof.
  intros H1 H2 H3. unfold valid, gen_init; cbn [g_remaining g_constant g_overflow]. pose proof (Z.div_mod J W ltac:(lia)) as E. pose proof (Z.mod_pos_bound J W ltac:(lia)) as M.
  assert (0 <= J / W) by (apply Z.div_pos; lia). unfold batches. destruct (Z.ltb_spec J W) as [L|L].
  - rewrite Z2Nat.id by lia. rewrite Z.div_small, Z.mod_small by lia. repeat split; lia.
  - rewrite Z2Nat.id by lia. assert (1 <= J / W) by (apply Z.div_le_lower_bound; lia). repeat split; nia.
Qed.

(* ---------------------------------------------------------------- batches *)
Fixpoint ideal (index start : Z) (l : list Z) : list (Z * Z * Z) :=
  match l with [] => [] | n :: l => (index, start, start + n) :: ideal (index + 1) (start + n) l end.
Definition wrapb (ot : ity) (b : Z * Z * Z) : Z * Z * Z := (fst (fst b), conv ot (snd (fst b)), conv ot (snd b)).

Lemma dispatch_eq st ot k : isigned st = false -> 0 < ibits ot <= ibits st -> forall fuel index start n g, valid st k g -> (k < fuel)%nat ->
  dispatch st ot fuel index (conv ot start) n g = Some (map (wrapb ot) (ideal index start (n :: sizes k (g_constant g) (g_overflow g)))).
Proof.
  intros U B. induction k as [|k IH]; intros [|fuel] index start n g V F; try lia; cbn [dispatch].
  - rewrite gen_zero by exact V. cbn [fst]. change (0 =? 0) with true. cbv iota. cbn [sizes ideal map wrapb fst snd]. rewrite stop_eq, conv_plus by lia. reflexivity.
  - destruct (gen_succ st k g U ltac:(lia) V) as (m & g' & E & V' & SZ). rewrite E. cbn [fst snd]. rewrite SZ.
    assert (M : 1 <= m).
    { destruct V as (A & O & Z & _). apply (sizes_in (S k) (g_constant g) (g_overflow g) m O Z A). rewrite SZ. left. reflexivity. }
    replace (m =? 0) with false by (symmetry; apply Z.eqb_neq; lia).
    rewrite stop_eq by assumption. rewrite conv_plus by lia. rewrite (IH fuel _ (start + n)) by (try assumption; lia). cbn [option_bind]. f_equal.
Qed.
Lemma dispatch_it_eq st k : isigned st = false -> 0 < ibits st -> forall fuel index start n g, valid st k g -> (k < fuel)%nat ->
  dispatch_it st fuel index start (start + n) g = Some (ideal index start (n :: sizes k (g_constant g) (g_overflow g))).
Proof.
  intros U B. induction k as [|k IH]; intros [|fuel] index start n g V F; try lia; cbn [dispatch_it].
  - rewrite gen_zero by exact V. reflexivity.
  - destruct (gen_succ st k g U ltac:(lia) V) as (m & g' & E & V' & SZ). rewrite E. cbn [fst snd]. rewrite SZ.
    assert (M : 1 <= m).
    { destruct V as (A & O & Z & _). apply (sizes_in (S k) (g_constant g) (g_overflow g) m O Z A). rewrite SZ. left. reflexivity. }
    replace (m =? 0) with false by (symmetry; apply Z.eqb_neq; lia).
    rewrite (IH fuel _ (start + n)) by (try assumption; lia). cbn [option_bind]. f_equal.
Qed.

Definition shares (J W : Z) : list Z := sizes (batches J W) (J / W) (J mod W).
Lemma shares_facts J W : 1 <= J -> 1 <= W -> length (shares J W) = batches J W /\ zsum (shares J W) = J /\ (forall x, In x (shares J W) -> 1 <= x) /\ even_sizes (shares J W).
Proof.
  intros H1 H2. destruct (gen_init_valid {| isigned := false; ibits := Z.log2_up (J + 1) |} J W H1 H2) as (A & B & C & D & _).
  { cbn [ibits]. pose proof (Z.log2_up_le_pow2 (J + 1) (Z.log2_up (J + 1)) ltac:(lia)). lia. }
  unfold gen_init in *; cbn [g_remaining g_constant g_overflow] in *. unfold shares. split; [apply sizes_length|]. split; [rewrite sizes_sum by exact B; lia|]. split.
  - intros x Hx. eapply sizes_in in Hx; [|exact B|exact C|exact A]. lia.
  - intros a b Ha Hb. eapply sizes_in in Ha; [|exact B|exact C|exact A]. eapply sizes_in in Hb; [|exact B|exact C|exact A]. lia.
Qed.

Lemma first_step st J W : isigned st = false -> 0 < ibits st -> 1 <= J < 2 ^ ibits st -> 1 <= W ->
  exists n g k, gen_next st (gen_init J W) = (n, g) /\ valid st k g /\ (k < S (Z.to_nat W))%nat /\ shares J W = n :: sizes k (g_constant g) (g_overflow g).
Proof.
  intros U B HJ HW. pose proof (gen_init_valid st J W ltac:(lia) HW ltac:(lia)) as V. unfold shares.
  assert (K : (1 <= batches J W <= Z.to_nat W)%nat) by (unfold batches; destruct (Z.ltb_spec J W); lia).
  destruct (batches J W) as [|k]; [lia|]. destruct (gen_succ st k _ U B V) as (n & g & E & V' & SZ). exists n, g, k. split; [exact E|]. split; [exact V'|]. split; [lia|]. exact SZ.
Qed.

(* ---------------------------------------------------------------- values *)
Lemma zseq_add a : forall s b, zseq s (a + b) = zseq s a ++ zseq (s + Z.of_nat a) b.
Proof.
  induction a as [|a IH]; intros s b; cbn [plus zseq app]; [f_equal; lia|]. rewrite IH. do 3 f_equal. lia.
Qed.
Lemma count_up_eq n : forall s, count_up n s (s + Z.of_nat n) = zseq s n.
Proof.
  induction n as [|n IH]; intros s; cbn [count_up zseq]; [reflexivity|]. replace (s <? s + Z.of_nat (S n)) with true by (symmetry; apply Z.ltb_lt; lia).
  f_equal. rewrite <- IH. f_equal. lia.
Qed.
Lemma count_up_range s e : s <= e -> count_up (Z.to_nat (e - s)) s e = zseq s (Z.to_nat (e - s)).
Proof. intros H. rewrite <- count_up_eq. f_equal. lia. Qed.
Lemma map_conv_id T l : 0 < ibits T -> Forall (in_ity T) l -> map (conv T) l = l.
Proof. intros B H. induction H as [|x l Hx H IH]; cbn; [reflexivity|]. rewrite IH, conv_id by assumption. reflexivity. Qed.
Lemma zsum_nonneg l : (forall x, In x l -> 1 <= x) -> 0 <= zsum l.
Proof. induction l as [|x l IH]; intros H; cbn [zsum fold_right]; [lia|]. fold (zsum l). specialize (IH (fun y Hy => H y (or_intror Hy))). pose proof (H x (or_introl eq_refl)). lia. Qed.

Definition raw_batch (b : Z * Z * Z) : list Z := zseq (snd (fst b)) (Z.to_nat (snd b - snd (fst b))).
Lemma ideal_concat l : forall index start, (forall x, In x l -> 1 <= x) -> concat (map raw_batch (ideal index start l)) = zseq start (Z.to_nat (zsum l)).
Proof.
  induction l as [|n l IH]; intros index start H; [reflexivity|]. cbn [ideal map concat zsum fold_right]. fold (zsum l).
  rewrite IH by (intros x Hx; apply H; right; exact Hx). unfold raw_batch at 1. cbn [fst snd].
  pose proof (H n (or_introl eq_refl)). pose proof (zsum_nonneg l (fun y Hy => H y (or_intror Hy))).
  rewrite Z2Nat.inj_add by lia. rewrite zseq_add. replace (start + n - start) with n by lia. rewrite Z2Nat.id by lia. reflexivity.
Qed.
Lemma ideal_in l : forall index start b, (forall x, In x l -> 1 <= x) -> In b (ideal index start l) ->
  start <= snd (fst b) /\ snd (fst b) < snd b /\ snd b <= start + zsum l /\ index <= fst (fst b) < index + Z.of_nat (length l) /\ In (snd b - snd (fst b)) l.
Proof.
  induction l as [|n l IH]; intros index start b H; [intros []|]. cbn [ideal zsum fold_right length]. fold (zsum l).
  pose proof (H n (or_introl eq_refl)). pose proof (zsum_nonneg l (fun y Hy => H y (or_intror Hy))). intros [<-|Hb].
  - cbn [fst snd]. repeat split; try lia. left. lia.
  - apply IH in Hb; [|intros x Hx; apply H; right; exact Hx]. destruct Hb as (A & B & C & D & E). repeat split; try lia. right. exact E.
Qed.
Lemma ideal_indices l : forall index start, map (fun b => fst (fst b)) (ideal index start l) = zseq index (length l).
Proof. induction l as [|n l IH]; intros index start; cbn; [reflexivity|]. f_equal. apply IH. Qed.
Lemma ideal_sizes l : forall index start, map (fun b => snd b - snd (fst b)) (ideal index start l) = l.
Proof. induction l as [|n l IH]; intros index start; cbn [ideal map fst snd]; [reflexivity|]. f_equal; [lia|apply IH]. Qed.
Lemma ideal_snoc l : forall index start n, ideal index start (l ++ [n]) = ideal index start l ++ [(index + Z.of_nat (length l), start + zsum l, start + zsum l + n)].
Proof.
  induction l as [|m l IH]; intros index start n; cbn [app ideal zsum fold_right length].
  - do 2 f_equal; [|lia]. f_equal; [|lia]. lia.
  - fold (zsum l). cbn [app]. f_equal. rewrite IH. f_equal. do 2 f_equal; [|lia]. f_equal; lia.
Qed.

Lemma wrapb_id ot b : 0 < ibits ot -> in_ity ot (snd (fst b)) -> in_ity ot (snd b) -> wrapb ot b = b.
Proof. intros B H1 H2. unfold wrapb. rewrite !conv_id by assumption. destruct b as [[i s] e]. reflexivity. Qed.
Lemma run_batch_raw T b : 0 < ibits T -> snd (fst b) <= snd b -> (forall x, snd (fst b) <= x < snd b -> in_ity T x) -> run_batch T b = raw_batch b.
Proof.
  intros B L H. unfold run_batch, raw_batch. rewrite count_up_range by exact L. apply map_conv_id; [exact B|]. apply Forall_forall. intros x Hx. apply zseq_in in Hx. apply H. lia.
Qed.

Lemma offset_wider T x : 0 < ibits T -> in_ity T x -> in_ity (offset_type T) x.
Proof.
  intros B. unfold in_ity, ity_min, ity_max, offset_type. cbn [isigned ibits]. destruct (isigned T); intros H.
  - assert (2 ^ (ibits T - 1) <= 2 ^ (Z.max (ibits T) 32 - 1)) by (apply Z.pow_le_mono_r; lia). lia.
  - assert (2 ^ ibits T <= 2 ^ Z.max (ibits T) 32) by (apply Z.pow_le_mono_r; lia). lia.
Qed.
Lemma in_ity_between t a b x : in_ity t a -> in_ity t b -> a <= x <= b -> in_ity t x.
Proof. unfold in_ity. lia. Qed.
Lemma in_ity_lt_pow t x : 0 < ibits t -> in_ity t x -> x < 2 ^ ibits t.
Proof.
  intros B. unfold in_ity, ity_max. destruct (isigned t); [|lia].
  assert (2 ^ (ibits t - 1) <= 2 ^ ibits t) by (apply Z.pow_le_mono_r; lia). lia.
Qed.

Section F.
  Variables (sw : Z) (T : ity) (W : Z).
  Hypotheses (BT : 0 < ibits T) (Bsw : 0 < sw) (HW : 1 <= W).
  Let ot := offset_type T.
  Let st := size_type sw T.
  Lemma ot_bits : 0 < ibits ot. Proof. unfold ot, offset_type; cbn; lia. Qed.
  Lemma st_ot : 0 < ibits ot <= ibits st. Proof. unfold st, size_type, ot, offset_type; cbn; lia. Qed.

  (** The body of [for_each] after the ends have been put in order. *)
  Lemma body_eq lo J : 1 <= J < 2 ^ ibits st ->
    (let n := gen_next st (gen_init J W) in dispatch st ot (S (Z.to_nat W)) 0 (conv ot lo) (fst n) (snd n)) = Some (map (wrapb ot) (ideal 0 lo (shares J W))).
  Proof.
    intros HJ. destruct (first_step st J W eq_refl ltac:(pose proof st_ot; lia) HJ HW) as (n & g & k & E & V & K & SH). rewrite E. cbn [fst snd].
    rewrite (dispatch_eq st ot k eq_refl st_ot _ 0 lo n g V K). rewrite SH. reflexivity.
  Qed.

  Lemma ideal_run lo J : 1 <= J -> in_ity T lo -> in_ity T (lo + J) \/ in_ity T (lo + J - 1) /\ in_ity ot (lo + J) ->
    let bs := map (wrapb ot) (ideal 0 lo (shares J W)) in
    bs = ideal 0 lo (shares J W) /\ concat (map (run_batch T) bs) = zseq lo (Z.to_nat J).
  Proof.
    intros HJ Hlo Hhi. destruct (shares_facts J W HJ HW) as (LEN & SUM & POS & _).
    assert (TOP : in_ity ot (lo + J)) by (destruct Hhi as [Hhi|[_ Hhi]]; [apply offset_wider; assumption|exact Hhi]).
    assert (LAST : in_ity T (lo + J - 1)). { destruct Hhi as [Hhi|[Hhi _]]; [|exact Hhi]. apply (in_ity_between T lo (lo + J)); [assumption..|lia]. }
    assert (BOT : in_ity ot lo) by (apply offset_wider; assumption).
    assert (ID : map (wrapb ot) (ideal 0 lo (shares J W)) = ideal 0 lo (shares J W)).
    { rewrite <- (map_id (ideal 0 lo (shares J W))) at 2. apply map_ext_in. intros b Hb. apply ideal_in in Hb; [|exact POS]. rewrite SUM in Hb.
      apply wrapb_id; [apply ot_bits|apply (in_ity_between ot lo (lo + J)); [assumption..|lia]|apply (in_ity_between ot lo (lo + J)); [assumption..|lia]]. }
    cbn zeta. rewrite ID. split; [reflexivity|]. pose proof (ideal_concat (shares J W) 0 lo POS) as IC. rewrite SUM in IC. rewrite <- IC. f_equal. apply map_ext_in. intros b Hb.
    apply ideal_in in Hb; [|exact POS]. rewrite SUM in Hb. apply run_batch_raw; [exact BT|lia|]. intros x Hx. apply (in_ity_between T lo (lo + J - 1)); [assumption..|lia].
  Qed.

  Lemma for_each_fwd start stop : in_ity T start -> in_ity T stop -> start < stop -> (isigned T = true -> stop - start <= ity_max ot) ->
    for_each sw T W start stop = Some (ideal 0 start (shares (stop - start) W)).
  Proof.
    intros H1 H2 L M. unfold for_each. replace (start =? stop) with false by (symmetry; apply Z.eqb_neq; lia).
    replace (stop <? start) with false by (symmetry; apply Z.ltb_ge; lia). cbn [option_bind fst snd]. fold ot st.
    rewrite !(conv_id ot) by (try apply ot_bits; apply offset_wider; assumption).
    assert (SUB : subtract ot stop start = Some (stop - start)).
    { unfold subtract. change (isigned ot) with (isigned T). destruct (isigned T) eqn:ST.
      - replace (ity_min ot <=? stop - start) with true.
        + replace (stop - start <=? ity_max ot) with true by (symmetry; apply Z.leb_le; apply M; reflexivity). reflexivity.
        + symmetry. apply Z.leb_le. assert (ity_min ot <= 0); [|lia]. unfold ity_min. destruct (isigned ot); [|lia]. assert (0 < 2 ^ (ibits ot - 1)) by (apply Z.pow_pos_nonneg; pose proof ot_bits; lia). lia.
      - rewrite conv_id; [reflexivity|apply ot_bits|]. apply offset_wider; [exact BT|]. unfold in_ity, ity_min, ity_max in *. rewrite ST in *. lia. }
    rewrite SUB. cbn [option_bind].
    assert (J : 1 <= stop - start < 2 ^ ibits st).
    { assert (stop - start < 2 ^ ibits ot); [|assert (2 ^ ibits ot <= 2 ^ ibits st) by (apply Z.pow_le_mono_r; pose proof st_ot; lia); lia].
      destruct (isigned T) eqn:ST.
      - specialize (M eq_refl). unfold ity_max in M. change (isigned ot) with (isigned T) in M. rewrite ST in M. assert (2 ^ (ibits ot - 1) <= 2 ^ ibits ot) by (apply Z.pow_le_mono_r; pose proof ot_bits; lia). lia.
      - pose proof (in_ity_lt_pow ot stop ot_bits (offset_wider T stop BT H2)). unfold in_ity, ity_min in H1. rewrite ST in H1. lia. }
    rewrite (conv_small st) by (try reflexivity; pose proof st_ot; lia).
    pose proof (body_eq start (stop - start) J) as E. cbn zeta in E. rewrite (conv_id ot) in E by (try apply ot_bits; apply offset_wider; assumption). rewrite E.
    f_equal. apply (ideal_run start (stop - start)); [lia|exact H1|]. left. replace (start + (stop - start)) with stop by lia. exact H2.
  Qed.

  Lemma plus_one_ok x : in_ity T x -> x < ity_max T -> plus_one T x = Some (x + 1) /\ in_ity T (x + 1).
  Proof.
    intros H L. assert (in_ity T (x + 1)) by (unfold in_ity in *; lia). split; [|assumption]. unfold plus_one.
    replace (ity_max T <=? x) with false by (symmetry; apply Z.leb_gt; exact L). rewrite andb_false_r, conv_id by assumption. reflexivity.
  Qed.
  Lemma for_each_bwd start stop : in_ity T start -> in_ity T stop -> stop < start -> start < ity_max T ->
    for_each sw T W start stop = for_each sw T W (stop + 1) (start + 1).
  Proof.
    intros H1 H2 L M. unfold for_each. replace (start =? stop) with false by (symmetry; apply Z.eqb_neq; lia). replace (stop + 1 =? start + 1) with false by (symmetry; apply Z.eqb_neq; lia).
    replace (stop <? start) with true by (symmetry; apply Z.ltb_lt; lia). replace (start + 1 <? stop + 1) with false by (symmetry; apply Z.ltb_ge; lia).
    destruct (plus_one_ok start H1 M) as [-> _]. destruct (plus_one_ok stop H2) as [-> _]; [unfold in_ity in *; lia|]. reflexivity.
  Qed.
End F.

Lemma zseq_once s n : exactly_once (zseq s n) s (s + Z.of_nat n).
Proof.
  split; [|intros x; apply zseq_in]. revert s. induction n as [|n IH]; intros s; cbn [zseq]; constructor; [|apply IH]. intros H. apply zseq_in in H. lia.
Qed.

(* ---------------------------------------------------- the end of the type's range *)
Lemma sizes_snoc k : forall c o, 0 <= o <= Z.of_nat (S k) -> sizes (S k) c o = sizes k c (Z.min o (Z.of_nat k)) ++ [if o =? Z.of_nat (S k) then c + 1 else c].
Proof.
  induction k as [|k IH]; intros c o H.
  - cbn [sizes Z.of_nat app]. destruct (Z.eqb_spec o 0) as [->|N]; [reflexivity|]. replace o with 1 by lia. reflexivity.
  - change (sizes (S (S k)) c o) with (if o =? 0 then c :: sizes (S k) c 0 else (c + 1) :: sizes (S k) c (o - 1)).
    change (sizes (S k) c (Z.min o (Z.of_nat (S k)))) with (if Z.min o (Z.of_nat (S k)) =? 0 then c :: sizes k c 0 else (c + 1) :: sizes k c (Z.min o (Z.of_nat (S k)) - 1)).
    destruct (Z.eqb_spec o 0) as [->|N].
    + replace (Z.min 0 (Z.of_nat (S k))) with 0 by lia. change (0 =? 0) with true. cbv iota. rewrite IH by lia. replace (Z.min 0 (Z.of_nat k)) with 0 by lia.
      replace (0 =? Z.of_nat (S k)) with false by (symmetry; apply Z.eqb_neq; lia). replace (0 =? Z.of_nat (S (S k))) with false by (symmetry; apply Z.eqb_neq; lia). reflexivity.
    + replace (Z.min o (Z.of_nat (S k)) =? 0) with false by (symmetry; apply Z.eqb_neq; lia). rewrite IH by lia. replace (Z.min o (Z.of_nat (S k)) - 1) with (Z.min (o - 1) (Z.of_nat k)) by lia.
      cbn [app]. do 3 f_equal. destruct (Z.eqb_spec (o - 1) (Z.of_nat (S k))); destruct (Z.eqb_spec o (Z.of_nat (S (S k)))); try reflexivity; lia.
Qed.
Lemma shares_snoc J W : 1 <= J -> 1 <= W -> exists l, shares J W = l ++ [Z.max 1 (J / W)].
Proof.
  intros HJ HW. unfold shares, batches. pose proof (Z.mod_pos_bound J W ltac:(lia)) as M. destruct (Z.ltb_spec J W) as [L|L].
  - destruct (Z.to_nat J) as [|k] eqn:K; [lia|]. rewrite Z.div_small, Z.mod_small by lia. rewrite sizes_snoc by lia. eexists. f_equal. replace (J =? Z.of_nat (S k)) with true by (symmetry; apply Z.eqb_eq; lia). reflexivity.
  - destruct (Z.to_nat W) as [|k] eqn:K; [lia|]. rewrite sizes_snoc by lia. eexists. f_equal. replace (J mod W =? Z.of_nat (S k)) with false by (symmetry; apply Z.eqb_neq; lia).
    assert (1 <= J / W) by (apply Z.div_le_lower_bound; lia). f_equal. lia.
Qed.
Lemma zsum_app a b : zsum (a ++ b) = zsum a + zsum b.
Proof. induction a as [|x a IH]; cbn [app zsum fold_right]; [reflexivity|]. fold (zsum (a ++ b)). fold (zsum a). lia. Qed.

Lemma for_each_from_highest sw T W stop : isigned T = false -> 32 <= ibits T -> 0 < sw -> 1 <= W -> in_ity T stop -> stop < ity_max T ->
  let J := ity_max T - stop in
  exists bs, for_each sw T W (ity_max T) stop = Some bs /\ length bs = batches J W /\ concat (map (run_batch T) bs) = zseq (stop + 1) (Z.to_nat (J - Z.max 1 (J / W))).
Proof.
  intros U B Hsw HW Hs L J. assert (MX : ity_max T = 2 ^ ibits T - 1) by (unfold ity_max; rewrite U; reflexivity).
  assert (HS : 0 <= stop) by (unfold in_ity, ity_min in Hs; rewrite U in Hs; lia).
  assert (OT : offset_type T = T). { destruct T as [sg bt]. unfold offset_type. cbn in *. f_equal. lia. }
  assert (P : 0 < 2 ^ ibits T) by (apply Z.pow_pos_nonneg; lia).
  unfold for_each. replace (ity_max T =? stop) with false by (symmetry; apply Z.eqb_neq; lia). replace (stop <? ity_max T) with true by (symmetry; apply Z.ltb_lt; lia).
  unfold plus_one. rewrite U. cbn [andb option_bind fst snd]. rewrite OT.
  assert (C0 : conv T (ity_max T + 1) = 0). { rewrite MX. unfold conv. rewrite U. cbn [andb]. replace (2 ^ ibits T - 1 + 1) with (1 * 2 ^ ibits T) by lia. apply Z.mod_mul. lia. }
  rewrite C0. assert (C1 : conv T (stop + 1) = stop + 1) by (apply conv_small; [exact U|lia|lia]). rewrite C1. assert (conv T 0 = 0) as -> by (apply conv_small; [exact U|lia|lia]). rewrite C1.
  unfold subtract. rewrite U. cbn [option_bind].
  assert (CJ : conv T (0 - (stop + 1)) = J). { unfold conv. rewrite U. cbn [andb]. symmetry. apply (Z.mod_unique_pos _ _ (-1)); unfold J; lia. }
  rewrite CJ. pose proof (st_ot sw T) as SO. rewrite OT in SO.
  assert (HJ : 1 <= J < 2 ^ ibits (size_type sw T)). { split; [unfold J; lia|]. assert (2 ^ ibits T <= 2 ^ ibits (size_type sw T)) by (apply Z.pow_le_mono_r; lia). unfold J. lia. }
  rewrite (conv_small (size_type sw T) J) by (try reflexivity; lia).
  pose proof (body_eq sw T W HW (stop + 1) J HJ) as BE. cbn zeta in BE. rewrite OT, C1 in BE. rewrite BE. eexists. split; [reflexivity|].
  destruct (shares_facts J W ltac:(lia) HW) as (LEN & SUM & POS & _). split.
  { rewrite map_length, <- LEN. rewrite <- (map_length (fun b => snd b - snd (fst b)) (ideal 0 (stop + 1) (shares J W))), ideal_sizes. reflexivity. }
  destruct (shares_snoc J W ltac:(lia) HW) as (l & EQ). rewrite EQ in *. rewrite zsum_app in SUM. cbn [zsum fold_right] in SUM. fold (zsum l) in SUM.
  rewrite ideal_snoc, !map_app, concat_app. cbn [map concat]. unfold wrapb at 2. cbn [fst snd].
  replace (stop + 1 + zsum l + Z.max 1 (J / W)) with (1 * 2 ^ ibits T) by (unfold J in *; lia).
  assert (POSl : forall x, In x l -> 1 <= x) by (intros x Hx; apply POS; apply in_or_app; left; exact Hx). pose proof (zsum_nonneg l POSl) as ZN.
  assert (LASTE : run_batch T (0 + Z.of_nat (length l), conv T (stop + 1 + zsum l), conv T (1 * 2 ^ ibits T)) = []).
  { unfold run_batch. cbn [fst snd]. assert (conv T (1 * 2 ^ ibits T) = 0) as ->. { unfold conv. rewrite U. cbn [andb]. apply Z.mod_mul. lia. }
    assert (0 <= conv T (stop + 1 + zsum l)). { unfold conv. rewrite U. cbn [andb]. apply Z.mod_pos_bound. exact P. }
    replace (Z.to_nat (0 - conv T (stop + 1 + zsum l))) with 0%nat by lia. reflexivity. }
  rewrite LASTE, !app_nil_r. replace (J - Z.max 1 (J / W)) with (zsum l) by lia. rewrite <- (ideal_concat l 0 (stop + 1) POSl). f_equal.
  rewrite map_map. apply map_ext_in. intros b Hb. apply ideal_in in Hb; [|exact POSl].
  assert (IN : forall x, stop + 1 <= x <= stop + 1 + zsum l -> in_ity T x). { intros x Hx. unfold in_ity, ity_min. rewrite U. unfold J in SUM. lia. }
  rewrite wrapb_id; [|lia|apply IN; lia|apply IN; lia]. apply run_batch_raw; [lia|lia|]. intros x Hx. apply IN. lia.
Qed.
