(** Property C44. *)
From Coq Require Import Lia ZifyBool ZifyNat.
From Verif Require Import Words WordsProofs CoreModel AccumModel AccumSpec AccumProofs.
Local Open Scope Z_scope.
Ltac Zify.zify_post_hook ::= idtac.

(** Count, minimum, maximum and sum of any list of samples; a signed sum has to fit the sum type all along the way. *)
Theorem C44_samples_partial sw vt xs : 1 <= ibits vt -> 1 <= sw -> Forall (in_ity vt) xs -> Z.of_nat (length xs) < 2 ^ sw ->
  (isigned vt = true -> sums_fit (sum_ity vt) xs) ->
  exists a, accum_add_all sw vt accum_empty xs = Some a /\ describes (sum_ity vt) a xs.
Proof. intros. apply accumulate_ok; assumption. Qed.
Print Assumptions C44_samples_partial.
(** Up to 2^24 samples of 8 bits or 2^16 of 16 bits can always be added. *)
Theorem C44_narrow_samples_partial sw vt xs : std_ity vt -> ibits vt < 32 -> 32 <= sw -> Forall (in_ity vt) xs -> Z.of_nat (length xs) <= 2 ^ (32 - ibits vt) ->
  exists a, accum_add_all sw vt accum_empty xs = Some a /\ a_sum a = (if isigned vt then total xs else total xs mod 2 ^ 32).
Proof.
  intros Std Hb Hs F L. assert (HB : 1 <= ibits vt) by (unfold std_ity in Std; cbn in Std; lia).
  assert (P : 2 ^ (32 - ibits vt) < 2 ^ sw) by (apply Z.pow_lt_mono_r; lia).
  assert (B : forall ys, Forall (in_ity vt) ys -> isigned vt = true -> - 2 ^ (ibits vt - 1) * Z.of_nat (length ys) <= total ys <= (2 ^ (ibits vt - 1) - 1) * Z.of_nat (length ys)).
  { intros ys G S. induction G as [|y ys G1 G2 IH]; [cbn; lia|]. unfold in_ity, ity_min, ity_max in G1. rewrite S in G1. cbn [total fold_right length]. rewrite Nat2Z.inj_succ. unfold total in IH. lia. }
  destruct (accumulate_ok sw vt HB ltac:(lia) xs F ltac:(lia)) as (a & A & C & _ & E).
  - intros S k. assert (F' : Forall (in_ity vt) (firstn k xs)).
    { apply Forall_forall. intros x Hx. rewrite Forall_forall in F. apply F. rewrite <- (firstn_skipn k xs). apply in_or_app. left. exact Hx. }
    specialize (B _ F' S). assert (LL : Z.of_nat (length (firstn k xs)) <= 2 ^ (32 - ibits vt)) by (rewrite firstn_length; lia).
    assert (PP : 2 ^ (32 - ibits vt) * 2 ^ (ibits vt - 1) = 2 ^ 31) by (rewrite <- Z.pow_add_r by lia; f_equal; lia).
    unfold in_ity, ity_min, ity_max, sum_ity. cbn [isigned ibits]. rewrite S. rewrite Z.max_r by lia. change (2 ^ (32 - 1)) with (2 ^ 31). rewrite <- PP.
    assert (H1 : 0 < 2 ^ (ibits vt - 1)) by (apply Z.pow_pos_nonneg; lia). assert (H2 : 0 < 2 ^ (32 - ibits vt)) by (apply Z.pow_pos_nonneg; lia).
    revert B LL H1 H2. generalize (2 ^ (ibits vt - 1)) (2 ^ (32 - ibits vt)) (Z.of_nat (length (firstn k xs))) (Nat2Z.is_nonneg (length (firstn k xs))). clear. intros. nia.
  - exists a. split; [exact A|]. cbn [sum_ity isigned ibits] in E. rewrite Z.max_r in E by lia. destruct (isigned vt); exact E.
Qed.
Print Assumptions C44_narrow_samples_partial.
Theorem C44_signed_overflow_partial sw vt a x : 1 <= ibits vt -> isigned vt = true -> a_count a <> 0 -> in_ity vt x -> ~ in_ity (sum_ity vt) (a_sum a + x) ->
  accum_add sw vt a x = None.
Proof. intros. apply signed_overflow; assumption. Qed.
Print Assumptions C44_signed_overflow_partial.

(** Merging does not work: a non-empty accumulator forgets its own samples. *)
Theorem C44_merge_refuted sw vt a o : a_count a <> 0 -> a_count o <> 0 -> accum_merge sw vt a o = Some o.
Proof.
  intros Ha Ho. unfold accum_merge. apply Z.eqb_neq in Ha, Ho. rewrite Ha, Ho. destruct o; reflexivity.
Qed.
Print Assumptions C44_merge_refuted.
(** An empty one gets the count and the sum, but takes a zero that was never a sample into the minimum and the maximum. *)
Theorem C44_merge_into_empty_partial sw vt o xs : 1 <= ibits vt -> 1 <= sw -> xs <> [] -> Z.of_nat (length xs) < 2 ^ sw ->
  (isigned vt = true -> in_ity (sum_ity vt) (total xs)) -> describes (sum_ity vt) o xs ->
  exists a, accum_merge sw vt accum_empty o = Some a /\ a_count a = a_count o /\ a_sum a = a_sum o /\ a_min a = Z.min 0 (a_min o) /\ a_max a = Z.max 0 (a_max o).
Proof.
  intros HB Hs NE B Fit (C & _ & S). assert (length xs <> 0%nat) by (destruct xs; [congruence|discriminate]). unfold accum_merge. cbn [a_count accum_empty]. rewrite C.
  replace (Z.of_nat (length xs) =? 0) with false by (symmetry; apply Z.eqb_neq; lia). change (0 =? 0) with true. cbv iota.
  assert (SS : sum_add vt 0 (a_sum o) = Some (a_sum o)).
  { unfold sum_add. rewrite Z.add_0_l. destruct (isigned (sum_ity vt)) eqn:E.
    - specialize (Fit E). unfold in_ity in Fit. rewrite S. replace ((ity_min (sum_ity vt) <=? total xs) && (total xs <=? ity_max (sum_ity vt))) with true; [reflexivity|].
      symmetry. apply andb_true_iff. split; apply Z.leb_le; lia.
    - rewrite conv_unsigned by exact E. rewrite S, Z.mod_mod; [reflexivity|]. assert (0 < 2 ^ ibits (sum_ity vt)) by (apply Z.pow_pos_nonneg; cbn [sum_ity ibits]; lia). lia. }
  unfold impl_merge. cbn [a_sum accum_empty]. rewrite SS. cbn [option_bind]. eexists. split; [reflexivity|].
  cbn [with_count a_count a_sum a_min a_max accum_empty]. rewrite Z.add_0_l, Z.mod_small by lia. unfold min2, max2.
  split; [reflexivity|]. split; [reflexivity|]. split; [destruct (Z.ltb_spec (a_min o) 0)|destruct (Z.ltb_spec (a_max o) 0)]; lia.
Qed.
Print Assumptions C44_merge_into_empty_partial.
Theorem C44_merge_min_refuted : exists o a, accum_add_all 64 {| isigned := true; ibits := 32 |} accum_empty [5; 7] = Some o /\
  accum_merge 64 {| isigned := true; ibits := 32 |} accum_empty o = Some a /\ a_min a = 0 /\ a_min o = 5.
Proof. eexists. eexists. split; [vm_compute; reflexivity|]. split; [vm_compute; reflexivity|]. split; reflexivity. Qed.
Print Assumptions C44_merge_min_refuted.
Example C44_witness : exists a, accum_add_all 64 {| isigned := true; ibits := 8 |} accum_empty [-5; 100; 100; 3] = Some a /\ a_min a = -5 /\ a_max a = 100 /\ a_sum a = 198 /\ a_count a = 4.
Proof. eexists. split; [vm_compute; reflexivity|]. repeat split. Qed.
