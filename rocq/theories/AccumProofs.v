From Coq Require Import Lia ZifyBool ZifyNat.
From Verif Require Import Words WordsProofs CoreModel AccumModel AccumSpec.
Local Open Scope Z_scope.
Ltac Zify.zify_post_hook ::= idtac.

Lemma total_app xs ys : total (xs ++ ys) = total xs + total ys.
Proof. unfold total. induction xs as [|x xs IH]; cbn; lia. Qed.
Lemma least_add m xs x : least m xs -> least (min2 Z.ltb x m) (xs ++ [x]).
Proof.
  intros [I L]. unfold min2. split.
  - apply in_or_app. destruct (x <? m); [right; left; reflexivity|left; exact I].
  - intros y [H|[<-|[]]]%in_app_or; [apply L in H|]; destruct (Z.ltb_spec x m); lia.
Qed.
Lemma greatest_add m xs x : greatest m xs -> greatest (max2 Z.ltb x m) (xs ++ [x]).
Proof.
  intros [I L]. unfold max2. split.
  - apply in_or_app. destruct (x <? m); [left; exact I|right; left; reflexivity].
  - intros y [H|[<-|[]]]%in_app_or; [apply L in H|]; destruct (Z.ltb_spec x m); lia.
Qed.
Lemma conv_signed_id t x : isigned t = true -> 1 <= ibits t -> in_ity t x -> conv t x = x.
Proof.
  intros S B H. unfold in_ity, ity_min, ity_max in H. rewrite S in H. unfold conv. rewrite S. cbn [andb].
  set (h := 2 ^ (ibits t - 1)) in *. assert (E : 2 ^ ibits t = 2 * h).
  { unfold h. rewrite <- Z.pow_succ_r by lia. f_equal. lia. }
  assert (0 < h) by (apply Z.pow_pos_nonneg; lia). rewrite E. destruct (Z.leb_spec 0 x).
  - rewrite Z.mod_small by lia. replace (h <=? x) with false by (symmetry; apply Z.leb_gt; lia). reflexivity.
  - replace (x mod (2 * h)) with (x + 2 * h). 2:{ apply (Z.mod_unique_pos _ _ (-1)); lia. }
    replace (h <=? x + 2 * h) with true by (symmetry; apply Z.leb_le; lia). lia.
Qed.
Lemma conv_unsigned t x : isigned t = false -> conv t x = x mod 2 ^ ibits t.
Proof. intros S. unfold conv. rewrite S. reflexivity. Qed.
Lemma sum_ity_wider vt x : 1 <= ibits vt -> in_ity vt x -> in_ity (sum_ity vt) x.
Proof.
  intros B. unfold in_ity, ity_min, ity_max, sum_ity. cbn [isigned ibits]. destruct (isigned vt); intros H.
  - assert (2 ^ (ibits vt - 1) <= 2 ^ (Z.max (ibits vt) 32 - 1)) by (apply Z.pow_le_mono_r; lia). lia.
  - assert (2 ^ (ibits vt) <= 2 ^ (Z.max (ibits vt) 32)) by (apply Z.pow_le_mono_r; lia). lia.
Qed.

Section P.
  Context (sw : Z) (vt : ity).
  Hypothesis (HB : 1 <= ibits vt) (Hsw : 1 <= sw).
  Let st := sum_ity vt.

  Lemma st_signed : isigned st = isigned vt. Proof. reflexivity. Qed.
  Lemma st_bits : 1 <= ibits st. Proof. unfold st, sum_ity. cbn [ibits]. lia. Qed.

  Lemma start_ok a x : a_count a = 0 -> in_ity vt x -> exists a', accum_add sw vt a x = Some a' /\ describes st a' [x].
  Proof.
    intros C H. unfold accum_add. rewrite C. eexists. split; [reflexivity|]. split; [|split].
    - cbn [a_count impl_start with_count length Z.of_nat Z.add]. apply Z.mod_small. split; [lia|]. apply (Z.pow_gt_1 2 sw); lia.
    - intros _. cbn [a_min a_max impl_start]. split; (split; [left; reflexivity|intros y [<-|[]]; lia]).
    - cbn [a_sum impl_start total fold_right]. rewrite Z.add_0_r. fold st. destruct (isigned st) eqn:S; [apply conv_signed_id; [exact S|exact st_bits|apply sum_ity_wider; assumption]|apply conv_unsigned; exact S].
  Qed.
  Lemma step_ok a xs x : xs <> [] -> describes st a xs -> in_ity vt x -> Z.of_nat (length xs) + 1 < 2 ^ sw -> (isigned vt = true -> in_ity st (total (xs ++ [x]))) ->
    exists a', accum_add sw vt a x = Some a' /\ describes st a' (xs ++ [x]).
  Proof.
    intros NE (C & L & S) H B F. unfold accum_add. rewrite C. assert (length xs <> 0%nat) by (destruct xs; [congruence|discriminate]).
    replace (Z.of_nat (length xs) =? 0) with false by (symmetry; apply Z.eqb_neq; lia).
    unfold impl_add, sum_add. fold st. cbn [a_sum with_count a_min a_max a_count]. rewrite total_app in F. cbn [total fold_right] in F. rewrite Z.add_0_r in F.
    assert (D : forall s, (if isigned st then s = total (xs ++ [x]) else s = total (xs ++ [x]) mod 2 ^ ibits st) ->
      describes st {| a_min := min2 Z.ltb x (a_min a); a_max := max2 Z.ltb x (a_max a); a_sum := s; a_count := (Z.of_nat (length xs) + 1) mod 2 ^ sw |} (xs ++ [x])).
    { intros s Hs. split; [|split].
      - cbn [a_count]. rewrite app_length. cbn [length]. rewrite Z.mod_small by lia. lia.
      - intros _. destruct (L NE). split; [apply least_add; assumption|apply greatest_add; assumption].
      - exact Hs. }
    destruct (isigned st) eqn:SG.
    - rewrite S. rewrite conv_signed_id; [|exact SG|exact st_bits|apply sum_ity_wider; assumption]. specialize (F SG). unfold in_ity in F.
      replace ((ity_min st <=? total xs + x) && (total xs + x <=? ity_max st)) with true by (symmetry; apply andb_true_iff; split; apply Z.leb_le; lia).
      cbn [option_bind]. eexists. split; [reflexivity|]. apply D. rewrite total_app. cbn [total fold_right]. lia.
    - cbn [option_bind]. eexists. split; [reflexivity|]. apply D. rewrite !conv_unsigned by exact SG. rewrite S, total_app. cbn [total fold_right]. rewrite Z.add_0_r.
      rewrite <- Z.add_mod; [reflexivity|]. pose proof st_bits. pose proof (Z.pow_pos_nonneg 2 (ibits st)). lia.
  Qed.
  Lemma add_all_ok ys : forall a xs, xs <> [] -> describes st a xs -> Forall (in_ity vt) ys -> Z.of_nat (length (xs ++ ys)) < 2 ^ sw ->
    (isigned vt = true -> forall k, (length xs <= k)%nat -> in_ity st (total (firstn k (xs ++ ys)))) ->
    exists a', accum_add_all sw vt a ys = Some a' /\ describes st a' (xs ++ ys).
  Proof.
    induction ys as [|y ys IH]; intros a xs NE D F B Fit.
    - rewrite app_nil_r. exists a. split; [reflexivity|exact D].
    - inversion F as [|? ? F1 F2]; subst. cbn [accum_add_all]. rewrite app_length in B. cbn [length] in B.
      assert (E : xs ++ y :: ys = (xs ++ [y]) ++ ys) by (rewrite <- app_assoc; reflexivity).
      assert (FE : firstn (length xs + 1) (xs ++ y :: ys) = xs ++ [y]).
      { rewrite E. replace (length xs + 1)%nat with (length (xs ++ [y]) + 0)%nat by (rewrite app_length; cbn; lia). rewrite firstn_app_2. cbn [firstn]. apply app_nil_r. }
      destruct (step_ok a xs y NE D F1) as (a1 & A1 & D1).
      { lia. } { intros S. specialize (Fit S (length xs + 1)%nat ltac:(lia)). rewrite FE in Fit. exact Fit. }
      rewrite A1. cbn [option_bind]. rewrite E. apply IH.
      + destruct xs; discriminate.
      + exact D1.
      + exact F2.
      + rewrite !app_length. cbn [length]. lia.
      + intros S k Hk. rewrite <- E. apply Fit; [exact S|]. rewrite app_length in Hk. lia.
  Qed.
  Lemma accumulate_ok xs : Forall (in_ity vt) xs -> Z.of_nat (length xs) < 2 ^ sw -> (isigned vt = true -> sums_fit st xs) ->
    exists a, accum_add_all sw vt accum_empty xs = Some a /\ describes st a xs.
  Proof.
    intros F B Fit. destruct xs as [|x xs].
    - exists accum_empty. split; [reflexivity|]. split; [reflexivity|]. split; [congruence|]. destruct (isigned st); reflexivity.
    - inversion F as [|? ? F1 F2]; subst. cbn [accum_add_all]. destruct (start_ok accum_empty x eq_refl F1) as (a & A & D). rewrite A. cbn [option_bind].
      apply (add_all_ok xs a [x]); [discriminate|exact D|exact F2|exact B|]. intros S k _. apply (Fit S).
  Qed.
  (** A signed sum that does not fit is undefined, so the hypothesis is needed. *)
  Lemma signed_overflow a x : isigned vt = true -> a_count a <> 0 -> in_ity vt x -> ~ in_ity st (a_sum a + x) -> accum_add sw vt a x = None.
  Proof.
    intros S C H F. unfold accum_add. apply Z.eqb_neq in C. rewrite C. unfold impl_add, sum_add. fold st. rewrite st_signed, S. cbn [a_sum with_count].
    rewrite conv_signed_id; [|exact S|exact st_bits|apply sum_ity_wider; assumption]. unfold in_ity in F.
    destruct ((ity_min st <=? a_sum a + x) && (a_sum a + x <=? ity_max st)) eqn:E; [|reflexivity].
    apply andb_true_iff in E. destruct E as [E1 E2]. apply Z.leb_le in E1, E2. lia.
  Qed.
End P.
