(** Numbers, and extracting the compiler's text. *)
From Coq Require Import Ascii String Lia.
From Verif Require Import Words TnameModel TnameSpec.
Import ListNotations.
Local Open Scope list_scope.

(* ------------------------------------------------------------ numbers *)

Lemma digit_of_small : forall d, (0 <= d < 10)%Z -> digit d = ascii_of_N (Z.to_N (48 + d)).
Proof. intros d H. unfold digit. rewrite Z.mod_small by lia. reflexivity. Qed.

Lemma digit_ok : forall d, (0 <= d < 10)%Z -> is_digit (ascii_of_N (Z.to_N (48 + d))) = true /\ digit_value (ascii_of_N (Z.to_N (48 + d))) = d.
Proof.
  intros d H. unfold is_digit, digit_value. rewrite N_ascii_embedding by lia.
  split; [apply andb_true_iff; split; apply N.leb_le; lia|lia].
Qed.

Lemma count_digits_bound : forall fuel v, (0 <= v)%Z -> (Z.of_nat fuel > Z.log2 v)%Z -> (0 < v)%Z ->
  exists n, count_digits fuel v = S n.
Proof. intros [|k] v H0 H Hv; [pose proof (Z.log2_nonneg v); lia|]. cbn [count_digits]. destruct (v =? 0)%Z eqn:E; [lia|]. eauto. Qed.

Lemma log2_div10 : forall v, (10 <= v)%Z -> (Z.log2 (v / 10) < Z.log2 v)%Z.
Proof.
  intros v H. apply Z.log2_lt_pow2; [apply Z.div_str_pos; lia|].
  pose proof (Z.log2_spec v ltac:(lia)) as [_ H2]. rewrite Z.pow_succ_r in H2 by apply Z.log2_nonneg.
  apply Z.div_lt_upper_bound; [lia|]. lia.
Qed.

Lemma count_digits_length : forall fuel v, (0 < v)%Z -> (Z.log2 v < Z.of_nat fuel)%Z ->
  count_digits fuel v = length (decimal_digits fuel v) /\ (forall k, (Z.log2 v < Z.of_nat k)%Z -> decimal_digits k v = decimal_digits fuel v) /\ (forall k, (Z.log2 v < Z.of_nat k)%Z -> count_digits k v = count_digits fuel v).
Proof.
  induction fuel as [|f IH]; intros v Hv Hf; [pose proof (Z.log2_nonneg v); lia|].
  cbn [count_digits decimal_digits]. destruct (v =? 0)%Z eqn:E; [lia|].
  rewrite Z.quot_div_nonneg by lia. rewrite app_length. cbn [length].
  destruct (v <? 10)%Z eqn:Et.
  - apply Z.ltb_lt in Et. replace (v / 10)%Z with 0%Z by (symmetry; apply Z.div_small; lia).
    split; [|split].
    + destruct f; reflexivity.
    + intros [|k] Hk; [pose proof (Z.log2_nonneg v); lia|]. cbn [decimal_digits]. replace (v <? 10)%Z with true by (symmetry; apply Z.ltb_lt; lia). reflexivity.
    + intros [|k] Hk; [pose proof (Z.log2_nonneg v); lia|]. cbn [count_digits]. rewrite E, Z.quot_div_nonneg by lia. rewrite (Z.div_small v 10) by lia. destruct k, f; reflexivity.
  - apply Z.ltb_ge in Et. pose proof (log2_div10 v Et). assert (Hd : (0 < v / 10)%Z) by (apply Z.div_str_pos; lia).
    destruct (IH (v / 10)%Z Hd ltac:(lia)) as (IH1 & IH2 & IH3).
    split; [|split].
    + rewrite IH1. lia.
    + intros [|k] Hk; [pose proof (Z.log2_nonneg v); lia|]. cbn [decimal_digits]. replace (v <? 10)%Z with false by (symmetry; apply Z.ltb_ge; lia). rewrite (IH2 k) by lia. reflexivity.
    + intros [|k] Hk; [pose proof (Z.log2_nonneg v); lia|]. cbn [count_digits]. rewrite E, Z.quot_div_nonneg by lia. rewrite (IH3 k) by lia. reflexivity.
Qed.

Lemma put_at : forall a x b c, put (a ++ x :: b) (Z.of_nat (length a)) c = Some (a ++ c :: b).
Proof.
  intros a x b c. unfold put. rewrite app_length. cbn [length].
  replace ((0 <=? Z.of_nat (length a)) && (Z.of_nat (length a) <? Z.of_nat (length a + S (length b))))%Z with true
    by (symmetry; apply andb_true_iff; split; [apply Z.leb_le|apply Z.ltb_lt]; lia).
  rewrite Nat2Z.id, firstn_app, Nat.sub_diag, firstn_all. cbn [firstn]. rewrite app_nil_r.
  replace (S (length a)) with (length a + 1)%nat by lia. rewrite skipn_app, skipn_all2 by lia.
  replace (length a + 1 - length a)%nat with 1%nat by lia. reflexivity.
Qed.

Lemma put_digits_spec : forall fuel v pre rest, (0 < v)%Z -> (Z.log2 v < Z.of_nat fuel)%Z ->
  put_digits (S fuel) (pre ++ repeat zero (length (decimal_digits fuel v)) ++ rest) (Z.of_nat (length pre + length (decimal_digits fuel v)) - 1) v
  = Some (pre ++ decimal_digits fuel v ++ rest, (Z.of_nat (length pre) - 1)%Z).
Proof.
  induction fuel as [|f IH]; intros v pre rest Hv Hf; [pose proof (Z.log2_nonneg v); lia|].
  remember (S f) as g eqn:Eg. cbn [put_digits]. subst g. destruct (v =? 0)%Z eqn:E; [lia|].
  rewrite Z.quot_div_nonneg, Z.rem_mod_nonneg by lia.
  cbn [decimal_digits]. set (q := if (v <? 10)%Z then [] else decimal_digits f (v / 10)).
  rewrite app_length. cbn [length]. rewrite Nat.add_1_r.
  replace (repeat zero (S (length q))) with (repeat zero (length q) ++ [zero]) by (rewrite <- repeat_cons; reflexivity).
  rewrite <- (app_assoc (repeat zero (length q))). cbn [app].
  rewrite (app_assoc pre).
  replace (Z.of_nat (length pre + S (length q)) - 1)%Z with (Z.of_nat (length (pre ++ repeat zero (length q)))) by (rewrite app_length, repeat_length; lia).
  rewrite put_at. cbn [option_bind]. rewrite <- app_assoc.
  replace (Z.of_nat (length (pre ++ repeat zero (length q))) - 1)%Z with (Z.of_nat (length pre + length q) - 1)%Z by (rewrite app_length, repeat_length; lia).
  rewrite digit_of_small by (apply Z.mod_pos_bound; lia).
  subst q. destruct (v <? 10)%Z eqn:Et.
  - apply Z.ltb_lt in Et. rewrite (Z.div_small v 10) by lia. cbn [put_digits]. rewrite Z.eqb_refl. cbn [length repeat app]. rewrite Nat.add_0_r. reflexivity.
  - apply Z.ltb_ge in Et. pose proof (log2_div10 v Et). rewrite IH by (try (apply Z.div_str_pos; lia); lia).
    rewrite <- app_assoc. reflexivity.
Qed.

Lemma magnitude_ok : forall n, fits n = true -> lowest n = false -> magnitude n = Some (Z.abs (number n)).
Proof.
  intros [s w na b z] Hf Hl. unfold fits in Hf. unfold magnitude. cbn [boolean signed number width] in *. unfold lowest in Hl. cbn [signed number width] in Hl.
  apply andb_true_iff in Hf as [Hf H3]. apply andb_true_iff in Hf as [H1 H2]. destruct b; [discriminate|].
  destruct s; cbn [andb] in *.
  - apply andb_true_iff in H3 as [H3 H4]. apply Z.leb_le in H3. apply Z.ltb_lt in H4. destruct (z <? 0)%Z eqn:E.
    + unfold negate. cbn [number width narrow]. rewrite Hl. apply Z.ltb_lt in E. f_equal. lia.
    + apply Z.ltb_ge in E. f_equal. lia.
  - apply andb_true_iff in H3 as [H3 H4]. apply Z.leb_le in H3. f_equal. lia.
Qed.

Lemma negative_signed : forall n, fits n = true -> signed n && (number n <? 0)%Z = (number n <? 0)%Z.
Proof.
  intros [s w na b z] Hf. unfold fits in Hf. cbn [boolean signed number width] in *. destruct s; [reflexivity|].
  apply andb_true_iff in Hf as [_ H3]. apply andb_true_iff in H3 as [H3 _]. apply Z.leb_le in H3. cbn. symmetry. apply Z.ltb_ge. lia.
Qed.

Lemma int_to_str_decimal : forall n, fits n = true -> lowest n = false -> number n <> 0%Z -> int_to_str n = Some (decimal (number n)).
Proof.
  intros n Hf Hl Hz. unfold int_to_str, int_to_str_length. rewrite (proj2 (Z.eqb_neq _ _) Hz), (magnitude_ok n Hf Hl), (negative_signed n Hf). cbn [option_bind].
  set (v := Z.abs (number n)). assert (Hv : (0 < v)%Z) by (subst v; lia).
  unfold fuel_of. fold v. set (f := S (Z.to_nat (Z.log2 v))). assert (Hfu : (Z.log2 v < Z.of_nat f)%Z) by (subst f; pose proof (Z.log2_nonneg v); lia).
  destruct (count_digits_length f v Hv Hfu) as (H1 & H2 & H3). rewrite (H3 (S f)) by lia. rewrite H1.
  unfold decimal. fold v f. destruct (number n <? 0)%Z.
  - cbn [repeat Nat.add].
    replace (Z.of_nat (S (length (decimal_digits f v))) - 1)%Z with (Z.of_nat (length [zero] + length (decimal_digits f v)) - 1)%Z by (cbn [length]; lia).
    change (zero :: repeat zero (length (decimal_digits f v))) with ([zero] ++ repeat zero (length (decimal_digits f v))).
    rewrite <- (app_nil_r (repeat zero _)). rewrite put_digits_spec by assumption. cbn [option_bind fst snd].
    change (Z.of_nat (length [zero]) - 1)%Z with (Z.of_nat (length (@nil ascii))). change ([zero] ++ decimal_digits f v ++ []) with ([] ++ zero :: (decimal_digits f v ++ [])).
    rewrite put_at. rewrite app_nil_r. reflexivity.
  - cbn [Nat.add]. change (repeat zero (length (decimal_digits f v))) with ([] ++ repeat zero (length (decimal_digits f v))).
    rewrite <- (app_nil_r (repeat zero _)). change (Z.of_nat (length (decimal_digits f v))) with (Z.of_nat (length (@nil ascii) + length (decimal_digits f v))).
    rewrite put_digits_spec by assumption. cbn [option_bind fst app]. rewrite app_nil_r. reflexivity.
Qed.

Lemma int_to_str_zero : forall n, boolean n = false -> number n = 0%Z -> int_to_str n = Some [zero].
Proof.
  intros [s w na b z] Hb Hz. cbn in Hb, Hz. subst. unfold int_to_str, int_to_str_length, magnitude. cbn [boolean number signed]. rewrite andb_false_r. reflexivity.
Qed.

Lemma value_app : forall a c, value (a ++ [c]) = (10 * value a + digit_value c)%Z.
Proof. intros. unfold value. rewrite fold_left_app. reflexivity. Qed.

Lemma decimal_digits_ok : forall fuel v, (0 <= v)%Z -> (Z.log2 v < Z.of_nat fuel)%Z ->
  let d := decimal_digits fuel v in d <> [] /\ forallb is_digit d = true /\ (hd zero d = "0"%char -> d = text "0") /\ value d = v.
Proof.
  induction fuel as [|f IH]; intros v Hv Hf; [pose proof (Z.log2_nonneg v); lia|]. cbn zeta. cbn [decimal_digits].
  pose proof (Z.mod_pos_bound v 10 ltac:(lia)) as Hm. destruct (digit_ok _ Hm) as [D1 D2].
  destruct (v <? 10)%Z eqn:Et.
  - cbn [app]. repeat split; [discriminate|cbn [forallb]; rewrite D1; reflexivity| |].
    + cbn [hd]. intros H. rewrite H. reflexivity.
    + unfold value. cbn [fold_left]. rewrite D2. apply Z.ltb_lt in Et. rewrite Z.mod_small by lia. lia.
  - apply Z.ltb_ge in Et. pose proof (log2_div10 v Et). destruct (IH (v / 10)%Z ltac:(apply Z.div_pos; lia) ltac:(lia)) as (I1 & I2 & I3 & I4).
    repeat split.
    + intros H0. apply app_eq_nil in H0 as [_ H0]. discriminate.
    + rewrite forallb_app, I2. cbn [forallb]. rewrite D1. reflexivity.
    + destruct (decimal_digits f (v / 10)) as [|c r] eqn:Ed; [contradiction|]. cbn [app hd] in *. intros H0. specialize (I3 H0). rewrite I3 in I4.
      exfalso. assert (v / 10 = 0)%Z by (rewrite <- I4; reflexivity). assert (0 < v / 10)%Z by (apply Z.div_str_pos; lia). lia.
    + rewrite value_app, I4, D2. pose proof (Z.div_mod v 10 ltac:(lia)). lia.
Qed.

Lemma decimal_spec : forall z, decimal_of z (decimal z).
Proof.
  intros z. exists (decimal_digits (S (Z.to_nat (Z.log2 (Z.abs z)))) (Z.abs z)). split; [reflexivity|].
  apply decimal_digits_ok; [lia|]. pose proof (Z.log2_nonneg (Z.abs z)). lia.
Qed.

(* ------------------------------------------------------- extraction *)

Definition none_of (l : list ascii) (s : str) : Prop := forall c, In c l -> ~ In c s.

Lemma rfind_none : forall c s, ~ In c s -> rfind c s = None.
Proof.
  induction s as [|x r IH]; intros H; [reflexivity|]. cbn [rfind]. rewrite IH by (intros K; apply H; right; exact K).
  destruct (Ascii.eqb_spec x c); [exfalso; apply H; left; assumption|reflexivity].
Qed.
Lemma rfind_last : forall c a b, ~ In c b -> rfind c (a ++ c :: b) = Some (length a).
Proof.
  intros c a b H. induction a as [|x a IH]; cbn [app rfind length].
  - rewrite rfind_none by assumption. rewrite Ascii.eqb_refl. reflexivity.
  - rewrite IH. reflexivity.
Qed.
Lemma trim_right_last : forall c a b, ~ In c b -> trim_right_from_last (a ++ c :: b) c = a.
Proof. intros c a b H. unfold trim_right_from_last. rewrite rfind_last by assumption. rewrite firstn_app, Nat.sub_diag, firstn_all. cbn. apply app_nil_r. Qed.
Lemma trim_right_none : forall c s, ~ In c s -> trim_right_from_last s c = s.
Proof. intros c s H. unfold trim_right_from_last. rewrite rfind_none by assumption. reflexivity. Qed.

Lemma starts_with_app : forall p s, starts_with (p ++ s) p = true.
Proof. induction p; intros; cbn [app starts_with]; [reflexivity|]. rewrite Ascii.eqb_refl. apply IHp. Qed.
Lemma starts_with_spec : forall p s, starts_with s p = true <-> exists r, s = p ++ r.
Proof.
  induction p as [|a p IH]; intros s; [split; [intros _; exists s; reflexivity|reflexivity]|].
  destruct s as [|x s]; cbn [starts_with].
  - split; [discriminate|intros [r H]; discriminate].
  - rewrite andb_true_iff, IH. split.
    + intros [H [r ->]]. apply Ascii.eqb_eq in H as ->. exists r. reflexivity.
    + intros [r H]. cbn in H. injection H as -> ->. split; [apply Ascii.eqb_refl|eauto].
Qed.

(** Texts from which nothing is removed. *)
Definition clean (x : str) : Prop := forallb (fun p => negb (starts_with x p)) prefixes = true /\ ~ In ";"%char x.

Lemma clean_each : forall x p, clean x -> In p prefixes -> starts_with x p = false.
Proof. intros x p [H _] Hp. rewrite forallb_forall in H. specialize (H p Hp). now apply negb_true_iff in H. Qed.

Lemma clean_pass : forall l x, (forall p, In p l -> starts_with x p = false) ->
  fold_left (fun s p => if starts_with s p then skipn (length p) s else s) l x = x.
Proof. induction l as [|p l IH]; intros x H; [reflexivity|]. cbn [fold_left]. rewrite H by (left; reflexivity). apply IH. intros; apply H; now right. Qed.

Lemma clean_loop : forall n x, clean x -> remove_loop n x = x.
Proof.
  intros [|n] x H; [reflexivity|]. cbn [remove_loop]. destruct (existsb (starts_with x) prefixes) eqn:E; [|reflexivity].
  apply existsb_exists in E as (p & Hp & E). rewrite (clean_each x p H Hp) in E. discriminate.
Qed.

(** The prefixes a compiler writes. *)
Lemma loop_step : forall n x, existsb (starts_with x) prefixes = true -> remove_loop (S n) x = remove_loop n (remove_pass x).
Proof. intros. cbn [remove_loop]. rewrite H. reflexivity. Qed.


Fixpoint clash (a p : str) : bool :=
  match a, p with x :: a, y :: p => negb (Ascii.eqb x y) || clash a p | _, _ => false end.
Lemma clash_no : forall a p x, clash a p = true -> starts_with (a ++ x) p = false.
Proof.
  induction a as [|c a IH]; intros p x H; [discriminate|]. destruct p as [|y p]; [discriminate|]. cbn [clash] in H. cbn [app starts_with].
  destruct (Ascii.eqb c y); cbn [negb orb andb] in *; [apply IH; exact H|reflexivity].
Qed.

Lemma pass_at : forall l1 key l2 x, prefixes = l1 ++ key :: l2 -> forallb (clash key) l1 = true -> clean x -> remove_pass (key ++ x) = x.
Proof.
  intros l1 key l2 x Hp Hl Hc. unfold remove_pass. rewrite Hp, fold_left_app. rewrite (clean_pass l1).
  - cbn [fold_left]. rewrite starts_with_app. rewrite skipn_app, skipn_all, Nat.sub_diag. cbn [skipn app].
    apply clean_pass. intros p H. apply clean_each; [assumption|]. rewrite Hp. apply in_or_app. right. right. exact H.
  - intros p H. rewrite forallb_forall in Hl. apply clash_no, Hl, H.
Qed.

Lemma loop_at : forall l1 key l2 x n, prefixes = l1 ++ key :: l2 -> forallb (clash key) l1 = true -> clean x -> remove_loop (S n) (key ++ x) = x.
Proof.
  intros l1 key l2 x n Hp Hl Hc. rewrite loop_step.
  - rewrite (pass_at l1 key l2 x Hp Hl Hc). apply clean_loop, Hc.
  - apply existsb_exists. exists key. split; [rewrite Hp; apply in_or_app; right; left; reflexivity|apply starts_with_app].
Qed.

Lemma remove_clean : forall x, clean x -> remove_prefixes x = x.
Proof. intros. apply clean_loop. assumption. Qed.

Lemma remove_key : forall key x, In key prefixes -> clean x -> remove_prefixes (key ++ x) = x.
Proof.
  intros key x Hk Hc. unfold remove_prefixes. rewrite app_length.
  unfold prefixes in Hk. cbn [In] in Hk. set (n := length x).
  destruct Hk as [<-|[<-|[<-|[<-|[<-|[<-|[<-|[<-|[<-|[<-|[<-|[]]]]]]]]]]]].
  1: change (length (text "`anonymous-namespace" ++ quote ++ text "::") + n)%nat with (S (22 + n)); apply (loop_at [] _ (skipn 1 prefixes)); auto; reflexivity.
  1: change (length (text "(anonymous namespace)::") + n)%nat with (S (22 + n)); apply (loop_at (firstn 1 prefixes) _ (skipn 2 prefixes)); auto; reflexivity.
  1: change (length (text "{anonymous}::") + n)%nat with (S (12 + n)); apply (loop_at (firstn 2 prefixes) _ (skipn 3 prefixes)); auto; reflexivity.
  1: change (length (text "struct ") + n)%nat with (S (6 + n)); apply (loop_at (firstn 3 prefixes) _ (skipn 4 prefixes)); auto; reflexivity.
  1: change (length (text "class ") + n)%nat with (S (5 + n)); apply (loop_at (firstn 4 prefixes) _ (skipn 5 prefixes)); auto; reflexivity.
  1: change (length (text "union ") + n)%nat with (S (5 + n)); apply (loop_at (firstn 5 prefixes) _ (skipn 6 prefixes)); auto; reflexivity.
  1: change (length (text "enum ") + n)%nat with (S (4 + n)); apply (loop_at (firstn 6 prefixes) _ (skipn 7 prefixes)); auto; reflexivity.
  1: change (length (text "T = ") + n)%nat with (S (3 + n)); apply (loop_at (firstn 7 prefixes) _ (skipn 8 prefixes)); auto; reflexivity.
  1: change (length (text "with ") + n)%nat with (S (4 + n)); apply (loop_at (firstn 8 prefixes) _ (skipn 9 prefixes)); auto; reflexivity.
  1: change (length (text "::") + n)%nat with (S (1 + n)); apply (loop_at (firstn 9 prefixes) _ (skipn 10 prefixes)); auto; reflexivity.
  change (length (text " ") + n)%nat with (S n); apply (loop_at (firstn 10 prefixes) _ (skipn 11 prefixes)); auto; reflexivity.
Qed.

(** Removing is a function of the text from which the first prefix was removed, if the text is long enough for both. *)
Lemma remove_with_T : forall x, clean x -> remove_prefixes (text "with T = " ++ x) = x.
Proof.
  intros x Hc. unfold remove_prefixes. rewrite app_length. change (length (text "with T = ") + length x)%nat with (S (S (7 + length x))).
  rewrite loop_step.
  - replace (remove_pass (text "with T = " ++ x)) with (text "T = " ++ x).
    + apply (loop_at (firstn 7 prefixes) _ (skipn 8 prefixes)); auto; reflexivity.
    + reflexivity.
  - apply existsb_exists. exists (text "with "). split; [unfold prefixes; cbn; tauto|]. change (text "with T = ") with (text "with " ++ text "T = "). rewrite <- app_assoc. apply starts_with_app.
Qed.

Definition keys : list str := [[]; text "struct "; text "class "; text "union "; text "enum "].
Definition right_key (c : compiler) : Prop := match c with Msvc key => In key keys | _ => True end.

Lemma in_text : forall c s, existsb (Ascii.eqb c) s = false -> ~ In c s.
Proof. intros c s H K. assert (existsb (Ascii.eqb c) s = true) by (apply existsb_exists; exists c; split; [exact K|apply Ascii.eqb_refl]). congruence. Qed.

Lemma not_in_app : forall (c : ascii) a b, ~ In c a -> ~ In c b -> ~ In c (a ++ b).
Proof. intros c a b Ha Hb H. apply in_app_or in H as [H|H]; auto. Qed.

Lemma find_first : forall c a b, ~ In c a -> trim_left_from_first (a ++ c :: b) c = b.
Proof.
  intros c a b H. unfold trim_left_from_first.
  assert (E : find c (a ++ c :: b) = Some (length a)).
  { induction a as [|x a IH]; cbn [app find length]; [rewrite Ascii.eqb_refl; reflexivity|].
    destruct (Ascii.eqb_spec x c); [exfalso; apply H; left; assumption|]. rewrite IH by (intros K; apply H; right; exact K). reflexivity. }
  rewrite E. rewrite skipn_app, skipn_all2 by lia. replace (length a + 1 - length a)%nat with 1%nat by lia. reflexivity.
Qed.

Lemma source_clean : forall c x, right_key c -> clean x -> source_string c x = x.
Proof.
  intros c x Hk Hc. unfold source_string, line. destruct c as [| |key].
  - change (text "constexpr auto muu::impl::type_name_source_string() [with T = " ++ x ++ text "]")
      with (text "constexpr auto muu::impl::type_name_source_string() " ++ "["%char :: (text "with T = " ++ x ++ text "]")).
    rewrite find_first by (apply in_text; reflexivity). change (text "with T = " ++ x ++ text "]") with ((text "with T = " ++ x) ++ "]"%char :: []).
    rewrite trim_right_last by (intros []). rewrite trim_right_none by (apply not_in_app; [apply in_text; reflexivity|apply Hc]). apply remove_with_T, Hc.
  - change (text "auto muu::impl::type_name_source_string() [T = " ++ x ++ text "]")
      with (text "auto muu::impl::type_name_source_string() " ++ "["%char :: (text "T = " ++ x ++ text "]")).
    rewrite find_first by (apply in_text; reflexivity). change (text "T = " ++ x ++ text "]") with ((text "T = " ++ x) ++ "]"%char :: []).
    rewrite trim_right_last by (intros []). rewrite trim_right_none by (apply not_in_app; [apply in_text; reflexivity|apply Hc]). apply remove_key; [unfold prefixes; cbn; tauto|exact Hc].
  - change (text "auto __cdecl muu::impl::type_name_source_string<" ++ key ++ x ++ text ">(void) noexcept")
      with (text "auto __cdecl muu::impl::type_name_source_string" ++ "<"%char :: (key ++ x ++ ">"%char :: text "(void) noexcept")).
    rewrite find_first by (apply in_text; reflexivity). rewrite (app_assoc key).
    rewrite trim_right_last by (apply in_text; reflexivity). cbn in Hk.
    rewrite trim_right_none by (apply not_in_app; [|apply Hc]; destruct Hk as [<-|[<-|[<-|[<-|[<-|[]]]]]]; apply in_text; reflexivity).
    destruct Hk as [<-|Hk]; [apply remove_clean, Hc|]. apply remove_key; [|exact Hc]. unfold prefixes. cbn [In]. cbn in Hk. tauto.
Qed.
