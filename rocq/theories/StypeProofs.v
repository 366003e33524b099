From Coq Require Import Lia.
From Verif Require Import Words StypeModel StypeSpec.
Import ListNotations.
Local Open Scope Z_scope.

Lemma sty_eqb_spec a b : sty_eqb a b = true <-> a = b.
Proof.
  split.
  - destruct a, b; cbn [sty_eqb]; intros H; try discriminate H; try reflexivity;
      repeat (rewrite ?andb_true_iff in H; match type of H with _ /\ _ => let H2 := fresh "K" in destruct H as [H H2] | _ => idtac end);
      repeat match goal with
             | K : Bool.eqb _ _ = true |- _ => apply Bool.eqb_prop in K
             | K : Nat.eqb _ _ = true |- _ => apply PeanoNat.Nat.eqb_eq in K
             | K : (_ =? _) = true |- _ => apply Z.eqb_eq in K
             end; congruence.
  - intros ->. destruct b; cbn [sty_eqb]; rewrite ?Bool.eqb_reflx, ?PeanoNat.Nat.eqb_refl, ?Z.eqb_refl; reflexivity.
Qed.

Lemma sty_eqb_refl a : sty_eqb a a = true.
Proof. apply sty_eqb_spec. reflexivity. Qed.

Lemma stype_eqb_spec a b : stype_eqb a b = true <-> a = b.
Proof.
  split.
  - unfold stype_eqb, traits_eqb. intros H. rewrite !andb_true_iff in H.
    destruct H as [[[H1 H2] H3] H4]. apply sty_eqb_spec in H1. apply PeanoNat.Nat.eqb_eq in H3.
    destruct a as [b1 r1 g1 [p1 q1 u1 i1 d1 c1 o1]], b as [b2 r2 g2 [p2 q2 u2 i2 d2 c2 o2]].
    cbn [base ref tag tr t_pointer t_add t_sub t_inc t_dec t_cmp t_bool] in *.
    destruct H4 as [[[[[[K1 K2] K3] K4] K5] K6] K7].
    apply Bool.eqb_prop in K1, K2, K3, K4, K5, K6, K7.
    destruct r1, r2; try discriminate H2; congruence.
  - intros ->. unfold stype_eqb, traits_eqb. rewrite sty_eqb_refl, PeanoNat.Nat.eqb_refl, !Bool.eqb_reflx.
    destruct (ref b); reflexivity.
Qed.

Lemma refk_eqb_spec a b : refk_eqb a b = true <-> a = b.
Proof. destruct a, b; cbn; split; congruence. Qed.

(** A narrow integer type does not hold every int. *)
Lemma lo_narrow sg w : w < 32 -> - 2 ^ 31 < lo sg w.
Proof.
  intros H. unfold lo. destruct sg; [|lia].
  assert (2 ^ (w - 1) <= 2 ^ 30); [|lia].
  destruct (Z_lt_le_dec (w - 1) 0) as [K|K].
  - rewrite Z.pow_neg_r by exact K. lia.
  - apply Z.pow_le_mono_r; lia.
Qed.

Lemma narrowing_int sg w : w < 32 -> narrowing (SInt true 32) (SInt sg w) = true.
Proof.
  intros H. unfold narrowing. cbn [range sty_eqb].
  assert ((32 =? w) = false) as -> by (apply Z.eqb_neq; lia).
  rewrite andb_false_r. cbn [negb andb].
  pose proof (lo_narrow sg w H) as K. unfold lo at 2. cbn [negb].
  assert ((lo sg w <=? - 2 ^ (32 - 1)) = false) as -> by (apply Z.leb_gt; change (32 - 1) with 31; exact K).
  reflexivity.
Qed.

Lemma common_same p : common p p = p.
Proof. destruct p as [s w]. cbn [common]. rewrite Bool.eqb_reflx, Z.max_id. reflexivity. Qed.

(** A promoted type fits back only if promotion changes nothing. *)
Lemma promoted_back L t a s w : promote a = Some (s, w) -> base t = a -> strict L = true -> braces L t (SInt s w) = true -> SInt s w = a.
Proof.
  intros P B S H. unfold braces in H. rewrite S in H. cbn [andb] in H. rewrite !andb_true_iff, !negb_true_iff in H.
  destruct H as [[C N] _]. rewrite B in *.
  destruct a as [|sg v|i sc sg v|i c|i]; cbn [promote] in P.
  - injection P as <- <-. discriminate N.
  - unfold promote_int in P. destruct (Z.ltb_spec v 32) as [K|K].
    + injection P as <- <-. rewrite narrowing_int in N by exact K. discriminate N.
    + injection P as <- <-. reflexivity.
  - cbn in C. discriminate C.
  - discriminate P.
  - discriminate P.
Qed.

Lemma arith_closed L o t s :
  strict L = true -> arith_ty L o (base t) (base t) = Some s -> braces L t s = true -> s = base t.
Proof.
  intros S A B. remember (base t) as a eqn:E.
  destruct a as [|sg v|i sc sg v|i c|i].
  - cbn in A. injection A as <-. eapply (promoted_back L t SBool); [reflexivity | symmetry; exact E | exact S | exact B].
  - cbn [arith_ty promote] in A. rewrite common_same in A. destruct (promote_int sg v) as [s' w'] eqn:P. injection A as <-.
    eapply (promoted_back L t (SInt sg v)); [cbn [promote]; rewrite P; reflexivity | symmetry; exact E | exact S | exact B].
  - cbn [arith_ty promote] in A. destruct sc; [discriminate A|]. rewrite common_same in A.
    destruct (promote_int sg v) as [s' w'] eqn:P. injection A as <-.
    eapply (promoted_back L t (SEnum i false sg v)); [cbn [promote]; rewrite P; reflexivity | symmetry; exact E | exact S | exact B].
  - cbn [arith_ty] in A. destruct o; [discriminate A|]. destruct (Nat.eqb i i && c); [|discriminate A]. injection A as <-.
    unfold braces in B. rewrite <- E in B. cbn in B. discriminate B.
  - cbn [arith_ty] in A. rewrite PeanoNat.Nat.eqb_refl in A. destruct (c_arith (classes L i) o); [|discriminate A].
    injection A as <-. reflexivity.
Qed.

Lemma sign_closed L o t s :
  (o = Pos \/ o = Neg) -> strict L = true -> un_ty L o (base t) = Some s -> braces L t s = true -> s = base t.
Proof.
  intros O S A B. remember (base t) as a eqn:E.
  destruct a as [|sg v|i sc sg v|i c|i].
  - destruct O as [-> | ->]; cbn in A; injection A as <-;
      (eapply (promoted_back L t SBool); [reflexivity | symmetry; exact E | exact S | exact B]).
  - assert (A' : (match promote (SInt sg v) with Some (s, w) => Some (SInt s w) | None => None end) = Some s)
      by (destruct O as [-> | ->]; exact A).
    cbn [promote] in A'. destruct (promote_int sg v) as [s' w'] eqn:P. injection A' as <-.
    eapply (promoted_back L t (SInt sg v)); [cbn [promote]; rewrite P; reflexivity | symmetry; exact E | exact S | exact B].
  - assert (A' : (match promote (SEnum i sc sg v) with Some (s, w) => Some (SInt s w) | None => None end) = Some s)
      by (destruct O as [-> | ->]; exact A).
    cbn [promote] in A'. destruct sc; [discriminate A'|]. destruct (promote_int sg v) as [s' w'] eqn:P. injection A' as <-.
    eapply (promoted_back L t (SEnum i false sg v)); [cbn [promote]; rewrite P; reflexivity | symmetry; exact E | exact S | exact B].
  - destruct O as [-> | ->]; cbn in A; [injection A as <-; reflexivity | discriminate A].
  - destruct O as [-> | ->]; cbn in A.
    + destruct (c_pos (classes L i)); [|discriminate A]. injection A as <-. reflexivity.
    + destruct (c_neg (classes L i)); [|discriminate A]. injection A as <-. reflexivity.
Qed.

(** [!=] of plain values is the negation of [==] wherever the header falls back on that. *)
Lemma has_ne L a : has_unequal L -> has_cmp L Eq a = true -> has_cmp L Ne a = true.
Proof.
  intros U H. unfold has_cmp in *.
  destruct a as [|sg v|i [|] sg v|i c|i]; cbn [cmp_ty promote] in *; try exact H.
  rewrite PeanoNat.Nat.eqb_refl in *. unfold cls_cmp in *.
  destruct (c_cmp (classes L i) Ne) eqn:N; [reflexivity|].
  destruct (c_cmp (classes L i) Eq) eqn:Q; [|discriminate H].
  destruct U as [U|U].
  - rewrite U. reflexivity.
  - exfalso. apply (U i); congruence.
Qed.

Lemma un_bool_ty L o a : (o = Not \/ o = ToBool) -> has_un L o a = true -> un_ty L o a = Some SBool.
Proof.
  unfold has_un. intros [-> | ->] H; destruct a as [|sg v|i [|] sg v|i c|i]; cbn in *; try discriminate H; try reflexivity;
    try (destruct (promote_int sg v); reflexivity).
  - destruct (cls_not (classes L i)); [reflexivity | discriminate H].
  - destruct (c_bool (classes L i)); [reflexivity | discriminate H].
Qed.

Lemma not_of_bool L a : has_un L ToBool a = true -> has_un L Not a = true.
Proof.
  unfold has_un. intros H. destruct a as [|sg v|i [|] sg v|i c|i]; cbn in *; try exact H.
  unfold cls_not. destruct (c_not (classes L i)); [reflexivity|]. destruct (c_bool (classes L i)); [reflexivity | exact H].
Qed.

Lemma cmp_bool_ty L o a : has_cmp L o a = true -> cmp_ty L o a a = Some SBool.
Proof.
  unfold has_cmp. intros H. destruct a as [|sg v|i [|] sg v|i c|i]; cbn [cmp_ty promote] in *; try reflexivity;
    rewrite ?PeanoNat.Nat.eqb_refl in *; try reflexivity.
  destruct (cls_cmp L (classes L i) o); [reflexivity | discriminate H].
Qed.

Lemma tobool_plain L t c r : s_tobool_ty L t c = Some r -> r = Raw SBool /\ un_ty L ToBool (base t) = Some SBool.
Proof.
  unfold s_tobool_ty. intros H. destruct (base t) as [|sg v|i sc sg v|i k|i] eqn:B; cbn [is_bool] in H.
  - assert (r = Raw SBool) as ->.
    { destruct (negb c && negb (refk_eqb (ref t) CRef)); [congruence|].
      destruct (t_bool (tr t) && has_un L ToBool SBool); congruence. }
    split; reflexivity.
  - destruct (t_bool (tr t) && has_un L ToBool _) eqn:K; [|discriminate H]. injection H as <-. apply andb_true_iff in K.
    split; [reflexivity|]. apply un_bool_ty; [right; reflexivity | exact (proj2 K)].
  - destruct (t_bool (tr t) && has_un L ToBool _) eqn:K; [|discriminate H]. injection H as <-. apply andb_true_iff in K.
    split; [reflexivity|]. apply un_bool_ty; [right; reflexivity | exact (proj2 K)].
  - destruct (t_bool (tr t) && has_un L ToBool _) eqn:K; [|discriminate H]. injection H as <-. apply andb_true_iff in K.
    split; [reflexivity|]. apply un_bool_ty; [right; reflexivity | exact (proj2 K)].
  - destruct (t_bool (tr t) && has_un L ToBool _) eqn:K; [|discriminate H]. injection H as <-. apply andb_true_iff in K.
    split; [reflexivity|]. apply un_bool_ty; [right; reflexivity | exact (proj2 K)].
Qed.

(** One operator at a time: the plain operator compiles, has the plain type, and gives the value the strong one gives. *)
Lemma un_plain L o t r : strict L = true -> un_check L o t = Some r ->
  un_ty L o (plain_ty t) = Some (plain_ty r) /\
  (forall x v, un_eval L o t x = Some v -> un_val L o (plain_ty t) x = Some v) /\
  ((forall u c, r = Strong u c -> ref u = ByValue) -> forall x, un_eval L o t x = un_val L o (plain_ty t) x).
Proof.
  intros S H. destruct t as [s|t c]; cbn [un_check plain_ty] in *.
  - destruct (un_ty L o s) as [u|] eqn:E; [|discriminate H]. injection H as <-. split; [reflexivity|]. split; [|reflexivity].
    intros x v K. exact K.
  - assert (Sign : forall p, (p = Pos \/ p = Neg) -> s_sign_ty L p t = Some r ->
        un_ty L p (base t) = Some (plain_ty r) /\
        (forall x v, s_sign_val L p t x = Some v -> un_val L p (base t) x = Some v) /\
        ((forall u c, r = Strong u c -> ref u = ByValue) -> forall x, s_sign_val L p t x = un_val L p (base t) x)).
    { intros p O K. unfold s_sign_ty in K. destruct (match p with Pos => t_add (tr t) | _ => t_sub (tr t) end); [|discriminate K].
      destruct (un_ty L p (base t)) as [u|] eqn:E; [|discriminate K]. destruct (braces L t u) eqn:B; [|discriminate K].
      injection K as <-. pose proof (sign_closed L p t u O S E B) as ->. cbn [plain_ty].
      split; [reflexivity|]. unfold s_sign_val. rewrite E. unfold made_same. rewrite sty_eqb_refl. split.
      - intros x v. destruct (un_val L p (base t) x) as [z|]; [|discriminate]. destruct (ref t); congruence.
      - intros N x. rewrite (N t false eq_refl). destruct (un_val L p (base t) x); reflexivity. }
    assert (TB : s_tobool_ty L t c = Some r -> r = Raw SBool /\ un_ty L ToBool (base t) = Some SBool)
      by (intros K; exact (tobool_plain L t c r K)).
    destruct o; cbn [un_check un_eval] in *.
    + apply Sign; [left; reflexivity | exact H].
    + apply Sign; [right; reflexivity | exact H].
    + assert (K : r = Raw SBool /\ has_un L Not (base t) = true).
      { unfold s_not_ty in H. destruct (t_bool (tr t) && (has_un L Not (base t) || has_un L ToBool (base t))) eqn:K.
        - apply andb_true_iff in K. destruct K as [_ K]. apply orb_true_iff in K.
          split; [congruence|]. destruct K as [K|K]; [exact K | exact (not_of_bool L _ K)].
        - apply TB in H. destruct H as [-> H]. split; [reflexivity|]. apply not_of_bool. unfold has_un. rewrite H. reflexivity. }
      destruct K as [-> K]. split; [exact (un_bool_ty L Not _ (or_introl eq_refl) K)|].
      unfold s_not_val. rewrite K. split; [intros x v E; exact E | reflexivity].
    + destruct (TB H) as [-> E]. split; [exact E|]. split; [intros x v Q; exact Q | reflexivity].
Qed.

Lemma arith_plain L o a b r : strict L = true -> arith_check L o a b = Some r ->
  arith_ty L o (plain_ty a) (plain_ty b) = Some (plain_ty r) /\
  (forall x y v, arith_eval L o a b x y = Some v -> arith_val L o (plain_ty a) (plain_ty b) x y = Some v) /\
  ((forall u c, r = Strong u c -> ref u = ByValue) ->
    forall x y, arith_eval L o a b x y = arith_val L o (plain_ty a) (plain_ty b) x y).
Proof.
  intros S H. destruct a as [s|t c], b as [s'|t' c']; cbn [arith_check arith_eval plain_ty] in *.
  - destruct (arith_ty L o s s') as [u|] eqn:E; [|discriminate H]. injection H as <-.
    split; [reflexivity|]. split; [intros x y v Q; exact Q | reflexivity].
  - unfold s_ptr_left_ty in H. destruct s as [| | |i k|]; try discriminate H.
    destruct (t_pointer (tr t') && _); [|discriminate H].
    destruct (arith_ty L o (SPtr i k) (base t')) as [u|] eqn:E; [|discriminate H]. injection H as <-.
    split; [reflexivity|]. split; [intros x y v Q; exact Q | reflexivity].
  - unfold s_ptr_right_ty in H. destruct s' as [| | |i k|]; try discriminate H. destruct o; try discriminate H.
    destruct (t_pointer (tr t) && _); [|discriminate H].
    destruct (arith_ty L Add (base t) (SPtr i k)) as [u|] eqn:E; [|discriminate H]. injection H as <-.
    split; [reflexivity|]. split; [intros x y v Q; exact Q | reflexivity].
  - destruct (stype_eqb t t') eqn:Q; [|discriminate H]. apply stype_eqb_spec in Q. subst t'.
    unfold s_arith_ty in H. destruct (trait_of o (tr t)); [|discriminate H].
    destruct (arith_ty L o (base t) (base t)) as [u|] eqn:E; [|discriminate H]. destruct (braces L t u) eqn:B; [|discriminate H].
    injection H as <-. pose proof (arith_closed L o t u S E B) as ->. cbn [plain_ty]. split; [reflexivity|].
    unfold s_arith_val. rewrite E. unfold made_same. rewrite sty_eqb_refl. split.
    + intros x y v. destruct (arith_val L o (base t) (base t) x y) as [z|]; [|discriminate]. destruct (ref t); congruence.
    + intros N x y. rewrite (N t false eq_refl). destruct (arith_val L o (base t) (base t) x y); reflexivity.
Qed.

Lemma cmp_plain L o a b r : has_unequal L -> cmp_check L o a b = Some r ->
  r = Raw SBool /\ cmp_ty L o (plain_ty a) (plain_ty b) = Some SBool /\
  forall x y, cmp_eval L o a b x y = cmp_val L o (plain_ty a) (plain_ty b) x y.
Proof.
  intros U H. destruct a as [s|t c], b as [s'|t' c']; cbn [cmp_check cmp_eval plain_ty] in *; try discriminate H.
  - assert (E : cmp_ty L o s s' = None \/ cmp_ty L o s s' = Some SBool).
    { destruct s, s'; cbn [cmp_ty];
        repeat match goal with
               | |- context [if ?x then _ else _] => destruct x
               | |- context [match ?x with _ => _ end] => destruct x
               end; auto. }
    destruct E as [E|E]; rewrite E in H; [discriminate H|]. injection H as <-.
    split; [reflexivity|]. split; [exact E | reflexivity].
  - destruct (stype_eqb t t') eqn:Q; [|discriminate H]. apply stype_eqb_spec in Q. subst t'.
    unfold s_cmp_ty in H. destruct (t_cmp (tr t) && _) eqn:K; [|discriminate H]. injection H as <-.
    apply andb_true_iff in K. destruct K as [_ K].
    assert (C : has_cmp L o (base t) = true).
    { apply orb_true_iff in K. destruct K as [K|K]; [exact K|]. destruct o; try discriminate K. exact (has_ne L _ U K). }
    split; [reflexivity|]. split; [exact (cmp_bool_ty L o _ C)|].
    intros x y. unfold s_cmp_val. rewrite C. reflexivity.
Qed.

Lemma nth_plain G x : nth_error (plain G) x = option_map plain_var (nth_error G x).
Proof. unfold plain. apply nth_error_map. Qed.

Lemma plain_loc d : v_loc (plain_var d) = v_loc d.
Proof. unfold plain_var. destruct (v_ty d); reflexivity. Qed.

Lemma plain_v_ty d : v_ty (plain_var d) = inl (v_base d).
Proof. unfold plain_var, v_base. destruct (v_ty d) as [s|t] eqn:E; [exact E | reflexivity]. Qed.

Lemma plain_v_base d : v_base (plain_var d) = v_base d.
Proof. unfold v_base at 1. rewrite plain_v_ty. reflexivity. Qed.

(** In an environment without reference typedefs no expression has such a type. *)
Lemma no_refs_check L G e t c : no_refs G -> check L G e = Some (Strong t c) -> ref t = ByValue.
Proof.
  intros N. revert t c. induction e as [x|s v|o e IH|o a IHa b IHb|o a IHa b IHb]; intros t c H; cbn [check] in H.
  - destruct (nth_error G x) as [d|] eqn:E; [|discriminate H]. destruct (v_ty d) as [s|u] eqn:V; [discriminate H|].
    injection H as <- _. exact (N x d u E V).
  - discriminate H.
  - destruct (check L G e) as [[s|u k]|] eqn:E; cbn [un_check] in H; [| |discriminate H].
    + destruct (un_ty L o s); discriminate H.
    + assert (K : t = u \/ exists r, s_tobool_ty L u k = Some r /\ r = Strong t c).
      { destruct o; cbn in H.
        - unfold s_sign_ty in H. destruct (t_add (tr u)); [|discriminate H]. destruct (un_ty L Pos (base u)); [|discriminate H].
          destruct (braces L u s); [|discriminate H]. injection H as <- _. left; reflexivity.
        - unfold s_sign_ty in H. destruct (t_sub (tr u)); [|discriminate H]. destruct (un_ty L Neg (base u)); [|discriminate H].
          destruct (braces L u s); [|discriminate H]. injection H as <- _. left; reflexivity.
        - unfold s_not_ty in H. destruct (t_bool (tr u) && _); [discriminate H|]. right. exists (Strong t c). split; [exact H | reflexivity].
        - right. exists (Strong t c). split; [exact H | reflexivity]. }
      destruct K as [-> | [r [K ->]]].
      * exact (IH u k eq_refl).
      * apply tobool_plain in K. destruct K as [K _]. discriminate K.
  - destruct (check L G a) as [[s|u k]|]; [| |discriminate H]; destruct (check L G b) as [[s'|u' k']|]; try discriminate H;
      cbn [arith_check] in H.
    + destruct (arith_ty L o s s'); discriminate H.
    + unfold s_ptr_left_ty in H. destruct s; try discriminate H. destruct (t_pointer (tr u') && _); [|discriminate H].
      destruct (arith_ty L o _ (base u')); discriminate H.
    + unfold s_ptr_right_ty in H. destruct s'; try discriminate H. destruct o; try discriminate H.
      destruct (t_pointer (tr u) && _); [|discriminate H]. destruct (arith_ty L Add (base u) _); discriminate H.
    + destruct (stype_eqb u u'); [|discriminate H]. unfold s_arith_ty in H. destruct (trait_of o (tr u)); [|discriminate H].
      destruct (arith_ty L o (base u) (base u)); [|discriminate H]. destruct (braces L u s); [|discriminate H].
      injection H as <- _. exact (IHa u k eq_refl).
  - destruct (check L G a) as [[s|u k]|]; [| |discriminate H]; destruct (check L G b) as [[s'|u' k']|]; try discriminate H;
      cbn [cmp_check] in H.
    + destruct (cmp_ty L o s s'); discriminate H.
    + destruct (stype_eqb u u'); [|discriminate H]. unfold s_cmp_ty in H. destruct (t_cmp (tr u) && _); discriminate H.
Qed.

(** The whole expression. *)
Lemma expr_plain L G m e t : strict L = true -> has_unequal L -> check L G e = Some t ->
  check L (plain G) e = Some (Raw (plain_ty t)) /\
  (forall v, eval L G m e = Some v -> eval L (plain G) m e = Some v) /\
  (no_refs G -> eval L G m e = eval L (plain G) m e).
Proof.
  intros S U. revert t. induction e as [x|s v|o e IH|o a IHa b IHb|o a IHa b IHb]; intros t H.
  - cbn [check eval] in *. rewrite nth_plain. destruct (nth_error G x) as [d|]; [|discriminate H]. cbn [option_map].
    injection H as <-. rewrite plain_v_ty, plain_loc. split.
    + unfold v_base. destruct (v_ty d); reflexivity.
    + split; [intros v K; exact K | reflexivity].
  - cbn [check eval] in *. injection H as <-. split; [reflexivity|]. split; [intros w K; exact K | reflexivity].
  - pose proof H as W. cbn [check] in H. destruct (check L G e) as [u|] eqn:E; [|discriminate H].
    destruct (IH u eq_refl) as [C [V Q]]. destruct (un_plain L o u t S H) as [T [X Y]].
    cbn [check eval]. rewrite C, E. cbn [un_check un_eval]. rewrite T. split; [reflexivity|]. split.
    + intros v K. destruct (eval L G m e) as [z|]; [|discriminate K]. rewrite (V z eq_refl). exact (X z v K).
    + intros N. rewrite (Q N). destruct (eval L (plain G) m e) as [z|]; [|reflexivity]. apply Y.
      intros w c R. subst t. exact (no_refs_check L G _ _ _ N W).
  - pose proof H as W. cbn [check] in H. destruct (check L G a) as [u|] eqn:E; [|discriminate H].
    destruct (check L G b) as [u'|] eqn:E'; [|discriminate H].
    destruct (IHa u eq_refl) as [C [V Q]]. destruct (IHb u' eq_refl) as [C' [V' Q']].
    destruct (arith_plain L o u u' t S H) as [T [X Y]].
    cbn [check eval]. rewrite C, C', E, E'. cbn [arith_check arith_eval]. rewrite T. split; [reflexivity|]. split.
    + intros v K. destruct (eval L G m a) as [z|]; [|discriminate K]. destruct (eval L G m b) as [z'|]; [|discriminate K].
      rewrite (V z eq_refl), (V' z' eq_refl). exact (X z z' v K).
    + intros N. rewrite (Q N), (Q' N). destruct (eval L (plain G) m a) as [z|]; [|reflexivity].
      destruct (eval L (plain G) m b) as [z'|]; [|reflexivity]. apply Y.
      intros w c R. subst t. exact (no_refs_check L G _ _ _ N W).
  - cbn [check] in H. destruct (check L G a) as [u|] eqn:E; [|discriminate H].
    destruct (check L G b) as [u'|] eqn:E'; [|discriminate H].
    destruct (IHa u eq_refl) as [C [V Q]]. destruct (IHb u' eq_refl) as [C' [V' Q']].
    destruct (cmp_plain L o u u' t U H) as [-> [T Y]].
    cbn [check eval]. rewrite C, C', E, E'. cbn [cmp_check cmp_eval plain_ty]. rewrite T. split; [reflexivity|]. split.
    + intros v K. destruct (eval L G m a) as [z|]; [|discriminate K]. destruct (eval L G m b) as [z'|]; [|discriminate K].
      rewrite (V z eq_refl), (V' z' eq_refl). rewrite <- Y. exact K.
    + intros N. rewrite (Q N), (Q' N). destruct (eval L (plain G) m a) as [z|]; [|reflexivity].
      destruct (eval L (plain G) m b) as [z'|]; [|reflexivity]. apply Y.
Qed.

(* ------------------------------------------------------- statements *)

Lemma set_plain d t : set_ok d t = true -> set_ok (plain_var d) (Raw (plain_ty t)) = true.
Proof.
  unfold set_ok. rewrite plain_v_ty. intros H. apply andb_true_iff in H. destruct H as [C H].
  unfold plain_var, v_base. destruct (v_ty d) as [s|u] eqn:V; destruct t as [s'|u' c]; try discriminate H; cbn [plain_ty].
  - rewrite C, H. reflexivity.
  - apply andb_true_iff in H. destruct H as [E R]. apply stype_eqb_spec in E. apply refk_eqb_spec in R. subst u'.
    cbn [v_const]. rewrite R. cbn [refk_eqb]. rewrite orb_false_r, C, sty_eqb_refl. reflexivity.
Qed.

Lemma made_same_id t x r : made_same t (base t) x = Some r -> r = x.
Proof. unfold made_same. rewrite sty_eqb_refl. destruct (ref t); congruence. Qed.

Lemma stmt_plain L G s m : strict L = true -> has_unequal L -> check_stmt L G s = true ->
  check_stmt L (plain G) s = true /\
  (forall m', exec L G s m = Some m' -> exec L (plain G) s m = Some m') /\
  (no_refs G -> exec L G s m = exec L (plain G) s m).
Proof.
  intros S U H. destruct s as [d x|d y x|y e]; cbn [check_stmt exec] in *.
  - rewrite nth_plain. destruct (nth_error G x) as [v|]; [|discriminate H]. cbn [option_map].
    rewrite plain_v_ty, plain_loc, plain_v_base.
    split; [|split; [intros m' K; exact K | reflexivity]].
    apply andb_true_iff in H. destruct H as [C H]. unfold plain_var, v_base. destruct (v_ty v) as [s|t].
    + rewrite C. exact H.
    + unfold s_pre_ok in H. rewrite !andb_true_iff, negb_true_iff in H. destruct H as [[_ H] R].
      cbn [v_const]. rewrite R, orb_false_r, C. exact H.
  - rewrite !nth_plain. destruct (nth_error G y) as [u|]; [|discriminate H]. destruct (nth_error G x) as [v|] eqn:Ex; [|discriminate H].
    cbn [option_map]. rewrite plain_v_ty, !plain_loc, plain_v_base.
    apply andb_true_iff in H. destruct H as [C H].
    split; [|split].
    + unfold plain_var at 1. unfold v_base. destruct (v_ty v) as [s|t].
      * apply andb_true_iff in H. destruct H as [P H]. rewrite C, P. exact (set_plain u (Raw s) H).
      * apply andb_true_iff in H. destruct H as [P H]. unfold s_post_ok in P. rewrite !andb_true_iff, negb_true_iff in P.
        destruct P as [[[_ P] R] _]. cbn [v_const]. rewrite R, orb_false_r, C, P. exact (set_plain u (Strong t false) H).
    + intros m' K. destruct (post_val L d (v_base v) (m (v_loc v))) as [[z old]|]; [|discriminate K].
      destruct (v_ty v) as [s|t]; [exact K|]. destruct (made_same t (base t) old) as [r|] eqn:M; [|discriminate K].
      apply made_same_id in M. subst r. exact K.
    + intros N. destruct (post_val L d (v_base v) (m (v_loc v))) as [[z old]|]; [|reflexivity].
      destruct (v_ty v) as [s|t] eqn:V; [reflexivity|]. unfold made_same. rewrite (N x v t Ex V), sty_eqb_refl. reflexivity.
  - rewrite nth_plain. destruct (nth_error G y) as [u|]; [|discriminate H]. destruct (check L G e) as [t|] eqn:E; [|discriminate H].
    cbn [option_map]. rewrite plain_loc. destruct (expr_plain L G m e t S U E) as [C [V Q]]. rewrite C.
    split; [exact (set_plain u t H)|]. split.
    + intros m' K. destruct (eval L G m e) as [z|]; [|discriminate K]. rewrite (V z eq_refl). exact K.
    + intros N. rewrite (Q N). reflexivity.
Qed.

Lemma prog_plain L G p m : strict L = true -> has_unequal L -> check_prog L G p = true ->
  check_prog L (plain G) p = true /\
  (forall m', run L G p m = Some m' -> run L (plain G) p m = Some m') /\
  (no_refs G -> run L G p m = run L (plain G) p m).
Proof.
  intros S U. revert m. induction p as [|s p IH]; intros m H.
  - split; [reflexivity|]. split; [intros m' K; exact K | reflexivity].
  - cbn [check_prog forallb] in H. apply andb_true_iff in H. destruct H as [Hs Hp].
    destruct (stmt_plain L G s m S U Hs) as [C [V Q]]. split.
    + cbn [check_prog forallb]. rewrite C. exact (proj1 (IH m Hp)).
    + cbn [run]. split.
      * intros m' K. destruct (exec L G s m) as [m1|]; [|discriminate K]. rewrite (V m1 eq_refl).
        exact (proj1 (proj2 (IH m1 Hp)) m' K).
      * intros N. rewrite (Q N). destruct (exec L (plain G) s m) as [m1|]; [|reflexivity].
        exact (proj2 (proj2 (IH m1 Hp)) N).
Qed.
