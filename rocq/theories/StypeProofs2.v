From Coq Require Import Lia.
From Verif Require Import Words StypeModel StypeSpec StypeProofs.
Import ListNotations.
Local Open Scope Z_scope.

(* ------------------------------------------------------- which sums compile *)

Lemma convertible_refl s : convertible s s = true.
Proof. unfold convertible. rewrite sty_eqb_refl. reflexivity. Qed.

Lemma narrowing_refl s : narrowing s s = false.
Proof. unfold narrowing. rewrite sty_eqb_refl. reflexivity. Qed.

Lemma braces_same L t : ref t <> LRef -> braces L t (base t) = true.
Proof.
  intros R. unfold braces. rewrite convertible_refl, narrowing_refl, andb_false_r. destruct (ref t); try reflexivity. congruence.
Qed.

Lemma braces_lref L t s : ref t = LRef -> braces L t s = false.
Proof. intros R. unfold braces. rewrite R. cbn [refk_eqb negb]. apply andb_false_r. Qed.

Lemma closed_ty L o s : closed_arith L o s -> arith_ty L o s s = Some s.
Proof.
  intros H. destruct s as [|sg w|i sc sg w|i c|i]; cbn [closed_arith] in H; try (exfalso; exact H).
  - cbn [arith_ty promote]. rewrite common_same. unfold promote_int. destruct (Z.ltb_spec w 32); [lia | reflexivity].
  - cbn [arith_ty]. rewrite PeanoNat.Nat.eqb_refl. destruct (c_arith (classes L i) o); [reflexivity | congruence].
Qed.

Lemma closed_ty_inv L o s : arith_ty L o s s = Some s -> closed_arith L o s.
Proof.
  intros H. destruct s as [|sg w|i sc sg w|i c|i]; cbn [closed_arith].
  - discriminate H.
  - cbn [arith_ty promote] in H. rewrite common_same in H. unfold promote_int in H.
    destruct (Z.ltb_spec w 32) as [K|K]; [|exact K]. injection H as _ H. lia.
  - cbn [arith_ty promote] in H. destruct sc; [discriminate H|]. rewrite common_same in H. destruct (promote_int sg w). discriminate H.
  - cbn [arith_ty] in H. destruct o; [discriminate H|]. destruct (Nat.eqb i i && c); discriminate H.
  - cbn [arith_ty] in H. rewrite PeanoNat.Nat.eqb_refl in H. destruct (c_arith (classes L i) o); [discriminate | discriminate H].
Qed.

Lemma trait_of_ok o t : trait_of o t = true <-> grants t o.
Proof. split; [destruct o; constructor; assumption | intros [H | H]; exact H]. Qed.
Lemma step_trait_ok d t : step_trait d t = true <-> counts t d.
Proof. split; [destruct d; constructor; assumption | intros [H | H]; exact H]. Qed.

Lemma arith_strict_iff L o t : strict L = true ->
  s_arith_ty L o t <> None <-> trait_of o (tr t) = true /\ ref t <> LRef /\ closed_arith L o (base t).
Proof.
  intros S. unfold s_arith_ty. split.
  - intros H. destruct (trait_of o (tr t)); [|congruence]. split; [reflexivity|].
    destruct (arith_ty L o (base t) (base t)) as [s|] eqn:A; [|congruence]. destruct (braces L t s) eqn:B; [|congruence].
    split.
    + intros R. rewrite (braces_lref L t s R) in B. discriminate B.
    + pose proof (arith_closed L o t s S A B) as ->. exact (closed_ty_inv L o _ A).
  - intros [-> [R C]]. rewrite (closed_ty L o _ C), (braces_same L t R). discriminate.
Qed.

Lemma arith_lenient_iff L o t : strict L = false ->
  s_arith_ty L o t <> None <->
  trait_of o (tr t) = true /\ ref t <> LRef /\
  (closed_arith L o (base t) \/ base t = SBool \/ exists sg w, base t = SInt sg w).
Proof.
  intros S. unfold s_arith_ty. split.
  - intros H. destruct (trait_of o (tr t)); [|congruence]. split; [reflexivity|].
    destruct (arith_ty L o (base t) (base t)) as [s|] eqn:A; [|congruence]. destruct (braces L t s) eqn:B; [|congruence].
    split.
    + intros R. rewrite (braces_lref L t s R) in B. discriminate B.
    + unfold braces in B. rewrite !andb_true_iff in B. destruct B as [[B _] _].
      destruct (base t) as [|sg w|i sc sg w|i c|i].
      * right. left. reflexivity.
      * right. right. exists sg, w. reflexivity.
      * cbn [arith_ty promote] in A. destruct sc; [discriminate A|]. rewrite common_same in A.
        destruct (promote_int sg w). injection A as <-. discriminate B.
      * cbn [arith_ty] in A. destruct o; [discriminate A|]. destruct (Nat.eqb i i && c); [|discriminate A]. injection A as <-.
        discriminate B.
      * left. cbn [arith_ty] in A. rewrite PeanoNat.Nat.eqb_refl in A. cbn [closed_arith].
        destruct (c_arith (classes L i) o); [discriminate | discriminate A].
  - intros [-> [R C]]. destruct C as [C|[C|[sg [w C]]]].
    + rewrite (closed_ty L o _ C), (braces_same L t R). discriminate.
    + rewrite C. cbn [arith_ty promote]. cbn [common Bool.eqb]. unfold braces. rewrite S, C.
      cbn [convertible sty_eqb range orb andb negb]. destruct (ref t); try discriminate. congruence.
    + rewrite C. cbn [arith_ty promote]. rewrite common_same. destruct (promote_int sg w) as [s v]. unfold braces. rewrite S, C.
      unfold convertible. cbn [sty_eqb range]. rewrite orb_true_r. cbn [andb negb]. destruct (ref t); try discriminate. congruence.
Qed.

(** The value then: that of the plain operator, brought back into the value type. *)
Lemma arith_lenient_val L o t x y v :
  ref t = ByValue -> s_arith_val L o t x y = Some v ->
  exists s z, arith_ty L o (base t) (base t) = Some s /\ arith_val L o (base t) (base t) x y = Some z /\
              v = (if sty_eqb s (base t) then z else convert (base t) z).
Proof.
  intros R H. unfold s_arith_val in H. destruct (arith_ty L o (base t) (base t)) as [s|]; [|discriminate H].
  destruct (arith_val L o (base t) (base t) x y) as [z|]; [|discriminate H].
  unfold made_same in H. rewrite R in H. injection H as <-. exists s, z. split; [reflexivity|]. split; reflexivity.
Qed.

(* ------------------------------------------------------- no mixing *)

Lemma un_check_strong L o a t c : un_check L o a = Some (Strong t c) -> exists c', a = Strong t c'.
Proof.
  destruct a as [s|u k]; cbn [un_check]; intros H.
  - destruct (un_ty L o s); discriminate H.
  - exists k. f_equal. destruct o.
    + unfold s_sign_ty in H. destruct (t_add (tr u)); [|discriminate H]. destruct (un_ty L Pos (base u)); [|discriminate H].
      destruct (braces L u s); congruence.
    + unfold s_sign_ty in H. destruct (t_sub (tr u)); [|discriminate H]. destruct (un_ty L Neg (base u)); [|discriminate H].
      destruct (braces L u s); congruence.
    + unfold s_not_ty in H. destruct (t_bool (tr u) && _); [discriminate H|]. apply tobool_plain in H. destruct H. discriminate.
    + apply tobool_plain in H. destruct H. discriminate.
Qed.

Lemma arith_check_strong L o a b t c :
  arith_check L o a b = Some (Strong t c) -> (exists c', a = Strong t c') /\ (exists c', b = Strong t c').
Proof.
  destruct a as [s|u k], b as [s'|u' k']; cbn [arith_check]; intros H.
  - destruct (arith_ty L o s s'); discriminate H.
  - unfold s_ptr_left_ty in H. destruct s; try discriminate H. destruct (t_pointer (tr u') && _); [|discriminate H].
    destruct (arith_ty L o _ (base u')); discriminate H.
  - unfold s_ptr_right_ty in H. destruct s'; try discriminate H. destruct o; try discriminate H.
    destruct (t_pointer (tr u) && _); [|discriminate H]. destruct (arith_ty L Add (base u) _); discriminate H.
  - destruct (stype_eqb u u') eqn:E; [|discriminate H]. apply stype_eqb_spec in E. subst u'. unfold s_arith_ty in H.
    destruct (trait_of o (tr u)); [|discriminate H]. destruct (arith_ty L o (base u) (base u)); [|discriminate H].
    destruct (braces L u s); [|discriminate H]. injection H as <- _. split; [exists k | exists k']; reflexivity.
Qed.

Lemma cmp_check_raw L o a b r : cmp_check L o a b = Some r -> exists s, r = Raw s.
Proof.
  destruct a as [s|u k], b as [s'|u' k']; cbn [cmp_check]; intros H; try discriminate H.
  - destruct (cmp_ty L o s s') as [x|]; [|discriminate H]. exists x. congruence.
  - destruct (stype_eqb u u'); [|discriminate H]. unfold s_cmp_ty in H. destruct (t_cmp (tr u) && _); [|discriminate H].
    exists SBool. congruence.
Qed.

Lemma origin L G e t c : check L G e = Some (Strong t c) -> vars e <> [] /\ forall x, In x (vars e) -> strong_var G t x.
Proof.
  revert c. induction e as [x|s v|o e IH|o a IHa b IHb|o a IHa b IHb]; intros c H; cbn [check vars] in *.
  - split; [discriminate|]. intros y [<-|[]]. destruct (nth_error G x) as [d|] eqn:E; [|discriminate H]. exists d.
    split; [exact E|]. destruct (v_ty d); congruence.
  - discriminate H.
  - destruct (check L G e) as [u|] eqn:E; [|discriminate H]. destruct (un_check_strong L o u t c H) as [c' ->].
    exact (IH c' eq_refl).
  - destruct (check L G a) as [u|] eqn:E; [|discriminate H]. destruct (check L G b) as [u'|] eqn:E'; [|discriminate H].
    destruct (arith_check_strong L o u u' t c H) as [[c1 ->] [c2 ->]].
    destruct (IHa c1 eq_refl) as [Na Va]. destruct (IHb c2 eq_refl) as [_ Vb]. split.
    + destruct (vars a); [congruence | discriminate].
    + intros x K. apply in_app_or in K. destruct K as [K|K]; [exact (Va x K) | exact (Vb x K)].
  - destruct (check L G a) as [u|]; [|discriminate H]. destruct (check L G b) as [u'|]; [|discriminate H].
    destruct (cmp_check_raw L o u u' _ H) as [s K]. discriminate K.
Qed.

Lemma eval_agree L G m m' e :
  (forall x d, In x (vars e) -> nth_error G x = Some d -> m (v_loc d) = m' (v_loc d)) -> eval L G m e = eval L G m' e.
Proof.
  induction e as [x|s v|o e IH|o a IHa b IHb|o a IHa b IHb]; intros H; cbn [eval vars] in *.
  - destruct (nth_error G x) as [d|] eqn:E; [|reflexivity]. rewrite (H x d (or_introl eq_refl) E). reflexivity.
  - reflexivity.
  - rewrite (IH H). reflexivity.
  - rewrite IHa, IHb; [reflexivity | |]; intros x d K; apply H, in_or_app; [right | left]; exact K.
  - rewrite IHa, IHb; [reflexivity | |]; intros x d K; apply H, in_or_app; [right | left]; exact K.
Qed.

Lemma upd_same G t m m' l x : same_for G t m m' -> same_for G t (upd m l x) (upd m' l x).
Proof.
  intros H y d E V. unfold upd. destruct (Nat.eqb (v_loc d) l); [reflexivity|]. exact (H y d E V).
Qed.

Lemma upd_other G t m m' l x x' :
  same_for G t m m' -> (forall y d, nth_error G y = Some d -> v_ty d = inr t -> v_loc d <> l) ->
  same_for G t (upd m l x) (upd m' l x').
Proof.
  intros H N y d E V. unfold upd. destruct (PeanoNat.Nat.eqb_spec (v_loc d) l) as [K|K].
  - exfalso. exact (N y d E V K).
  - exact (H y d E V).
Qed.

Lemma other_var G t v x : unshared G t -> nth_error G x = Some v -> v_ty v <> inr t ->
  forall y d, nth_error G y = Some d -> v_ty d = inr t -> v_loc d <> v_loc v.
Proof. intros U E N y d Ed V. exact (U y x d v Ed E V N). Qed.

Lemma v_ty_dec (v : vdecl) t : v_ty v = inr t \/ v_ty v <> inr t.
Proof.
  destruct (v_ty v) as [s|u]; [right; discriminate|]. destruct (stype_eqb u t) eqn:E.
  - left. apply stype_eqb_spec in E. congruence.
  - right. intros K. injection K as ->. rewrite (proj2 (stype_eqb_spec t t) eq_refl) in E. discriminate E.
Qed.

Lemma exec_isolated L G t s m m' n n' :
  unshared G t -> check_stmt L G s = true -> same_for G t m m' -> exec L G s m = Some n -> exec L G s m' = Some n' ->
  same_for G t n n'.
Proof.
  intros U C H E E'. destruct s as [d x|d y x|y e]; cbn [check_stmt exec] in *.
  - destruct (nth_error G x) as [v|] eqn:Ex; [|discriminate E].
    destruct (pre_val L d (v_base v) (m (v_loc v))) as [z|] eqn:P; [|discriminate E].
    destruct (pre_val L d (v_base v) (m' (v_loc v))) as [z'|] eqn:P'; [|discriminate E'].
    injection E as <-. injection E' as <-. destruct (v_ty_dec v t) as [V|V].
    + rewrite (H x v Ex V) in P. assert (z = z') as <- by congruence. apply upd_same, H.
    + apply upd_other; [exact H | exact (other_var G t v x U Ex V)].
  - destruct (nth_error G y) as [u|] eqn:Ey; [|discriminate E]. destruct (nth_error G x) as [v|] eqn:Ex; [|discriminate E].
    destruct (post_val L d (v_base v) (m (v_loc v))) as [[z old]|] eqn:P; [|discriminate E].
    destruct (post_val L d (v_base v) (m' (v_loc v))) as [[z' old']|] eqn:P'; [|discriminate E'].
    destruct (match v_ty v with inl _ => Some old | inr t => made_same t (base t) old end) as [r|] eqn:M; [|discriminate E].
    destruct (match v_ty v with inl _ => Some old' | inr t => made_same t (base t) old' end) as [r'|] eqn:M'; [|discriminate E'].
    injection E as <-. injection E' as <-.
    assert (T : v_ty u = inr t -> v_ty v = inr t).
    { intros V. apply andb_true_iff in C. destruct C as [_ C]. destruct (v_ty v) as [s|w]; apply andb_true_iff in C; destruct C as [_ C];
        unfold set_ok in C; rewrite V in C; apply andb_true_iff in C; destruct C as [_ C]; [discriminate C|].
      apply andb_true_iff in C. destruct C as [C _]. apply stype_eqb_spec in C. congruence. }
    destruct (v_ty_dec v t) as [V|V].
    + rewrite (H x v Ex V) in P. assert (z = z') as <- by congruence. assert (old = old') as <- by congruence.
      assert (r = r') as <- by congruence. apply upd_same, upd_same, H.
    + assert (W : v_ty u <> inr t) by (intros W; exact (V (T W))).
      apply upd_other; [|exact (other_var G t u y U Ey W)]. apply upd_other; [exact H | exact (other_var G t v x U Ex V)].
  - destruct (nth_error G y) as [u|] eqn:Ey; [|discriminate E]. destruct (check L G e) as [a|] eqn:Ce; [|discriminate C].
    destruct (eval L G m e) as [z|] eqn:V1; [|discriminate E]. destruct (eval L G m' e) as [z'|] eqn:V2; [|discriminate E'].
    injection E as <-. injection E' as <-. destruct (v_ty_dec u t) as [V|V].
    + assert (K : exists c, a = Strong t c).
      { unfold set_ok in C. rewrite V in C. apply andb_true_iff in C. destruct C as [_ C]. destruct a as [s|w c]; [discriminate C|].
        apply andb_true_iff in C. destruct C as [C _]. apply stype_eqb_spec in C. subst w. exists c. reflexivity. }
      destruct K as [c ->]. destruct (origin L G e t c Ce) as [_ O].
      rewrite (eval_agree L G m m' e) in V1.
      * assert (z = z') as <- by congruence. apply upd_same, H.
      * intros x d I Ex. destruct (O x I) as [d' [Ed Vd]]. assert (d' = d) as -> by congruence. exact (H x d Ex Vd).
    + apply upd_other; [exact H | exact (other_var G t u y U Ey V)].
Qed.

Lemma run_isolated L G t p m m' n n' :
  unshared G t -> check_prog L G p = true -> same_for G t m m' -> run L G p m = Some n -> run L G p m' = Some n' ->
  same_for G t n n'.
Proof.
  intros U. revert m m'. induction p as [|s p IH]; intros m m' C H E E'.
  - cbn in E, E'. injection E as <-. injection E' as <-. exact H.
  - cbn [check_prog forallb] in C. apply andb_true_iff in C. destruct C as [Cs Cp]. cbn [run] in E, E'.
    destruct (exec L G s m) as [m1|] eqn:X; [|discriminate E]. destruct (exec L G s m') as [m1'|] eqn:X'; [|discriminate E'].
    exact (IH m1 m1' Cp (exec_isolated L G t s m m' m1 m1' U Cs H X X') E E').
Qed.
