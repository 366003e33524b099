(** Proofs about qualifiers, references, enums, signedness and pointers (MetaModel.v against MetaSpec.v). *)
From Verif Require Import Words MetaModel MetaSpec.
Import ListNotations.
Local Open Scope N_scope.

Lemma qual_const c v u t : qual c v u t -> s_is_const t = c.
Proof. induction 1; cbn [s_is_const]; auto. Qed.
Lemma qual_volatile c v u t : qual c v u t -> s_is_volatile t = v.
Proof. induction 1; cbn [s_is_volatile]; auto. Qed.
Lemma qual_set_c x c v u t : qual c v u t -> qual (x && cvable u) v u (s_set_c x t).
Proof. induction 1; cbn [s_set_c cvable]; rewrite ?andb_true_r, ?andb_false_r; try constructor; auto. Qed.
Lemma qual_set_v x c v u t : qual c v u t -> qual c (x && cvable u) u (s_set_v x t).
Proof. induction 1; cbn [s_set_v cvable]; rewrite ?andb_true_r, ?andb_false_r; try constructor; auto. Qed.
Lemma qual_cvable c v u t : qual c v u t -> cvable u = false -> c = false /\ v = false.
Proof. induction 1; cbn [cvable]; intros Q; try discriminate Q; auto. Qed.
Lemma qual_fun c v u t : qual c v u t -> c = (c && cvable u) /\ v = (v && cvable u).
Proof.
  intros H. destruct (cvable u) eqn:E; rewrite ?andb_true_r, ?andb_false_r; [split; reflexivity|].
  exact (qual_cvable _ _ _ _ H E).
Qed.

Lemma qual_not_ref c v u t : qual c v u t -> s_remove_reference t = t.
Proof. intros H; inversion H; reflexivity. Qed.
Lemma qual_add_lref c v u t : qual c v u t -> s_add_lref t = if can_ref u then LRef t else t.
Proof.
  intros H; inversion H; subst; cbn [s_add_lref s_void s_abominable can_ref orb]; try reflexivity.
  - destruct b; reflexivity.
  - destruct q as [[|] [|] [| |]]; reflexivity.
Qed.
Lemma qual_add_rref c v u t : qual c v u t -> s_add_rref t = if can_ref u then RRef t else t.
Proof.
  intros H; inversion H; subst; cbn [s_add_rref s_void s_abominable can_ref orb]; try reflexivity.
  - destruct b; reflexivity.
  - destruct q as [[|] [|] [| |]]; reflexivity.
Qed.

Lemma qual_inj_bare c v u t c' v' u' : qual c v u t -> qual c' v' u' t -> c = c' /\ v = v' /\ u = u'.
Proof.
  intros H. revert c' v' u'. induction H; intros c' v' u' Q; inversion Q; subst; auto.
  match goal with H2 : qual c' v' _ t |- _ => destruct (IHqual _ _ _ H2) as (-> & -> & ->) end. auto.
Qed.
Lemma made_unique r c v u t r' c' v' u' :
  made r c v u t -> made r' c' v' u' t -> r = r' /\ c = c' /\ v = v' /\ u = u'.
Proof.
  intros H Q. inversion H; subst; inversion Q; subst;
    try match goal with H1 : qual _ _ _ ?t, H2 : qual _ _ _ ?t |- _ => destruct (qual_inj_bare _ _ _ _ _ _ _ H1 H2) as (-> & -> & ->) end;
    auto;
    try match goal with H1 : qual _ _ _ (LRef _) |- _ => inversion H1 | H1 : qual _ _ _ (RRef _) |- _ => inversion H1 end.
Qed.
Lemma qual_exists t : no_ref t = true -> exists c v u, qual c v u t.
Proof.
  induction t; cbn [no_ref]; intros H; try discriminate H.
  - exists c, v, (Obj false false b). constructor.
  - exists c, v, (Ptr false false t). constructor.
  - destruct (IHt H) as (c & v & u & Q). exists c, v, (Arr n u). constructor; exact Q.
  - exists false, false, (Fun q cc va ne t ps). constructor.
  - exists c, v, (Mem false false cls q cc va ne t ps). constructor.
Qed.
Lemma qual_can_ref c v u t : qual c v u t -> can_ref t = can_ref u.
Proof. intros H; inversion H; reflexivity. Qed.
Lemma made_exists t : legal t = true -> exists r c v u, made r c v u t.
Proof.
  destruct t; cbn [legal]; intros H;
    try (destruct (qual_exists _ H) as (c' & v' & u & Q); exists RNone, c', v', u; constructor; exact Q).
  - apply andb_true_iff in H as [H1 H2]. destruct (qual_exists _ H1) as (c & v & u & Q). exists RL, c, v, u.
    constructor; [rewrite <- (qual_can_ref _ _ _ _ Q); exact H2 | exact Q].
  - apply andb_true_iff in H as [H1 H2]. destruct (qual_exists _ H1) as (c & v & u & Q). exists RR, c, v, u.
    constructor; [rewrite <- (qual_can_ref _ _ _ _ Q); exact H2 | exact Q].
Qed.

(** Changing what is behind the reference. *)
Lemma made_inner r c v u t : made r c v u t -> qual c v u (s_remove_reference t).
Proof.
  intros H; inversion H; subst; cbn [s_remove_reference]; auto.
  match goal with Q : qual _ _ _ _ |- _ => rewrite (qual_not_ref _ _ _ _ Q); exact Q end.
Qed.
Lemma made_rebase r c v u t c' v' m : made r c v u t -> qual c' v' u m -> made r c' v' u (rebase_ref_ t m).
Proof.
  intros H Q. inversion H as [? ? ? ? Q1 | ? ? ? ? R Q1 | ? ? ? ? R Q1]; subst; cbn [rebase_ref_].
  - inversion Q1; subst; cbn [rebase_ref_]; constructor; exact Q.
  - rewrite (qual_add_lref _ _ _ _ Q), R. constructor; assumption.
  - rewrite (qual_add_rref _ _ _ _ Q), R. constructor; assumption.
Qed.
Lemma made_set_c x r c v u t : made r c v u t -> made r (x && cvable u) v u (set_const t x).
Proof.
  intros H. assert (Q := qual_set_c x _ _ _ _ (made_inner _ _ _ _ _ H)).
  destruct x; exact (made_rebase _ _ _ _ _ _ _ _ H Q).
Qed.
Lemma made_set_v x r c v u t : made r c v u t -> made r c (x && cvable u) u (set_volatile t x).
Proof.
  intros H. assert (Q := qual_set_v x _ _ _ _ (made_inner _ _ _ _ _ H)).
  destruct x; exact (made_rebase _ _ _ _ _ _ _ _ H Q).
Qed.
Lemma made_set_cv x r c v u t : made r c v u t -> made r (x && cvable u) (x && cvable u) u (set_cv t x).
Proof.
  intros H. assert (Q := qual_set_v x _ _ _ _ (qual_set_c x _ _ _ _ (made_inner _ _ _ _ _ H))).
  destruct x; exact (made_rebase _ _ _ _ _ _ _ _ H Q).
Qed.
Lemma made_is_const r c v u t : made r c v u t -> is_const t = c.
Proof. intros H. exact (qual_const _ _ _ _ (made_inner _ _ _ _ _ H)). Qed.
Lemma made_is_volatile r c v u t : made r c v u t -> is_volatile t = v.
Proof. intros H. exact (qual_volatile _ _ _ _ (made_inner _ _ _ _ _ H)). Qed.
Lemma made_copy_cv r c v u t rf cf vf uf f :
  made r c v u t -> made rf cf vf uf f -> made r (cf && cvable u) (vf && cvable u) u (copy_cv t f).
Proof.
  intros H F. unfold copy_cv, copy_const, copy_volatile. rewrite (made_is_const _ _ _ _ _ F), (made_is_volatile _ _ _ _ _ F).
  apply made_set_c with (c := c). apply made_set_v with (v := v). exact H.
Qed.
Lemma made_copy_ref r c v u t rf cf vf uf f :
  made r c v u t -> made rf cf vf uf f -> made (if can_ref u then rf else RNone) c v u (copy_ref t f).
Proof.
  intros H F. assert (Q := made_inner _ _ _ _ _ H). unfold copy_ref.
  inversion F as [? ? ? ? F1 | ? ? ? ? R F1 | ? ? ? ? R F1]; subst.
  - replace (copy_ref_ t f) with (s_remove_reference t) by (inversion F1; reflexivity).
    destruct (can_ref u); constructor; exact Q.
  - cbn [copy_ref_]. rewrite (qual_add_lref _ _ _ _ Q). destruct (can_ref u) eqn:E; constructor; assumption.
  - cbn [copy_ref_]. rewrite (qual_add_rref _ _ _ _ Q). destruct (can_ref u) eqn:E; constructor; assumption.
Qed.
Lemma made_none_inner r c v u t : made r c v u t -> made RNone c v u (s_remove_reference t).
Proof. intros H. constructor. exact (made_inner _ _ _ _ _ H). Qed.
Lemma made_copy_cvref r c v u t rf cf vf uf f :
  made r c v u t -> made rf cf vf uf f ->
  made (if can_ref u then rf else RNone) (cf && cvable u) (vf && cvable u) u (copy_cvref t f).
Proof.
  intros H F. unfold copy_cvref. eapply made_copy_ref; [|exact F].
  exact (made_copy_cv _ _ _ _ _ _ _ _ _ _ (made_none_inner _ _ _ _ _ H) (made_none_inner _ _ _ _ _ F)).
Qed.
Lemma made_remove_cvref r c v u t : made r c v u t -> made RNone false false u (remove_cvref t).
Proof.
  intros H. constructor. unfold remove_cvref, s_remove_cv, s_remove_volatile, s_remove_const.
  exact (qual_set_v false _ _ _ _ (qual_set_c false _ _ _ _ (made_inner _ _ _ _ _ H))).
Qed.
Lemma made_make_cref r c v u t : made r c v u t -> made (if can_ref u then RL else RNone) (cvable u) false u (make_cref t).
Proof.
  intros H. assert (Q := made_remove_cvref _ _ _ _ _ H). inversion Q as [? ? ? ? Q1 | |]; subst.
  apply (qual_set_c true) in Q1. cbn [andb] in Q1. unfold make_cref, s_add_const.
  rewrite (qual_add_lref _ _ _ _ Q1). destruct (can_ref u) eqn:E; constructor; assumption.
Qed.
Lemma made_is_cv r c v u t : made r c v u t -> is_cv t = negb (is_ref r) && (c || v).
Proof.
  intros H. unfold is_cv. inversion H as [? ? ? ? Q | ? ? ? ? R Q | ? ? ? ? R Q]; subst; cbn [is_ref negb andb]; auto.
  rewrite (qual_const _ _ _ _ Q), (qual_volatile _ _ _ _ Q). reflexivity.
Qed.
Lemma made_is_cvref r c v u t : made r c v u t -> is_cvref t = is_ref r || c || v.
Proof.
  intros H. unfold is_cvref. inversion H as [? ? ? ? Q | ? ? ? ? R Q | ? ? ? ? R Q]; subst; cbn [is_ref orb]; auto.
  rewrite (qual_const _ _ _ _ Q), (qual_volatile _ _ _ _ Q). inversion Q; subst; cbn [s_is_reference]; rewrite ?orb_false_r; reflexivity.
Qed.

(* ------------------------------------------------------------------ enums *)

Lemma made_obj r c v b t : made r c v (Obj false false b) t -> rebase_ref_ t (Obj c v b) = t /\ s_remove_reference t = Obj c v b.
Proof.
  intros H; inversion H as [? ? ? ? Q | ? ? ? ? R Q | ? ? ? ? R Q]; subst; inversion Q; subst; cbn [rebase_ref_ s_remove_reference];
    split; try reflexivity; destruct b; try discriminate R; reflexivity.
Qed.
Lemma remove_enum_enum r c v i a t :
  made r c v (Obj false false (OEnum i a)) t -> made r c v (Obj false false (OArith a)) (remove_enum t).
Proof.
  intros H; inversion H as [? ? ? ? Q | ? ? ? ? R Q | ? ? ? ? R Q]; subst; inversion Q; subst; unfold remove_enum, is_enum_type;
    cbn [s_remove_reference remove_enum_obj s_add_lref s_add_rref s_void s_abominable orb]; constructor; constructor || reflexivity.
Qed.
Lemma remove_enum_other r c v u t :
  made r c v u t -> (forall i a, u <> Obj false false (OEnum i a)) -> remove_enum t = t.
Proof.
  intros H Hu. unfold remove_enum, is_enum_type. assert (Q := made_inner _ _ _ _ _ H).
  destruct (s_remove_reference t) as [c' v' b | | | | | |]; try reflexivity.
  destruct b; try reflexivity. inversion Q; subst. exfalso. exact (Hu _ _ eq_refl).
Qed.

(* ------------------------------------------------------------------ signedness *)

Lemma sign_ref_obj f r c v b t :
  made r c v (Obj false false b) t -> f b <> OVoid -> made r c v (Obj false false (f b)) (sign_ref f t).
Proof.
  intros H Hf. assert (C : can_ref (Obj false false (f b)) = true) by (cbn [can_ref]; destruct (f b); auto; congruence).
  assert (C' : forall x y, (if s_void (Obj x y (f b)) || s_abominable (Obj x y (f b)) then false else true) = true)
    by (intros; cbn [s_void s_abominable]; destruct (f b); auto; congruence).
  inversion H as [? ? ? ? Q | ? ? ? ? R Q | ? ? ? ? R Q]; subst; inversion Q; subst; cbn [sign_ref sign_with].
  - constructor. constructor.
  - cbn [s_add_lref]. specialize (C' c v). destruct (_ || _); [discriminate C'|]. constructor; [exact C|constructor].
  - cbn [s_add_rref]. specialize (C' c v). destruct (_ || _); [discriminate C'|]. constructor; [exact C|constructor].
Qed.
Lemma sign_ref_void f r c v u t :
  made r c v u t -> (forall b, u = Obj false false b -> f b = OVoid) -> sign_ref f t = Obj c v OVoid.
Proof.
  intros H Hf. assert (Q := made_inner _ _ _ _ _ H).
  assert (S : sign_with f (s_remove_reference t) = Obj c v OVoid).
  { clear H. inversion Q; subst; cbn [sign_with].
    - rewrite (Hf _ eq_refl). reflexivity.
    - reflexivity.
    - reflexivity.
    - match goal with A : qual c v ?x _, B : qual c v (Arr n ?x) _ |- _ => rewrite (qual_const _ _ _ _ (q_arr _ _ n _ _ A)), (qual_volatile _ _ _ _ (q_arr _ _ n _ _ A)) end.
      reflexivity.
    - reflexivity. }
  inversion H as [? ? ? ? Q1 | ? ? ? ? R Q1 | ? ? ? ? R Q1]; subst; cbn [s_remove_reference] in S.
  - rewrite (qual_not_ref _ _ _ _ Q1) in S. rewrite <- S. inversion Q1; reflexivity.
  - cbn [sign_ref]. rewrite S. reflexivity.
  - cbn [sign_ref]. rewrite S. reflexivity.
Qed.
Lemma arith_of_made r c v a t : made r c v (Obj false false (OArith a)) t -> arith_of t = Some a.
Proof.
  intros H. unfold arith_of. assert (Q := made_remove_cvref _ _ _ _ _ H). inversion Q as [? ? ? ? Q1 | |]; subst.
  inversion Q1; subst. reflexivity.
Qed.
Lemma arith_of_enum r c v i a t : made r c v (Obj false false (OEnum i a)) t -> arith_of t = Some a.
Proof.
  intros H. unfold arith_of. assert (Q := made_remove_cvref _ _ _ _ _ H). inversion Q as [? ? ? ? Q1 | |]; subst.
  inversion Q1; subst. reflexivity.
Qed.

(* ------------------------------------------------------------------ pointers *)

Lemma stars_rank n u t : stars n u t -> pointer_rank t = N.of_nat n.
Proof.
  induction 1 as [u H | n u c v t H IH].
  - destruct u; cbn [pointer_rank]; try reflexivity. exfalso. exact (H _ _ _ eq_refl).
  - cbn [pointer_rank]. rewrite IH. lia.
Qed.
Lemma stars_base n u t : stars n u t -> remove_all_pointers t = u.
Proof.
  induction 1 as [u H | n u c v t H IH].
  - destruct u; cbn [remove_all_pointers]; try reflexivity. exfalso. exact (H _ _ _ eq_refl).
  - cbn [remove_all_pointers]. exact IH.
Qed.
Lemma stars_exists t : exists n u, stars n u t.
Proof.
  induction t; try (eexists O, _; constructor; intros; discriminate).
  destruct IHt as (n & u & H). exists (S n), u. constructor. exact H.
Qed.

Lemma add_pointer_qual c v u t : qual c v u t -> (cvable u = true \/ can_ref u = true) -> s_add_pointer t = Ptr false false t.
Proof.
  intros H C. unfold s_add_pointer. rewrite (qual_not_ref _ _ _ _ H). inversion H; subst; cbn [s_abominable]; try reflexivity.
  destruct C as [C | C]; [discriminate C|]. destruct q as [[|] [|] [| |]]; try discriminate C. reflexivity.
Qed.
Lemma rebase_obj pc pv p c v w cu vu u U :
  qual c v w p -> qual cu vu u U -> (cvable u = true \/ can_ref u = true) ->
  exists p', rebase_pointer_obj (Ptr pc pv p) U = Some (Ptr false false p') /\
    qual (cu || (c && negb (pc || pv) && cvable u)) (vu || (v && negb (pc || pv) && cvable u)) u p'.
Proof.
  intros Hp HU C. destruct (pc || pv) eqn:E; cbn [negb andb]; rewrite ?andb_false_r; cbn [andb]; rewrite ?orb_false_r.
  - exists U. split; [|exact HU]. rewrite <- (add_pointer_qual _ _ _ _ HU C). destruct pc, pv; try discriminate E; reflexivity.
  - apply orb_false_iff in E as [-> ->]. cbn [rebase_pointer_obj]. rewrite (qual_const _ _ _ _ Hp), (qual_volatile _ _ _ _ Hp).
    rewrite ?andb_true_r. destruct (qual_fun _ _ _ _ HU) as [Ec Ev].
    destruct c, v; cbn [andb]; rewrite ?orb_false_r.
    + exists (s_add_const (s_add_volatile U)). assert (Q := qual_set_c true _ _ _ _ (qual_set_v true _ _ _ _ HU)).
      split; [f_equal; exact (add_pointer_qual _ _ _ _ Q C)|].
      cbn [andb] in Q. replace (cu || cvable u) with (cvable u) by (rewrite Ec; destruct cu, (cvable u); reflexivity).
      replace (vu || cvable u) with (cvable u) by (rewrite Ev; destruct vu, (cvable u); reflexivity). exact Q.
    + exists (s_add_const U). assert (Q := qual_set_c true _ _ _ _ HU).
      split; [f_equal; exact (add_pointer_qual _ _ _ _ Q C)|].
      cbn [andb] in Q. replace (cu || cvable u) with (cvable u) by (rewrite Ec; destruct cu, (cvable u); reflexivity). exact Q.
    + exists (s_add_volatile U). assert (Q := qual_set_v true _ _ _ _ HU).
      split; [f_equal; exact (add_pointer_qual _ _ _ _ Q C)|].
      cbn [andb] in Q. replace (vu || cvable u) with (cvable u) by (rewrite Ev; destruct vu, (cvable u); reflexivity). exact Q.
    + exists U. split; [rewrite <- (add_pointer_qual _ _ _ _ HU C); reflexivity | exact HU].
Qed.
Lemma rebase_made r pc pv p c v w cu vu u T U :
  made r pc pv (Ptr false false p) T -> qual c v w p -> qual cu vu u U -> (cvable u = true \/ can_ref u = true) ->
  exists T' p', rebase_pointer T U = Some T' /\ made r false false (Ptr false false p') T' /\
    qual (cu || (c && negb (pc || pv) && cvable u)) (vu || (v && negb (pc || pv) && cvable u)) u p'.
Proof.
  intros H Hp HU C. destruct (rebase_obj pc pv _ _ _ _ _ _ _ _ Hp HU C) as (p' & E & Q).
  inversion H as [? ? ? ? Q1 | ? ? ? ? R Q1 | ? ? ? ? R Q1]; subst; inversion Q1; subst; cbn [rebase_pointer].
  - exists (Ptr false false p'), p'. rewrite E. split; [reflexivity|]. split; [constructor; constructor | exact Q].
  - exists (LRef (Ptr false false p')), p'. rewrite E. split; [reflexivity|]. split; [constructor; [reflexivity|constructor] | exact Q].
  - exists (RRef (Ptr false false p')), p'. rewrite E. split; [reflexivity|]. split; [constructor; [reflexivity|constructor] | exact Q].
Qed.
