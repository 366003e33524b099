(** Theorems about the type functions of meta.h: C128 qualifiers and references, C129 enums, signedness and pointers, C130 picking a
    type from a list, C131 function types and arity, C132 how parameters are passed. *)
From Coq Require Import Permutation.
From Verif Require Import Words MetaModel MetaSpec MetaProofs MetaProofs2.
Import ListNotations.
Local Open Scope N_scope.

(** A platform for the examples: Linux, with one class whose call operator takes an int and a char and one that turns into a function. *)
Definition t_int : ty := Obj false false (OArith TInt).
Definition t_char : ty := Obj false false (OArith TChar).
Definition t_void : ty := Obj false false OVoid.
Definition lnx : plat :=
  {| p_wsigned := true; p_long64 := true; p_ccs := [0]; p_mccs := [0];
     p_call := fun k => if k =? 1 then Some (Mem false false 1 {| fq_c := true; fq_v := false; fq_r := RNone |} 0 false true t_void [t_int; t_char]) else None;
     p_plus := fun k => if k =? 2 then Some (Ptr false false (Fun plainq 0 false false t_void [t_int])) else None |}.
Example lnx_ok : plat_ok lnx.
Proof.
  split; [left; reflexivity|]. split; [left; reflexivity|]. split; intros k t; cbn.
  - destruct (k =? 1); intros [= <-]. repeat eexists.
  - destruct (k =? 2); intros [= <-]. repeat eexists.
Qed.

(* ------------------------------------------------------------------ C128 *)

(** Every type is a bare type, qualified, and perhaps behind a reference, in one way only; so the theorems below say all there is to say. *)
Theorem C128_anatomy : forall t, legal t = true ->
  exists r c v u, made r c v u t /\
    (forall r' c' v' u', made r' c' v' u' t -> r' = r /\ c' = c /\ v' = v /\ u' = u) /\
    (forall t', made r c v u t' -> t' = t).
Proof.
  intros t H. destruct (made_exists t H) as (r & c & v & u & M). exists r, c, v, u. split; [exact M|]. split.
  - intros r' c' v' u' M'. exact (made_unique _ _ _ _ _ _ _ _ _ M' M).
  - intros t' M'. exact (made_det _ _ _ _ _ _ M' M).
Qed.
Print Assumptions C128_anatomy.

(** Adding or removing one qualifier changes that one, also behind a reference, and nothing else. Function types cannot be qualified. *)
Theorem C128_set : forall r c v u t, made r c v u t -> forall x,
  made r (x && cvable u) v u (set_const t x) /\ made r c (x && cvable u) u (set_volatile t x) /\
  made r (x && cvable u) (x && cvable u) u (set_cv t x) /\
  set_const t true = add_const t /\ set_const t false = remove_const t /\
  set_volatile t true = add_volatile t /\ set_volatile t false = remove_volatile t /\
  set_cv t true = add_cv t /\ set_cv t false = remove_cv t /\
  conditionally_add_const t x = (if x then add_const t else t) /\
  conditionally_add_volatile t x = (if x then add_volatile t else t) /\
  conditionally_add_cv t x = (if x then add_cv t else t).
Proof.
  intros r c v u t H x. split; [exact (made_set_c x _ _ _ _ _ H)|]. split; [exact (made_set_v x _ _ _ _ _ H)|].
  split; [exact (made_set_cv x _ _ _ _ _ H)|]. repeat split.
Qed.
Print Assumptions C128_set.

Theorem C128_ask : forall r c v u t, made r c v u t ->
  is_const t = c /\ is_volatile t = v /\ is_cv t = negb (is_ref r) && (c || v) /\ is_cvref t = is_ref r || c || v.
Proof.
  intros r c v u t H. split; [exact (made_is_const _ _ _ _ _ H)|]. split; [exact (made_is_volatile _ _ _ _ _ H)|].
  split; [exact (made_is_cv _ _ _ _ _ H) | exact (made_is_cvref _ _ _ _ _ H)].
Qed.
Print Assumptions C128_ask.

(** Copying takes exactly the named parts from the second type; void and qualified function types cannot be referred to. *)
Theorem C128_copy : forall r c v u t rf cf vf uf f, made r c v u t -> made rf cf vf uf f ->
  made r (cf && cvable u) v u (copy_const t f) /\
  made r c (vf && cvable u) u (copy_volatile t f) /\
  made r (cf && cvable u) (vf && cvable u) u (copy_cv t f) /\
  made (if can_ref u then rf else RNone) c v u (copy_ref t f) /\
  made (if can_ref u then rf else RNone) (cf && cvable u) (vf && cvable u) u (copy_cvref t f).
Proof.
  intros r c v u t rf cf vf uf f H F. unfold copy_const, copy_volatile.
  rewrite (made_is_const _ _ _ _ _ F), (made_is_volatile _ _ _ _ _ F).
  split; [exact (made_set_c cf _ _ _ _ _ H)|]. split; [exact (made_set_v vf _ _ _ _ _ H)|].
  split; [exact (made_copy_cv _ _ _ _ _ _ _ _ _ _ H F)|]. split; [exact (made_copy_ref _ _ _ _ _ _ _ _ _ _ H F)|].
  exact (made_copy_cvref _ _ _ _ _ _ _ _ _ _ H F).
Qed.
Print Assumptions C128_copy.

Theorem C128_strip : forall r c v u t, made r c v u t ->
  remove_cvref t = u /\ copy_cvref u t = t /\
  made (if can_ref u then RL else RNone) (cvable u) false u (make_cref t) /\
  made (match r with RL => RNone | _ => r end) c v u (remove_lvalue_reference t) /\
  made (match r with RR => RNone | _ => r end) c v u (remove_rvalue_reference t).
Proof.
  intros r c v u t H. split; [exact (proj2 (copy_back _ _ _ _ _ H))|]. split; [exact (proj1 (copy_back _ _ _ _ _ H))|].
  split; [exact (made_make_cref _ _ _ _ _ H)|].
  inversion H as [? ? ? ? Q | ? ? ? ? R Q | ? ? ? ? R Q]; subst; cbn [remove_lvalue_reference remove_rvalue_reference].
  - destruct Q; split; exact H.
  - split; [constructor; exact Q | exact H].
  - split; [exact H | constructor; exact Q].
Qed.
Print Assumptions C128_strip.

(** Documented: [any_cv] and [all_cv] are true for references to qualified types too. They are not; every other trait of the family looks
    behind references. *)
Theorem C128_any_cv_refuted :
  (exists t, made RL true false t_int t /\ is_const t = true /\ is_cv t = false /\ any_cv [t] = false /\ all_cv [t] = false) /\
  (forall l, (forall t, In t l -> exists r c v u, made r c v u t /\ is_ref r = true) -> any_cv l = false).
Proof.
  split.
  - exists (LRef (Obj true false (OArith TInt))). split; [constructor; [reflexivity | constructor] | repeat split].
  - intros l H. unfold any_cv. destruct (existsb is_cv l) eqn:E; [|reflexivity]. apply existsb_exists in E as (t & Ht & E).
    destruct (H t Ht) as (r & c & v & u & M & R). rewrite (made_is_cv _ _ _ _ _ M), R in E. discriminate E.
Qed.
Print Assumptions C128_any_cv_refuted.

Example C128_example :
  let t := LRef (Arr (Some 3) (Obj true false (OEnum 4 TUInt))) in
  let f := RRef (Obj false true (OClass 2)) in
  legal t = true /\ made RL true false (Arr (Some 3) (Obj false false (OEnum 4 TUInt))) t /\
  made RR false true (Obj false false (OClass 2)) f /\
  copy_cvref t f = RRef (Arr (Some 3) (Obj false true (OEnum 4 TUInt))) /\
  copy_cvref t_void f = Obj false true OVoid.
Proof. cbn. repeat split; repeat constructor. Qed.

(* ------------------------------------------------------------------ C129 *)

Theorem C129_remove_enum : forall r c v u t, made r c v u t ->
  (forall i a, u = Obj false false (OEnum i a) -> made r c v (Obj false false (OArith a)) (remove_enum t)) /\
  ((forall i a, u <> Obj false false (OEnum i a)) -> remove_enum t = t) /\
  remove_enum (remove_enum t) = remove_enum t.
Proof.
  intros r c v u t H. split; [intros i a ->; exact (remove_enum_enum _ _ _ _ _ _ H)|].
  split; [exact (remove_enum_other _ _ _ _ _ H)|].
  destruct u as [c0 v0 b | | | | | |]; try (rewrite !(remove_enum_other _ _ _ _ _ H) by (intros; discriminate); reflexivity).
  assert (Q := made_inner _ _ _ _ _ H). inversion Q; subst.
  destruct b; try (rewrite !(remove_enum_other _ _ _ _ _ H) by (intros; discriminate); reflexivity).
  assert (M := remove_enum_enum _ _ _ _ _ _ H). exact (remove_enum_other _ _ _ _ _ M (fun _ _ E => ltac:(discriminate E))).
Qed.
Print Assumptions C129_remove_enum.

(** The signed equivalent of an integer has the same number of bits and holds negative numbers; floating-point types are their own. All
    keep qualifiers and reference. What has no equivalent becomes void, with its qualifiers and without its reference. *)
Theorem C129_make_signed : forall P r c v u t, made r c v u t ->
  (forall a s b, u = Obj false false (OArith a) -> int_info P a = Some (s, b) -> unicode a = false ->
     exists a', made r c v (Obj false false (OArith a')) (make_signed P t) /\ int_info P a' = Some (true, b) /\
       make_signed P (make_signed P t) = make_signed P t) /\
  (forall a, u = Obj false false (OArith a) -> floating a = true -> make_signed P t = t) /\
  ((forall a, u = Obj false false (OArith a) -> a = TBool \/ unicode a = true) ->
   (forall s n, u <> Obj false false (OVec s n)) -> (forall s n m, u <> Obj false false (OMat s n m)) ->
   (forall s, u <> Obj false false (OQuat s)) -> make_signed P t = Obj c v OVoid).
Proof.
  intros P r c v u t H. split; [|split].
  - intros a s b -> I U.
    assert (X : exists a', sgn_obj P (OArith a) = OArith a' /\ int_info P a' = Some (true, b) /\ sgn_obj P (OArith a') = OArith a').
    { destruct a; cbn [int_info sgn_obj sgn_scalar arith_or_void unicode] in *; try discriminate I; try discriminate U;
        try (eexists; split; [reflexivity|]; split; [cbn [int_info]; congruence | reflexivity]).
      destruct (p_wsigned P) eqn:W; injection I as <- <-; eexists; (split; [reflexivity|]); cbn [int_info sgn_obj sgn_scalar]; rewrite ?W;
        split; reflexivity. }
    destruct X as (a' & E & I' & E'). exists a'.
    assert (M := sign_ref_obj (sgn_obj P) _ _ _ _ _ H). rewrite E in M. specialize (M ltac:(discriminate)).
    split; [exact M|]. split; [exact I'|].
    assert (M' := sign_ref_obj (sgn_obj P) _ _ _ _ _ M). rewrite E' in M'. specialize (M' ltac:(discriminate)).
    exact (made_det _ _ _ _ _ _ M' M).
  - intros a -> F. assert (E : sgn_obj P (OArith a) = OArith a) by (destruct a; try discriminate F; reflexivity).
    assert (M := sign_ref_obj (sgn_obj P) _ _ _ _ _ H). rewrite E in M. specialize (M ltac:(discriminate)).
    exact (made_det _ _ _ _ _ _ M H).
  - intros HA HV HM HQ. apply (sign_ref_void _ _ _ _ _ _ H). intros b ->. destruct b; cbn [sgn_obj]; try reflexivity.
    + destruct (HA a eq_refl) as [-> | U]; [reflexivity|]. destruct a; try discriminate U; reflexivity.
    + exfalso. exact (HV _ _ eq_refl).
    + exfalso. exact (HM _ _ _ eq_refl).
    + exfalso. exact (HQ _ eq_refl).
Qed.
Print Assumptions C129_make_signed.

Theorem C129_make_unsigned : forall P r c v u t, made r c v u t ->
  (forall a s b, u = Obj false false (OArith a) -> int_info P a = Some (s, b) ->
     exists a', made r c v (Obj false false (OArith a')) (make_unsigned P t) /\ int_info P a' = Some (false, b) /\
       make_unsigned P (make_unsigned P t) = make_unsigned P t) /\
  ((forall a, u = Obj false false (OArith a) -> a = TBool \/ floating a = true) ->
   (forall s n, u <> Obj false false (OVec s n)) -> (forall s n m, u <> Obj false false (OMat s n m)) ->
   make_unsigned P t = Obj c v OVoid).
Proof.
  intros P r c v u t H. split.
  - intros a s b -> I.
    assert (X : exists a', uns_obj P (OArith a) = OArith a' /\ int_info P a' = Some (false, b) /\ uns_obj P (OArith a') = OArith a').
    { destruct a; cbn [int_info uns_obj uns_scalar arith_or_void] in *; try discriminate I;
        try (eexists; split; [reflexivity|]; split; [cbn [int_info]; congruence | reflexivity]).
      destruct (p_wsigned P) eqn:W; injection I as <- <-; eexists; (split; [reflexivity|]); cbn [int_info uns_obj uns_scalar]; rewrite ?W;
        split; reflexivity. }
    destruct X as (a' & E & I' & E'). exists a'.
    assert (M := sign_ref_obj (uns_obj P) _ _ _ _ _ H). rewrite E in M. specialize (M ltac:(discriminate)).
    split; [exact M|]. split; [exact I'|].
    assert (M' := sign_ref_obj (uns_obj P) _ _ _ _ _ M). rewrite E' in M'. specialize (M' ltac:(discriminate)).
    exact (made_det _ _ _ _ _ _ M' M).
  - intros HA HV HM. apply (sign_ref_void _ _ _ _ _ _ H). intros b ->. destruct b; cbn [uns_obj]; try reflexivity.
    + destruct (HA a eq_refl) as [-> | U]; [reflexivity|]. destruct a; try discriminate U; reflexivity.
    + exfalso. exact (HV _ _ eq_refl).
    + exfalso. exact (HM _ _ _ eq_refl).
Qed.
Print Assumptions C129_make_unsigned.

(** Vectors and matrices follow their scalars. *)
Theorem C129_vectors : forall P r c v t s n m a,
  (made r c v (Obj false false (OVec (Some s) n)) t -> sgn_scalar P s = Some a -> made r c v (Obj false false (OVec (Some a) n)) (make_signed P t)) /\
  (made r c v (Obj false false (OVec (Some s) n)) t -> uns_scalar P s = Some a -> made r c v (Obj false false (OVec (Some a) n)) (make_unsigned P t)) /\
  (made r c v (Obj false false (OMat (Some s) n m)) t -> sgn_scalar P s = Some a -> made r c v (Obj false false (OMat (Some a) n m)) (make_signed P t)) /\
  (made r c v (Obj false false (OMat (Some s) n m)) t -> uns_scalar P s = Some a -> made r c v (Obj false false (OMat (Some a) n m)) (make_unsigned P t)) /\
  (made r c v (Obj false false (OQuat s)) t -> make_signed P t = t /\ make_unsigned P t = Obj c v OVoid).
Proof.
  intros P r c v t s n m a. split; [|split; [|split; [|split]]]; intros H; try intros E.
  - assert (M := sign_ref_obj (sgn_obj P) _ _ _ _ _ H ltac:(discriminate)). cbn [sgn_obj bind_scalar] in M. rewrite E in M. exact M.
  - assert (M := sign_ref_obj (uns_obj P) _ _ _ _ _ H ltac:(discriminate)). cbn [uns_obj bind_scalar] in M. rewrite E in M. exact M.
  - assert (M := sign_ref_obj (sgn_obj P) _ _ _ _ _ H ltac:(discriminate)). cbn [sgn_obj bind_scalar] in M. rewrite E in M. exact M.
  - assert (M := sign_ref_obj (uns_obj P) _ _ _ _ _ H ltac:(discriminate)). cbn [uns_obj bind_scalar] in M. rewrite E in M. exact M.
  - split.
    + exact (made_det _ _ _ _ _ _ (sign_ref_obj (sgn_obj P) _ _ _ _ _ H ltac:(discriminate)) H).
    + apply (sign_ref_void _ _ _ _ _ _ H). intros b [= <-]. reflexivity.
Qed.
Print Assumptions C129_vectors.

(** [is_signed] and [is_unsigned] see integers, and enums through their integers, as they are; [copy_signed] and [copy_unsigned] give one
    integer type the sign of another. *)
Theorem C129_copy_signed : forall P r c v a s b t, made r c v (Obj false false (OArith a)) t -> int_info P a = Some (s, b) ->
  is_signed P t = s /\ is_unsigned P t = negb s /\
  forall rf cf vf f af sf bf,
    made rf cf vf (Obj false false (OArith af)) f \/ (exists i, made rf cf vf (Obj false false (OEnum i af)) f) ->
    int_info P af = Some (sf, bf) -> unicode a = false ->
    exists a', int_info P a' = Some (sf, b) /\ made r c v (Obj false false (OArith a')) (copy_signed P t f) /\
      made r c v (Obj false false (OArith a')) (copy_unsigned P t f).
Proof.
  intros P r c v a s b t H I.
  assert (G : forall a s b, int_info P a = Some (s, b) -> a_signed P a = s /\ a_unsigned P a = negb s).
  { intros x sx bx Ix. destruct x; cbn [int_info a_signed a_unsigned] in *; try discriminate Ix; try (injection Ix as <- <-; split; reflexivity).
    destruct (p_wsigned P); injection Ix as <- <-; split; reflexivity. }
  split; [unfold is_signed; rewrite (arith_of_made _ _ _ _ _ H); exact (proj1 (G _ _ _ I))|].
  split; [unfold is_unsigned; rewrite (arith_of_made _ _ _ _ _ H); exact (proj2 (G _ _ _ I))|].
  intros rf cf vf f af sf bf F If U.
  assert (A : arith_of f = Some af) by (destruct F as [F | (i & F)]; [exact (arith_of_made _ _ _ _ _ F) | exact (arith_of_enum _ _ _ _ _ _ F)]).
  unfold copy_signed, copy_unsigned, set_signed, set_unsigned, is_signed, is_unsigned. rewrite A.
  destruct (G _ _ _ If) as [-> ->]. destruct sf; cbn [negb].
  - destruct (proj1 (C129_make_signed P _ _ _ _ _ H) a s b eq_refl I U) as (a' & M & I' & _). exists a'. auto.
  - destruct (proj1 (C129_make_unsigned P _ _ _ _ _ H) a s b eq_refl I) as (a' & M & I' & _). exists a'. auto.
Qed.
Print Assumptions C129_copy_signed.

(** Documented: a numeric type becomes the signed equivalent with the same rank, and the reference category is kept. The Unicode
    character types, which have unsigned equivalents, become void here, and a reference to one is no reference any more. *)
Theorem C129_unicode_refuted : forall P a, unicode a = true ->
  exists s b, int_info P a = Some (s, b) /\ make_signed P (LRef (Obj true false (OArith a))) = Obj true false OVoid /\
    make_unsigned P (LRef (Obj true false (OArith a))) = LRef (Obj true false (OArith a)).
Proof. intros P a U. destruct a; try discriminate U; eexists; eexists; (split; [reflexivity | split; reflexivity]). Qed.
Print Assumptions C129_unicode_refuted.

(** Rebasing a pointer: the new pointee gets the qualifiers of the old one in addition to its own, but only if the pointer is not
    qualified itself. The result's own qualifiers are gone in every case and its reference is kept. *)
Theorem C129_rebase_pointer : forall r pc pv p c v w cu vu u T U,
  made r pc pv (Ptr false false p) T -> qual c v w p -> qual cu vu u U -> (cvable u = true \/ can_ref u = true) ->
  exists T' p', rebase_pointer T U = Some T' /\ made r false false (Ptr false false p') T' /\
    qual (cu || (c && negb (pc || pv) && cvable u)) (vu || (v && negb (pc || pv) && cvable u)) u p'.
Proof. exact rebase_made. Qed.
Print Assumptions C129_rebase_pointer.
Theorem C129_rebase_pointer_refuted :
  exists T, made RNone true false (Ptr false false (Obj true false (OArith TInt))) T /\
    rebase_pointer T t_char = Some (Ptr false false t_char) /\
    rebase_pointer (Ptr false false (Obj true false (OArith TInt))) t_char = Some (Ptr false false (Obj true false (OArith TChar))).
Proof. exists (Ptr true false (Obj true false (OArith TInt))). split; [constructor; constructor | split; reflexivity]. Qed.
Print Assumptions C129_rebase_pointer_refuted.

Theorem C129_pointer_rank : forall t, exists n u, stars n u t /\
  (forall n' u', stars n' u' t -> pointer_rank t = N.of_nat n' /\ remove_all_pointers t = u').
Proof.
  intros t. destruct (stars_exists t) as (n & u & H). exists n, u. split; [exact H|].
  intros n1 u1 H'. split; [exact (stars_rank _ _ _ H') | exact (stars_base _ _ _ H')].
Qed.
Print Assumptions C129_pointer_rank.

Example C129_example :
  made RR false true (Obj false false (OEnum 7 TShort)) (RRef (Obj false true (OEnum 7 TShort))) /\
  remove_enum (RRef (Obj false true (OEnum 7 TShort))) = RRef (Obj false true (OArith TShort)) /\
  make_unsigned lnx (LRef (Obj true false (OArith TWChar))) = LRef (Obj true false (OArith TUInt)) /\
  copy_signed lnx (LRef (Obj true false (OArith TULong))) (Obj false false (OEnum 7 TShort)) = LRef (Obj true false (OArith TLong)) /\
  stars 2 (Obj true false (OArith TInt)) (Ptr true false (Ptr false true (Obj true false (OArith TInt)))).
Proof.
  split; [constructor; [reflexivity | constructor]|]. repeat split. constructor. constructor. constructor. intros; discriminate.
Qed.

(* ------------------------------------------------------------------ C130 *)

(** The largest (most aligned) of a list is one of them, bigger than all before and no smaller than all after; likewise the smallest. *)
Theorem C130_largest : forall A (f : A -> N) t l,
  exists l1 l2, t :: l = l1 ++ largest f t l :: l2 /\
    (forall x, In x l1 -> f x < f (largest f t l)) /\ (forall x, In x l2 -> f x <= f (largest f t l)).
Proof. intros A f t l. exact (largest_ok f l t). Qed.
Print Assumptions C130_largest.
Theorem C130_smallest : forall A (f : A -> N) t l,
  exists l1 l2, t :: l = l1 ++ smallest f t l :: l2 /\
    (forall x, In x l1 -> f (smallest f t l) < f x) /\ (forall x, In x l2 -> f (smallest f t l) <= f x).
Proof. intros A f t l. exact (smallest_ok f l t). Qed.
Print Assumptions C130_smallest.
Theorem C130_total_size : forall A w (f : A -> N) (l : list A), total_size w f l = sum_of f l mod 2 ^ w.
Proof. exact @total_size_ok. Qed.
Print Assumptions C130_total_size.

(** [index_of_type] is the first index at which [type_at_index] finds the type, and exists exactly if the type is in the list. *)
Theorem C130_index : forall A (eqb : A -> A -> bool), (forall x y, eqb x y = true <-> x = y) -> forall (t : A) l,
  (forall i, index_of_type eqb t l = Some (N.of_nat i) <->
     type_at_index i l = Some t /\ (forall n, (n < i)%nat -> type_at_index n l <> Some t)) /\
  (index_of_type eqb t l <> None <-> In t l) /\
  (forall i, type_at_index i l = nth_error l i).
Proof.
  intros A eqb E t l. assert (G := index_of_from eqb t E l 0). split; [|split; [|intros i; apply type_at_index_ok]].
  - intros i. unfold index_of_type. rewrite (G (N.of_nat i)). split.
    + intros (k & Hk & H1 & H2). assert (k = i) by lia. subst k. rewrite type_at_index_ok. split; [exact H1|].
      intros n Hn. rewrite type_at_index_ok. exact (H2 n Hn).
    + intros [H1 H2]. exists i. split; [lia|]. rewrite type_at_index_ok in H1. split; [exact H1|].
      intros n Hn. specialize (H2 n Hn). rewrite type_at_index_ok in H2. exact H2.
  - unfold index_of_type. clear G. generalize 0. induction l as [|u l IH]; intros i; cbn [index_of_type_ In].
    + tauto.
    + destruct (eqb t u) eqn:Q.
      * apply E in Q. subst u. split; [intros _; left; reflexivity | discriminate].
      * rewrite IH. split; [auto|]. intros [-> | H]; [|exact H]. rewrite (proj2 (E t t) eq_refl) in Q. discriminate Q.
Qed.
Print Assumptions C130_index.

(** The type with the highest rank, used to choose the scalar of deduced vectors, matrices and shapes. For types that arithmetic does not
    promote, the order of the list does not matter; the result is a floating-point type of the list if there is any in it, and otherwise
    an integer type that holds every number of every member, unless it is unsigned and the member is not. *)
Theorem C130_rank : forall P t l, (forall x, In x (t :: l) -> wide x = true) ->
  exists r, highest_ranked P (Some t) (map Some l) = Some (Some r) /\
    (forall t' l', Permutation (t :: l) (t' :: l') -> highest_ranked P (Some t') (map Some l') = Some (Some r)) /\
    (forall x, In x (t :: l) -> highest_ranked2 P (Some x) (Some r) = Some (Some r)) /\
    ((exists x, In x (t :: l) /\ floating x = true) -> floating r = true) /\
    (floating r = true -> In r (t :: l)) /\
    (floating r = false -> exists s b, int_info P r = Some (s, b) /\ forall x sx bx, In x (t :: l) -> int_info P x = Some (sx, bx) ->
        bx <= b /\ (s = true -> sx = false -> bx < b)).
Proof.
  intros P t l W. exists (joins P t l). split; [apply highest_ranked_joins|].
  assert (U := fun x Hx => joins_upper P l t x W Hx). assert (Wr := joins_wide P l t W). split; [|split; [|split; [|split]]].
  - intros t' l' Hp. rewrite highest_ranked_joins. do 2 f_equal. symmetry. exact (joins_perm P _ _ Hp W t l t' l' eq_refl eq_refl).
  - intros x Hx. rewrite highest_ranked2_join, (U x Hx). reflexivity.
  - intros (x & Hx & F). exact (proj1 (proj2 (upper_info P x _ (W x Hx) Wr (U x Hx))) F).
  - intros F. exact (joins_float P l t W F).
  - intros F. assert (Ht : In t (t :: l)) by (left; reflexivity).
    assert (N := proj2 (proj2 (upper_info P t _ (W t Ht) Wr (U t Ht))) F).
    destruct (int_info P (joins P t l)) as [[s b]|] eqn:E; [|congruence]. exists s, b. split; [reflexivity|].
    intros x sx bx Hx I. assert (G := proj1 (upper_info P x _ (W x Hx) Wr (U x Hx))). unfold holds in G. rewrite I, E in G.
    apply andb_true_iff in G as [G1 G2]. apply N.leb_le in G1. split; [exact G1|]. intros -> ->. cbn [negb orb] in G2.
    apply N.ltb_lt. exact G2.
Qed.
Print Assumptions C130_rank.
(** Which type it is: the result has the highest rank in the list, and if it is an integer type then it is the signed one of that rank
    exactly when every member as wide as it is signed. Floating-point types are decided by the rank alone. *)
Theorem C130_rank_exact : forall P t l r, (forall x, In x (t :: l) -> wide x = true) -> highest_ranked P (Some t) (map Some l) = Some (Some r) ->
  (forall x, In x (t :: l) -> conv_rank x <= conv_rank r) /\ (exists x, In x (t :: l) /\ conv_rank x = conv_rank r) /\
  (floating r = false -> exists s b, int_info P r = Some (s, b) /\
     (s = true <-> forall x sx bx, In x (t :: l) -> int_info P x = Some (sx, bx) -> bx = b -> sx = true)).
Proof.
  intros P t l r W H. rewrite highest_ranked_joins in H. injection H as <-. destruct (joins_rank P l t W) as [A B].
  split; [exact A|]. split; [exact B|]. intros F. destruct (joins_sign P l t W F) as [_ S].
  assert (Ht : In t (t :: l)) by (left; reflexivity). assert (Wr := joins_wide P l t W).
  assert (N := proj2 (proj2 (upper_info P t _ (W t Ht) Wr (joins_upper P l t t W Ht))) F).
  unfold signed_of, bits_of in S. destruct (int_info P (joins P t l)) as [[s b]|] eqn:E; [|congruence]. exists s, b. split; [reflexivity|].
  rewrite S. split.
  - intros G x sx bx Hx I Eb. specialize (G x Hx). rewrite I in G. exact (G Eb).
  - intros G x Hx. specialize (G x). destruct (int_info P x) as [[sx bx]|] eqn:I; [|intros _; reflexivity]. exact (G sx bx Hx eq_refl).
Qed.
Print Assumptions C130_rank_exact.
Theorem C130_rank_two : forall P a b, highest_ranked P (Some a) [Some b] = highest_ranked P (Some b) [Some a].
Proof. intros P a b. cbn [highest_ranked]. rewrite !highest_ranked2_join, join_comm. reflexivity. Qed.
Print Assumptions C130_rank_two.
(** With small integers the result depends on the order of the arguments, and two voids have none. *)
Theorem C130_rank_order_refuted : forall P,
  highest_ranked P (Some TShort) [Some TSChar; Some TUChar] = Some (Some TInt) /\
  highest_ranked P (Some TSChar) [Some TUChar; Some TShort] = Some (Some TShort) /\
  highest_ranked P (Some TSChar) [Some TShort; Some TUChar] = Some (Some TShort) /\
  highest_ranked P None [None] = None /\ highest_ranked P None [Some TInt] = Some (Some TInt).
Proof. intros P. repeat split. Qed.
Print Assumptions C130_rank_order_refuted.
Example C130_example :
  highest_ranked lnx (Some TInt) [Some TULong; Some TLLong] = Some (Some TULLong) /\
  highest_ranked lnx (Some TULong) [Some THalf; Some TLLong] = Some (Some THalf) /\
  highest_ranked lnx (Some TUInt) [Some TLong; Some TInt] = Some (Some TLong) /\
  highest_ranked lnx (Some TFloat) [Some TDouble; Some TInt] = Some (Some TDouble) /\
  largest (fun x => x) 3 [7; 1; 7] = 7 /\ smallest fst (3, 0) [(1, 1); (7, 2); (1, 3)] = (1, 1) /\
  index_of_type N.eqb 4 [1; 4; 9; 4] = Some 1.
Proof. repeat split. Qed.

(* ------------------------------------------------------------------ C131 *)

(** Adding or removing noexcept changes the exception specification of the function and nothing else: not the convention, the
    parameters, the qualifiers of the pointer or the reference. Everything that is no such type is returned as it is. *)
Theorem C131_noexcept : forall P t t',
  (fn_set true t t' -> known P t -> add_noexcept P t = t') /\ (fn_set false t t' -> known P t -> remove_noexcept P t = t').
Proof. intros P t t'. split; [exact (set_noexcept_ok P true t t') | exact (set_noexcept_ok P false t t')]. Qed.
Print Assumptions C131_noexcept.
Theorem C131_noexcept_others : forall P t, legal t = true ->
  ((forall t', ~ fn_set true t t') \/ ~ known P t -> add_noexcept P t = t) /\
  ((forall t', ~ fn_set false t t') \/ ~ known P t -> remove_noexcept P t = t).
Proof. intros P t L. split; [exact (set_noexcept_other P true t L) | exact (set_noexcept_other P false t L)]. Qed.
Print Assumptions C131_noexcept_others.
(** In particular a function whose parameters end in an ellipsis keeps its specification, although it is a functional type. *)
Theorem C131_ellipsis_refuted : forall P r ps,
  remove_noexcept P (Fun plainq 0 true true r ps) = Fun plainq 0 true true r ps /\
  add_noexcept P (Fun plainq 0 true false r ps) = Fun plainq 0 true false r ps.
Proof. intros P r ps. split; reflexivity. Qed.
Print Assumptions C131_ellipsis_refuted.

Theorem C131_callconv : forall P t t', cc_reset t t' -> known P t -> remove_callconv P t = t'.
Proof. exact remove_callconv_ok. Qed.
Print Assumptions C131_callconv.

(** The arity is the number of parameters of what gets called. *)
Theorem C131_arity : forall P t m cc ps, plat_ok P -> calls P t m cc false ps -> In cc (if m then p_mccs P else p_ccs P) ->
  arity P t = Some (length ps).
Proof. exact arity_ok. Qed.
Print Assumptions C131_arity.
(** With an ellipsis there is none: a function does not compile, however far the compiler follows the template, and for a member function
    or call operator the answer is 0 whatever its named parameters. *)
Theorem C131_arity_ellipsis_refuted : forall P t m cc ps, calls P t m cc true ps ->
  arity P t = (if m then Some 0%nat else None) /\
  (m = false -> forall k, arity_ P (S (S k)) (undecorated P t) = None).
Proof.
  intros P t m cc ps H. split; [exact (arity_va P t m cc ps H 2)|]. intros ->. exact (arity_va P t false cc ps H).
Qed.
Print Assumptions C131_arity_ellipsis_refuted.
Example C131_example :
  calls lnx (LRef (Obj true false (OClass 1))) true 0 false [t_int; t_char] /\
  arity lnx (LRef (Obj true false (OClass 1))) = Some 2%nat /\
  calls lnx (Obj false false (OClass 2)) false 0 false [t_int] /\ arity lnx (Obj false false (OClass 2)) = Some 1%nat /\
  calls lnx (Ptr true false (Fun plainq 0 true false t_int [t_char])) false 0 true [t_char] /\
  arity lnx (Ptr true false (Fun plainq 0 true false t_int [t_char])) = None /\
  known lnx (RRef (Ptr true false (Fun plainq 0 false true t_int [t_char]))) /\
  remove_noexcept lnx (RRef (Ptr true false (Fun plainq 0 false true t_int [t_char]))) = RRef (Ptr true false (Fun plainq 0 false false t_int [t_char])).
Proof.
  split; [constructor; [econstructor; reflexivity | reflexivity]|]. split; [reflexivity|].
  split; [econstructor; reflexivity|]. split; [reflexivity|]. split; [constructor; reflexivity|]. split; [reflexivity|].
  split; [cbn; auto | reflexivity].
Qed.

(* ------------------------------------------------------------------ C132 *)

(** A read-only parameter is the bare type or a reference to const (and volatile, if the type is) of it. *)
Theorem C132_readonly : forall ptr ci r c v u t, made r c v u t ->
  (by_value ptr ci u = true -> readonly_param ptr ci t = u) /\
  (by_value ptr ci u = false -> made (if can_ref u then RL else RNone) (cvable u) v u (readonly_param ptr ci t)).
Proof.
  intros ptr ci r c v u t H. destruct (readonly_ok ptr ci _ _ _ _ _ H) as [A B]. split; [|exact B].
  intros E. rewrite E in A. exact A.
Qed.
Print Assumptions C132_readonly.
(** Arithmetic types, enums and pointers go by value, arrays and functions by reference; a class goes by value exactly if it asks to, or
    fits two pointers, is destroyed without throwing and is trivially copyable or copied without throwing. *)
Theorem C132_when : forall ptr ci,
  (forall a, by_value ptr ci (Obj false false (OArith a)) = true) /\
  (forall i a, by_value ptr ci (Obj false false (OEnum i a)) = true) /\
  (forall p, by_value ptr ci (Ptr false false p) = true) /\
  (forall n e, by_value ptr ci (Arr n e) = false) /\
  (forall q cc va ne r ps, by_value ptr ci (Fun q cc va ne r ps) = false) /\
  (forall k, by_value ptr ci (Obj false false (OClass k)) = true <->
     k_always_value (ci (OClass k)) = true \/
     (k_size (ci (OClass k)) <= ptr * 2 /\ k_nothrow_destroy (ci (OClass k)) = true /\
      (k_trivially_copyable (ci (OClass k)) = true \/ k_nothrow_copy (ci (OClass k)) = true))).
Proof.
  intros ptr ci. repeat (split; [reflexivity|]). intros k. cbn [by_value].
  rewrite orb_true_iff, !andb_true_iff, orb_true_iff, N.leb_le. tauto.
Qed.
Print Assumptions C132_when.
(** A class whose copy constructor is deleted can be trivially copyable all the same, and then its parameter type is by value, which no
    existing object can be passed to. *)
Theorem C132_uncopyable_refuted : exists ci,
  k_copyable (ci (OClass 0)) = false /\ k_nothrow_copy (ci (OClass 0)) = false /\
  readonly_param 8 ci (LRef (Obj true false (OClass 0))) = Obj false false (OClass 0).
Proof.
  exists (fun _ => {| k_trivially_copyable := true; k_copyable := false; k_nothrow_copy := false; k_nothrow_destroy := true;
                      k_always_value := false; k_size := 4 |}).
  repeat split.
Qed.
Print Assumptions C132_uncopyable_refuted.
(** The header's own choice between its by-value and by-reference overloads is not made by these types at all: it always takes the
    reference, for any list of types, also the empty one and one that would go by value. *)
Theorem C132_choice_refuted : forall ptr ci,
  (forall l, pass_readonly_by_reference ptr ci l = true /\ pass_readonly_by_value ptr ci l = false) /\
  s_is_reference (readonly_param ptr ci t_int) = false.
Proof.
  intros ptr ci. split; [|reflexivity]. intros l. unfold pass_readonly_by_value. rewrite pass_reference. auto.
Qed.
Print Assumptions C132_choice_refuted.
Example C132_example :
  let ci := fun b => {| k_trivially_copyable := false; k_copyable := true; k_nothrow_copy := false; k_nothrow_destroy := true;
                        k_always_value := false; k_size := 4 |} in
  readonly_param 8 ci (RRef (Obj false true (OClass 0))) = LRef (Obj true true (OClass 0)) /\
  readonly_param 8 ci (RRef (Obj false true (OArith TInt))) = t_int /\
  readonly_param 8 ci (Arr (Some 2) t_int) = LRef (Arr (Some 2) (Obj true false (OArith TInt))).
Proof. repeat split. Qed.
