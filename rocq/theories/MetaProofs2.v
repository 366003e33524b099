(** Proofs about lists of types, function types and parameter passing (MetaModel.v against MetaSpec.v). *)
From Coq Require Import Permutation.
From Verif Require Import Words MetaModel MetaSpec MetaProofs.
Import ListNotations.
Local Open Scope N_scope.

(* ------------------------------------------------------------------ picking *)

Lemma largest_ok {A} (f : A -> N) l : forall t,
  exists l1 l2, t :: l = l1 ++ largest f t l :: l2 /\
    (forall x, In x l1 -> f x < f (largest f t l)) /\ (forall x, In x l2 -> f x <= f (largest f t l)).
Proof.
  unfold largest. induction l as [|u l IH]; intros t; cbn [pick].
  - exists [], []. repeat split; intros x [].
  - destruct (IH u) as (l1 & l2 & E & H1 & H2). set (r := pick _ f u l) in *.
    destruct (N.ltb_spec (f t) (f r)) as [L | L].
    + exists (t :: l1), l2. rewrite E. split; [reflexivity|]. split; [|exact H2].
      intros x [<- | Hx]; [exact L | exact (H1 x Hx)].
    + exists [], (u :: l). split; [reflexivity|]. split; [intros x []|].
      intros x Hx. rewrite E in Hx. apply in_app_or in Hx as [Hx | [<- | Hx]]; [specialize (H1 x Hx) | | specialize (H2 x Hx)]; lia.
Qed.
Lemma smallest_ok {A} (f : A -> N) l : forall t,
  exists l1 l2, t :: l = l1 ++ smallest f t l :: l2 /\
    (forall x, In x l1 -> f (smallest f t l) < f x) /\ (forall x, In x l2 -> f (smallest f t l) <= f x).
Proof.
  unfold smallest. induction l as [|u l IH]; intros t; cbn [pick].
  - exists [], []. repeat split; intros x [].
  - destruct (IH u) as (l1 & l2 & E & H1 & H2). set (r := pick _ f u l) in *.
    destruct (N.ltb_spec (f r) (f t)) as [L | L].
    + exists (t :: l1), l2. rewrite E. split; [reflexivity|]. split; [|exact H2].
      intros x [<- | Hx]; [exact L | exact (H1 x Hx)].
    + exists [], (u :: l). split; [reflexivity|]. split; [intros x []|].
      intros x Hx. rewrite E in Hx. apply in_app_or in Hx as [Hx | [<- | Hx]]; [specialize (H1 x Hx) | | specialize (H2 x Hx)]; lia.
Qed.
Definition sum_of {A} (f : A -> N) (l : list A) : N := fold_right (fun x s => f x + s) 0 l.
Lemma total_size_ok {A} w (f : A -> N) (l : list A) : total_size w f l = sum_of f l mod 2 ^ w.
Proof.
  unfold total_size. assert (W : 2 ^ w <> 0) by (apply N.pow_nonzero; discriminate).
  assert (G : forall s, fold_left (fun s t => (s + f t) mod 2 ^ w) l (s mod 2 ^ w) = (s + sum_of f l) mod 2 ^ w).
  { induction l as [|t l IH]; intros s; cbn [fold_left sum_of fold_right].
    - rewrite N.add_0_r. reflexivity.
    - rewrite N.add_mod_idemp_l by exact W. rewrite IH. f_equal. unfold sum_of. lia. }
  specialize (G 0). rewrite N.mod_0_l in G by exact W. exact G.
Qed.

Lemma index_of_from {A} (eqb : A -> A -> bool) (t : A) (E : forall x y, eqb x y = true <-> x = y) l : forall i j,
  index_of_type_ eqb t i l = Some j <->
  exists k, j = i + N.of_nat k /\ nth_error l k = Some t /\ (forall n, (n < k)%nat -> nth_error l n <> Some t).
Proof.
  induction l as [|u l IH]; intros i j; cbn [index_of_type_].
  - split; [discriminate|]. intros (k & _ & H & _). destruct k; discriminate H.
  - destruct (eqb t u) eqn:Q.
    + apply E in Q. subst u. split.
      * intros [= <-]. exists O. split; [lia|]. split; [reflexivity|]. intros n Hn. lia.
      * intros (k & -> & H & M). destruct k as [|k]; [f_equal; lia|]. exfalso. exact (M O (Nat.lt_0_succ k) eq_refl).
    + assert (D : u <> t) by (intros ->; rewrite (proj2 (E t t) eq_refl) in Q; discriminate Q).
      rewrite IH. split.
      * intros (k & -> & H & M). exists (S k). split; [lia|]. split; [exact H|].
        intros [|n] Hn; cbn [nth_error]; [congruence | apply M; lia].
      * intros (k & -> & H & M). destruct k as [|k]; [cbn [nth_error] in H; congruence|].
        exists k. split; [lia|]. split; [exact H|]. intros n Hn. exact (M (S n) (proj1 (Nat.succ_lt_mono n k) Hn)).
Qed.
Lemma type_at_index_ok {A} (l : list A) : forall i, type_at_index i l = nth_error l i.
Proof. induction l as [|t l IH]; intros [|i]; cbn; auto. Qed.

(* ------------------------------------------------------------------ the highest rank *)

Lemma aty_eqb_ok a b : aty_eqb a b = true <-> a = b.
Proof. unfold aty_eqb. rewrite N.eqb_eq. split; [|intros ->; reflexivity]. destruct a, b; intros H; try discriminate H; reflexivity. Qed.

Definition plat_of (l64 : bool) : plat :=
  {| p_wsigned := true; p_long64 := l64; p_ccs := [0]; p_mccs := [0]; p_call := fun _ => None; p_plus := fun _ => None |}.
Definition join (P : plat) (a b : aty) : aty :=
  match hr_special a b with Some r => r | None => if aty_eqb a b then a else plus_type P a b end.
Lemma highest_ranked2_join P a b : highest_ranked2 P (Some a) (Some b) = Some (Some (join P a b)).
Proof. unfold highest_ranked2, join. destruct (hr_special a b); [reflexivity|]. destruct (aty_eqb a b); reflexivity. Qed.
Lemma join_plat P a b : join P a b = join (plat_of (p_long64 P)) a b.
Proof. reflexivity. Qed.

Definition all_aty : list aty :=
  [TBool; TChar; TSChar; TUChar; TShort; TUShort; TInt; TUInt; TLong; TULong; TLLong; TULLong; TInt128; TUInt128;
   TChar8; TChar16; TChar32; TWChar; THalf; TFloat16; TFloat; TDouble; TLDouble; TFloat128].
Definition wides : list aty := filter wide all_aty.
Lemma all_aty_in a : In a all_aty.
Proof. destruct a; cbn; tauto. Qed.
Lemma wides_in a : wide a = true -> In a wides.
Proof. intros H. apply filter_In. split; [apply all_aty_in | exact H]. Qed.
Lemma sweep2 (f : aty -> aty -> bool) l : forallb (fun a => forallb (f a) l) l = true -> forall a b, In a l -> In b l -> f a b = true.
Proof.
  intros H a b Ha Hb. rewrite forallb_forall in H. specialize (H a Ha). cbn beta in H. rewrite forallb_forall in H. exact (H b Hb).
Qed.
Lemma sweep3 (f : aty -> aty -> aty -> bool) l :
  forallb (fun a => forallb (fun b => forallb (f a b) l) l) l = true -> forall a b c, In a l -> In b l -> In c l -> f a b c = true.
Proof.
  intros H a b c Ha Hb Hc. rewrite forallb_forall in H. specialize (H a Ha). cbn beta in H.
  exact (sweep2 (fun b c => f a b c) l (proj2 (forallb_forall _ _) (fun b Hb => proj1 (forallb_forall _ _) H b Hb)) b c Hb Hc).
Qed.
Lemma join_comm P a b : join P a b = join P b a.
Proof.
  rewrite (join_plat P a b), (join_plat P b a). apply aty_eqb_ok. pattern a, b.
  apply (sweep2 (fun a b => aty_eqb (join (plat_of (p_long64 P)) a b) (join (plat_of (p_long64 P)) b a)) all_aty);
    [destruct (p_long64 P); vm_compute; reflexivity | apply all_aty_in | apply all_aty_in].
Qed.
Lemma join_idem P a : join P a a = a.
Proof. unfold join. rewrite (proj2 (aty_eqb_ok a a) eq_refl). destruct a; reflexivity. Qed.
Lemma join_wide P a b : wide a = true -> wide b = true -> wide (join P a b) = true.
Proof.
  intros Ha Hb. rewrite (join_plat P a b). pattern a, b.
  apply (sweep2 (fun a b => wide (join (plat_of (p_long64 P)) a b)) wides);
    [destruct (p_long64 P); vm_compute; reflexivity | apply wides_in; exact Ha | apply wides_in; exact Hb].
Qed.
Lemma join_assoc P a b c : wide a = true -> wide b = true -> wide c = true -> join P a (join P b c) = join P (join P a b) c.
Proof.
  intros Ha Hb Hc. rewrite (join_plat P b c), (join_plat P a b), (join_plat P a), (join_plat P _ c). apply aty_eqb_ok.
  apply (sweep3 (fun a b c => aty_eqb (join (plat_of (p_long64 P)) a (join (plat_of (p_long64 P)) b c))
                                      (join (plat_of (p_long64 P)) (join (plat_of (p_long64 P)) a b) c)) wides);
    [destruct (p_long64 P); vm_compute; reflexivity | apply wides_in; exact Ha | apply wides_in; exact Hb | apply wides_in; exact Hc].
Qed.

Fixpoint joins (P : plat) (t : aty) (l : list aty) : aty :=
  match l with [] => t | u :: l' => join P t (joins P u l') end.
Lemma highest_ranked_joins P l : forall t, highest_ranked P (Some t) (map Some l) = Some (Some (joins P t l)).
Proof.
  induction l as [|u l IH]; intros t; [reflexivity|].
  cbn [highest_ranked map joins]. rewrite IH. apply highest_ranked2_join.
Qed.
Definition all_wide (l : list aty) : Prop := forall x, In x l -> wide x = true.
Lemma joins_wide P l : forall t, all_wide (t :: l) -> wide (joins P t l) = true.
Proof.
  induction l as [|u l IH]; intros t W; cbn [joins]; [apply W; left; reflexivity|].
  apply join_wide; [apply W; left; reflexivity|]. apply IH. intros x Hx. apply W. right. exact Hx.
Qed.
Lemma joins_perm P l l' : Permutation l l' -> all_wide l -> forall t k t' k', l = t :: k -> l' = t' :: k' -> joins P t k = joins P t' k'.
Proof.
  induction 1 as [| x l l' H IH | x y l | l l' l'' H1 IH1 H2 IH2]; intros W t k t' k' E E'.
  - discriminate E.
  - injection E as <- <-. injection E' as <- <-. destruct l as [|a l]; destruct l' as [|a' l'].
    + reflexivity.
    + apply Permutation_nil in H. discriminate H.
    + apply Permutation_sym, Permutation_nil in H. discriminate H.
    + cbn [joins]. f_equal. apply (IH (fun x Hx => W x (or_intror Hx))); reflexivity.
  - injection E as <- <-. injection E' as <- <-. destruct l as [|a l]; cbn [joins]; [apply join_comm|].
    assert (Wx : wide x = true) by (apply W; right; left; reflexivity).
    assert (Wy : wide y = true) by (apply W; left; reflexivity).
    assert (Wr : wide (joins P a l) = true) by (apply joins_wide; intros z Hz; apply W; right; right; exact Hz).
    rewrite !join_assoc by assumption. rewrite (join_comm P y x). reflexivity.
  - destruct l' as [|a m]; [subst l; apply Permutation_sym, Permutation_nil in H1; discriminate H1|].
    rewrite (IH1 W t k a m E eq_refl). apply IH2; try assumption; try reflexivity.
    intros x Hx. apply W. exact (Permutation_in _ (Permutation_sym H1) Hx).
Qed.
Lemma joins_upper P l : forall t x, all_wide (t :: l) -> In x (t :: l) -> join P x (joins P t l) = joins P t l.
Proof.
  induction l as [|u l IH]; intros t x W Hx; cbn [joins].
  - destruct Hx as [<- | []]. apply join_idem.
  - assert (Wl : all_wide (u :: l)) by (intros y Hy; apply W; right; exact Hy).
    assert (Wt : wide t = true) by (apply W; left; reflexivity). assert (Wr := joins_wide P l u Wl).
    destruct Hx as [<- | Hx].
    + rewrite join_assoc by assumption. rewrite join_idem. reflexivity.
    + assert (Wx : wide x = true) by (apply W; right; exact Hx).
      rewrite join_assoc by assumption. rewrite (join_comm P x t). rewrite <- join_assoc by assumption.
      rewrite (IH u x Wl Hx). reflexivity.
Qed.

(** Whether every number of the integer type [x] is one of [r], unless [r] has no negative numbers and [x] has. *)
Definition holds (P : plat) (x r : aty) : bool :=
  match int_info P x, int_info P r with
  | Some (sx, bx), Some (s, b) => (bx <=? b) && (negb s || sx || (bx <? b))
  | _, _ => true
  end.
Lemma int_info_plat P a : wide a = true -> int_info P a = int_info (plat_of (p_long64 P)) a.
Proof. destruct a; intros W; try discriminate W; reflexivity. Qed.
Lemma upper_info P x r : wide x = true -> wide r = true -> join P x r = r ->
  holds P x r = true /\ (floating x = true -> floating r = true) /\ (floating r = false -> int_info P r <> None).
Proof.
  intros Wx Wr. rewrite (join_plat P x r). unfold holds. rewrite (int_info_plat P x Wx), (int_info_plat P r Wr). intros E.
  assert (G : (negb (aty_eqb (join (plat_of (p_long64 P)) x r) r) ||
               (holds (plat_of (p_long64 P)) x r && (negb (floating x) || floating r) &&
                (floating r || match int_info (plat_of (p_long64 P)) r with Some _ => true | None => false end))) = true).
  { apply (sweep2 (fun x r => negb (aty_eqb (join (plat_of (p_long64 P)) x r) r) ||
               (holds (plat_of (p_long64 P)) x r && (negb (floating x) || floating r) &&
                (floating r || match int_info (plat_of (p_long64 P)) r with Some _ => true | None => false end))) wides);
      [destruct (p_long64 P); vm_compute; reflexivity | apply wides_in; exact Wx | apply wides_in; exact Wr]. }
  rewrite E, (proj2 (aty_eqb_ok r r) eq_refl) in G. cbn [negb orb] in G.
  apply andb_true_iff in G as [G G3]. apply andb_true_iff in G as [G1 G2]. split; [exact G1|]. split.
  - intros F. rewrite F in G2. exact G2.
  - intros F. rewrite F in G3. cbn [orb] in G3. destruct (int_info _ r); [discriminate | discriminate G3].
Qed.
Lemma join_float P a b : wide a = true -> wide b = true -> floating (join P a b) = true -> join P a b = a \/ join P a b = b.
Proof.
  intros Wa Wb. rewrite (join_plat P a b).
  assert (G : (negb (floating (join (plat_of (p_long64 P)) a b)) || aty_eqb (join (plat_of (p_long64 P)) a b) a
               || aty_eqb (join (plat_of (p_long64 P)) a b) b) = true).
  { apply (sweep2 (fun a b => negb (floating (join (plat_of (p_long64 P)) a b)) || aty_eqb (join (plat_of (p_long64 P)) a b) a
               || aty_eqb (join (plat_of (p_long64 P)) a b) b) wides);
      [destruct (p_long64 P); vm_compute; reflexivity | apply wides_in; exact Wa | apply wides_in; exact Wb]. }
  intros F. rewrite F in G. cbn [negb orb] in G. apply orb_true_iff in G as [G | G]; apply aty_eqb_ok in G; auto.
Qed.
Lemma joins_float P l : forall t, all_wide (t :: l) -> floating (joins P t l) = true -> In (joins P t l) (t :: l).
Proof.
  induction l as [|u l IH]; intros t W F; cbn [joins] in *; [left; reflexivity|].
  assert (Wl : all_wide (u :: l)) by (intros y Hy; apply W; right; exact Hy).
  destruct (join_float P t (joins P u l) (W t (or_introl eq_refl)) (joins_wide P l u Wl) F) as [E | E].
  - left. symmetry. exact E.
  - right. rewrite E in F |- *. exact (IH u Wl F).
Qed.

Definition bits_of (P : plat) (a : aty) : N := match int_info P a with Some (_, b) => b | None => 0 end.
Definition signed_of (P : plat) (a : aty) : bool := match int_info P a with Some (s, _) => s | None => true end.
Lemma bits_of_plat P a : wide a = true -> bits_of P a = bits_of (plat_of (p_long64 P)) a.
Proof. intros W. unfold bits_of. rewrite (int_info_plat P a W). reflexivity. Qed.
Lemma signed_of_plat P a : wide a = true -> signed_of P a = signed_of (plat_of (p_long64 P)) a.
Proof. intros W. unfold signed_of. rewrite (int_info_plat P a W). reflexivity. Qed.
Lemma join_exact P a b : wide a = true -> wide b = true ->
  conv_rank (join P a b) = N.max (conv_rank a) (conv_rank b) /\
  (floating (join P a b) = false -> bits_of P (join P a b) = N.max (bits_of P a) (bits_of P b) /\
     signed_of P (join P a b) = (signed_of P a || (bits_of P a <? bits_of P b)) && (signed_of P b || (bits_of P b <? bits_of P a))).
Proof.
  intros Wa Wb. assert (Wj := join_wide P a b Wa Wb). rewrite (bits_of_plat P _ Wj), (signed_of_plat P _ Wj).
  rewrite (bits_of_plat P a Wa), (bits_of_plat P b Wb), (signed_of_plat P a Wa), (signed_of_plat P b Wb), (join_plat P a b).
  set (Q := plat_of (p_long64 P)).
  assert (G : ((conv_rank (join Q a b) =? N.max (conv_rank a) (conv_rank b)) &&
    (floating (join Q a b) || ((bits_of Q (join Q a b) =? N.max (bits_of Q a) (bits_of Q b)) &&
      Bool.eqb (signed_of Q (join Q a b)) ((signed_of Q a || (bits_of Q a <? bits_of Q b)) && (signed_of Q b || (bits_of Q b <? bits_of Q a)))))) = true).
  { pattern a, b. apply (sweep2 (fun a b => (conv_rank (join Q a b) =? N.max (conv_rank a) (conv_rank b)) &&
      (floating (join Q a b) || ((bits_of Q (join Q a b) =? N.max (bits_of Q a) (bits_of Q b)) &&
        Bool.eqb (signed_of Q (join Q a b)) ((signed_of Q a || (bits_of Q a <? bits_of Q b)) && (signed_of Q b || (bits_of Q b <? bits_of Q a)))))) wides);
      [unfold Q; destruct (p_long64 P); vm_compute; reflexivity | apply wides_in; exact Wa | apply wides_in; exact Wb]. }
  apply andb_true_iff in G as [G1 G2]. split; [apply N.eqb_eq; exact G1|]. intros F. rewrite F in G2. cbn [orb] in G2.
  apply andb_true_iff in G2 as [G2 G3]. split; [apply N.eqb_eq; exact G2 | apply Bool.eqb_prop; exact G3].
Qed.
Lemma joins_rank P l : forall t, all_wide (t :: l) ->
  (forall x, In x (t :: l) -> conv_rank x <= conv_rank (joins P t l)) /\ (exists x, In x (t :: l) /\ conv_rank x = conv_rank (joins P t l)).
Proof.
  induction l as [|u l IH]; intros t W; cbn [joins].
  - split; [intros x [<- | []]; apply N.le_refl | exists t; split; [left; reflexivity | reflexivity]].
  - assert (Wl : all_wide (u :: l)) by (intros y Hy; apply W; right; exact Hy). destruct (IH u Wl) as [A (x & Hx & B)].
    assert (E := proj1 (join_exact P t (joins P u l) (W t (or_introl eq_refl)) (joins_wide P l u Wl))). rewrite E. split.
    + intros y [<- | Hy]; [lia|]. assert (C := A y Hy). lia.
    + destruct (N.max_dec (conv_rank t) (conv_rank (joins P u l))) as [M | M]; rewrite M;
        [exists t; split; [left; reflexivity | reflexivity] | exists x; split; [right; exact Hx | exact B]].
Qed.
Lemma joins_sign P l : forall t, all_wide (t :: l) -> floating (joins P t l) = false ->
  (forall x, In x (t :: l) -> bits_of P x <= bits_of P (joins P t l)) /\
  (signed_of P (joins P t l) = true <-> forall x, In x (t :: l) -> bits_of P x = bits_of P (joins P t l) -> signed_of P x = true).
Proof.
  induction l as [|u l IH]; intros t W F; cbn [joins] in *.
  - split; [intros x [<- | []]; apply N.le_refl|]. split; [intros H x [<- | []] _; exact H|]. intros H. apply H; [left; reflexivity | reflexivity].
  - assert (Wl : all_wide (u :: l)) by (intros y Hy; apply W; right; exact Hy). assert (Wr := joins_wide P l u Wl).
    assert (Wt : wide t = true) by (apply W; left; reflexivity).
    assert (Fr : floating (joins P u l) = false).
    { destruct (floating (joins P u l)) eqn:Q; [|reflexivity].
      assert (X : join P (joins P u l) (join P t (joins P u l)) = join P t (joins P u l)).
      { rewrite (join_comm P t), join_assoc by assumption. rewrite join_idem. reflexivity. }
      assert (Y := proj1 (proj2 (upper_info P _ _ Wr (join_wide P _ _ Wt Wr) X)) Q). congruence. }
    destruct (IH u Wl Fr) as [A B]. destruct (proj2 (join_exact P t _ Wt Wr) F) as [E S]. rewrite E, S.
    split; [intros y [<- | Hy]; [lia | assert (C := A y Hy); lia]|].
    rewrite andb_true_iff, !orb_true_iff, !N.ltb_lt, B. clear S B IH F Fr. split.
    + intros [H1 H2] x [<- | Hx] Eq; [destruct H1 as [H1 | H1]; [exact H1 | lia]|]. assert (C := A x Hx).
      destruct H2 as [H2 | H2]; [apply H2; [exact Hx | lia] | lia].
    + intros H. split.
      * destruct (N.lt_ge_cases (bits_of P t) (bits_of P (joins P u l))) as [L | L]; [right; exact L | left].
        apply H; [left; reflexivity | lia].
      * destruct (N.lt_ge_cases (bits_of P (joins P u l)) (bits_of P t)) as [L | L]; [right; exact L | left].
        intros x Hx Eq. apply H; [right; exact Hx | lia].
Qed.

(* ------------------------------------------------------------------ functions *)

Lemma qual_det c v u t t' : qual c v u t -> qual c v u t' -> t = t'.
Proof.
  intros H. revert t'. induction H; intros t' Q; inversion Q; subst; try reflexivity.
  f_equal. auto.
Qed.
Lemma made_det r c v u t t' : made r c v u t -> made r c v u t' -> t = t'.
Proof. intros H Q. inversion H; subst; inversion Q; subst; f_equal; eapply qual_det; eassumption. Qed.
Lemma bare_made r c v u t : made r c v u t -> made RNone false false u u.
Proof.
  intros H. constructor. assert (Q := made_inner _ _ _ _ _ H). clear H. induction Q; constructor. exact IHQ.
Qed.
Lemma copy_back r c v u t : made r c v u t -> copy_cvref u t = t /\ remove_cvref t = u.
Proof.
  intros H. assert (B := bare_made _ _ _ _ _ H). split.
  - assert (M := made_copy_cvref _ _ _ _ _ _ _ _ _ _ B H).
    destruct (qual_fun _ _ _ _ (made_inner _ _ _ _ _ H)) as [Ec Ev]. rewrite <- Ec, <- Ev in M.
    refine (made_det _ _ _ _ _ _ M _).
    inversion H as [? ? ? ? Q | ? ? ? ? R Q | ? ? ? ? R Q]; subst; [destruct (can_ref u); exact H | rewrite R; exact H | rewrite R; exact H].
  - exact (made_det _ _ _ _ _ _ (made_remove_cvref _ _ _ _ _ H) B).
Qed.

Lemma has_in l x : has l x = true <-> In x l.
Proof.
  unfold has. rewrite existsb_exists. split.
  - intros (y & H & E). apply N.eqb_eq in E. subst y. exact H.
  - intros H. exists x. split; [exact H | apply N.eqb_refl].
Qed.
Lemma plain_eq q : fq_plain q = true -> q = {| fq_c := false; fq_v := false; fq_r := RNone |}.
Proof. destruct q as [[|] [|] [| |]]; intros H; try discriminate H; reflexivity. Qed.
Lemma can_ref_plain q cc va ne r ps : can_ref (Fun q cc va ne r ps) = fq_plain q.
Proof. destruct q as [[|] [|] [| |]]; reflexivity. Qed.

Definition set_noexcept (P : plat) (x : bool) (t : ty) : ty := copy_cvref (set_noexcept_ P x (remove_cvref t)) t.

Lemma copy_cvref_l u t : no_ref t = true -> can_ref u = true -> no_ref u = true ->
  copy_cvref u (LRef t) = LRef (copy_cvref u t).
Proof.
  intros Ht C U. destruct (qual_exists _ Ht) as (c & v & w & Q). destruct (qual_exists _ U) as (cu & vu & wu & QU).
  assert (D : can_ref wu = true) by (rewrite <- (qual_can_ref _ _ _ _ QU); exact C).
  unfold copy_cvref, copy_ref. cbn [copy_ref_ s_remove_reference].
  rewrite (qual_not_ref _ _ _ _ Q), (qual_not_ref _ _ _ _ QU).
  assert (M := made_copy_cv _ _ _ _ _ _ _ _ _ _ (m_none _ _ _ _ QU) (m_none _ _ _ _ Q)).
  replace (copy_ref_ (copy_cv u t) t) with (s_remove_reference (copy_cv u t)) by (inversion Q; reflexivity).
  rewrite (qual_add_lref _ _ _ _ (made_inner _ _ _ _ _ M)), D. reflexivity.
Qed.
Lemma copy_cvref_r u t : no_ref t = true -> can_ref u = true -> no_ref u = true ->
  copy_cvref u (RRef t) = RRef (copy_cvref u t).
Proof.
  intros Ht C U. destruct (qual_exists _ Ht) as (c & v & w & Q). destruct (qual_exists _ U) as (cu & vu & wu & QU).
  assert (D : can_ref wu = true) by (rewrite <- (qual_can_ref _ _ _ _ QU); exact C).
  unfold copy_cvref, copy_ref. cbn [copy_ref_ s_remove_reference].
  rewrite (qual_not_ref _ _ _ _ Q), (qual_not_ref _ _ _ _ QU).
  assert (M := made_copy_cv _ _ _ _ _ _ _ _ _ _ (m_none _ _ _ _ QU) (m_none _ _ _ _ Q)).
  replace (copy_ref_ (copy_cv u t) t) with (s_remove_reference (copy_cv u t)) by (inversion Q; reflexivity).
  rewrite (qual_add_rref _ _ _ _ (made_inner _ _ _ _ _ M)), D. reflexivity.
Qed.

Lemma known_l P a : no_ref a = true -> known P (LRef a) -> known P a.
Proof. intros N. destruct a; try discriminate N; exact (fun K => K). Qed.
Lemma known_r P a : no_ref a = true -> known P (RRef a) -> known P a.
Proof. intros N. destruct a; try discriminate N; exact (fun K => K). Qed.

Lemma set_noexcept_inner P x t t' : fn_set x t t' -> known P t -> no_ref t = true ->
  set_noexcept P x t = t' /\ no_ref (set_noexcept_ P x (remove_cvref t)) = true /\ can_ref (set_noexcept_ P x (remove_cvref t)) = true.
Proof.
  intros H K N. unfold known in K. unfold set_noexcept.
  inversion H as [cc ne r ps q C | c v q cc ne r ps C | c v k q cc ne r ps | |]; subst; try discriminate N; cbn [fn_of] in K;
    destruct K as [_ K]; apply has_in in K.
  - rewrite can_ref_plain in C. pose proof (plain_eq _ C) as ->.
    change (remove_cvref (Fun ?q ?a ?b ?c ?d ?e)) with (Fun q a b c d e). cbn [set_noexcept_]. rewrite K.
    destruct ne, x; cbn; auto.
  - rewrite can_ref_plain in C. pose proof (plain_eq _ C) as ->.
    change (remove_cvref (Ptr c v ?a)) with (Ptr false false a). cbn [set_noexcept_]. rewrite K.
    destruct ne, x, c, v; cbn; auto.
  - change (remove_cvref (Mem c v ?a ?b ?d ?e ?f ?g ?h)) with (Mem false false a b d e f g h). cbn [set_noexcept_]. rewrite K.
    destruct ne, x, c, v; cbn; auto.
Qed.
Lemma set_noexcept_ok P x t t' : fn_set x t t' -> known P t -> set_noexcept P x t = t'.
Proof.
  intros H K. destruct (no_ref t) eqn:N; [exact (proj1 (set_noexcept_inner P x t t' H K N))|].
  inversion H as [| | |a a' Ha Na|a a' Ha Na]; subst; try discriminate N.
  - destruct (set_noexcept_inner P x a a' Ha (known_l P a Na K) Na) as (E & N1 & C1). rewrite <- E. unfold set_noexcept.
    change (remove_cvref (LRef a)) with (s_remove_cv a). replace (s_remove_cv a) with (remove_cvref a)
      by (unfold remove_cvref; destruct a; try discriminate Na; reflexivity).
    apply copy_cvref_l; assumption.
  - destruct (set_noexcept_inner P x a a' Ha (known_r P a Na K) Na) as (E & N1 & C1). rewrite <- E. unfold set_noexcept.
    change (remove_cvref (RRef a)) with (s_remove_cv a). replace (s_remove_cv a) with (remove_cvref a)
      by (unfold remove_cvref; destruct a; try discriminate Na; reflexivity).
    apply copy_cvref_r; assumption.
Qed.

Lemma fn_of_made r c v u t : made r c v u t -> fn_of t = fn_of u.
Proof.
  intros H. inversion H as [? ? ? ? Q | ? ? ? ? R Q | ? ? ? ? R Q]; subst; inversion Q; subst; reflexivity.
Qed.
Lemma fn_set_made x r c v u u' t : made r c v u t -> fn_set x u u' -> exists t', fn_set x t t'.
Proof.
  intros H F. inversion H as [? ? ? ? Q | ? ? ? ? R Q | ? ? ? ? R Q]; subst; inversion Q; subst; inversion F; subst; eexists;
    (constructor; try reflexivity; try (constructor; assumption); try assumption); constructor; assumption.
Qed.
Lemma set_noexcept_other P x t : legal t = true -> (forall t', ~ fn_set x t t') \/ ~ known P t -> set_noexcept P x t = t.
Proof.
  intros L H. destruct (made_exists _ L) as (r & c & v & u & M). destruct (copy_back _ _ _ _ _ M) as [B E].
  unfold set_noexcept. rewrite E. replace (set_noexcept_ P x u) with u; [exact B|]. symmetry.
  assert (K : ~ known P u \/ (forall u', ~ fn_set x u u')).
  { destruct H as [H | H].
    - right. intros u' F. destruct (fn_set_made _ _ _ _ _ _ _ M F) as (t' & F'). exact (H t' F').
    - left. unfold known in *. rewrite (fn_of_made _ _ _ _ _ M) in H. exact H. }
  clear H B E L. destruct u as [c0 v0 b | c0 v0 p | n p | q cc va ne r0 ps | c0 v0 k q cc va ne r0 ps | p | p]; try reflexivity.
  - destruct c0, v0; try reflexivity. destruct p as [| | | q cc va ne r0 ps | | |]; try reflexivity. cbn [set_noexcept_].
    destruct (fq_plain q) eqn:Pq; [|reflexivity]. destruct va; [reflexivity|]. cbn [negb andb].
    destruct (Bool.eqb ne x); [reflexivity|]. cbn [negb andb].
    destruct (has (p_ccs P) cc) eqn:Hc; [|reflexivity]. exfalso. apply has_in in Hc. destruct K as [K | K].
    + apply K. cbn. auto.
    + apply (K (Ptr false false (Fun q cc false x r0 ps))). constructor. rewrite can_ref_plain. exact Pq.
  - cbn [set_noexcept_]. destruct (fq_plain q) eqn:Pq; [|reflexivity]. destruct va; [reflexivity|]. cbn [negb andb].
    destruct (Bool.eqb ne x); [reflexivity|]. cbn [negb andb].
    destruct (has (p_ccs P) cc) eqn:Hc; [|reflexivity]. exfalso. apply has_in in Hc. destruct K as [K | K].
    + apply K. cbn. auto.
    + apply (K (Fun q cc false x r0 ps)). constructor. rewrite can_ref_plain. exact Pq.
  - destruct c0, v0; try reflexivity. cbn [set_noexcept_]. destruct va; [reflexivity|]. cbn [negb andb].
    destruct (Bool.eqb ne x); [reflexivity|]. cbn [negb andb].
    destruct (has (p_mccs P) cc) eqn:Hc; [|reflexivity]. exfalso. apply has_in in Hc. destruct K as [K | K].
    + apply K. cbn. auto.
    + apply (K (Mem false false k q cc false x r0 ps)). constructor.
Qed.

(** Calling conventions. *)
Lemma remove_callconv_inner P t t' : cc_reset t t' -> known P t -> no_ref t = true ->
  remove_callconv P t = t' /\ no_ref (remove_callconv_ P (remove_cvref t)) = true /\ can_ref (remove_callconv_ P (remove_cvref t)) = true.
Proof.
  intros H K N. unfold known in K. unfold remove_callconv.
  inversion H as [cc va ne r ps q C | c v q cc va ne r ps C | c v k q cc va ne r ps | |]; subst; try discriminate N; cbn [fn_of] in K;
    destruct K as [-> K]; apply has_in in K.
  - rewrite can_ref_plain in C. pose proof (plain_eq _ C) as ->.
    change (remove_cvref (Fun ?q ?a ?b ?c ?d ?e)) with (Fun q a b c d e). cbn [remove_callconv_]. rewrite K. cbn. auto.
  - rewrite can_ref_plain in C. pose proof (plain_eq _ C) as ->.
    change (remove_cvref (Ptr c v ?a)) with (Ptr false false a). cbn [remove_callconv_]. rewrite K.
    destruct c, v; cbn; auto.
  - change (remove_cvref (Mem c v ?a ?b ?d ?e ?f ?g ?h)) with (Mem false false a b d e f g h). cbn [remove_callconv_]. rewrite K.
    destruct c, v; cbn; auto.
Qed.
Lemma remove_callconv_ok P t t' : cc_reset t t' -> known P t -> remove_callconv P t = t'.
Proof.
  intros H K. destruct (no_ref t) eqn:N; [exact (proj1 (remove_callconv_inner P t t' H K N))|].
  inversion H as [| | |a a' Ha Na|a a' Ha Na]; subst; try discriminate N.
  - destruct (remove_callconv_inner P a a' Ha (known_l P a Na K) Na) as (E & N1 & C1). rewrite <- E. unfold remove_callconv.
    change (remove_cvref (LRef a)) with (s_remove_cv a). replace (s_remove_cv a) with (remove_cvref a)
      by (unfold remove_cvref; destruct a; try discriminate Na; reflexivity).
    apply copy_cvref_l; assumption.
  - destruct (remove_callconv_inner P a a' Ha (known_r P a Na K) Na) as (E & N1 & C1). rewrite <- E. unfold remove_callconv.
    change (remove_cvref (RRef a)) with (s_remove_cv a). replace (s_remove_cv a) with (remove_cvref a)
      by (unfold remove_cvref; destruct a; try discriminate Na; reflexivity).
    apply copy_cvref_r; assumption.
Qed.
Lemma remove_callconv_object P t : no_ref t = true -> (forall c v p, t <> Ptr c v p) -> fn_of t = None -> remove_callconv P t = t.
Proof.
  intros N NP F. destruct (qual_exists _ N) as (c & v & u & Q). destruct (copy_back _ _ _ _ _ (m_none _ _ _ _ Q)) as [B E].
  unfold remove_callconv. rewrite E. replace (remove_callconv_ P u) with u; [exact B|].
  inversion Q; subst; try reflexivity; try discriminate F. exfalso. exact (NP _ _ _ eq_refl).
Qed.

(** Arity. *)
Definition plainq : fqual := {| fq_c := false; fq_v := false; fq_r := RNone |}.
Lemma remove_noexcept_fun P cc ne r ps : In cc (p_ccs P) ->
  remove_noexcept P (Fun plainq cc false ne r ps) = Fun plainq cc false false r ps.
Proof. intros H. change (remove_noexcept P) with (set_noexcept P false). apply set_noexcept_ok; [constructor; reflexivity | cbn; auto]. Qed.
Lemma remove_callconv_fun P cc ne r ps : In cc (p_ccs P) ->
  remove_callconv P (Fun plainq cc false ne r ps) = Fun plainq 0 false ne r ps.
Proof. intros H. apply remove_callconv_ok; [constructor; reflexivity | cbn; auto]. Qed.
Lemma undecorated_fun P cc ne r ps : In cc (p_ccs P) ->
  remove_callconv P (remove_noexcept P (Fun plainq cc false ne r ps)) = Fun plainq 0 false false r ps.
Proof. intros H. rewrite remove_noexcept_fun by exact H. apply remove_callconv_fun. exact H. Qed.
Lemma undecorated_mem P c v k q cc ne r ps : In cc (p_mccs P) ->
  undecorated P (Mem c v k q cc false ne r ps) = Mem false false k q 0 false false r ps.
Proof.
  intros H. unfold undecorated. change (s_remove_pointer (remove_cvref (Mem c v ?a ?b ?d ?e ?f ?g ?h))) with (Mem false false a b d e f g h).
  assert (E : remove_noexcept P (Mem false false k q cc false ne r ps) = Mem false false k q cc false false r ps)
    by (change (remove_noexcept P) with (set_noexcept P false); apply set_noexcept_ok; [constructor | cbn; auto]).
  rewrite E. apply remove_callconv_ok; [constructor | cbn; auto].
Qed.
Lemma undecorated_class P c v k : undecorated P (Obj c v (OClass k)) = Obj false false (OClass k).
Proof. reflexivity. Qed.
Lemma undecorated_l P t : no_ref t = true -> undecorated P (LRef t) = undecorated P t.
Proof. intros N. unfold undecorated, remove_cvref. destruct t; try discriminate N; reflexivity. Qed.
Lemma undecorated_r P t : no_ref t = true -> undecorated P (RRef t) = undecorated P t.
Proof. intros N. unfold undecorated, remove_cvref. destruct t; try discriminate N; reflexivity. Qed.
Lemma arity_fun P k r ps : arity_ P (S k) (Fun plainq 0 false false r ps) = Some (length ps).
Proof. reflexivity. Qed.
Lemma arity_mem P k c q r ps : arity_ P (S k) (Mem false false c q 0 false false r ps) = Some (length ps).
Proof. reflexivity. Qed.

Lemma arity_inner P t m cc ps : plat_ok P -> calls P t m cc false ps -> no_ref t = true ->
  In cc (if m then p_mccs P else p_ccs P) -> arity P t = Some (length ps).
Proof.
  intros OK H N K. unfold arity.
  inversion H as [q cc0 va ne r ps0 C | c v q cc0 va ne r ps0 C | c v k q cc0 va ne r ps0 | c v k k' q cc0 va ne r ps0 E
                 | c v k q cc0 va ne r ps0 E1 E2 C | |]; subst; try discriminate N.
  - rewrite can_ref_plain in C. pose proof (plain_eq _ C) as ->. unfold undecorated.
    change (s_remove_pointer (remove_cvref (Fun ?q ?a ?b ?c ?d ?e))) with (Fun q a b c d e). fold plainq.
    rewrite undecorated_fun by exact K. apply arity_fun.
  - rewrite can_ref_plain in C. pose proof (plain_eq _ C) as ->. unfold undecorated.
    change (s_remove_pointer (remove_cvref (Ptr c v ?a))) with a. fold plainq.
    rewrite undecorated_fun by exact K. apply arity_fun.
  - rewrite undecorated_mem by exact K. apply arity_mem.
  - rewrite undecorated_class. cbn [arity_ call_operator]. rewrite E. rewrite undecorated_mem by exact K. reflexivity.
  - rewrite undecorated_class. cbn [arity_ call_operator]. rewrite E1. cbn [unary_plus]. rewrite E2.
    rewrite can_ref_plain in C. pose proof (plain_eq _ C) as ->. unfold undecorated.
    change (s_remove_pointer (remove_cvref (Ptr false false ?a))) with a. fold plainq.
    rewrite undecorated_fun by exact K. reflexivity.
Qed.
Lemma arity_ok P t m cc ps : plat_ok P -> calls P t m cc false ps -> In cc (if m then p_mccs P else p_ccs P) -> arity P t = Some (length ps).
Proof.
  intros OK H K. destruct (no_ref t) eqn:N; [exact (arity_inner P t m cc ps OK H N K)|].
  inversion H as [| | | | | a m0 cc0 va ps0 Ha Na | a m0 cc0 va ps0 Ha Na]; subst; try discriminate N.
  - unfold arity. rewrite undecorated_l by exact Na. exact (arity_inner P a m cc ps OK Ha Na K).
  - unfold arity. rewrite undecorated_r by exact Na. exact (arity_inner P a m cc ps OK Ha Na K).
Qed.

(** An ellipsis. *)
Lemma undecorated_va_fun P c v cc ne r ps :
  undecorated P (Ptr c v (Fun plainq cc true ne r ps)) = Fun plainq cc true ne r ps /\
  undecorated P (Fun plainq cc true ne r ps) = Fun plainq cc true ne r ps.
Proof. split; reflexivity. Qed.
Lemma arity_va_fun P cc ne r ps k : arity_ P k (Fun plainq cc true ne r ps) = None.
Proof.
  induction k as [|k IH]; [reflexivity|]. cbn [arity_ call_operator].
  replace (unary_plus P (Fun plainq cc true ne r ps)) with (Some (Ptr false false (Fun plainq cc true ne r ps))) by reflexivity.
  rewrite (proj1 (undecorated_va_fun P false false cc ne r ps)). rewrite IH. destruct cc; reflexivity.
Qed.
Lemma undecorated_va_mem P c v k q cc ne r ps : undecorated P (Mem c v k q cc true ne r ps) = Mem false false k q cc true ne r ps.
Proof. reflexivity. Qed.
Lemma arity_va_mem P n k q cc ne r ps : arity_ P (S n) (Mem false false k q cc true ne r ps) = Some 0%nat.
Proof. cbn [arity_ call_operator unary_plus]. destruct cc; reflexivity. Qed.
Lemma arity_va_inner P t m cc ps : calls P t m cc true ps -> no_ref t = true -> forall k,
  arity_ P (S (S k)) (undecorated P t) = if m then Some 0%nat else None.
Proof.
  intros H N n.
  inversion H as [q cc0 va ne r ps0 C | c v q cc0 va ne r ps0 C | c v k q cc0 va ne r ps0 | c v k k' q cc0 va ne r ps0 E
                 | c v k q cc0 va ne r ps0 E1 E2 C | |]; subst; try discriminate N.
  - rewrite can_ref_plain in C. pose proof (plain_eq _ C) as ->. fold plainq.
    rewrite (proj2 (undecorated_va_fun P false false cc ne r ps)). apply arity_va_fun.
  - rewrite can_ref_plain in C. pose proof (plain_eq _ C) as ->. fold plainq.
    rewrite (proj1 (undecorated_va_fun P c v cc ne r ps)). apply arity_va_fun.
  - rewrite undecorated_va_mem. apply arity_va_mem.
  - rewrite undecorated_class. cbn [arity_ call_operator]. rewrite E, undecorated_va_mem.
    exact (arity_va_mem P n k' q cc ne r ps).
  - rewrite undecorated_class. cbn [arity_ call_operator]. rewrite E1. cbn [unary_plus]. rewrite E2.
    rewrite can_ref_plain in C. pose proof (plain_eq _ C) as ->. fold plainq.
    rewrite (proj1 (undecorated_va_fun P false false cc ne r ps)). exact (arity_va_fun P cc ne r ps (S n)).
Qed.
Lemma arity_va P t m cc ps : calls P t m cc true ps -> forall k,
  arity_ P (S (S k)) (undecorated P t) = if m then Some 0%nat else None.
Proof.
  intros H k. destruct (no_ref t) eqn:N; [exact (arity_va_inner P t m cc ps H N k)|].
  inversion H as [| | | | | a m0 cc0 va ps0 Ha Na | a m0 cc0 va ps0 Ha Na]; subst; try discriminate N.
  - rewrite undecorated_l by exact Na. exact (arity_va_inner P a m cc ps Ha Na k).
  - rewrite undecorated_r by exact Na. exact (arity_va_inner P a m cc ps Ha Na k).
Qed.

(* ------------------------------------------------------------------ parameters *)

Lemma readonly_ok ptr ci r c v u t : made r c v u t ->
  readonly_param ptr ci t = (if by_value ptr ci u then u else readonly_param ptr ci t) /\
  (by_value ptr ci u = false -> made (if can_ref u then RL else RNone) (cvable u) v u (readonly_param ptr ci t)).
Proof.
  intros H. assert (Q := made_inner _ _ _ _ _ H). unfold readonly_param.
  assert (E : by_value ptr ci (s_remove_reference t) = by_value ptr ci u) by (inversion Q; reflexivity).
  rewrite E. split.
  - destruct (by_value ptr ci u); [|reflexivity]. assert (M := made_remove_cvref _ _ _ _ _ H). unfold remove_cvref in M.
    exact (made_det _ _ _ _ _ _ M (bare_made _ _ _ _ _ H)).
  - intros B. rewrite B. apply (qual_set_c true) in Q. cbn [andb] in Q. unfold s_add_const.
    rewrite (qual_add_lref _ _ _ _ Q). destruct (can_ref u) eqn:R; constructor; assumption.
Qed.
Lemma pass_reference ptr ci l : pass_readonly_by_reference ptr ci l = true.
Proof.
  unfold pass_readonly_by_reference. induction l as [|t l IH]; [reflexivity|]. cbn [fold_left orb]. exact IH.
Qed.
