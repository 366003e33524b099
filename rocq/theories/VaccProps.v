(** Property C172. *)
From Coq Require Import Lia ZifyBool ZifyNat.
From Verif Require Import Words WordsProofs CoreModel AccumModel AccumSpec AccumProofs AccumProps VaccModel.
Local Open Scope Z_scope.
Ltac Zify.zify_post_hook ::= idtac.

(** The [i]th components of some vectors. *)
Definition column (l : list (list Z)) (i : nat) : list Z := map (fun s => nth i s 0) l.
(** What the accumulator says of each component. *)
Definition vdescribes (t : ity) (dims : nat) (a : vaccum) (l : list (list Z)) : Prop :=
  v_count a = Z.of_nat (length l) /\ length (vmin dims a) = dims /\ length (vmax dims a) = dims /\ length (vsum dims a) = dims /\
  forall i, (i < dims)%nat -> (l <> [] -> least (nth i (vmin dims a) 0) (column l i) /\ greatest (nth i (vmax dims a) 0) (column l i)) /\
    nth i (vsum dims a) 0 = (if isigned t then total (column l i) else total (column l i) mod 2 ^ ibits t).

Section Vaccum.
  Variables (sw : Z) (vt : ity) (dims : nat).
  Definition recount (n : Z) (a : accum) : accum := {| a_min := a_min a; a_max := a_max a; a_sum := a_sum a; a_count := n |}.
  Lemma each_part f l : each f l = None \/ exists r, each f l = Some r /\ length r = length l /\ forall i, (i < length l)%nat -> f (nth i l O) = Some (part r i).
  Proof.
    induction l as [|j l IH]; cbn [each]; [right; exists []; split; [reflexivity|split; [reflexivity|intros i H; cbn in H; lia]]|].
    destruct (f j) as [a|] eqn:E; [|left; reflexivity]. cbn [option_bind]. destruct IH as [-> |(r & -> & L & P)]; [left; reflexivity|]. right. exists (a :: r). split; [reflexivity|]. split; [cbn [length]; lia|].
    intros [|i] H; [exact E|]. cbn [length] in H. cbn [nth]. rewrite P by lia. reflexivity.
  Qed.
  Lemma each_some f l : (forall i, In i l -> f i <> None) -> each f l <> None.
  Proof.
    induction l as [|j l IH]; intros H; cbn [each]; [discriminate|]. destruct (f j) as [a|] eqn:E; [|exfalso; apply (H j); [left; reflexivity|exact E]]. cbn [option_bind].
    destruct (each f l) eqn:E'; [discriminate|]. exfalso. apply IH; [intros i I; apply H; right; exact I|reflexivity].
  Qed.
  Lemma impl_add_recount a x n : impl_add vt (recount n a) x = (b <- impl_add vt a x ;; Some (recount n b)).
  Proof. unfold impl_add. cbn [recount a_sum a_min a_max a_count]. destruct (sum_add vt (a_sum a) (conv (sum_ity vt) x)); reflexivity. Qed.
  Lemma part_map f i : (i < dims)%nat -> part (map f (seq 0 dims)) i = f i.
  Proof. intros H. unfold part. rewrite (nth_indep _ accum_empty (f O)) by (rewrite map_length, seq_length; exact H). rewrite map_nth, seq_nth by exact H. reflexivity. Qed.
  (** One sample: every component moves as an accumulator of scalars does. *)
  Lemma step a s : (forall i, (i < dims)%nat -> accum_add sw vt (recount (v_count a) (part (v_parts a) i)) (elem s i) <> None) ->
    exists a', vaccum_add sw vt dims a s = Some a' /\ forall i, (i < dims)%nat -> accum_add sw vt (recount (v_count a) (part (v_parts a) i)) (elem s i) = Some (recount (v_count a') (part (v_parts a') i)).
  Proof.
    intros H. unfold vaccum_add, accum_add in *. cbn [recount a_count] in *. destruct (v_count a =? 0).
    - eexists. split; [reflexivity|]. intros i I. cbn [v_parts v_count]. unfold vimpl_start. rewrite part_map by exact I. reflexivity.
    - assert (K : forall p n, with_count sw (recount (v_count a) p) n = recount (n mod 2 ^ sw) p) by reflexivity.
      destruct (each_part (fun i => impl_add vt (part (v_parts a) i) (elem s i)) (seq 0 dims)) as [N|(r & R & L & P)].
      + exfalso. refine (each_some _ _ _ N). intros i I B. apply in_seq in I. apply (H i); [lia|]. rewrite K, impl_add_recount, B. reflexivity.
      + rewrite seq_length in P. unfold vimpl_add. rewrite R. cbn [option_bind]. eexists. split; [reflexivity|]. intros i I. cbn [v_parts v_count]. rewrite K, impl_add_recount. specialize (P i I). rewrite seq_nth in P by exact I. cbn [plus] in P. rewrite P. reflexivity.
  Qed.
  Lemma steps l : forall a, (forall i, (i < dims)%nat -> accum_add_all sw vt (recount (v_count a) (part (v_parts a) i)) (column l i) <> None) ->
    exists a', vaccum_add_all sw vt dims a l = Some a' /\ forall i, (i < dims)%nat -> accum_add_all sw vt (recount (v_count a) (part (v_parts a) i)) (column l i) = Some (recount (v_count a') (part (v_parts a') i)).
  Proof.
    induction l as [|s l IH]; intros a H; cbn [vaccum_add_all column map accum_add_all] in *.
    - exists a. split; [reflexivity|]. intros i I. reflexivity.
    - destruct (step a s) as (b & B & P).
      { intros i I E. apply (H i I). unfold elem in E. rewrite E. reflexivity. }
      rewrite B. cbn [option_bind]. destruct (IH b) as (a' & A' & Q).
      { intros i I E. apply (H i I). unfold elem in P. rewrite (P i I). cbn [option_bind]. exact E. }
      exists a'. split; [exact A'|]. intros i I. unfold elem in P. rewrite (P i I). cbn [option_bind]. exact (Q i I).
  Qed.
  Lemma steps_count l : forall a a', 0 <= v_count a -> v_count a + Z.of_nat (length l) < 2 ^ sw -> vaccum_add_all sw vt dims a l = Some a' -> v_count a' = v_count a + Z.of_nat (length l).
  Proof.
    induction l as [|s l IH]; intros a a' P B H; cbn [vaccum_add_all length] in *; [injection H as <-; lia|].
    destruct (vaccum_add sw vt dims a s) as [b|] eqn:E; [|discriminate]. cbn [option_bind] in H.
    assert (C : v_count b = v_count a + 1).
    { unfold vaccum_add in E. assert (M : (v_count a + 1) mod 2 ^ sw = v_count a + 1) by (apply Z.mod_small; lia). destruct (v_count a =? 0); [injection E as <-; exact M|]. destruct (vimpl_add vt dims (v_parts a) s); [|discriminate]. cbn [option_bind] in E. injection E as <-. exact M. }
    rewrite (IH b a') by (try exact H; lia). lia.
  Qed.
End Vaccum.

(** Count, and minimum, maximum and sum of every component, of any list of sample vectors of any dimension. *)
Theorem C172_samples : forall sw vt dims l, 1 <= ibits vt -> 1 <= sw -> (forall i, (i < dims)%nat -> Forall (in_ity vt) (column l i)) -> Z.of_nat (length l) < 2 ^ sw ->
  (isigned vt = true -> forall i, (i < dims)%nat -> sums_fit (sum_ity vt) (column l i)) ->
  exists a, vaccum_add_all sw vt dims (vaccum_empty dims) l = Some a /\ vdescribes (sum_ity vt) dims a l.
Proof.
  intros sw vt dims l Hb Hs F L Fit.
  assert (S : forall i, (i < dims)%nat -> exists b, accum_add_all sw vt accum_empty (column l i) = Some b /\ describes (sum_ity vt) b (column l i)).
  { intros i I. apply C44_samples_partial; [exact Hb|exact Hs|exact (F i I)|unfold column; rewrite map_length; exact L|intros G; exact (Fit G i I)]. }
  assert (E0 : forall i, (i < dims)%nat -> recount (v_count (vaccum_empty dims)) (part (v_parts (vaccum_empty dims)) i) = accum_empty).
  { intros i I. cbn [vaccum_empty v_parts v_count]. unfold part. rewrite nth_repeat. reflexivity. }
  destruct (steps sw vt dims l (vaccum_empty dims)) as (a & A & P).
  { intros i I. rewrite (E0 i I). destruct (S i I) as (b & -> & _). discriminate. }
  exists a. split; [exact A|]. pose proof (steps_count sw vt dims l (vaccum_empty dims) a ltac:(cbn; lia) ltac:(cbn; lia) A) as C. cbn [vaccum_empty v_count] in C.
  split; [lia|]. split; [|split; [|split]]; [unfold vmin|unfold vmax|unfold vsum|]; try (rewrite map_length; apply seq_length).
  intros i I. destruct (S i I) as (b & B & D). specialize (P i I). rewrite (E0 i I), B in P. injection P as ->. destruct D as (_ & D1 & D2). cbn [recount a_min a_max a_sum] in D1, D2.
  assert (G : forall f : nat -> Z, nth i (map f (seq 0 dims)) 0 = f i). { intros f. rewrite (nth_indep _ 0 (f O)) by (rewrite map_length, seq_length; exact I). rewrite map_nth, seq_nth by exact I. reflexivity. }
  unfold vmin, vmax, vsum. rewrite !G. split; [intros N; apply D1; unfold column; destruct l; [contradiction|discriminate]|]. destruct (isigned (sum_ity vt)); exact D2.
Qed.
Print Assumptions C172_samples.
(** Adding an accumulator without samples changes nothing that can be seen. *)
Theorem C172_merge_empty : forall sw vt dims a l o, vaccum_add_all sw vt dims (vaccum_empty dims) l = Some a -> v_count o = 0 ->
  exists r, vaccum_merge sw vt dims a o = Some r /\ v_count r = v_count a /\ vmin dims r = vmin dims a /\ vmax dims r = vmax dims a /\ vsum dims r = vsum dims a /\
    forall t, vdescribes t dims a l -> vdescribes t dims r l.
Proof. intros sw vt dims a l o A E. unfold vaccum_merge. rewrite E. exists a. do 5 (split; [reflexivity|]). intros t D. exact D. Qed.
Print Assumptions C172_merge_empty.
(** Adding one accumulator to another one, both with samples: all of the samples of the first are lost. *)
Theorem C172_merge_refuted : forall sw vt dims a o, v_count a <> 0 -> v_count o <> 0 ->
  exists r, vaccum_merge sw vt dims a o = Some r /\ v_count r = v_count o /\ vmin dims r = vmin dims o /\ vmax dims r = vmax dims o /\ vsum dims r = vsum dims o.
Proof.
  intros sw vt dims a o A O. unfold vaccum_merge. rewrite (proj2 (Z.eqb_neq (v_count o) 0) O), (proj2 (Z.eqb_neq (v_count a) 0) A). eexists. split; [reflexivity|]. repeat split.
Qed.
Print Assumptions C172_merge_refuted.
(** Adding one with samples to an empty one: the count and the sums are those of the other, but a zero that was never a sample goes into the minima and maxima. *)
Theorem C172_merge_into_empty_refuted : forall sw vt dims l o, 1 <= ibits vt -> 1 <= sw -> l <> [] -> Z.of_nat (length l) < 2 ^ sw ->
  (isigned vt = true -> forall i, (i < dims)%nat -> in_ity (sum_ity vt) (total (column l i))) -> vdescribes (sum_ity vt) dims o l ->
  exists r, vaccum_merge sw vt dims (vaccum_empty dims) o = Some r /\ v_count r = v_count o /\ vsum dims r = vsum dims o /\
    vmin dims r = map (Z.min 0) (vmin dims o) /\ vmax dims r = map (Z.max 0) (vmax dims o).
Proof.
  intros sw vt dims l o Hb Hs NE L Fit (C & _ & _ & _ & D).
  assert (G : forall (f : nat -> Z) i, (i < dims)%nat -> nth i (map f (seq 0 dims)) 0 = f i). { intros f i I. rewrite (nth_indep _ 0 (f O)) by (rewrite map_length, seq_length; exact I). rewrite map_nth, seq_nth by exact I. reflexivity. }
  assert (N0 : v_count o <> 0) by (destruct l; [contradiction|cbn [length] in C; lia]).
  assert (S : forall i, (i < dims)%nat -> exists p, impl_merge vt accum_empty (part (v_parts o) i) = Some p /\ a_sum p = a_sum (part (v_parts o) i) /\
    a_min p = Z.min 0 (a_min (part (v_parts o) i)) /\ a_max p = Z.max 0 (a_max (part (v_parts o) i))).
  { intros i I. set (q := {| a_min := a_min (part (v_parts o) i); a_max := a_max (part (v_parts o) i); a_sum := a_sum (part (v_parts o) i); a_count := v_count o |}).
    destruct (D i I) as (D1 & D2). unfold vmin, vmax, vsum in D1, D2. rewrite !G in D1 by exact I. rewrite G in D2 by exact I.
    assert (Q : describes (sum_ity vt) q (column l i)).
    { split; [unfold column; rewrite map_length; exact C|]. split; [intros _; exact (D1 NE)|]. cbn [q a_sum]. destruct (isigned (sum_ity vt)); exact D2. }
    destruct (C44_merge_into_empty_partial sw vt q (column l i)) as (a & A & _ & A1 & A2 & A3); [exact Hb|exact Hs|unfold column; destruct l; [contradiction|discriminate]|unfold column; rewrite map_length; exact L|intros T; exact (Fit T i I)|exact Q|].
    unfold accum_merge in A. cbn [q a_count accum_empty] in A. rewrite (proj2 (Z.eqb_neq _ _) N0) in A. change (0 =? 0) with true in A. cbv iota in A.
    change (impl_merge vt accum_empty q) with (impl_merge vt accum_empty (part (v_parts o) i)) in A.
    destruct (impl_merge vt accum_empty (part (v_parts o) i)) as [p|]; [|discriminate]. cbn [option_bind] in A. injection A as <-. exists p. split; [reflexivity|]. split; [exact A1|]. split; [exact A2|exact A3]. }
  assert (E0 : forall i, part (v_parts (vaccum_empty dims)) i = accum_empty) by (intros i; cbn [vaccum_empty v_parts]; unfold part; apply nth_repeat).
  unfold vaccum_merge. rewrite (proj2 (Z.eqb_neq _ _) N0). change (v_count (vaccum_empty dims)) with 0. change (0 =? 0) with true. cbv iota. unfold vimpl_merge.
  destruct (each_part (fun i => impl_merge vt (part (v_parts (vaccum_empty dims)) i) (part (v_parts o) i)) (seq 0 dims)) as [N|(r & R & _ & P)].
  { exfalso. refine (each_some _ _ _ N). intros i I B. apply in_seq in I. rewrite E0 in B. destruct (S i ltac:(lia)) as (p & B' & _). rewrite B' in B. discriminate. }
  rewrite R. cbn [option_bind]. eexists. split; [reflexivity|]. cbn [v_count]. split; [apply Z.mod_small; lia|]. rewrite seq_length in P.
  assert (P' : forall i, In i (seq 0 dims) -> a_sum (part r i) = a_sum (part (v_parts o) i) /\ a_min (part r i) = Z.min 0 (a_min (part (v_parts o) i)) /\ a_max (part r i) = Z.max 0 (a_max (part (v_parts o) i))).
  { intros i I. apply in_seq in I. assert (I' : (i < dims)%nat) by lia. specialize (P i I'). rewrite seq_nth in P by exact I'. cbn [plus] in P. rewrite E0 in P. destruct (S i I') as (p & B & T). rewrite B in P. injection P as <-. exact T. }
  unfold vsum, vmin, vmax. cbn [v_parts]. rewrite !map_map. split; [|split]; apply map_ext_in; intros i I; apply (P' i I).
Qed.
Print Assumptions C172_merge_into_empty_refuted.
Example C172_merged : let add := vaccum_add_all 64 {| isigned := true; ibits := 8 |} 2 (vaccum_empty 2) in
  exists o r, add [[3; -5]; [4; -7]] = Some o /\ vaccum_merge 64 {| isigned := true; ibits := 8 |} 2 (vaccum_empty 2) o = Some r /\ vmin 2 o = [3; -7] /\ vmin 2 r = [0; -7] /\ vmax 2 o = [4; -5] /\ vmax 2 r = [4; 0].
Proof. eexists. eexists. split; [vm_compute; reflexivity|]. split; [vm_compute; reflexivity|]. repeat split; reflexivity. Qed.
Example C172_pairs : let l := [[3; -5]; [-1; 7]; [2; 2]] in
  exists a, vaccum_add_all 64 {| isigned := true; ibits := 8 |} 2 (vaccum_empty 2) l = Some a /\ v_count a = 3 /\ vmin 2 a = [-1; -5] /\ vmax 2 a = [3; 7] /\ vsum 2 a = [4; 4].
Proof. eexists. split; [vm_compute; reflexivity|]. repeat split; reflexivity. Qed.
