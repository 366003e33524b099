(** C168: distances between iterators, and for_each over iterators and arrays. *)
From Verif Require Import Words CoreModel BatchModel BatchSpec BatchProps IterModel.
Local Open Scope Z_scope.

(** The place of the k-th element *)
Definition place_of (base stride : Z) (k : nat) : Z := base + Z.of_nat k * stride.
(** Every element from the i-th up to but not including the j-th once, and nothing else. *)
Definition elements_once (l : list Z) (base stride : Z) (i j : nat) : Prop := NoDup l /\ forall x, In x l <-> exists k, (i <= k < j)%nat /\ x = place_of base stride k.

Lemma place_eq r k m : 0 < r_stride r -> (place_of (r_base r) (r_stride r) k =? place_of (r_base r) (r_stride r) m) = (k =? m)%nat.
Proof.
  intros S. unfold place_of. destruct (Nat.eqb_spec k m) as [->|N]; [apply Z.eqb_refl|]. apply Z.eqb_neq. intros H. assert (Z.of_nat k = Z.of_nat m) by (apply (Z.mul_reg_r _ _ (r_stride r)); lia). lia.
Qed.
Lemma place_lt r k m : 0 < r_stride r -> (place_of (r_base r) (r_stride r) k <? place_of (r_base r) (r_stride r) m) = (k <? m)%nat.
Proof.
  intros S. unfold place_of. destruct (Nat.ltb_spec k m); [apply Z.ltb_lt|apply Z.ltb_ge]; nia.
Qed.
Lemma place_le r k m : 0 < r_stride r -> (place_of (r_base r) (r_stride r) k <=? place_of (r_base r) (r_stride r) m) = (k <=? m)%nat.
Proof.
  intros S. unfold place_of. destruct (Nat.leb_spec k m); [apply Z.leb_le|apply Z.leb_gt]; nia.
Qed.
Lemma place_minus r k m : 0 < r_stride r -> (place_of (r_base r) (r_stride r) m - place_of (r_base r) (r_stride r) k) / r_stride r = Z.of_nat m - Z.of_nat k.
Proof. intros S. unfold place_of. replace (_ - _) with ((Z.of_nat m - Z.of_nat k) * r_stride r) by ring. apply Z.div_mul. lia. Qed.
Lemma past_place r : past_end r = place_of (r_base r) (r_stride r) (r_len r).
Proof. unfold past_end, place_of. ring. Qed.
Lemma steps_forward r : 0 < r_stride r -> forall fuel i j, (i <= j <= i + fuel)%nat -> steps r fuel (place_of (r_base r) (r_stride r) i) (place_of (r_base r) (r_stride r) j) = Some (Z.of_nat j - Z.of_nat i).
Proof.
  intros S. induction fuel as [|fuel IH]; intros i j H; cbn [steps]; rewrite place_eq by exact S; destruct (Nat.eqb_spec i j) as [->|N]; try (f_equal; lia); try (exfalso; lia).
  replace (place_of (r_base r) (r_stride r) i + r_stride r) with (place_of (r_base r) (r_stride r) (Datatypes.S i)) by (unfold place_of; lia). rewrite IH by lia. f_equal. lia.
Qed.
Lemma steps_backward r : 0 < r_stride r -> forall fuel i j, (j < i)%nat -> steps r fuel (place_of (r_base r) (r_stride r) i) (place_of (r_base r) (r_stride r) j) = None.
Proof.
  intros S. induction fuel as [|fuel IH]; intros i j H; cbn [steps]; rewrite place_eq by exact S; destruct (Nat.eqb_spec i j) as [->|N]; try (exfalso; lia); try reflexivity.
  replace (place_of (r_base r) (r_stride r) i + r_stride r) with (place_of (r_base r) (r_stride r) (Datatypes.S i)) by (unfold place_of; lia). rewrite IH by lia. reflexivity.
Qed.

(** The distance is the number of steps from one iterator to the other, whatever the type of the iterators offers. *)
Theorem C168_distance : forall f r i j, 0 < r_stride r -> (i <= j <= r_len r)%nat ->
  iterator_distance f r (place_of (r_base r) (r_stride r) i) (place_of (r_base r) (r_stride r) j) = Some (Z.of_nat (j - i)).
Proof.
  intros f r i j S H. unfold iterator_distance, std_distance. rewrite past_place, !place_minus by exact S. replace (Z.of_nat (j - i)) with (Z.of_nat j - Z.of_nat i) by lia. destruct (f_minus f); [reflexivity|]. destruct (f_random f); [reflexivity|].
  apply steps_forward; [exact S|]. lia.
Qed.
(** Backwards it is the negative number of steps, or undefined if the type offers neither a difference nor random access. *)
Theorem C168_backwards : forall f r i j, 0 < r_stride r -> (j < i)%nat ->
  iterator_distance f r (place_of (r_base r) (r_stride r) i) (place_of (r_base r) (r_stride r) j) = if f_minus f || f_random f then Some (- Z.of_nat (i - j)) else None.
Proof.
  intros f r i j S H. unfold iterator_distance, std_distance. rewrite !place_minus by exact S. replace (- Z.of_nat (i - j)) with (Z.of_nat j - Z.of_nat i) by lia. destruct (f_minus f); [reflexivity|]. destruct (f_random f); [reflexivity|]. cbn [orb]. now apply steps_backward.
Qed.

Definition visited_elements (r : range) (b : Z) (bs : list (Z * Z * Z)) : list Z := concat (map (fun x => match run_elements r b x with Some l => l | None => [] end) bs).
(** for_each passes every element of the range to the task exactly once, on no more workers than there are. *)
Theorem C168_for_each : forall sw W f r i j, 0 < sw -> 1 <= W -> 0 < r_stride r -> (i < j <= r_len r)%nat -> Z.of_nat (j - i) < 2 ^ sw ->
  exists bs, for_each_iterators sw W f r (place_of (r_base r) (r_stride r) i) (place_of (r_base r) (r_stride r) j) = Some bs /\
    Forall (fun x => run_elements r (place_of (r_base r) (r_stride r) i) x <> None) bs /\
    elements_once (visited_elements r (place_of (r_base r) (r_stride r) i) bs) (r_base r) (r_stride r) i j /\
    forall k, In k (batch_indices bs) -> 0 <= k < W.
Proof.
  intros sw W f r i j Hs HW S H B. destruct (C50_each_element_once sw W (Z.of_nat (j - i)) Hs HW ltac:(lia)) as (bs & E & [ND V] & NN & _ & _ & _ & IX). exists bs. split.
  - unfold for_each_iterators. rewrite place_le, place_lt, place_eq by exact S. replace (j <=? i)%nat with false by (symmetry; apply Nat.leb_gt; lia). replace (j <? i)%nat with false by (symmetry; apply Nat.ltb_ge; lia). replace (i =? j)%nat with false by (symmetry; apply Nat.eqb_neq; lia).
    rewrite andb_false_r. cbn [orb]. replace (if f_le f then false else false) with false by now destruct (f_le f). rewrite C168_distance by (try exact S; lia). replace (Z.of_nat (j - i) <=? 0) with false by (symmetry; apply Z.leb_gt; lia). exact E.
  - split; [|split].
    + eapply Forall_impl; [|exact NN]. cbn. intros x N. unfold run_elements. destruct (run_batch_it x); [discriminate|contradiction].
    + assert (Q : visited_elements r (place_of (r_base r) (r_stride r) i) bs = map (fun k => place_of (r_base r) (r_stride r) i + r_stride r * k) (concat (map (fun b => match run_batch_it b with Some l => l | None => [] end) bs))).
      { unfold visited_elements. rewrite concat_map, map_map. f_equal. apply map_ext. intros x. unfold run_elements. now destruct (run_batch_it x). }
      rewrite Q. split.
      * apply FinFun.Injective_map_NoDup; [|exact ND]. intros x y Hxy. nia.
      * intros x. rewrite in_map_iff. split.
        -- intros (k & <- & K). apply V in K. exists (i + Z.to_nat k)%nat. split; [lia|]. unfold place_of. nia.
        -- intros (k & K & ->). exists (Z.of_nat (k - i)). split; [unfold place_of; nia|]. apply V. lia.
    + intros k K. apply IX in K. lia.
Qed.
(** Nothing happens for a range that is empty, or the wrong way round provided that the type of the iterators lets one find out. *)
Theorem C168_nothing : forall sw W f r i j, 0 < r_stride r -> (j <= i)%nat -> (i = j \/ f_le f || f_lt f || f_minus f || f_random f = true) ->
  for_each_iterators sw W f r (place_of (r_base r) (r_stride r) i) (place_of (r_base r) (r_stride r) j) = Some [].
Proof.
  intros sw W f r i j S H C. unfold for_each_iterators. rewrite place_le, place_lt, place_eq by exact S. replace (j <=? i)%nat with true by (symmetry; now apply Nat.leb_le). destruct (f_le f) eqn:L; [reflexivity|].
  destruct (Nat.eqb_spec i j) as [->|N]; [rewrite orb_true_r; reflexivity|]. destruct C as [C|C]; [contradiction|]. replace (j <? i)%nat with true by (symmetry; apply Nat.ltb_lt; lia). destruct (f_lt f) eqn:T; [reflexivity|]. cbn [andb orb] in *.
  rewrite C168_backwards by (try exact S; lia). rewrite C. replace (- Z.of_nat (i - j) <=? 0) with true by (symmetry; apply Z.leb_le; lia). reflexivity.
Qed.
(** With iterators of a list there is no finding out: the range the wrong way round is undefined behaviour. *)
Theorem C168_list_backwards_refuted : forall sw W r i j, 0 < r_stride r -> (j < i)%nat ->
  for_each_iterators sw W {| f_le := false; f_lt := false; f_minus := false; f_random := false |} r (place_of (r_base r) (r_stride r) i) (place_of (r_base r) (r_stride r) j) = None.
Proof.
  intros sw W r i j S H. unfold for_each_iterators. rewrite place_eq by exact S. cbn [f_le f_lt andb orb]. destruct (Nat.eqb_spec i j); [lia|]. rewrite C168_backwards by assumption. reflexivity.
Qed.
Lemma sizeof_pos : forall t, (fix ok t := match t with Other s => 0 < s | Array n t => (0 < n)%nat /\ ok t end) t -> 0 < sizeof t.
Proof. induction t as [s|n t IH]; cbn; [auto|]. intros [N O]. apply IH in O. nia. Qed.
(** Types of C++ have at least one byte, and arrays at least one element. *)
Fixpoint complete (t : cxx) : Prop := match t with Other s => 0 < s | Array n t => (0 < n)%nat /\ complete t end.
(** begin_iterator and end_iterator of an array are one array length apart; going through it passes the subobjects of an array of any
    number of dimensions, each once. *)
Theorem C168_array_end : forall a n t, complete t -> array_begin a = place_of a (sizeof t) 0 /\ array_end a (Array n t) = Some (place_of a (sizeof t) n).
Proof.
  intros a n t C. apply sizeof_pos in C. unfold array_begin, array_end, place_of. cbn [sizeof]. rewrite Z.div_mul by lia. split; [cbn; lia|reflexivity].
Qed.
Theorem C168_array : forall sw W a n t, 0 < sw -> 1 <= W -> complete (Array n t) -> Z.of_nat n < 2 ^ sw ->
  exists bs, for_each_array sw W a n t = Some bs /\ elements_once (visited_elements {| r_base := a; r_stride := sizeof t; r_len := n |} a bs) a (sizeof t) 0 n.
Proof.
  intros sw W a n t Hs HW [N C] B. unfold for_each_array. destruct (C168_array_end a n t C) as [E1 E2]. rewrite E1, E2. apply sizeof_pos in C.
  destruct (C168_for_each sw W pointer_features {| r_base := a; r_stride := sizeof t; r_len := n |} 0 n Hs HW C ltac:(cbn; lia) ltac:(replace (n - 0)%nat with n by lia; exact B)) as (bs & E & _ & V & _).
  cbn [r_base r_stride] in *. exists bs. split; [exact E|]. rewrite <- E1 in V. unfold array_begin in V. exact V.
Qed.

Example C168_complete : complete (Array 2 (Array 3 (Other 4))) /\ array_end 100 (Array 2 (Array 3 (Other 4))) = Some 124.
Proof. cbn. repeat split; lia. Qed.
Example C168_distance_case : iterator_distance {| f_le := false; f_lt := false; f_minus := false; f_random := false |} {| r_base := 0; r_stride := 1; r_len := 5 |} 1 4 = Some 3.
Proof. reflexivity. Qed.
Example C168_for_each_case : for_each_array 64 2 100 3 (Other 8) = Some [(0, 0, 2); (1, 2, 3)] /\
  visited_elements {| r_base := 100; r_stride := 8; r_len := 3 |} 100 [(0, 0, 2); (1, 2, 3)] = [100; 108; 116].
Proof. split; vm_compute; reflexivity. Qed.

Print Assumptions C168_distance.
Print Assumptions C168_backwards.
Print Assumptions C168_for_each.
Print Assumptions C168_nothing.
Print Assumptions C168_list_backwards_refuted.
Print Assumptions C168_array_end.
Print Assumptions C168_array.
