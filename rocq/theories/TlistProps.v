(** Properties of type lists (C48). *)
From Coq Require Import Lia ZifyBool ZifyNat ZifyN.
From Verif Require Import Words TlistModel TlistSpec TlistProofs.
Local Open Scope nat_scope.

(** In every configuration a slice inside the list is the sublist of that position, one of length zero or that starts at or behind the
    end is empty, and one that starts inside and ends outside does not compile. *)
Theorem C48_slice {A} c (l : list A) start n : good c ->
  (start + n <= length l -> exists m, slice c (fuel_for l) l start n = Ok m /\ part l m start n) /\
  (n = 0 \/ length l <= start -> slice c (fuel_for l) l start n = Ok []) /\
  (start < length l -> 0 < n -> length l < start + n -> slice c (fuel_for l) l start n = Ill).
Proof.
  intros G. rewrite (slice_ok c G) by (unfold fuel_for; lia). unfold sliced. split; [|split].
  - intros H. exists (firstn n (skipn start l)). split; [|apply part_slice; [exact H|reflexivity]].
    destruct ((n =? 0) || (length l <=? start)) eqn:E; [|rewrite (proj2 (Nat.leb_le _ _)) by exact H; reflexivity].
    replace n with 0 by lia. reflexivity.
  - intros H. replace ((n =? 0) || (length l <=? start)) with true by lia. reflexivity.
  - intros H1 H2 H3. replace ((n =? 0) || (length l <=? start)) with false by lia. replace (start + n <=? length l) with false by lia. reflexivity.
Qed.
Print Assumptions C48_slice.

(** There is one such sublist, so all configurations agree. *)
Theorem C48_part_unique {A} (l m m' : list A) start n : part l m start n -> part l m' start n -> m = m'.
Proof.
  intros H H'. assert (B : start + n <= length l) by (destruct H as (a & b & -> & <- & <-); rewrite !app_length; lia).
  apply (part_slice _ _ _ _ B) in H, H'. congruence.
Qed.
Print Assumptions C48_part_unique.
Theorem C48_configurations {A} c c' (l : list A) start n : good c -> good c' -> slice c (fuel_for l) l start n = slice c' (fuel_for l) l start n.
Proof. intros G G'. rewrite (slice_ok c G), (slice_ok c' G') by (unfold fuel_for; lia). reflexivity. Qed.
Print Assumptions C48_configurations.

(** Without a length: the rest of the list. *)
Theorem C48_slice_rest {A} c sw (l : list A) start : good c -> (N.of_nat (length l) < 2 ^ sw)%N -> (start < 2 ^ sw)%N ->
  slice_from c sw (fuel_for l) l start = Ok (skipn (N.to_nat start) l).
Proof.
  intros G H H'. unfold slice_from. rewrite (slice_ok c G) by (unfold fuel_for; lia). unfold sliced.
  destruct (Nat.leb_spec (length l) (N.to_nat start)) as [L|L].
  - rewrite orb_true_r. rewrite skipn_all2 by exact L. reflexivity.
  - replace ((N.of_nat (length l) + 2 ^ sw - start) mod 2 ^ sw)%N with (N.of_nat (length l) - start)%N.
    2: { replace (N.of_nat (length l) + 2 ^ sw - start)%N with ((N.of_nat (length l) - start) + 1 * 2 ^ sw)%N by lia.
         rewrite N.mod_add by lia. symmetry. apply N.mod_small. lia. }
    replace (N.to_nat (N.of_nat (length l) - start) =? 0) with false by lia. cbn [orb].
    replace (N.to_nat start + N.to_nat (N.of_nat (length l) - start) <=? length l) with true by lia.
    rewrite firstn_all2; [reflexivity|]. rewrite skipn_length. lia.
Qed.
Print Assumptions C48_slice_rest.

(** [select] and [type_at_index] give the type at that position, and do not compile outside the list. *)
Theorem C48_select {A} c (l : list A) i : good c ->
  select c (fuel_for l) l i = match nth_error l i with Some t => Ok t | None => Ill end.
Proof. intros G. rewrite (select_ok c G) by (unfold fuel_for; lia). reflexivity. Qed.
Print Assumptions C48_select.
Theorem C48_type_at_index {A} (l : list A) : forall i, type_at_index i l = match nth_error l i with Some t => Ok t | None => Ill end.
Proof. induction l as [|a l IH]; intros [|i]; cbn; try reflexivity. apply IH. Qed.
Print Assumptions C48_type_at_index.

Theorem C48_concatenate {A} (ls : list (list A)) : concatenate ls = concat ls.
Proof. apply concatenate_ok. Qed.
Print Assumptions C48_concatenate.

(** Flattening hoists nested lists until there are none left; the order in which they are hoisted makes no difference. *)
Theorem C48_flatten l m : (hoists l m /\ Forall (fun t => ~ nested t) m) <-> m = flatten l.
Proof.
  split; [intros [H F]; exact (hoists_unique l m H F)|]. intros ->. split; [apply hoists_flatten|apply flatten_flat].
Qed.
Print Assumptions C48_flatten.

(** Removing leaves the other types, in their order. *)
Theorem C48_remove r a b t : remove r [] = [] /\ remove r (a ++ b) = remove r a ++ remove r b /\ remove r [r] = [] /\ (t <> r -> remove r [t] = [t]) /\
  ~ In r (remove r a) /\ (t <> r -> In t (remove r a) <-> In t a).
Proof.
  assert (S' : same r r = true) by (apply same_iff; reflexivity).
  assert (D : t <> r -> same r t = false) by (intros N; destruct (same r t) eqn:E; [apply same_iff in E; congruence|reflexivity]).
  rewrite !remove_ok. split; [reflexivity|]. split; [apply filter_app|]. split; [cbn; rewrite S'; reflexivity|].
  split; [intros N; cbn; rewrite (D N); reflexivity|]. split.
  - intros H. apply filter_In in H. rewrite S' in H. destruct H. discriminate.
  - intros N. rewrite filter_In, (D N). tauto.
Qed.
Print Assumptions C48_remove.

Theorem C48_contains u l : contains u l = true <-> In u l.
Proof. apply contains_ok. Qed.
Print Assumptions C48_contains.

(** The index of a type that is in the list is that of its first appearance; one that is not does not compile ... *)
Theorem C48_index_of sw t l : l <> [] ->
  (In t l -> exists i, index_of sw t l = Ok i /\ nth_error l (N.to_nat i) = Some t /\ forall j, j < N.to_nat i -> nth_error l j <> Some t) /\
  (~ In t l -> index_of sw t l = Ill).
Proof.
  intros N. unfold index_of. destruct l as [|u l]; [congruence|]. destruct (index_ok t (u :: l) 0) as [_ X].
  destruct (index_of_type t 0 (u :: l)) as [i| |]; [| |contradiction].
  - split; [intros _; exists i; split; [reflexivity|exact X]|]. intros NI. exfalso. apply NI. exact (nth_error_In _ _ (proj1 X)).
  - split; [intros I; contradiction|reflexivity].
Qed.
Print Assumptions C48_index_of.
(** ... but in the empty list there is one: the largest size_t. *)
Theorem C48_index_of_empty sw t : index_of sw t [] = Ok (2 ^ sw - 1)%N.
Proof. reflexivity. Qed.
Print Assumptions C48_index_of_empty.

(** Appending and prepending against slicing. *)
Theorem C48_append {A} c (l u : list A) : good c ->
  slice c (fuel_for (append l u)) (append l u) 0 (length l) = Ok l /\ slice c (fuel_for (append l u)) (append l u) (length l) (length u) = Ok u /\
  slice c (fuel_for (prepend l u)) (prepend l u) 0 (length u) = Ok u /\ slice c (fuel_for (prepend l u)) (prepend l u) (length u) (length l) = Ok l.
Proof.
  intros G.
  assert (H : forall a b : list A, slice c (fuel_for (a ++ b)) (a ++ b) 0 (length a) = Ok a /\ slice c (fuel_for (a ++ b)) (a ++ b) (length a) (length b) = Ok b).
  { intros a b. destruct (C48_slice c (a ++ b) 0 (length a) G) as (H1 & _). destruct (C48_slice c (a ++ b) (length a) (length b) G) as (H2 & _).
    rewrite app_length in H1, H2. destruct (H1 ltac:(lia)) as (m & E & P). destruct (H2 ltac:(lia)) as (m' & E' & P'). rewrite E, E'. split; f_equal.
    - apply (C48_part_unique _ _ _ _ _ P). exists [], b. repeat split.
    - apply (C48_part_unique _ _ _ _ _ P'). exists a, []. rewrite app_nil_r. repeat split. }
  destruct (H l u), (H u l). unfold append, prepend. repeat split; assumption.
Qed.
Print Assumptions C48_append.

Definition C48_configs : list config :=
  flat_map (fun p => [{| page := p; jumbo := true; builtin := true |}; {| page := p; jumbo := true; builtin := false |};
                      {| page := p; jumbo := false; builtin := true |}; {| page := p; jumbo := false; builtin := false |}]) [8; 16; 32; 48; 64].
Example C48_witness : Forall good C48_configs /\
  (forall c, In c C48_configs -> slice c (fuel_for (seq 0 150)) (seq 0 150) 131 12 = Ok (seq 131 12) /\ slice c (fuel_for (seq 0 150)) (seq 0 150) 131 20 = Ill) /\
  flatten [Other 1; TList [TList [Other 2]; TList []; Other 1]] = [Other 1; Other 2; Other 1] /\
  remove (TList [Other 2]) [Other 1; TList [Other 2]; TList [Other 1]] = [Other 1; TList [Other 1]] /\
  index_of 64 (Other 3) [Other 1; Other 3; Other 2; Other 3] = Ok 1%N.
Proof.
  split; [unfold C48_configs, good; cbn; repeat (apply Forall_cons; [cbn; tauto|]); apply Forall_nil|].
  split; [|vm_compute; repeat split].
  intros c I. cbn in I. repeat (destruct I as [<-|I]; [vm_compute; split; reflexivity|]). contradiction.
Qed.
