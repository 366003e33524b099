(** Proofs about for_sequence.h and the literals. *)
From Coq Require Import ZArith List Lia Bool.
From Verif Require Import Words SeqModel SeqSpec.
Import ListNotations.
Local Open Scope Z_scope.

Definition range (i : Z) (k : nat) : list Z := map (fun n => i + Z.of_nat n) (seq 0 k).
Lemma range_S i k : range i (S k) = i :: range (i + 1) k.
Proof.
  unfold range. cbn [seq map]. f_equal; [lia|]. rewrite <- seq_shift, map_map. apply map_ext. intros a. lia.
Qed.
Lemma range_in i k x : In x (range i k) <-> i <= x < i + Z.of_nat k.
Proof.
  unfold range. rewrite in_map_iff. split.
  - intros (n & <- & H). apply in_seq in H. lia.
  - intros H. exists (Z.to_nat (x - i)). split; [lia|]. apply in_seq. lia.
Qed.
Lemma make_range n : 0 <= n -> make_sequence n = Some (range 0 (Z.to_nat n)).
Proof.
  intros H. unfold make_sequence. destruct (n <? 0) eqn:E; [apply Z.ltb_lt in E; lia|]. f_equal.
Qed.
Lemma make_negative n : n < 0 -> make_sequence n = None.
Proof. intros H. unfold make_sequence. apply Z.ltb_lt in H. rewrite H. reflexivity. Qed.

(** Calls that promise not to throw do not. *)
Definition no_throw {S} (o : outcome S) : Prop := forall e s, o <> Threw e s.
Lemma call_no_throw {A S} (f : callable A S) l a s : c_noexcept f l a = true -> no_throw (call f l a s).
Proof. intros H e s'. unfold call, specified. rewrite H. destruct (c_body f l a s) as [s1 [e1|]]; discriminate. Qed.
Lemma fold_no_throw {A S} (g : A -> S -> outcome S) pack : (forall a, In a pack -> forall s, no_throw (g a s)) -> forall s, no_throw (comma_fold g pack s).
Proof.
  induction pack as [|a r IH]; intros H s; cbn [comma_fold]; [discriminate|].
  assert (Q := H a (or_introl eq_refl) s). unfold and_then. destruct (g a s) eqn:E; [|intros e1 s1 K; apply (Q e1 s1); congruence | discriminate].
  apply IH. intros b Hb. apply H. right. exact Hb.
Qed.
Lemma specified_same {S} b (o : outcome S) : (b = true -> no_throw o) -> specified b o = o.
Proof. intros H. destruct o as [s|e s|s]; try reflexivity. destruct b; [|reflexivity]. exfalso. exact (H eq_refl e s eq_refl). Qed.

Lemma seq_noexcept {S} (f : callable Z S) l pack : for_sequence_impl_noexcept f l pack = true <-> forall i, In i pack -> c_noexcept f l i = true.
Proof.
  unfold for_sequence_impl_noexcept. destruct pack as [|a r]; cbn [length Nat.eqb orb]; [split; [contradiction | reflexivity]|]. apply forallb_forall.
Qed.
Lemma seq_impl {S} (f : callable Z S) l pack s : for_sequence_impl f l pack s = comma_fold (fun i => call f l i) pack s.
Proof.
  apply specified_same. intros H. apply fold_no_throw. intros i Hi s'. apply call_no_throw. exact (proj1 (seq_noexcept f l pack) H i Hi).
Qed.
Lemma loop_fold {S} (f : callable Z S) l k : forall i s, loop f l (i + Z.of_nat k) i s (comma_fold (fun i => call f l i) (range i k) s).
Proof.
  induction k as [|k IH]; intros i s.
  - replace (i + Z.of_nat 0) with i by lia. apply lp_done. lia.
  - rewrite range_S. cbn [comma_fold]. unfold and_then. destruct (call f l i s) as [s'|e s'|s'] eqn:E.
    + apply lp_go with s'; [lia | exact E|]. replace (i + Z.of_nat (Datatypes.S k)) with (i + 1 + Z.of_nat k) by lia. apply IH.
    + apply lp_stop; [lia | exact E | discriminate].
    + apply lp_stop; [lia | exact E | discriminate].
Qed.
Lemma loop_det {S} (f : callable Z S) l n i s o : loop f l n i s o -> forall o', loop f l n i s o' -> o = o'.
Proof.
  induction 1 as [i s H | i s s' o H E L IH | i s o H E N]; intros o' K; inversion K; subst; try lia; try reflexivity.
  - rewrite E in H1. injection H1 as <-. apply IH. assumption.
  - exfalso. eapply H2. exact E.
  - exfalso. eapply N. eassumption.
Qed.
Lemma for_sequence_ok {S} n (f : callable Z S) l s : 0 <= n -> for_sequence n f l s = Some (comma_fold (fun i => call f l i) (range 0 (Z.to_nat n)) s).
Proof.
  intros H. unfold for_sequence, for_sequence_noexcept. rewrite (make_range n H). cbn [option_map].
  destruct (n <? 0) eqn:E0; [apply Z.ltb_lt in E0; lia|]. destruct (0 <? n) eqn:E1.
  - rewrite seq_impl. f_equal. apply specified_same. intros Q. apply fold_no_throw. intros i Hi s'. apply call_no_throw.
    exact (proj1 (seq_noexcept f l _) Q i Hi).
  - apply Z.ltb_ge in E1. replace n with 0 by lia. reflexivity.
Qed.

Lemma fold_conj (g : Z -> bool) p : forall v, fold_left (fun v j => g j && v) p v = forallb g p && v.
Proof.
  induction p as [|a r IH]; intros v; cbn [fold_left forallb]; [reflexivity|]. rewrite IH. destruct (g a), v, (forallb g r); reflexivity.
Qed.
Lemma product_noexcept {S} (f : callable (Z * Z) S) l p1 p2 :
  for_product_impl_noexcept f l p1 p2 = true <-> forall i j, In i p1 -> In j p2 -> c_noexcept f l (i, j) = true.
Proof.
  unfold for_product_impl_noexcept. destruct p1 as [|a r]; [cbn; split; [contradiction | reflexivity]|].
  destruct p2 as [|b q]; [cbn [length Nat.eqb orb]; split; [contradiction | reflexivity]|].
  cbn [length Nat.eqb orb]. generalize (a :: r) as p1. generalize (b :: q) as p2. clear. intros p2 p1.
  assert (G : forall v, fold_left (fun v i => fold_left (fun v j => c_noexcept f l (i, j) && v) p2 v) p1 v = true <->
                        v = true /\ forall i j, In i p1 -> In j p2 -> c_noexcept f l (i, j) = true).
  { induction p1 as [|a r IH]; intros v; cbn [fold_left]; [split; [intros ->; split; [reflexivity | contradiction] | tauto]|].
    rewrite IH, (fold_conj (fun j => c_noexcept f l (a, j))), andb_true_iff, forallb_forall. split.
    - intros [[H1 H2] H3]. split; [exact H2|]. intros i j [<- | Hi] Hj; [exact (H1 j Hj) | exact (H3 i j Hi Hj)].
    - intros [H1 H2]. split; [split; [intros j Hj; apply H2; [left; reflexivity | exact Hj] | exact H1]|].
      intros i j Hi Hj. apply H2; [right; exact Hi | exact Hj]. }
  rewrite G. tauto.
Qed.
Definition rows {S} (f : callable (Z * Z) S) (l : bool) (p1 p2 : list Z) (s : S) : outcome S :=
  comma_fold (fun i => comma_fold (fun j => call f l (i, j)) p2) p1 s.
Lemma rows_no_throw {S} (f : callable (Z * Z) S) l p1 p2 s : for_product_impl_noexcept f l p1 p2 = true -> no_throw (rows f l p1 p2 s).
Proof.
  intros H. assert (G := proj1 (product_noexcept f l p1 p2) H). apply fold_no_throw. intros i Hi s1. apply fold_no_throw. intros j Hj s2.
  apply call_no_throw. exact (G i j Hi Hj).
Qed.
Lemma loop2_rows {S} (f : callable (Z * Z) S) l n2 k : forall i s,
  loop2 f l (i + Z.of_nat k) (Z.of_nat n2) i 0 s (rows f l (range i k) (range 0 n2) s).
Proof.
  induction k as [|k IH]; intros i s.
  - apply l2_done. lia.
  - replace (i + Z.of_nat (Datatypes.S k)) with (i + 1 + Z.of_nat k) by lia. unfold rows. rewrite range_S. cbn [comma_fold].
    assert (R : forall m j s, j + Z.of_nat m = Z.of_nat n2 ->
      loop2 f l (i + 1 + Z.of_nat k) (Z.of_nat n2) i j s
        (and_then (comma_fold (fun j => call f l (i, j)) (range j m) s) (rows f l (range (i + 1) k) (range 0 n2)))).
    { induction m as [|m IHm]; intros j s1 E.
      - cbn. apply l2_row; [lia | lia | apply IH].
      - rewrite range_S. cbn [comma_fold]. unfold and_then at 2. destruct (call f l (i, j) s1) as [s2|e s2|s2] eqn:C.
        + apply l2_go with s2; [lia | lia | exact C|]. apply IHm. lia.
        + apply l2_stop; [lia | lia | exact C | discriminate].
        + apply l2_stop; [lia | lia | exact C | discriminate]. }
    apply (R n2 0 s). lia.
Qed.
Lemma loop2_det {S} (f : callable (Z * Z) S) l n1 n2 i j s o : loop2 f l n1 n2 i j s o -> forall o', loop2 f l n1 n2 i j s o' -> o = o'.
Proof.
  induction 1 as [i j s H | i j s o H1 H2 L IH | i j s s' o H1 H2 E L IH | i j s o H1 H2 E N]; intros o' K; inversion K; subst; try lia; try reflexivity.
  - apply IH. assumption.
  - match goal with Q : call _ _ _ _ = Returned _ |- _ => rewrite E in Q; injection Q as <- end. apply IH. assumption.
  - exfalso. match goal with Q : forall s', call _ _ _ _ <> _ |- _ => eapply Q; exact E end.
  - exfalso. eapply N. eassumption.
Qed.
Lemma rows_empty {S} (f : callable (Z * Z) S) l p s : rows f l p [] s = Returned s.
Proof. revert s. induction p as [|a r IH]; intros s; [reflexivity|]. unfold rows. cbn. apply IH. Qed.
Lemma for_product_ok {S} n1 n2 (f : callable (Z * Z) S) l s : 0 <= n1 -> 0 <= n2 ->
  for_product n1 n2 f l s = Some (rows f l (range 0 (Z.to_nat n1)) (range 0 (Z.to_nat n2)) s).
Proof.
  intros H1 H2. unfold for_product, for_product_noexcept. rewrite (make_range n1 H1), (make_range n2 H2).
  destruct (n1 <? 0) eqn:E1; [apply Z.ltb_lt in E1; lia|]. destruct (n2 <? 0) eqn:E2; [apply Z.ltb_lt in E2; lia|]. cbn [orb].
  destruct (0 <? n1) eqn:E3; [destruct (0 <? n2) eqn:E4|]; cbn [andb].
  - unfold for_product_impl. fold (rows f l (range 0 (Z.to_nat n1)) (range 0 (Z.to_nat n2)) s). f_equal.
    assert (Q := specified_same _ _ (rows_no_throw f l (range 0 (Z.to_nat n1)) (range 0 (Z.to_nat n2)) s)). rewrite Q. exact Q.
  - apply Z.ltb_ge in E4. replace n2 with 0 by lia. change (range 0 (Z.to_nat 0)) with (@nil Z). rewrite rows_empty. reflexivity.
  - apply Z.ltb_ge in E3. replace n1 with 0 by lia. reflexivity.
Qed.

(* ------------------------------------------------------------------ literals *)

Lemma to_unsigned_ok w n : 0 <= n -> 0 < w -> (to_unsigned w n = n <-> n < 2 ^ w).
Proof.
  intros H W. unfold to_unsigned. split; intros E.
  - rewrite <- E. apply Z.mod_pos_bound. apply Z.pow_pos_nonneg; lia.
  - apply Z.mod_small. lia.
Qed.
Lemma to_signed_ok w n : 0 <= n -> 0 < w -> (to_signed w n = n <-> n < 2 ^ (w - 1)).
Proof.
  intros H W. unfold to_signed. assert (P : 2 ^ w = 2 * 2 ^ (w - 1)) by (rewrite <- Z.pow_succ_r by lia; f_equal; lia).
  assert (B := Z.mod_pos_bound n (2 ^ w) ltac:(apply Z.pow_pos_nonneg; lia)).
  destruct (n mod 2 ^ w <? 2 ^ (w - 1)) eqn:E; [apply Z.ltb_lt in E | apply Z.ltb_ge in E]; split; intros Q.
  - rewrite <- Q. exact E.
  - apply Z.mod_small. lia.
  - lia.
  - rewrite (Z.mod_small n) in E by lia. lia.
Qed.
Lemma to_signed_range w n : 0 < w -> - 2 ^ (w - 1) <= to_signed w n < 2 ^ (w - 1) /\ (to_signed w n) mod 2 ^ w = n mod 2 ^ w.
Proof.
  intros W. unfold to_signed. assert (P : 2 ^ w = 2 * 2 ^ (w - 1)) by (rewrite <- Z.pow_succ_r by lia; f_equal; lia).
  assert (B := Z.mod_pos_bound n (2 ^ w) ltac:(apply Z.pow_pos_nonneg; lia)).
  destruct (n mod 2 ^ w <? 2 ^ (w - 1)) eqn:E; [apply Z.ltb_lt in E | apply Z.ltb_ge in E].
  - split; [lia|]. apply Z.mod_mod. lia.
  - split; [lia|]. replace (n mod 2 ^ w - 2 ^ w) with (n mod 2 ^ w + (-1) * 2 ^ w) by lia. rewrite Z.mod_add by lia. apply Z.mod_mod. lia.
Qed.
Lemma ull_mul_mod a b k : 0 <= k <= 64 -> (ull_mul a b) mod 2 ^ k = (a * b) mod 2 ^ k.
Proof.
  intros K. unfold ull_mul. assert (D : (2 ^ k | 2 ^ 64)) by (exists (2 ^ (64 - k)); rewrite <- Z.pow_add_r by lia; f_equal; lia).
  symmetry. apply Znumtheory.Zmod_div_mod; [apply Z.pow_pos_nonneg; lia | apply Z.pow_pos_nonneg; lia | exact D].
Qed.
Lemma lit_mul w n : 0 < w <= 64 ->
  lit_kb w n = (n * 2 ^ 10) mod 2 ^ w /\ lit_mb w n = (n * 2 ^ 20) mod 2 ^ w /\ lit_gb w n = (n * 2 ^ 30) mod 2 ^ w.
Proof.
  intros W. unfold lit_kb, lit_mb, lit_gb, to_unsigned. assert (K : 0 <= w <= 64) by lia.
  assert (P : 0 < 2 ^ w) by (apply Z.pow_pos_nonneg; lia).
  assert (Q : forall a b, a mod 2 ^ w = b mod 2 ^ w -> (a * 1024) mod 2 ^ w = (b * 1024) mod 2 ^ w).
  { intros a b E. rewrite (Z.mul_mod a), (Z.mul_mod b), E by lia. reflexivity. }
  split; [rewrite ull_mul_mod by exact K; reflexivity|]. split.
  - rewrite ull_mul_mod by exact K. rewrite (Q _ (n * 1024)) by (apply ull_mul_mod; exact K). f_equal. lia.
  - rewrite ull_mul_mod by exact K. rewrite (Q _ (n * 1024 * 1024)).
    + f_equal. lia.
    + rewrite ull_mul_mod by exact K. apply Q. apply ull_mul_mod; exact K.
Qed.

(* ------------------------------------------------------------------ paths *)

Lemma is_slash_ok c : is_slash c = true <-> slash c.
Proof. unfold is_slash, slash. rewrite orb_true_iff, !N.eqb_eq. tauto. Qed.
Lemma find_slash_ok path i :
  match find_slash path i with
  | Some k => (k < i)%nat /\ slash (nth k path 0%N) /\ forall m, (k < m < i)%nat -> ~ slash (nth m path 0%N)
  | None => forall m, (m < i)%nat -> ~ slash (nth m path 0%N)
  end.
Proof.
  induction i as [|i IH]; cbn [find_slash]; [intros m Hm; lia|].
  destruct (is_slash (nth i path 0%N)) eqn:E.
  - split; [lia|]. split; [apply is_slash_ok; exact E|]. intros m Hm. lia.
  - assert (NE : ~ slash (nth i path 0%N)) by (rewrite <- is_slash_ok; congruence).
    destruct (find_slash path i) as [k|].
    + destruct IH as (A & B & C). split; [lia|]. split; [exact B|]. intros m Hm. destruct (Nat.eq_dec m i) as [-> | D]; [exact NE|]. apply C. lia.
    + intros m Hm. destruct (Nat.eq_dec m i) as [-> | D]; [exact NE|]. apply IH. lia.
Qed.
Lemma tail_split path :
  (exists a c b, path = a ++ c :: b /\ slash c /\ (forall x, In x b -> ~ slash x) /\ skipn (file_name_tail path) path = b) \/
  ((forall x, In x path -> ~ slash x) /\ skipn (file_name_tail path) path = path).
Proof.
  assert (H := find_slash_ok path (length path)). unfold file_name_tail. destruct (find_slash path (length path)) as [k|].
  - destruct H as (A & B & C). left. exists (firstn k path), (nth k path 0%N), (skipn (S k) path).
    assert (E : path = firstn k path ++ nth k path 0%N :: skipn (S k) path).
    { rewrite <- (firstn_skipn k path) at 1. f_equal. clear - A. revert k A. induction path as [|x l IH]; intros k A; [cbn in A; lia|].
      destruct k as [|k]; [reflexivity|]. cbn [skipn nth]. apply IH. cbn in A. lia. }
    split; [exact E|]. split; [exact B|]. split; [|reflexivity]. intros x Hx. apply In_nth with (d := 0%N) in Hx as (m & Hm & <-).
    rewrite skipn_length in Hm. replace (nth m (skipn (S k) path) 0%N) with (nth (S k + m) path 0%N).
    + apply C. lia.
    + rewrite <- (firstn_skipn (S k) path) at 1. rewrite app_nth2; rewrite firstn_length_le by lia; [f_equal|]; lia.
  - right. split; [|reflexivity]. intros x Hx. apply In_nth with (d := 0%N) in Hx as (m & Hm & <-). exact (H m Hm).
Qed.
