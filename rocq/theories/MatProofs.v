From Coq Require Import Ring Field Permutation.
From Verif Require Import Words EarrModel EarrProofs SparamProofs MatModel MatSpec.
Local Open Scope nat_scope.

Section Shape.
  Context {K : Type} (F : ops K).
  Notation get := (get F).
  Notation at_ := (at_ F).

  Lemma for_S {S : Type} (from n : nat) (body : S -> nat -> S) (s : S) : for_ from (from + Datatypes.S n) body s = body (for_ from (from + n) body s) (from + n).
  Proof. unfold for_. replace (from + Datatypes.S n - from) with (Datatypes.S n) by lia. replace (from + n - from) with n by lia. rewrite seq_S, fold_left_app. reflexivity. Qed.
  Lemma for_nil {S : Type} (from to : nat) (body : S -> nat -> S) (s : S) : to <= from -> for_ from to body s = s.
  Proof. intros H. unfold for_. replace (to - from) with 0 by lia. reflexivity. Qed.

  Lemma upd_nth (l : list K) i j x d : nth j (upd l i x) d = if (j =? i) && (i <? length l) then x else nth j l d.
  Proof.
    destruct (Nat.ltb_spec i (length l)) as [H|H].
    - destruct (Nat.eqb_spec j i) as [->|N]; cbn [andb].
      + apply nth_error_nth. apply upd_same. exact H.
      + destruct (nth_error l j) as [y|] eqn:E.
        * rewrite (nth_error_nth _ _ d E). apply nth_error_nth. rewrite upd_other; [exact E|auto].
        * pose proof E as E'. apply nth_error_None in E. rewrite nth_overflow by (rewrite upd_length; lia). rewrite nth_overflow by lia. reflexivity.
    - rewrite andb_false_r. rewrite upd_out by lia. reflexivity.
  Qed.
  Lemma upd_nth' (l : list (list K)) i j x d : nth j (upd l i x) d = if (j =? i) && (i <? length l) then x else nth j l d.
  Proof.
    destruct (Nat.ltb_spec i (length l)) as [H|H].
    - destruct (Nat.eqb_spec j i) as [->|N]; cbn [andb].
      + apply nth_error_nth. apply upd_same. exact H.
      + destruct (nth_error l j) as [y|] eqn:E.
        * rewrite (nth_error_nth _ _ d E). apply nth_error_nth. rewrite upd_other; [exact E|auto].
        * pose proof E as E'. apply nth_error_None in E. rewrite nth_overflow by (rewrite upd_length; lia). rewrite nth_overflow by lia. reflexivity.
    - rewrite andb_false_r. rewrite upd_out by lia. reflexivity.
  Qed.

  Lemma dims_nth rows cols (m : list (list K)) c : dims rows cols m -> c < cols -> length (nth c m []) = rows.
  Proof. intros [H1 H2] Hc. apply H2. apply nth_In. lia. Qed.

  Lemma set_dims rows cols (m : list (list K)) r c x : dims rows cols m -> dims rows cols (set m r c x).
  Proof.
    intros D. destruct D as [H1 H2]. unfold set. split; [rewrite upd_length; exact H1|]. intros col Hc.
    destruct (Nat.lt_ge_cases c (length m)) as [L|L]; [|rewrite (upd_out m c) in Hc by exact L; exact (H2 _ Hc)].
    apply (In_nth _ _ []) in Hc. destruct Hc as (k & Hk & <-). rewrite upd_length in Hk. rewrite upd_nth'. destruct ((k =? c) && (c <? length m)); [|apply H2, nth_In; lia].
    rewrite upd_length. apply H2, nth_In. lia.
  Qed.
  Lemma get_set rows cols m r c x r' c' : dims rows cols m -> r < rows -> c < cols ->
    get (set m r c x) r' c' = if (r' =? r) && (c' =? c) then x else get m r' c'.
  Proof.
    intros D Hr Hc. unfold get, MatModel.get, set. rewrite upd_nth'. destruct D as [H1 H2]. rewrite H1. assert (E : c <? cols = true) by (apply Nat.ltb_lt; exact Hc). rewrite E, andb_true_r.
    destruct (Nat.eqb_spec c' c) as [->|N]; [|rewrite andb_false_r; reflexivity]. rewrite andb_true_r. unfold MatModel.at_. rewrite upd_nth.
    rewrite (dims_nth rows cols m c (conj H1 H2) Hc). assert (E2 : r <? rows = true) by (apply Nat.ltb_lt; exact Hr). rewrite E2, andb_true_r. reflexivity.
  Qed.

  Lemma fresh_dims j rows cols : dims rows cols (fresh (K := K) j rows cols).
  Proof. unfold fresh, fresh_vec. split; [apply repeat_length|]. intros col H. apply repeat_spec in H. subst col. apply repeat_length. Qed.

  Lemma mat_ext rows cols (a b : list (list K)) : dims rows cols a -> dims rows cols b -> (forall r c, r < rows -> c < cols -> get a r c = get b r c) -> a = b.
  Proof.
    intros Da Db H. apply (nth_ext _ _ [] []); [destruct Da, Db; congruence|]. intros c Hc. assert (Hc' : c < cols) by (destruct Da; lia).
    apply (nth_ext _ _ (zero F) (zero F)); [rewrite (dims_nth rows cols a), (dims_nth rows cols b) by assumption; reflexivity|].
    intros r Hr. rewrite (dims_nth rows cols a) in Hr by assumption. exact (H r c Hr Hc').
  Qed.
  Lemma vec_ext (a b : list K) n : length a = n -> length b = n -> (forall i, i < n -> at_ a i = at_ b i) -> a = b.
  Proof. intros Ha Hb H. apply (nth_ext _ _ (zero F) (zero F)); [congruence|]. intros i Hi. apply H. lia. Qed.

  (** A loop over one row. *)
  Lemma row_loop rows cols (f : nat -> nat -> K) r : r < rows -> forall n m, n <= cols -> dims rows cols m ->
    let out := for_ 0 n (fun out c => set out r c (f r c)) m in
    dims rows cols out /\ forall r' c', get out r' c' = if (r' =? r) && (c' <? n) then f r c' else get m r' c'.
  Proof.
    intros Hr n. induction n as [|n IH]; intros m Hn D.
    - cbn zeta. rewrite for_nil by lia. split; [exact D|]. intros. rewrite andb_false_r. reflexivity.
    - cbn zeta. rewrite (for_S 0 n). cbn [Nat.add]. destruct (IH m ltac:(lia) D) as [D1 G1]. cbn zeta in D1, G1. split; [apply set_dims; exact D1|].
      intros r' c'. rewrite (get_set rows cols _ r n _ r' c' D1 Hr ltac:(lia)), G1. destruct (Nat.eqb_spec r' r) as [->|]; [|reflexivity]. cbn [andb].
      destruct (Nat.eqb_spec c' n) as [->|N]; [|].
      + assert (E : n <? S n = true) by (apply Nat.ltb_lt; lia). rewrite E. reflexivity.
      + destruct (Nat.ltb_spec c' n), (Nat.ltb_spec c' (S n)); try lia; reflexivity.
  Qed.
  Lemma table_loop rows cols (f : nat -> nat -> K) : forall n m, n <= rows -> dims rows cols m ->
    let out := for_ 0 n (fun out r => for_ 0 cols (fun out c => set out r c (f r c)) out) m in
    dims rows cols out /\ forall r c, c < cols -> get out r c = if r <? n then f r c else get m r c.
  Proof.
    intros n. induction n as [|n IH]; intros m Hn D.
    - cbn zeta. rewrite for_nil by lia. split; [exact D|]. reflexivity.
    - cbn zeta. rewrite (for_S 0 n). cbn [Nat.add]. destruct (IH m ltac:(lia) D) as [D1 G1]. cbn zeta in D1, G1.
      destruct (row_loop rows cols f n ltac:(lia) cols _ (le_n _) D1) as [D2 G2]. cbn zeta in D2, G2. split; [exact D2|]. intros r c Hc. rewrite G2, G1 by exact Hc.
      assert (E : c <? cols = true) by (apply Nat.ltb_lt; exact Hc). rewrite E, andb_true_r. destruct (Nat.eqb_spec r n) as [->|N].
      + assert (E2 : n <? S n = true) by (apply Nat.ltb_lt; lia). rewrite E2. reflexivity.
      + destruct (Nat.ltb_spec r n), (Nat.ltb_spec r (S n)); try lia; reflexivity.
  Qed.
  Lemma table_fresh rows cols (f : nat -> nat -> K) j :
    let out := for_ 0 rows (fun out r => for_ 0 cols (fun out c => set out r c (f r c)) out) (fresh j rows cols) in
    dims rows cols out /\ forall r c, r < rows -> c < cols -> get out r c = f r c.
  Proof.
    destruct (table_loop rows cols f rows (fresh j rows cols) (le_n _) (fresh_dims j rows cols)) as [D G]. cbn zeta in *. split; [exact D|].
    intros r c Hr Hc. rewrite G by exact Hc. assert (E : r <? rows = true) by (apply Nat.ltb_lt; exact Hr). rewrite E. reflexivity.
  Qed.

  (** The same with the two loops exchanged. *)
  Lemma col_loop rows cols (f : nat -> nat -> K) c : c < cols -> forall n m, n <= rows -> dims rows cols m ->
    let out := for_ 0 n (fun out r => set out r c (f r c)) m in
    dims rows cols out /\ forall r' c', get out r' c' = if (c' =? c) && (r' <? n) then f r' c else get m r' c'.
  Proof.
    intros Hc n. induction n as [|n IH]; intros m Hn D.
    - cbn zeta. rewrite for_nil by lia. split; [exact D|]. intros. rewrite andb_false_r. reflexivity.
    - cbn zeta. rewrite (for_S 0 n). cbn [Nat.add]. destruct (IH m ltac:(lia) D) as [D1 G1]. cbn zeta in D1, G1. split; [apply set_dims; exact D1|].
      intros r' c'. rewrite (get_set rows cols _ n c _ r' c' D1 ltac:(lia) Hc), G1. destruct (Nat.eqb_spec c' c) as [->|]; [|rewrite andb_false_r; reflexivity]. rewrite andb_true_r. cbn [andb].
      destruct (Nat.eqb_spec r' n) as [->|N].
      + assert (E : n <? S n = true) by (apply Nat.ltb_lt; lia). rewrite E. reflexivity.
      + destruct (Nat.ltb_spec r' n), (Nat.ltb_spec r' (S n)); try lia; reflexivity.
  Qed.
  Lemma table_loop' rows cols (f : nat -> nat -> K) : forall n m, n <= cols -> dims rows cols m ->
    let out := for_ 0 n (fun out c => for_ 0 rows (fun out r => set out r c (f r c)) out) m in
    dims rows cols out /\ forall r c, r < rows -> get out r c = if c <? n then f r c else get m r c.
  Proof.
    intros n. induction n as [|n IH]; intros m Hn D.
    - cbn zeta. rewrite for_nil by lia. split; [exact D|]. reflexivity.
    - cbn zeta. rewrite (for_S 0 n). cbn [Nat.add]. destruct (IH m ltac:(lia) D) as [D1 G1]. cbn zeta in D1, G1.
      destruct (col_loop rows cols f n ltac:(lia) rows _ (le_n _) D1) as [D2 G2]. cbn zeta in D2, G2. split; [exact D2|]. intros r c Hr. rewrite G2, G1 by exact Hr.
      assert (E : r <? rows = true) by (apply Nat.ltb_lt; exact Hr). rewrite E, andb_true_r. destruct (Nat.eqb_spec c n) as [->|N].
      + assert (E2 : n <? S n = true) by (apply Nat.ltb_lt; lia). rewrite E2. reflexivity.
      + destruct (Nat.ltb_spec c n), (Nat.ltb_spec c (S n)); try lia; reflexivity.
  Qed.

  Lemma vec_loop (f : nat -> K) : forall n (l : list K), n <= length l ->
    let out := for_ 0 n (fun out i => upd out i (f i)) l in length out = length l /\ forall i, at_ out i = if i <? n then f i else at_ l i.
  Proof.
    induction n as [|n IH]; intros l Hn.
    - cbn zeta. rewrite for_nil by lia. split; reflexivity.
    - cbn zeta. rewrite (for_S 0 n). cbn [Nat.add]. destruct (IH l ltac:(lia)) as [L1 G1]. cbn zeta in L1, G1. split; [rewrite upd_length; exact L1|].
      intros i. unfold at_, MatModel.at_. rewrite upd_nth. change (nth i (for_ 0 n (fun out i => upd out i (f i)) l) (zero F)) with (at_ (for_ 0 n (fun out i => upd out i (f i)) l) i). rewrite G1, L1.
      assert (E : n <? length l = true) by (apply Nat.ltb_lt; lia). rewrite E, andb_true_r. destruct (Nat.eqb_spec i n) as [->|N].
      + assert (E2 : n <? S n = true) by (apply Nat.ltb_lt; lia). rewrite E2. reflexivity.
      + destruct (Nat.ltb_spec i n), (Nat.ltb_spec i (S n)); try lia; reflexivity.
  Qed.
  Lemma vec_fresh (f : nat -> K) n j : let out := for_ 0 n (fun out i => upd out i (f i)) (fresh_vec j n) in length out = n /\ forall i, i < n -> at_ out i = f i.
  Proof.
    destruct (vec_loop f n (fresh_vec j n)) as [L G]; [unfold fresh_vec; rewrite repeat_length; lia|]. cbn zeta in *. split; [rewrite L; apply repeat_length|].
    intros i Hi. rewrite G. assert (E : i <? n = true) by (apply Nat.ltb_lt; exact Hi). rewrite E. reflexivity.
  Qed.

  Lemma identity_spec rows cols : 0 < rows -> 0 < cols -> dims rows cols (identity F rows cols) /\
    forall r c, r < rows -> c < cols -> get (identity F rows cols) r c = if r =? c then one F else zero F.
  Proof.
    intros Hr Hc.
    (* after k ones on the diagonal *)
    pose (good := fun k m => dims rows cols m /\ forall r c, r < rows -> c < cols -> get m r c = if (r =? c) && (r <? k) then one F else zero F).
    assert (Z : good 0 (fresh (zero F) rows cols)).
    { split; [apply fresh_dims|]. intros r c H1 H2. rewrite andb_false_r. unfold get, MatModel.get, MatModel.at_, fresh, fresh_vec. rewrite (nth_indep _ [] (repeat (zero F) rows)) by (rewrite repeat_length; exact H2). rewrite !nth_repeat. reflexivity. }
    assert (ST : forall k m, k < rows -> k < cols -> good k m -> good (S k) (set m k k (one F))).
    { intros k m H1 H2 [D G]. split; [apply set_dims; exact D|]. intros r c H3 H4. rewrite (get_set rows cols m k k _ r c D H1 H2), (G r c H3 H4).
      destruct (Nat.eqb_spec r k) as [->|N]; [destruct (Nat.eqb_spec c k) as [->|N2]|]; cbn [andb].
      - rewrite Nat.eqb_refl. assert (E : k <? S k = true) by (apply Nat.ltb_lt; lia). rewrite E. reflexivity.
      - destruct (Nat.eqb_spec k c); [lia|]. reflexivity.
      - destruct (Nat.eqb_spec r c); [|reflexivity]. cbn [andb]. destruct (Nat.ltb_spec r k), (Nat.ltb_spec r (S k)); try lia; reflexivity. }
    assert (EN : forall k m, good k m -> Nat.min rows cols <= k -> dims rows cols m /\ forall r c, r < rows -> c < cols -> get m r c = if r =? c then one F else zero F).
    { intros k m [D G] H. split; [exact D|]. intros r c H1 H2. rewrite (G r c H1 H2). destruct (Nat.eqb_spec r c) as [->|]; [|reflexivity]. assert (E : c <? k = true) by (apply Nat.ltb_lt; lia). rewrite E. reflexivity. }
    assert (BR : forall k, (k <? rows) && (k <? cols) = true -> k < rows /\ k < cols) by (intros k H; apply andb_prop in H; destruct H as [A B]; apply Nat.ltb_lt in A, B; lia).
    assert (BF : forall k, (k <? rows) && (k <? cols) = false -> Nat.min rows cols <= k) by (intros k H; apply andb_false_iff in H; destruct H as [A|A]; apply Nat.ltb_ge in A; lia).
    unfold identity. pose proof (ST 0 _ Hr Hc Z) as G1. cbn zeta.
    destruct ((1 <? rows) && (1 <? cols)) eqn:E1.
    - destruct (BR _ E1) as [A1 B1]. pose proof (ST 1 _ A1 B1 G1) as G2. destruct ((2 <? rows) && (2 <? cols)) eqn:E2.
      + destruct (BR _ E2) as [A2 B2]. pose proof (ST 2 _ A2 B2 G2) as G3. destruct ((3 <? rows) && (3 <? cols)) eqn:E3.
        * destruct (BR _ E3) as [A3 B3]. pose proof (ST 3 _ A3 B3 G3) as G4. destruct ((4 <? rows) && (4 <? cols)) eqn:E4; [|apply (EN 4 _ G4), BF, E4].
          apply (EN (Nat.min rows cols)); [|lia]. replace (Nat.min rows cols) with (4 + (Nat.min rows cols - 4)) by (destruct (BR _ E4); lia).
          assert (HB : 4 + (Nat.min rows cols - 4) <= Nat.min rows cols) by (destruct (BR _ E4); lia). revert HB. generalize (Nat.min rows cols - 4). intros n. induction n as [|n IH]; intros HB.
          -- rewrite for_nil by lia. exact G4.
          -- rewrite for_S. replace (4 + S n) with (S (4 + n)) by lia. apply ST; [lia|lia|apply IH; lia].
        * destruct ((4 <? rows) && (4 <? cols)) eqn:E4; [exfalso; apply BF in E3; apply BR in E4; lia|]. apply (EN 3 _ G3), BF, E3.
      + destruct ((3 <? rows) && (3 <? cols)) eqn:E3; [exfalso; apply BF in E2; apply BR in E3; lia|]. destruct ((4 <? rows) && (4 <? cols)) eqn:E4; [exfalso; apply BF in E2; apply BR in E4; lia|]. apply (EN 2 _ G2), BF, E2.
    - destruct ((2 <? rows) && (2 <? cols)) eqn:E2; [exfalso; apply BF in E1; apply BR in E2; lia|]. destruct ((3 <? rows) && (3 <? cols)) eqn:E3; [exfalso; apply BF in E1; apply BR in E3; lia|].
      destruct ((4 <? rows) && (4 <? cols)) eqn:E4; [exfalso; apply BF in E1; apply BR in E4; lia|]. apply (EN 1 _ G1), BF, E1.
  Qed.

  Lemma dims_list2 r a b : length a = r -> length b = r -> dims (K := K) r 2 [a; b].
  Proof. intros. split; [reflexivity|]. intros c [<-|[<-|[]]]; assumption. Qed.
  Lemma dims_list3 r a b c : length a = r -> length b = r -> length c = r -> dims (K := K) r 3 [a; b; c].
  Proof. intros. split; [reflexivity|]. intros x [<-|[<-|[<-|[]]]]; assumption. Qed.
  Lemma dims_list4 r a b c d : length a = r -> length b = r -> length c = r -> length d = r -> dims (K := K) r 4 [a; b; c; d].
  Proof. intros. split; [reflexivity|]. intros x [<-|[<-|[<-|[<-|[]]]]]; assumption. Qed.

  Lemma transpose_spec j rows cols m : dims cols rows (transpose F j rows cols m) /\
    forall r c, r < cols -> c < rows -> get (transpose F j rows cols m) r c = get m c r.
  Proof.
    unfold transpose.
    destruct ((rows =? 2) && (cols =? 2)) eqn:E2; [|destruct ((rows =? 3) && (cols =? 3)) eqn:E3; [|destruct ((rows =? 4) && (cols =? 4)) eqn:E4]].
    - apply andb_prop in E2. destruct E2 as [A B]. apply Nat.eqb_eq in A, B. subst. split; [apply dims_list2; reflexivity|]. intros [|[|r]] [|[|c]] Hr Hc; try lia; reflexivity.
    - apply andb_prop in E3. destruct E3 as [A B]. apply Nat.eqb_eq in A, B. subst. split; [apply dims_list3; reflexivity|]. intros [|[|[|r]]] [|[|[|c]]] Hr Hc; try lia; reflexivity.
    - apply andb_prop in E4. destruct E4 as [A B]. apply Nat.eqb_eq in A, B. subst. split; [apply dims_list4; reflexivity|]. intros [|[|[|[|r]]]] [|[|[|[|c]]]] Hr Hc; try lia; reflexivity.
    - unfold transpose_any. destruct (table_loop cols rows (fun r c => MatModel.at_ F (nth r m []) c) cols (fresh j cols rows) (le_n _) (fresh_dims _ _ _)) as [D G]. cbn zeta in D, G.
      split; [exact D|]. intros r c Hr Hc. rewrite G by exact Hc. assert (E : r <? cols = true) by (apply Nat.ltb_lt; exact Hr). rewrite E. reflexivity.
  Qed.
End Shape.

Section Ring.
  Context {K : Type} (F : ops K).
  Hypothesis RT : ring_theory (zero F) (one F) (add F) (mul F) (sub F) (neg F) eq.
  Add Ring KRing : RT.
  Notation get := (get F).
  Notation at_ := (at_ F).
  Notation sum := (sum F).

  Lemma sum_ext n f g : (forall k, k < n -> f k = g k) -> sum n f = sum n g.
  Proof. induction n as [|n IH]; intros H; [reflexivity|]. cbn. rewrite IH by (intros; apply H; lia). rewrite H by lia. reflexivity. Qed.
  Lemma sum_mul_l x n f : mul F x (sum n f) = sum n (fun k => mul F x (f k)).
  Proof. induction n as [|n IH]; cbn; [ring|]. rewrite <- IH. ring. Qed.
  Lemma sum_mul_r x n f : mul F (sum n f) x = sum n (fun k => mul F (f k) x).
  Proof. induction n as [|n IH]; cbn; [ring|]. rewrite <- IH. ring. Qed.
  Lemma sum_add n f g : add F (sum n f) (sum n g) = sum n (fun k => add F (f k) (g k)).
  Proof. induction n as [|n IH]; cbn; [ring|]. rewrite <- IH. ring. Qed.
  Lemma sum_zero n f : (forall k, k < n -> f k = zero F) -> sum n f = zero F.
  Proof. induction n as [|n IH]; intros H; cbn; [reflexivity|]. rewrite IH by (intros; apply H; lia). rewrite H by lia. ring. Qed.
  Lemma sum_swap n m f : sum n (fun i => sum m (fun j => f i j)) = sum m (fun j => sum n (fun i => f i j)).
  Proof. induction n as [|n IH]; cbn; [symmetry; apply sum_zero; reflexivity|]. rewrite IH, sum_add. reflexivity. Qed.
  Lemma sum_one n f k : k < n -> (forall i, i < n -> i <> k -> f i = zero F) -> sum n f = f k.
  Proof.
    induction n as [|n IH]; intros Hk H; [lia|]. cbn. destruct (Nat.eq_dec k n) as [->|N].
    - rewrite sum_zero by (intros; apply H; lia). ring.
    - rewrite IH by (try lia; intros; apply H; lia). rewrite (H n) by lia. ring.
  Qed.
  Lemma dot_loop f n : 0 < n -> for_ 1 n (fun val k => add F val (f k)) (f 0) = sum n f.
  Proof.
    intros H. destruct n as [|n]; [lia|]. clear H. change (for_ 1 (1 + n) (fun val k => add F val (f k)) (f 0) = sum (1 + n) f). induction n as [|n IH].
    - rewrite for_nil by lia. cbn. ring.
    - rewrite (for_S 1 n), IH. reflexivity.
  Qed.

  (** A product, whichever way it is computed, has the sums of products as its elements. *)
  Lemma mul_any_spec j rows n cols a b : 0 < n -> dims rows cols (mul_any F j rows n cols a b) /\
    forall r c, r < rows -> c < cols -> get (mul_any F j rows n cols a b) r c = sum n (fun k => mul F (get a r k) (get b k c)).
  Proof.
    intros Hn. unfold mul_any. destruct (table_fresh F rows cols (fun r c => for_ 1 n (fun val k => add F val (mul F (get a r k) (get b k c))) (mul F (get a r 0) (get b 0 c))) j) as [D G].
    cbn zeta in D, G. split; [exact D|]. intros r c Hr Hc. rewrite (G r c Hr Hc). apply (dot_loop (fun k => mul F (get a r k) (get b k c)) n Hn).
  Qed.
  Lemma mul_spec j rows n cols a b : 0 < n -> dims rows cols (mat_mul F j rows n cols a b) /\
    forall r c, r < rows -> c < cols -> get (mat_mul F j rows n cols a b) r c = sum n (fun k => mul F (get a r k) (get b k c)).
  Proof.
    intros Hn. unfold mat_mul.
    destruct ((rows =? 2) && (n =? 2) && (cols =? 2)) eqn:E2; [|destruct ((rows =? 3) && (n =? 3) && (cols =? 3)) eqn:E3; [|destruct ((rows =? 4) && (n =? 4) && (cols =? 4)) eqn:E4]].
    - apply andb_prop in E2. destruct E2 as [A C]. apply andb_prop in A. destruct A as [A B]. apply Nat.eqb_eq in A, B, C. subst. split; [apply dims_list2; reflexivity|].
      intros [|[|r]] [|[|c]] Hr Hc; try lia; cbn; ring.
    - apply andb_prop in E3. destruct E3 as [A C]. apply andb_prop in A. destruct A as [A B]. apply Nat.eqb_eq in A, B, C. subst. split; [apply dims_list3; reflexivity|].
      intros [|[|[|r]]] [|[|[|c]]] Hr Hc; try lia; cbn; ring.
    - apply andb_prop in E4. destruct E4 as [A C]. apply andb_prop in A. destruct A as [A B]. apply Nat.eqb_eq in A, B, C. subst. split; [apply dims_list4; reflexivity|].
      intros [|[|[|[|r]]]] [|[|[|[|c]]]] Hr Hc; try lia; cbn; ring.
    - apply mul_any_spec, Hn.
  Qed.
  Lemma mat_vec_spec j rows cols a v : 0 < cols -> length (mat_vec F j rows cols a v) = rows /\
    forall r, r < rows -> at_ (mat_vec F j rows cols a v) r = sum cols (fun k => mul F (get a r k) (at_ v k)).
  Proof.
    intros Hn. unfold mat_vec.
    destruct ((rows =? 2) && (cols =? 2)) eqn:E2; [|destruct ((rows =? 3) && (cols =? 3)) eqn:E3; [|destruct ((rows =? 4) && (cols =? 4)) eqn:E4]].
    - apply andb_prop in E2. destruct E2 as [A B]. apply Nat.eqb_eq in A, B. subst. split; [reflexivity|]. intros [|[|r]] Hr; try lia; cbn; ring.
    - apply andb_prop in E3. destruct E3 as [A B]. apply Nat.eqb_eq in A, B. subst. split; [reflexivity|]. intros [|[|[|r]]] Hr; try lia; cbn; ring.
    - apply andb_prop in E4. destruct E4 as [A B]. apply Nat.eqb_eq in A, B. subst. split; [reflexivity|]. intros [|[|[|[|r]]]] Hr; try lia; cbn; ring.
    - unfold col_any. destruct (vec_fresh F (fun r => for_ 1 cols (fun val c => add F val (mul F (get a r c) (at_ v c))) (mul F (get a r 0) (at_ v 0))) rows j) as [L G]. cbn zeta in L, G.
      split; [exact L|]. intros r Hr. rewrite (G r Hr). apply (dot_loop (fun k => mul F (get a r k) (at_ v k)) cols Hn).
  Qed.
  Lemma vec_mat_spec j rows cols v a : 0 < rows -> length (vec_mat F j rows cols v a) = cols /\
    forall c, c < cols -> at_ (vec_mat F j rows cols v a) c = sum rows (fun k => mul F (at_ v k) (get a k c)).
  Proof.
    intros Hn. unfold vec_mat.
    destruct ((rows =? 2) && (cols =? 2)) eqn:E2; [|destruct ((rows =? 3) && (cols =? 3)) eqn:E3; [|destruct ((rows =? 4) && (cols =? 4)) eqn:E4]].
    - apply andb_prop in E2. destruct E2 as [A B]. apply Nat.eqb_eq in A, B. subst. split; [reflexivity|]. intros [|[|r]] Hr; try lia; cbn; ring.
    - apply andb_prop in E3. destruct E3 as [A B]. apply Nat.eqb_eq in A, B. subst. split; [reflexivity|]. intros [|[|[|r]]] Hr; try lia; cbn; ring.
    - apply andb_prop in E4. destruct E4 as [A B]. apply Nat.eqb_eq in A, B. subst. split; [reflexivity|]. intros [|[|[|[|r]]]] Hr; try lia; cbn; ring.
    - unfold row_any. destruct (vec_fresh F (fun c => for_ 1 rows (fun val r => add F val (mul F (at_ v r) (get a r c))) (mul F (at_ v 0) (get a 0 c))) cols j) as [L G]. cbn zeta in L, G.
      split; [exact L|]. intros c Hc. rewrite (G c Hc). apply (dot_loop (fun k => mul F (at_ v k) (get a k c)) rows Hn).
  Qed.

  Lemma mul_assoc_ j1 j2 j3 j4 r n m c A B D : 0 < n -> 0 < m ->
    mat_mul F j1 r m c (mat_mul F j2 r n m A B) D = mat_mul F j3 r n c A (mat_mul F j4 n m c B D).
  Proof.
    intros Hn Hm. destruct (mul_spec j2 r n m A B Hn) as [_ G1]. destruct (mul_spec j4 n m c B D Hm) as [_ G2].
    destruct (mul_spec j1 r m c (mat_mul F j2 r n m A B) D Hm) as [D3 G3]. destruct (mul_spec j3 r n c A (mat_mul F j4 n m c B D) Hn) as [D4 G4].
    apply (mat_ext F r c); [exact D3|exact D4|]. intros i k Hi Hk. rewrite G3, G4 by assumption.
    rewrite (sum_ext m _ (fun x => sum n (fun y => mul F (mul F (get A i y) (get B y x)) (get D x k)))) by (intros x Hx; rewrite G1 by assumption; apply sum_mul_r).
    rewrite sum_swap. apply sum_ext. intros y Hy. rewrite G2 by assumption. rewrite sum_mul_l. apply sum_ext. intros x Hx. ring.
  Qed.
  Lemma mul_identity_r_ j r n A : 0 < n -> dims r n A -> mat_mul F j r n n A (identity F n n) = A.
  Proof.
    intros Hn DA. destruct (mul_spec j r n n A (identity F n n) Hn) as [D G]. destruct (identity_spec F n n Hn Hn) as [_ GI]. apply (mat_ext F r n); [exact D|exact DA|].
    intros i k Hi Hk. rewrite G by assumption. rewrite (sum_one n _ k Hk). - rewrite GI by assumption. rewrite Nat.eqb_refl. ring.
    - intros x Hx N. rewrite GI by assumption. destruct (Nat.eqb_spec x k); [contradiction|]. ring.
  Qed.
  Lemma mul_identity_l_ j r n A : 0 < r -> dims r n A -> mat_mul F j r r n (identity F r r) A = A.
  Proof.
    intros Hn DA. destruct (mul_spec j r r n (identity F r r) A Hn) as [D G]. destruct (identity_spec F r r Hn Hn) as [_ GI]. apply (mat_ext F r n); [exact D|exact DA|].
    intros i k Hi Hk. rewrite G by assumption. rewrite (sum_one r _ i Hi). - rewrite GI by assumption. rewrite Nat.eqb_refl. ring.
    - intros x Hx N. rewrite GI by assumption. destruct (Nat.eqb_spec i x); [congruence|]. ring.
  Qed.
  Lemma transpose_mul_ j1 j2 j3 j4 j5 r n c A B : 0 < n ->
    transpose F j1 r c (mat_mul F j2 r n c A B) = mat_mul F j3 c n r (transpose F j4 n c B) (transpose F j5 r n A).
  Proof.
    intros Hn. destruct (mul_spec j2 r n c A B Hn) as [_ G]. destruct (transpose_spec F j1 r c (mat_mul F j2 r n c A B)) as [D1 G1].
    destruct (mul_spec j3 c n r (transpose F j4 n c B) (transpose F j5 r n A) Hn) as [D2 G2]. destruct (transpose_spec F j4 n c B) as [_ GB]. destruct (transpose_spec F j5 r n A) as [_ GA].
    apply (mat_ext F c r); [exact D1|exact D2|]. intros i k Hi Hk. rewrite G1, G2, G by assumption. apply sum_ext. intros x Hx. rewrite GA, GB by assumption. ring.
  Qed.
  Lemma mat_vec_mul_ j1 j2 j3 j4 r n c A B v : 0 < n -> 0 < c ->
    mat_vec F j1 r c (mat_mul F j2 r n c A B) v = mat_vec F j3 r n A (mat_vec F j4 n c B v).
  Proof.
    intros Hn Hc. destruct (mul_spec j2 r n c A B Hn) as [_ G]. destruct (mat_vec_spec j1 r c (mat_mul F j2 r n c A B) v Hc) as [L1 G1].
    destruct (mat_vec_spec j4 n c B v Hc) as [_ G2]. destruct (mat_vec_spec j3 r n A (mat_vec F j4 n c B v) Hn) as [L3 G3].
    apply (vec_ext F _ _ r L1 L3). intros i Hi. rewrite G1, G3 by assumption.
    rewrite (sum_ext c _ (fun x => sum n (fun y => mul F (mul F (get A i y) (get B y x)) (at_ v x)))) by (intros x Hx; rewrite G by assumption; apply sum_mul_r).
    rewrite sum_swap. apply sum_ext. intros y Hy. rewrite G2 by assumption. rewrite sum_mul_l. apply sum_ext. intros x Hx. ring.
  Qed.
  Lemma vec_mat_mul_ j1 j2 j3 j4 r n c v A B : 0 < n -> 0 < r ->
    vec_mat F j1 r c v (mat_mul F j2 r n c A B) = vec_mat F j3 n c (vec_mat F j4 r n v A) B.
  Proof.
    intros Hn Hr. destruct (mul_spec j2 r n c A B Hn) as [_ G]. destruct (vec_mat_spec j1 r c v (mat_mul F j2 r n c A B) Hr) as [L1 G1].
    destruct (vec_mat_spec j4 r n v A Hr) as [_ G2]. destruct (vec_mat_spec j3 n c (vec_mat F j4 r n v A) B Hn) as [L3 G3].
    apply (vec_ext F _ _ c L1 L3). intros i Hi. rewrite G1, G3 by assumption.
    rewrite (sum_ext r _ (fun x => sum n (fun y => mul F (at_ v x) (mul F (get A x y) (get B y i))))) by (intros x Hx; rewrite G by assumption; apply sum_mul_l).
    rewrite sum_swap. apply sum_ext. intros y Hy. rewrite G2 by assumption. rewrite sum_mul_r. apply sum_ext. intros x Hx. ring.
  Qed.
  Lemma vec_mat_transpose_ j1 j2 j3 r c v A : 0 < r -> vec_mat F j1 r c v A = mat_vec F j2 c r (transpose F j3 r c A) v.
  Proof.
    intros Hr. destruct (vec_mat_spec j1 r c v A Hr) as [L1 G1]. destruct (transpose_spec F j3 r c A) as [_ GT]. destruct (mat_vec_spec j2 c r (transpose F j3 r c A) v Hr) as [L2 G2].
    apply (vec_ext F _ _ c L1 L2). intros i Hi. rewrite G1, G2 by assumption. apply sum_ext. intros x Hx. rewrite GT by assumption. ring.
  Qed.
  Lemma transpose_transpose_ j1 j2 r c A : dims r c A -> transpose F j1 c r (transpose F j2 r c A) = A.
  Proof.
    intros DA. destruct (transpose_spec F j2 r c A) as [_ G]. destruct (transpose_spec F j1 c r (transpose F j2 r c A)) as [D2 G2]. apply (mat_ext F r c); [exact D2|exact DA|].
    intros i k Hi Hk. rewrite G2, G by assumption. reflexivity.
  Qed.
End Ring.
