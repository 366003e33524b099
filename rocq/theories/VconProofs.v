(** Lemmas for VconProps.v. *)
From Coq Require Import List Arith Bool Lia.
From Verif Require Import VconModel VconSpec.
Import ListNotations.

Lemma nth_error_ext {A} (l l' : list A) : (forall i, nth_error l i = nth_error l' i) -> l = l'.
Proof.
  revert l'. induction l as [|a l IH]; intros [|b l'] H.
  - reflexivity.
  - discriminate (H 0).
  - discriminate (H 0).
  - pose proof (H 0) as E. injection E as ->. f_equal. apply IH. intros i. exact (H (S i)).
Qed.

Section P.
  Context {S : Type} (zero : S).

  Lemma starts_pad n (l : list S) : length l <= n -> starts_with zero n l (l ++ repeat zero (n - length l)).
  Proof.
    intros H. split; [exact H|]. split; [rewrite app_length, repeat_length; lia|].
    intros i I. destruct (nth_error l i) eqn:E.
    - rewrite nth_error_app1; [exact E|]. apply nth_error_Some. congruence.
    - apply nth_error_None in E. rewrite nth_error_app2 by exact E.
      rewrite (nth_error_nth' _ zero) by (rewrite repeat_length; lia). rewrite nth_repeat. reflexivity.
  Qed.

  Lemma starts_unique n (l r r' : list S) : starts_with zero n l r -> starts_with zero n l r' -> r = r'.
  Proof.
    intros (_ & L & H) (_ & L' & H'). apply nth_error_ext. intros i. destruct (Nat.lt_ge_cases i n) as [I|I].
    - rewrite (H i I), (H' i I). reflexivity.
    - rewrite (proj2 (nth_error_None r i)), (proj2 (nth_error_None r' i)) by lia. reflexivity.
  Qed.

  Lemma values_starts n (l : list S) : length l <= n -> exists r, values zero n l = Some r /\ starts_with zero n l r.
  Proof.
    intros H. exists (l ++ repeat zero (n - length l)). split; [|apply starts_pad, H].
    unfold values. apply Nat.leb_le in H. rewrite H. reflexivity.
  Qed.

  Ltac step := eexists; split; [reflexivity|]; split; [cbn; lia|split; [reflexivity|]];
    let i := fresh "i" in let I := fresh "I" in intros i I; do 4 (destruct i as [|i]; [solve [reflexivity | lia]|]); lia.

  Lemma concat_starts n (l : list S) : 2 <= n -> length l <= n ->
    exists r, concat_init zero n l = Some r /\ starts_with zero n l r.
  Proof.
    intros N H. destruct n as [|[|[|[|[|n]]]]]; [lia|lia| | | |].
    - destruct l as [|a [|b [|c l]]]; cbn in H; [| | |lia]; step.
    - destruct l as [|a [|b [|c [|d l]]]]; cbn in H; [| | | |lia]; step.
    - destruct l as [|a [|b [|c [|d [|e l]]]]]; cbn in H; [| | | | |lia]; step.
    - apply values_starts, H.
  Qed.

  Lemma cast_starts n (l : list S) : 1 <= n -> length l <= n -> (n = 1 -> l <> []) ->
    exists r, cast_init zero n l = Some r /\ starts_with zero n l r.
  Proof.
    intros N H E. destruct (Nat.eq_dec n 1) as [->|D].
    - destruct l as [|a [|b l]]; [now elim (E eq_refl)| |cbn in H; lia].
      exists [a]. split; [reflexivity|]. split; [cbn; lia|]. split; [reflexivity|]. intros [|i] I; [reflexivity|lia].
    - replace (cast_init zero n l) with (concat_init zero n l) by (destruct n as [|[|[|[|[|n]]]]]; try reflexivity; lia).
      apply concat_starts; lia.
  Qed.

  Lemma cast_rejects n (l : list S) r : cast_init zero n l = Some r -> 1 <= n /\ length l <= n /\ (n = 1 -> l <> []).
  Proof.
    intros H. destruct n as [|[|[|[|[|n]]]]].
    - discriminate.
    - destruct l as [|a [|b l]]; try discriminate. cbn. repeat split; [lia|lia|intros _; discriminate].
    - destruct l as [|a [|b [|c l]]]; try discriminate; cbn; repeat split; lia.
    - destruct l as [|a [|b [|c [|d l]]]]; try discriminate; cbn; repeat split; lia.
    - destruct l as [|a [|b [|c [|d [|e l]]]]]; try discriminate; cbn; repeat split; lia.
    - change (values zero (5 + n) l = Some r) in H. unfold values in H.
      destruct (length l <=? 5 + n) eqn:E; [|discriminate]. apply Nat.leb_le in E. repeat split; lia.
  Qed.

  Lemma broadcast_all n x : 1 <= n -> exists r, broadcast zero n x = Some r /\ all_equal_to n x r.
  Proof.
    intros N. destruct n as [|[|[|[|[|n]]]]]; [lia| | | | |].
    1-4: eexists; split; [reflexivity|]; split; [reflexivity|]; intros y I; cbn in I; intuition congruence.
    change (broadcast zero (5 + n) x) with (values zero (5 + n) (map (fun _ => x) (seq 0 (5 + n)))).
    destruct (values_starts (5 + n) (map (fun _ => x) (seq 0 (5 + n)))) as (r & E & _ & L & F).
    { rewrite map_length, seq_length. lia. }
    exists r. split; [exact E|]. split; [exact L|]. intros y I. apply In_nth_error in I as [i I].
    assert (J : i < 5 + n) by (rewrite <- L; apply nth_error_Some; congruence).
    rewrite (F i J) in I. rewrite nth_error_map in I.
    destruct (nth_error (seq 0 (5 + n)) i) eqn:Q; [cbn in I; congruence|].
    apply nth_error_None in Q. rewrite seq_length in Q. lia.
  Qed.

  Lemma scalars_starts n (l : list S) : 2 <= length l <= n -> exists r, from_scalars zero n l = Some r /\ starts_with zero n l r.
  Proof.
    intros H. destruct l as [|a [|b l]]; [cbn in H; lia|cbn in H; lia|].
    destruct n as [|[|[|[|[|n]]]]]; [cbn in H; lia|cbn in H; lia| | | |].
    - destruct l as [|c l]; [|cbn in H; lia]. step.
    - destruct l as [|c [|d l]]; [| |cbn in H; lia]; step.
    - destruct l as [|c [|d [|e l]]]; [| | |cbn in H; lia]; step.
    - destruct l as [|c [|d l]].
      + destruct (values_starts (5 + n) [a; b]) as (r & E & F); [cbn; lia|].
        exists r. split; [|exact F]. cbn in E |- *. exact E.
      + destruct (values_starts (5 + n) [a; b; c]) as (r & E & F); [cbn; lia|].
        exists r. split; [|exact F]. cbn in E |- *. exact E.
      + destruct (values_starts (5 + n) (a :: b :: c :: d :: l)) as (r & E & F); [exact (proj2 H)|].
        exists r. split; [|exact F]. transitivity (if 4 + length l <=? 5 + n then values zero (5 + n) (a :: b :: c :: d :: l) else None);
          [reflexivity|].
        cbn [length] in H. destruct (Nat.leb_spec (4 + length l) (5 + n)) as [Q|Q]; [exact E|lia].
  Qed.

  Lemma map_nth_seq (l : list S) : map (fun i => nth i l zero) (seq 0 (length l)) = l.
  Proof.
    apply nth_error_ext. intros i. rewrite nth_error_map. destruct (Nat.lt_ge_cases i (length l)) as [I|I].
    - rewrite (nth_error_nth' (seq 0 (length l)) 0) by (rewrite seq_length; exact I). rewrite seq_nth by exact I. cbn.
      rewrite (nth_error_nth' l zero I). reflexivity.
    - rewrite (proj2 (nth_error_None (seq 0 (length l)) i)) by (rewrite seq_length; exact I).
      rewrite (proj2 (nth_error_None l i)) by exact I. reflexivity.
  Qed.

  Lemma starts_exact n (l : list S) : length l = n -> starts_with zero n l l.
  Proof.
    intros L. split; [lia|]. split; [exact L|]. intros i I. destruct (nth_error l i) eqn:E; [reflexivity|].
    apply nth_error_None in E. lia.
  Qed.

  Lemma array_starts b n (l : list S) : 1 <= n -> length l <= n -> (n = 1 -> l <> []) ->
    exists r, from_array zero b n l = Some r /\ starts_with zero n l r.
  Proof.
    intros N H E. unfold from_array. rewrite map_nth_seq. destruct (Nat.ltb_spec (length l) n) as [A|A]; cbn [orb].
    - apply cast_starts; assumption.
    - assert (Q : length l = n) by lia. rewrite Q, Nat.eqb_refl. cbn [andb]. destruct b; cbn [negb].
      + exists l. split; [reflexivity|apply starts_exact, Q].
      + apply cast_starts; assumption.
  Qed.

  Lemma overwrite_length (old new : list S) : length (overwrite old new) = length old.
  Proof. revert new. induction old as [|o old IH]; intros [|x new]; cbn; try reflexivity. f_equal. apply IH. Qed.
  Lemma overwrite_firstn (old new : list S) k : length new <= length old -> k = length new -> firstn k (overwrite old new) = new.
  Proof.
    revert new k. induction old as [|o old IH]; intros [|x new] k L K; subst k; cbn in *; try reflexivity; [lia|].
    f_equal. apply IH; [lia|reflexivity].
  Qed.
  Lemma set_at_length (v : list S) i x : i < length v -> length (set_at v i x) = length v.
  Proof. intros I. unfold set_at. rewrite app_length, firstn_length, Nat.min_l by lia. cbn. rewrite skipn_length. lia. Qed.
  Lemma set_at_firstn (v : list S) i x : i < length v -> firstn (i + 1) (set_at v i x) = firstn i v ++ [x].
  Proof.
    intros I. unfold set_at. rewrite firstn_app, firstn_firstn, firstn_length, !Nat.min_r, Nat.min_l by lia.
    replace (i + 1 - i) with 1 by lia. reflexivity.
  Qed.

  Lemma assign_from_spec {A} (cast : A -> S) vals : forall i v, i + length vals <= length v ->
    length (assign_from cast i vals v) = length v /\
    firstn (i + length vals) (assign_from cast i vals v) = firstn i v ++ map cast vals.
  Proof.
    induction vals as [|x r IH]; intros i v L; cbn [assign_from length] in *.
    - rewrite Nat.add_0_r. cbn. rewrite app_nil_r. split; reflexivity.
    - assert (I : i < length v) by lia. destruct (IH (i + 1) (set_at v i (cast x))) as [P Q].
      { rewrite set_at_length by exact I. lia. }
      rewrite set_at_length in P by exact I. split; [exact P|].
      replace (i + Datatypes.S (length r)) with (i + 1 + length r) by lia. rewrite Q, set_at_firstn by exact I. rewrite <- app_assoc. reflexivity.
  Qed.

  Lemma finish n num (l v : list S) : length v = n -> length l = num -> num <= n -> firstn num v = l ->
    starts_with zero n l (if num <? n then memset_tail zero n num v else v).
  Proof.
    intros V L M F. destruct (Nat.ltb_spec num n) as [A|A].
    - unfold memset_tail. rewrite F, <- L. apply starts_pad. lia.
    - assert (num = n) by lia. rewrite firstn_all2 in F by lia. subst l. apply starts_exact. exact V.
  Qed.

  Lemma pointer_same n (old vals : list S) num : length old = n -> num <= n -> num <= length vals ->
    exists r, from_pointer_count_same zero n old vals num = Some r /\ starts_with zero n (firstn num vals) r.
  Proof.
    intros O A B. unfold from_pointer_count_same. rewrite (proj2 (Nat.leb_le _ _) A), (proj2 (Nat.leb_le _ _) B). cbn [andb].
    eexists. split; [reflexivity|]. assert (L : length (firstn num vals) = num) by (rewrite firstn_length; lia).
    apply finish; [rewrite overwrite_length; exact O|exact L|exact A|]. apply overwrite_firstn; lia.
  Qed.
  Lemma pointer_other {A} (cast : A -> S) n (old : list S) vals num : length old = n -> num <= n -> num <= length vals ->
    exists r, from_pointer_count_other zero cast n old vals num = Some r /\ starts_with zero n (map cast (firstn num vals)) r.
  Proof.
    intros O X B. unfold from_pointer_count_other. rewrite (proj2 (Nat.leb_le _ _) X), (proj2 (Nat.leb_le _ _) B). cbn [andb].
    eexists. split; [reflexivity|]. assert (L : length (firstn num vals) = num) by (rewrite firstn_length; lia).
    destruct (assign_from_spec cast (firstn num vals) 0 old) as [P Q]; [lia|]. cbn [firstn app] in Q. rewrite L in Q.
    apply finish; [rewrite P; exact O|rewrite map_length; exact L|exact X|exact Q].
  Qed.

  Lemma get_nth n (v : list S) i : length v = n -> get n v i = nth_error v i.
  Proof.
    intros L. unfold get. destruct (Nat.ltb_spec i n) as [I|I].
    - destruct (Nat.leb_spec n 4) as [M|M]; [|reflexivity].
      destruct i as [|[|[|[|i]]]]; [| | | |lia]; subst n; destruct v as [|a [|b [|c [|d v]]]]; cbn in *; try reflexivity; lia.
    - symmetry. apply nth_error_None. lia.
  Qed.
  Lemma subscript_nth c n (v : list S) i : length v = n -> i < n -> subscript c n v i = nth_error v i.
  Proof.
    intros L I. unfold subscript. rewrite (proj2 (Nat.ltb_lt _ _) I). destruct (Nat.leb_spec n 4) as [M|M]; cbn [andb]; [|reflexivity].
    destruct c; [|reflexivity]. destruct i as [|[|[|[|i]]]]; [reflexivity| | | |lia].
    - rewrite (proj2 (Nat.ltb_lt 1 n) I). reflexivity.
    - rewrite (proj2 (Nat.ltb_lt 2 n) I). reflexivity.
    - rewrite (proj2 (Nat.ltb_lt 3 n) I). reflexivity.
  Qed.

  Lemma gets_map n (v : list S) idx : length v = n -> Forall (fun i => i < n) idx ->
    gets n v idx = Some (map (fun i => nth i v zero) idx).
  Proof.
    intros L F. induction F as [|i idx I F IH]; [reflexivity|]. cbn [gets map]. rewrite (get_nth n v i L).
    rewrite (nth_error_nth' v zero) by lia. rewrite IH. reflexivity.
  Qed.
End P.
