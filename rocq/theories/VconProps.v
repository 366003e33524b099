(** C138: the components a vector is built from are the components it has. *)
From Coq Require Import List Arith Bool Lia.
From Verif Require Import VconModel VconSpec VconProofs.
Import ListNotations.

(** C138: one value for all components; one value per component. *)
Theorem C138_scalars : forall (S : Type) (zero : S) n,
  (forall x, 1 <= n -> exists r, broadcast zero n x = Some r /\ from_scalars zero n [x] = Some r /\ all_equal_to n x r) /\
  (forall l, 2 <= length l <= n -> exists r, from_scalars zero n l = Some r /\ starts_with zero n l r) /\
  (forall l, n < length l -> from_scalars zero n l = None).
Proof.
  intros S zero n. split; [|split].
  - intros x N. destruct (broadcast_all zero n x N) as (r & E & A). exists r. split; [exact E|]. split; [|exact A].
    rewrite <- E. destruct n as [|[|[|[|[|n]]]]]; [lia| | | | |]; reflexivity.
  - intros l H. apply scalars_starts, H.
  - intros l H. destruct l as [|a [|b l]]; [cbn in H; lia| |].
    + cbn in H. replace n with 0 by lia. reflexivity.
    + cbn [length] in H. destruct n as [|[|[|[|[|n]]]]]; [reflexivity|reflexivity| | | |].
      * destruct l as [|c l]; [cbn in H; lia|reflexivity].
      * destruct l as [|c [|d l]]; [cbn in H; lia|cbn in H; lia|reflexivity].
      * destruct l as [|c [|d [|e l]]]; [cbn in H; lia|cbn in H; lia|cbn in H; lia|reflexivity].
      * destruct l as [|c [|d l]]; [cbn in H; lia|cbn in H; lia|].
        transitivity (if 4 + length l <=? 5 + n then values zero (5 + n) (a :: b :: c :: d :: l) else None); [reflexivity|].
        cbn [length] in H. destruct (Nat.leb_spec (4 + length l) (5 + n)) as [Q|Q]; [lia|reflexivity].
Qed.
Print Assumptions C138_scalars.
Example C138_scalars_5 : from_scalars 0 6 [1; 2; 3; 4; 5] = Some [1; 2; 3; 4; 5; 0] /\ from_scalars 0 5 [7; 8] = Some [7; 8; 0; 0; 0].
Proof. split; reflexivity. Qed.

(** C138: arrays, of the vector's own scalar type (whether or not bit casts are available) and of another, tuples, and spans of
    static extent. Too many elements are refused. *)
Theorem C138_arrays : forall (S A : Type) (zero : S) (cast : A -> S) n,
  (forall b arr, 1 <= n -> length arr <= n -> (n = 1 -> arr <> []) ->
     exists r, from_array zero b n arr = Some r /\ starts_with zero n arr r) /\
  (forall arr, 1 <= n -> length arr <= n -> (n = 1 -> arr <> []) ->
     exists r, from_other_array zero cast n arr = Some r /\ from_tuple zero cast n arr = Some r /\
               from_static_span zero cast n arr = Some r /\ starts_with zero n (map cast arr) r) /\
  (forall b arr, n < length arr -> from_array zero b n arr = None) /\
  (forall arr, n < length arr -> from_other_array zero cast n arr = None /\ from_tuple zero cast n arr = None /\
                                 from_static_span zero cast n arr = None).
Proof.
  intros S A zero cast n. split; [|split; [|split]].
  - intros b arr. apply array_starts.
  - intros arr N L E. destruct (cast_starts zero n (map cast arr)) as (r & P & Q).
    { exact N. } { rewrite map_length. exact L. } { intros O Z. apply (E O). destruct arr; [reflexivity|discriminate]. }
    exists r. unfold from_other_array, from_tuple, from_static_span. rewrite (proj2 (Nat.leb_le _ _) L).
    split; [exact P|]. split; [exact P|]. split; [exact P|exact Q].
  - intros b arr L. unfold from_array. rewrite (proj2 (Nat.ltb_ge (length arr) n)) by lia.
    rewrite (proj2 (Nat.eqb_neq n (length arr))) by lia. reflexivity.
  - intros arr L. unfold from_other_array, from_tuple, from_static_span. rewrite (proj2 (Nat.leb_gt (length arr) n) L).
    split; [reflexivity|]. split; reflexivity.
Qed.
Print Assumptions C138_arrays.
Example C138_arrays_2 : from_other_array 0 (fun b : bool => if b then 1 else 0) 3 [true; true] = Some [1; 1; 0] /\
  from_array 0 true 2 [5; 6] = Some [5; 6] /\ from_array 0 false 2 [5; 6] = Some [5; 6].
Proof. split; [reflexivity|]. split; reflexivity. Qed.

(** C138 at the edge: an empty array or tuple gives zeros in two or more dimensions, and is refused in one. *)
Theorem C138_empty_refuted : forall (S : Type) (zero : S) b,
  from_array zero b 1 [] = None /\ forall n, 2 <= n -> exists r, from_array zero b n [] = Some r /\ all_equal_to n zero r.
Proof.
  intros S zero b. split; [reflexivity|]. intros n N. destruct (array_starts zero b n []) as (r & E & _ & L & F); [lia|cbn; lia|lia|].
  exists r. split; [exact E|]. split; [exact L|]. intros y I. apply In_nth_error in I as [i I].
  assert (J : i < n) by (rewrite <- L; apply nth_error_Some; congruence). rewrite (F i J) in I. destruct i; cbn in I; congruence.
Qed.
Print Assumptions C138_empty_refuted.

(** C138: a vector of another size or scalar type, written with parentheses or braces: its first components, converted, and
    zeros after them. Enlarging and cutting back gives the same vector. *)
Theorem C138_convert : forall (S A : Type) (zero : S) (cast : A -> S) same n vec, 1 <= n -> 1 <= length vec ->
  exists r, init_from_vector zero cast same Direct n vec = Some r /\ starts_with zero n (map cast (firstn n vec)) r.
Proof.
  intros S A zero cast same n vec N D. unfold init_from_vector. destruct (same && (length vec =? n)) eqn:Q.
  - apply andb_true_iff in Q as [_ Q]. apply Nat.eqb_eq in Q. exists (map cast vec). split; [reflexivity|].
    rewrite firstn_all2 by lia. apply starts_exact. rewrite map_length. exact Q.
  - unfold from_vector. set (k := if length vec <? n then length vec else n).
    assert (K : firstn k vec = firstn n vec).
    { unfold k. destruct (Nat.ltb_spec (length vec) n) as [I|I]; [|reflexivity]. rewrite !firstn_all2 by lia. reflexivity. }
    rewrite K. apply cast_starts; [exact N|rewrite map_length, firstn_length; lia|].
    intros -> Z. apply (f_equal (@length S)) in Z. rewrite map_length, firstn_length in Z. cbn [length] in Z. lia.
Qed.
Print Assumptions C138_convert.
Example C138_convert_3 : init_from_vector 0 (fun x => x + 1) false Direct 4 [1; 2] = Some [2; 3; 0; 0] /\
  init_from_vector 0 (fun x => x + 1) false Direct 2 [1; 2; 3; 4; 5] = Some [2; 3].
Proof. split; reflexivity. Qed.

Theorem C138_enlarge_truncate : forall (S : Type) (zero : S) n m v, 1 <= length v -> length v = n -> n <= m ->
  exists w, init_from_vector zero (fun x => x) true Direct m v = Some w /\
            init_from_vector zero (fun x => x) true Direct n w = Some v.
Proof.
  intros S zero n m v V L M. destruct (C138_convert S S zero (fun x => x) true m v) as (w & E & W); [lia|exact V|].
  exists w. split; [exact E|]. rewrite map_id, firstn_all2 in W by lia. pose proof W as (_ & LW & FW).
  destruct (C138_convert S S zero (fun x => x) true n w) as (u & Eu & U); [lia|lia|]. rewrite Eu. f_equal.
  rewrite map_id in U. destruct U as (_ & LU & FU). apply nth_error_ext. intros i. destruct (Nat.lt_ge_cases i n) as [I|I].
  - rewrite (FU i I). assert (Q : nth_error (firstn n w) i = nth_error w i).
    { rewrite <- (firstn_skipn n w) at 2. rewrite nth_error_app1; [reflexivity|]. rewrite firstn_length. lia. }
    rewrite Q, (FW i) by lia. destruct (nth_error v i) eqn:G; [reflexivity|]. apply nth_error_None in G. lia.
  - rewrite (proj2 (nth_error_None u i)), (proj2 (nth_error_None v i)) by lia. reflexivity.
Qed.
Print Assumptions C138_enlarge_truncate.

(** C138: two vectors, or a vector and scalars: all components in order, then zeros; refused when they are too many. *)
Theorem C138_concat : forall (S A B : Type) (zero : S) (castA : A -> S) (castB : B -> S) n v w, 2 <= n ->
  (length v + length w <= n ->
   exists r, from_two zero castA castB n v w = Some r /\ from_appended zero castA castB n v w = Some r /\
             starts_with zero n (map castA v ++ map castB w) r) /\
  (n < length v + length w -> from_two zero castA castB n v w = None /\ from_appended zero castA castB n v w = None).
Proof.
  intros S A B zero castA castB n v w N. unfold from_two, from_appended. split; intros L.
  - rewrite (proj2 (Nat.leb_le _ _) L). destruct (concat_starts zero n (map castA v ++ map castB w)) as (r & E & R).
    { exact N. } { rewrite app_length, !map_length. exact L. }
    exists r. split; [exact E|]. split; [exact E|exact R].
  - rewrite (proj2 (Nat.leb_gt _ _) L). split; reflexivity.
Qed.
Print Assumptions C138_concat.
Example C138_concat_4 : from_two 0 (fun x => x) (fun x => 10 * x) 5 [1; 2] [3; 4] = Some [1; 2; 30; 40; 0].
Proof. reflexivity. Qed.

(** C138: from a pointer and a count, or a span of dynamic extent, whatever the object's bytes were before; from a pointer
    alone. Undefined exactly when there are more elements than components, or fewer than asked for behind the pointer. *)
Theorem C138_pointer : forall (S A : Type) (zero : S) (cast : A -> S) n (old : list S), length old = n ->
  (forall vals num, num <= n -> num <= length vals ->
     exists r, from_pointer_count_same zero n old vals num = Some r /\ starts_with zero n (firstn num vals) r) /\
  (forall vals num, num <= n -> num <= length vals ->
     exists r, from_pointer_count_other zero cast n old vals num = Some r /\ starts_with zero n (map cast (firstn num vals)) r) /\
  (forall vals, length vals <= n -> exists r, from_dynamic_span_same zero n old vals = Some r /\ starts_with zero n vals r) /\
  (forall vals, length vals <= n ->
     exists r, from_dynamic_span_other zero cast n old vals = Some r /\ starts_with zero n (map cast vals) r) /\
  (forall vals, 1 <= n -> n <= length vals ->
     exists r, from_pointer zero cast n vals = Some r /\ starts_with zero n (map cast (firstn n vals)) r) /\
  (forall vals num, ~ (num <= n /\ num <= length vals) -> from_pointer_count_same zero n old vals num = None) /\
  (forall vals num, ~ (num <= n /\ num <= length vals) -> from_pointer_count_other zero cast n old vals num = None).
Proof.
  intros S A zero cast n old O. split; [|split; [|split; [|split; [|split; [|split]]]]].
  - intros vals num P Q. apply pointer_same; assumption.
  - intros vals num P Q. apply pointer_other; assumption.
  - intros vals P. destruct (pointer_same zero n old vals (length vals) O P (le_n _)) as (r & E & R).
    rewrite firstn_all in R. exists r. split; [exact E|exact R].
  - intros vals P. destruct (pointer_other zero cast n old vals (length vals) O P (le_n _)) as (r & E & R).
    rewrite firstn_all in R. exists r. split; [exact E|exact R].
  - intros vals N P. unfold from_pointer. rewrite (proj2 (Nat.leb_le _ _) P).
    apply cast_starts; [exact N|rewrite map_length, firstn_length; lia|].
    intros -> Z. apply (f_equal (@length S)) in Z. rewrite map_length, firstn_length in Z. cbn [length] in Z. lia.
  - intros vals num H. unfold from_pointer_count_same. destruct (Nat.leb_spec num n), (Nat.leb_spec num (length vals)); try reflexivity. lia.
  - intros vals num H. unfold from_pointer_count_other. destruct (Nat.leb_spec num n), (Nat.leb_spec num (length vals)); try reflexivity. lia.
Qed.
Print Assumptions C138_pointer.
Example C138_pointer_5 : from_pointer_count_other 0 (fun b : bool => if b then 1 else 0) 5 [9; 9; 9; 9; 9] [true; false; true; true] 3
  = Some [1; 0; 1; 0; 0].
Proof. reflexivity. Qed.

(** C138, conversions the reader of the code does not write: with [vector<S, n> r = v;] a vector of another scalar type or of a
    smaller size is accepted without a cast, and a larger one is refused; with [vector<S, n> r = { v };], the documented way,
    every one is refused. *)
Theorem C138_implicit_refuted : forall (S A : Type) (zero : S) (cast : A -> S) same n vec, 1 <= n -> 1 <= length vec ->
  ~ (same = true /\ length vec = n) ->
  init_from_vector zero cast same CopyList n vec = None /\
  (init_from_vector zero cast same Copy n vec <> None <-> (2 <= n /\ length vec <= n)) /\
  (2 <= n -> length vec <= n -> init_from_vector zero cast same Copy n vec = init_from_vector zero cast same Direct n vec).
Proof.
  intros S A zero cast same n vec N D K. unfold init_from_vector.
  assert (Q : same && (length vec =? n) = false).
  { destruct same; [|reflexivity]. cbn. apply Nat.eqb_neq. intros Z. apply K. split; [reflexivity|exact Z]. }
  rewrite Q. split; [reflexivity|]. split.
  - split.
    + intros H. unfold from_appended in H. destruct (Nat.leb_spec (length vec + @length S []) n) as [I|I]; [|now elim H].
      cbn in I. split; [|lia]. destruct (Nat.eq_dec n 1) as [->|Z]; [now elim H|lia].
    + intros [P R]. destruct (C138_concat S A S zero cast (fun x => x) n vec [] P) as [H _]. destruct H as (r & _ & E & _); [cbn; lia|].
      rewrite E. discriminate.
  - intros P R. destruct (C138_concat S A S zero cast (fun x => x) n vec [] P) as [H _]. destruct H as (r & _ & E & F); [cbn; lia|].
    destruct (C138_convert S A zero cast false n vec N D) as (r' & E' & F'). unfold init_from_vector in E'. cbn [andb] in E'.
    rewrite E, E'. f_equal. cbn in F. rewrite app_nil_r in F. rewrite firstn_all2 in F' by exact R. exact (starts_unique zero n _ _ _ F F').
Qed.
Print Assumptions C138_implicit_refuted.
Example C138_implicit_4 : init_from_vector 0 (fun x => x / 2) false Copy 4 [3; 5; 7] = Some [1; 2; 3; 0] /\
  init_from_vector 0 (fun x => x / 2) false CopyList 4 [3; 5; 7] = None.
Proof. split; reflexivity. Qed.

(** C138: reading. [get], subscripts (in constant evaluation or not), iteration and swizzles all see the same components. *)
Theorem C138_read : forall (S : Type) (zero : S) n (v : list S), length v = n -> 1 <= n ->
  iterate n v = v /\
  (forall i, i < n -> exists x, nth_error v i = Some x /\ get n v i = Some x /\ forall c, subscript c n v i = Some x) /\
  (forall i, n <= i -> get n v i = None) /\
  (forall idx, idx <> [] -> Forall (fun i => i < n) idx ->
     exists r, swizzle zero n v idx = Some r /\ length r = length idx /\
               forall k i, nth_error idx k = Some i -> nth_error r k = nth_error v i) /\
  (forall idx i, In i idx -> n <= i -> swizzle zero n v idx = None).
Proof.
  intros S zero n v L N. split; [|split; [|split; [|split]]].
  - unfold iterate. apply firstn_all2. lia.
  - intros i I. exists (nth i v zero). assert (E : nth_error v i = Some (nth i v zero)) by (apply nth_error_nth'; lia).
    split; [exact E|]. split; [rewrite get_nth by exact L; exact E|]. intros c. rewrite subscript_nth by assumption. exact E.
  - intros i I. unfold get. rewrite (proj2 (Nat.ltb_ge i n) I). reflexivity.
  - intros idx Z F. unfold swizzle. assert (P : 0 <? length idx = true) by (destruct idx; [now elim Z|reflexivity]).
    assert (Q : forallb (fun i => i <? n) idx = true).
    { apply forallb_forall. intros i I. apply Nat.ltb_lt. rewrite Forall_forall in F. exact (F i I). }
    rewrite P, Q. cbn [andb]. rewrite (gets_map zero n v idx L F). set (l := map (fun i => nth i v zero) idx).
    assert (Ll : length l = length idx) by apply map_length.
    assert (G : forall r, starts_with zero (length idx) l r -> length r = length idx /\
                forall k i, nth_error idx k = Some i -> nth_error r k = nth_error v i).
    { intros r (_ & LR & FR). split; [exact LR|]. intros k i K.
      assert (KK : k < length idx) by (apply nth_error_Some; congruence). rewrite (FR k KK). unfold l. rewrite nth_error_map, K. cbn.
      symmetry. apply nth_error_nth'. rewrite Forall_forall in F. rewrite L. apply F. eapply nth_error_In; exact K. }
    destruct (Nat.eq_dec (length idx) 1) as [O|O].
    + destruct idx as [|i0 [|i1 idx]]; cbn in O; try lia. exists l. split; [reflexivity|]. apply G, starts_exact. exact Ll.
    + assert (LL : 2 <= length l <= length idx) by (rewrite Ll; destruct idx as [|? [|? ?]]; cbn in *; try lia; now elim Z).
      destruct (scalars_starts zero (length idx) l LL) as (r & E & R). exists r. split; [exact E|]. exact (G r R).
  - intros idx i I J. unfold swizzle. assert (Q : forallb (fun i => i <? n) idx = false).
    { apply not_true_is_false. intros T. rewrite forallb_forall in T. apply T in I. apply Nat.ltb_lt in I. lia. }
    rewrite Q, andb_false_r. reflexivity.
Qed.
Print Assumptions C138_read.
Example C138_read_5 : swizzle 0 5 [10; 20; 30; 40; 50] [4; 0; 0; 2; 1; 3] = Some [50; 10; 10; 30; 20; 40].
Proof. reflexivity. Qed.

(** C138: the named swizzles. *)
Theorem C138_named : forall (S : Type) (zero last a b c : S) rest, let v := a :: b :: rest in
  let n := length v in let w := a :: b :: c :: rest in let m := length w in
  xy zero n v = Some [a; b] /\ yx zero n v = Some [b; a] /\ xz zero m w = Some [a; c] /\ xyz zero m w = Some [a; b; c] /\
  xyz_with zero last m w = Some [a; b; c; last] /\ xz zero 2 [a; b] = None /\ xyz zero 2 [a; b] = None /\ xy zero 1 [a] = None.
Proof.
  intros S zero last a b c rest v n w m.
  assert (V : forall i, get n v i = nth_error v i) by (intros i; apply get_nth; reflexivity).
  assert (W : forall i, get m w i = nth_error w i) by (intros i; apply get_nth; reflexivity).
  unfold xy, yx, xz at 1, xyz at 1, xyz_with. rewrite !V, !W. repeat split.
Qed.
Print Assumptions C138_named.
