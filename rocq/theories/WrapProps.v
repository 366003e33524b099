(** C169: which tasks for_each takes and what it passes to them. *)
From Coq Require Import List Bool Arith Lia.
From Verif Require Import TaskModel TaskProofs WrapModel.
Import ListNotations.
Local Open Scope nat_scope.

(** A task gets the element and the number of the batch if it takes both, otherwise the element if it takes that, otherwise nothing. *)
Definition promised (a : accepts) (i x : nat) (r : arguments) : Prop :=
  match r with
  | Two y j => a_two a = true /\ y = x /\ j = i
  | One y => a_two a = false /\ a_one a = true /\ y = x
  | Zero => a_two a = false /\ a_one a = false /\ a_none a = true
  end.
Theorem C169_arguments : forall a i x, a_two a = true \/ a_one a = true \/ a_none a = true ->
  (exists r, call_batch a (arity_range a) i x = Some r /\ promised a i x r) /\ (exists r, call_batch a (arity_iterators a) i x = Some r /\ promised a i x r).
Proof.
  intros [t o n] i x H. cbn [a_two a_one a_none] in H. split; unfold call_batch, arity_range, arity_iterators, invoke_with; cbn [a_two a_one a_none]; destruct t, o, n; cbn; try (exfalso; intuition discriminate); eexists; (split; [reflexivity|]); cbn; auto.
Qed.
Lemma wrap_class c r k : wrap c r = Some k -> k = KStored -> c_size c <= 32.
Proof.
  unfold wrap. destruct (manifestable c); [intros H ->; discriminate|]. destruct (c_shape c) eqn:Sh; try (intros H ->; discriminate). destruct (store_ok_with penalty c r) eqn:S.
  - intros _ _. unfold store_ok_with in S. rewrite Sh, !andb_true_iff, Nat.leb_le in S. unfold penalty, buffer_capacity, alignment in S. lia.
  - destruct (c_stateless_lambda c); [intros H ->; discriminate|]. destruct r; intros H ->; discriminate.
Qed.
Lemma round_up8_spec n : n <= round_up8 n < n + 8 /\ exists m, round_up8 n = 8 * m.
Proof.
  unfold round_up8. pose proof (Nat.div_mod (n + 7) 8 ltac:(lia)) as D. pose proof (Nat.mod_upper_bound (n + 7) 8 ltac:(lia)) as M. split; [lia|]. exists ((n + 7) / 8). lia.
Qed.
(** With pointers, or anything of up to eight bytes, every task with a wrapper is taken, whatever it accepts. *)
Theorem C169_small_iterators : forall it a arity c copyable r, it <= 8 -> a_two a = true \/ a_one a = true \/ a_none a = true -> r = false \/ copyable = true -> wrap c r <> None -> for_each_compiles it a arity c copyable r = true.
Proof.
  intros it a arity c copyable r I A C W. unfold for_each_compiles, accepted. replace (a_two a || a_one a || a_none a) with true by (destruct (a_two a), (a_one a), (a_none a); cbn; intuition congruence). replace (manifestable c || negb r || copyable) with true by (destruct C as [-> | ->]; destruct (manifestable c); try destruct r; reflexivity). cbn [andb].
  destruct (wrap c r) as [k|] eqn:E; [|contradiction]. apply Nat.leb_le. unfold closure_size, buffer_capacity, alignment.
  assert (K : wrapper_size k c <= 32) by (destruct k; cbn [wrapper_size]; try lia; now apply (wrap_class c r KStored)).
  destruct (round_up8_spec (wrapper_size k c)) as [B1 (m1 & M1)]. destruct (round_up8_spec (2 * it)) as [B2 (m2 & M2)]. destruct (arity =? 2); lia.
Qed.
(** Exactly this room is there for the state of a task that is stored. *)
Theorem C169_room : forall it a arity c copyable r m n, wrap c r = Some KStored -> r = false \/ copyable = true -> a_two a = true \/ a_one a = true \/ a_none a = true -> it = 4 * m -> c_size c = 8 * n ->
  (for_each_compiles it a arity c copyable r = true <-> 8 * m + (if arity =? 2 then 8 else 0) + 8 * n <= 56).
Proof.
  intros it a arity c copyable r m n W C A I S. unfold for_each_compiles, accepted. replace (a_two a || a_one a || a_none a) with true by (destruct (a_two a), (a_one a), (a_none a); cbn; intuition congruence). replace (manifestable c || negb r || copyable) with true by (destruct C as [-> | ->]; destruct (manifestable c); try destruct r; reflexivity). rewrite W. cbn [andb]. rewrite Nat.leb_le. unfold closure_size, buffer_capacity, alignment. cbn [wrapper_size].
  destruct (round_up8_spec (c_size c)) as [B1 (m1 & M1)]. destruct (round_up8_spec (2 * it)) as [B2 (m2 & M2)]. assert (E1 : m1 = n) by lia. assert (E2 : m2 = m) by lia. rewrite M1, M2, E1, E2. change (64 - 8) with 56. destruct (arity =? 2); lia.
Qed.
(** With iterators of more than 24 bytes, like those of a deque, no task is taken. *)
Theorem C169_large_iterators_refuted : forall it a arity c copyable r, 24 < it -> c_size c > 0 -> for_each_compiles it a arity c copyable r = false.
Proof.
  intros it a arity c copyable r I Z. unfold for_each_compiles. destruct (wrap c r) as [k|]; [|apply andb_false_r]. rewrite andb_false_iff. right. apply Nat.leb_gt. unfold closure_size, buffer_capacity, alignment.
  assert (K : 1 <= wrapper_size k c) by (destruct k; cbn [wrapper_size]; lia). destruct (round_up8_spec (wrapper_size k c)) as [B1 (m1 & M1)]. destruct (round_up8_spec (2 * it)) as [B2 (m2 & M2)]. destruct (arity =? 2); lia.
Qed.
(** A task of three pointers that asks for the number of its batch, and iterators of two pointers: the wrapper is fine, the closure does not fit. *)
Theorem C169_closure_refuted : exists c a, wrap c true = Some KStored /\ a_two a = true /\ for_each_compiles 16 a (arity_iterators a) c true true = false /\ for_each_compiles 8 a (arity_iterators a) c true true = true.
Proof.
  exists {| c_shape := Class; c_empty := false; c_trivial_default := false; c_trivial_destructor := true; c_stateless_lambda := false; c_size := 24; c_align := 8;
    c_nothrow_destructible := true; c_trivially_copyable := true; c_default := false; c_from := fun _ => true; c_set := fun _ => false; c_index := false; c_plain := false |}, {| a_two := true; a_one := false; a_none := false |}.
  repeat split; reflexivity.
Qed.
(** A temporary with state that can only be moved is taken by [enqueue], but never here. *)
Theorem C169_move_only_refuted : (forall it a arity c, manifestable c = false -> for_each_compiles it a arity c false true = false) /\
  exists c, manifestable c = false /\ c_from c false = false /\ c_plain c = true /\ select c true = Some KStored /\ wrap c true = Some KStored.
Proof.
  split.
  - intros it a arity c M. unfold for_each_compiles. rewrite M. cbn [orb negb]. now rewrite andb_false_r.
  - exists {| c_shape := Class; c_empty := false; c_trivial_default := false; c_trivial_destructor := false; c_stateless_lambda := false; c_size := 8; c_align := 8;
      c_nothrow_destructible := true; c_trivially_copyable := false; c_default := false; c_from := fun r => r; c_set := fun r => r; c_index := false; c_plain := true |}. repeat split; reflexivity.
Qed.
(** A wrapper never points to a temporary, and holds only what fits. *)
Theorem C169_kept : forall c r k, wrap c r = Some k -> (k = KCaller -> r = false) /\ (k = KStored -> c_size c <= 32 /\ c_align c <= 64 /\ c_nothrow_destructible c = true) /\ (k = KFresh -> c_empty c = true).
Proof.
  intros c r k H. split; [|split]; intros ->.
  - unfold wrap in H. destruct (manifestable c); [discriminate|]. destruct (c_shape c); try discriminate. destruct (store_ok_with penalty c r); [destruct (store_ok c true); discriminate|]. destruct (c_stateless_lambda c); [discriminate|]. now destruct r.
  - split; [now apply (wrap_class c r KStored)|]. unfold wrap in H. destruct (manifestable c); [discriminate|]. destruct (c_shape c) eqn:Sh; try discriminate. destruct (store_ok_with penalty c r) eqn:S; [|destruct (c_stateless_lambda c); [discriminate|]; destruct r; discriminate].
    unfold store_ok_with in S. rewrite Sh, !andb_true_iff, !Nat.leb_le in S. unfold alignment in S. tauto.
  - unfold wrap in H. destruct (manifestable c) eqn:M; [unfold manifestable in M; destruct (c_shape c); try discriminate; rewrite !andb_true_iff in M; tauto|].
    destruct (c_shape c); try discriminate. destruct (store_ok_with penalty c r); [destruct (store_ok c true); discriminate|]. destruct (c_stateless_lambda c); [discriminate|]. destruct r; discriminate.
Qed.
(** A task with state that moves and copies without exceptions is stored exactly if it has at most 32 bytes and no alignment above 64; if not, the
    object of the caller is used, and a temporary is refused. *)
Theorem C169_stored : forall c r, c_shape c = Class -> manifestable c = false -> c_nothrow_destructible c = true -> c_stateless_lambda c = false ->
  c_trivially_copyable c = true \/ (c_from c true = true /\ c_from c false = true) ->
  (c_size c <= 32 /\ c_align c <= 64 -> wrap c r = Some KStored) /\ (32 < c_size c \/ 64 < c_align c -> wrap c r = if r then None else Some KCaller).
Proof.
  intros c r Sh M D L T.
  assert (S : forall pen q, store_ok_with pen c q = (c_size c + pen <=? 56) && (c_align c <=? 64)).
  { intros pen q. unfold store_ok_with. rewrite Sh, D. unfold buffer_capacity, alignment. change (64 - 8) with 56. rewrite andb_true_r.
    replace (c_trivially_copyable c || _) with true; [apply andb_true_r|]. destruct T as [-> | [T1 T2]]; [reflexivity|]. rewrite T1. destruct q; rewrite ?T1, ?T2; cbn [orb andb]; now rewrite orb_true_r. }
  assert (S0 : store_ok c true = (c_size c <=? 56) && (c_align c <=? 64)). { pose proof (S 0 true) as E. unfold store_ok_with in E. rewrite Nat.add_0_r in E. exact E. }
  unfold wrap. rewrite M, Sh, L, S0, S. split.
  - intros [A B]. rewrite (proj2 (Nat.leb_le (c_align c) 64) B). rewrite (proj2 (Nat.leb_le (c_size c) 56)) by lia. rewrite (proj2 (Nat.leb_le (c_size c + penalty) 56)) by (unfold penalty; lia). reflexivity.
  - intros [A | A]; [rewrite (proj2 (Nat.leb_gt (c_size c + penalty) 56)) by (unfold penalty; lia)|rewrite (proj2 (Nat.leb_gt (c_align c) 64)) by lia; rewrite andb_false_r]; reflexivity.
Qed.

Example C169_stateless : let c := {| c_shape := Class; c_empty := true; c_trivial_default := true; c_trivial_destructor := true; c_stateless_lambda := true; c_size := 1; c_align := 1;
    c_nothrow_destructible := true; c_trivially_copyable := true; c_default := true; c_from := fun _ => true; c_set := fun _ => true; c_index := false; c_plain := false |} in
  wrap c true = Some KFresh /\ for_each_compiles 8 {| a_two := false; a_one := true; a_none := false |} 0 c true true = true /\ for_each_compiles 32 {| a_two := false; a_one := true; a_none := false |} 0 c true true = false.
Proof. repeat split; reflexivity. Qed.

Print Assumptions C169_arguments.
Print Assumptions C169_small_iterators.
Print Assumptions C169_room.
Print Assumptions C169_large_iterators_refuted.
Print Assumptions C169_closure_refuted.
Print Assumptions C169_move_only_refuted.
Print Assumptions C169_kept.
Print Assumptions C169_stored.
