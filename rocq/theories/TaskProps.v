(** C167: tasks of a thread pool are kept safely, called once and destroyed once. *)
From Coq Require Import ZArith List Bool Arith Lia.
From Verif Require Import TaskModel TaskSpec TaskProofs.
Import ListNotations.
Local Open Scope nat_scope.

(** Whatever callers and workers do, in whatever order: no object is used before it is made or after it was destroyed, none is destroyed
    twice, a call reaches the callable that was enqueued, never a temporary of the caller, with the number of the worker if asked for. *)
Theorem C167_lifetimes : forall workers ops s, run workers ops initial = Some s -> sound workers (trace s).
Proof. intros workers ops s H. apply i_sound. apply (inv_run workers ops initial s); [apply inv_initial| |exact H]. intros w t []. Qed.
(** An object with a destructor is alive only as long as its task is in a queue or with a worker: nothing leaks. *)
Theorem C167_no_leak : forall workers ops s o who c r, run workers ops initial = Some s ->
  live (after (trace s)) o = Some who -> known (after (trace s)) who = Some (c, r) -> c_trivial_destructor c = false ->
  exists p t, In (p, t) (held s) /\ t_who t = who /\ t_object t = Some o.
Proof. intros workers ops s o who c r H. apply i_live with workers. apply (inv_run workers ops initial s); [apply inv_initial| |exact H]. intros w t []. Qed.
(** A task has at most one such object at a time. *)
Theorem C167_one_object : forall workers ops s o o' who c r, run workers ops initial = Some s -> live (after (trace s)) o = Some who -> live (after (trace s)) o' = Some who ->
  known (after (trace s)) who = Some (c, r) -> c_trivial_destructor c = false -> o = o'.
Proof.
  intros workers ops s o o' who c r H L L' K D. destruct (C167_no_leak workers ops s o who c r H L K D) as (p & t & I & W & O). destruct (C167_no_leak workers ops s o' who c r H L' K D) as (p' & t' & I' & W' & O').
  assert (N : NoDup (whos (held s))) by (apply i_nodup with workers; apply (inv_run workers ops initial s); [apply inv_initial| |exact H]; intros w x []).
  assert (E : (p, t) = (p', t')); [|congruence]. clear - N I I' W W'. induction (held s) as [|x l IH]; [destruct I|]. cbn in N. inversion N as [|? ? N1 N2]; subst. destruct I as [->|I], I' as [E|I'].
  - exact E.
  - exfalso. apply N1. cbn [snd]. rewrite <- W'. exact (in_map (fun x => t_who (snd x)) l (p', t') I').
  - subst x. exfalso. apply N1. cbn [snd]. rewrite W'. exact (in_map (fun x => t_who (snd x)) l (p, t) I).
  - now apply IH.
Qed.
(** No task is called twice, or both called and thrown away; when the monitor is at zero, that is when waiting ends, each task that was
    enqueued has been called or thrown away. *)
Theorem C167_once : forall workers ops s who, run workers ops initial = Some s ->
  calls who (trace s) + discards who (trace s) <= 1 /\ (made s <= who -> calls who (trace s) + discards who (trace s) = 0) /\
  (0 <= monitor s)%Z /\ (monitor s = 0%Z -> who < made s -> calls who (trace s) + discards who (trace s) = 1).
Proof.
  intros workers ops s who H. destruct (tally_run workers ops initial s tally_initial H) as [T M]. specialize (T who). change (number (called who) (trace s)) with (calls who (trace s)) in T. change (number (dropped who) (trace s)) with (discards who (trace s)) in T.
  split; [destruct (who <? made s); lia|]. split; [intros L; apply Nat.ltb_ge in L; rewrite L in T; lia|]. split; [lia|]. intros Z L. apply Nat.ltb_lt in L. rewrite L in T.
  assert (W : number (waits who) (held s) = 0); [|lia]. assert (U : number uncounted (held s) = 0) by lia. clear - U. induction (held s) as [|[p t] l IH]; [reflexivity|]. rewrite number_cons in *. destruct p; cbn [uncounted waits fst] in *; lia.
Qed.
(** Tasks are thrown away only by destroying the pool: without that, each was called once when waiting ends. *)
Theorem C167_waited : forall workers ops s who, run workers ops initial = Some s -> (forall q, ~ In (Drop q) ops) -> monitor s = 0%Z -> who < made s -> calls who (trace s) = 1.
Proof.
  intros workers ops s who H N Z L. destruct (C167_once workers ops s who H) as (_ & _ & _ & C). specialize (C Z L). assert (D : discards who (trace s) = 0); [|lia].
  assert (K : forall l s s', run workers l s = Some s' -> (forall q, ~ In (Drop q) l) -> discards who (trace s) = 0 -> discards who (trace s') = 0).
  { clear. induction l as [|o l IH]; intros s s' R N D; cbn [run] in R; [injection R as <-; exact D|]. destruct (step workers o s) as [s1|] eqn:E; [|discriminate]. apply (IH s1); [exact R|intros q Q; apply (N q); now right|]. clear IH R.
    change (discards who (trace s)) with (number (dropped who) (trace s)) in D. change (number (dropped who) (trace s1) = 0).
    destruct o as [q c r|q w|w|w|w|q]; cbn [step] in E.
    - destruct (select c r) as [k|]; [|discriminate]. destruct (call_form c); [|discriminate]. injection E as <-. cbn [trace]. rewrite number_app, D. destruct k; reflexivity.
    - destruct (negb (w <? workers) || busy w (held s)); [discriminate|]. destruct (first (Queued q) (held s)) as [[[a t] b]|]; [|discriminate]. injection E as <-. cbn [trace]. rewrite !number_app, D. destruct (destroy_silent who t) as [_ ->]. unfold move. destruct (t_object t); reflexivity.
    - destruct (first (Popped w) (held s)) as [[[a t] b]|]; [|discriminate]. injection E as <-. cbn [trace]. rewrite number_app, D. reflexivity.
    - destruct (first (Done w) (held s)) as [[[a t] b]|]; [|discriminate]. injection E as <-. exact D.
    - destruct (first (Counted w) (held s)) as [[[a t] b]|]; [|discriminate]. injection E as <-. cbn [trace]. rewrite number_app, D. now destruct (destroy_silent who t) as [_ ->].
    - exfalso. apply (N q). now left. }
  exact (K ops initial s H N eq_refl).
Qed.
(** What is kept where: a callable fits its buffer; a temporary is never kept by pointer; an object of the caller is kept by pointer
    exactly if it is too large, too strictly aligned, or not to be copied or moved without exceptions, and has some state. *)
Theorem C167_kept : forall c r k, select c r = Some k ->
  (k = KStored -> c_size c <= 56 /\ c_align c <= 64 /\ c_nothrow_destructible c = true) /\
  (k = KCaller -> r = false /\ c_shape c = Class /\ c_stateless_lambda c = false /\
     (56 < c_size c \/ 64 < c_align c \/ c_nothrow_destructible c = false \/
      (c_trivially_copyable c = false /\ (c_from c false = false /\ (c_default c && c_set c false) = false \/ c_from c true = false /\ c_from c false = false /\ (c_default c = false \/ c_set c true = false /\ c_set c false = false))))) /\
  (k = KFresh -> c_empty c = true /\ c_trivial_default c = true /\ c_trivial_destructor c = true).
Proof.
  intros c r k H. pose proof (select_class c r k H) as Q. split; [|split]; intros ->.
  - unfold store_ok, buffer_capacity, alignment in Q. destruct (c_shape c); try discriminate. rewrite !andb_true_iff, !Nat.leb_le in Q. tauto.
  - split; [exact Q|]. subst r. unfold select in H. destruct (manifestable c); [discriminate|]. destruct (c_shape c) eqn:Sh; try discriminate. split; [reflexivity|]. destruct (store_ok c false) eqn:S; [destruct (store_ok c true); discriminate|]. destruct (c_stateless_lambda c); [discriminate|]. split; [reflexivity|].
    unfold store_ok in S. rewrite Sh in S. unfold buffer_capacity, alignment in S.
    destruct (Nat.leb_spec (c_size c) (64 - 8)) as [A|A]; [|left; cbn in A; lia]. destruct (Nat.leb_spec (c_align c) 64) as [B|B]; [|right; left; exact B]. cbn [andb] in S. right. right. destruct (c_nothrow_destructible c); [right|left; reflexivity]. cbn [andb] in S.
    destruct (c_trivially_copyable c); [discriminate|]. split; [reflexivity|]. cbn [orb] in S. destruct (c_from c false), (c_from c true), (c_default c), (c_set c false), (c_set c true); cbn in *; try discriminate; intuition.
  - unfold select in H. destruct (manifestable c) eqn:M; [|destruct (c_shape c); try discriminate; destruct (store_ok c r); [destruct (store_ok c true); discriminate|]; destruct (c_stateless_lambda c); [discriminate|]; destruct r; discriminate].
    unfold manifestable in M. destruct (c_shape c); try discriminate. rewrite !andb_true_iff in M. tauto.
Qed.
(** Every small temporary that can be moved without exceptions can be enqueued. *)
Theorem C167_accepted : forall c, c_shape c = Class -> c_size c <= 56 -> c_align c <= 64 -> c_nothrow_destructible c = true -> c_trivially_copyable c = true \/ c_from c true = true ->
  select c true = Some KStored \/ select c true = Some KFresh.
Proof.
  intros c S A B D M. unfold select. destruct (manifestable c); [now right|]. rewrite S. assert (K : store_ok c true = true); [|rewrite K; now left].
  unfold store_ok, buffer_capacity, alignment. rewrite S, D. apply Nat.leb_le in B. change (64 - 8) with 56. apply Nat.leb_le in A. rewrite A, B. destruct M as [-> | ->]; cbn [andb orb]; [reflexivity|]. now rewrite orb_true_r.
Qed.

(** A callable with a destructor, such as a lambda that holds a shared pointer *)
Definition shared : cty := {| c_shape := Class; c_empty := false; c_trivial_default := false; c_trivial_destructor := false; c_stateless_lambda := false; c_size := 16; c_align := 8;
  c_nothrow_destructible := true; c_trivially_copyable := false; c_default := false; c_from := fun _ => true; c_set := fun _ => false; c_index := false; c_plain := true |}.
(** Waiting may end before the last callable is destroyed: workers tell the monitor first and destroy then. *)
Theorem C167_wait_refuted : exists ops s o, run 1 ops initial = Some s /\ monitor s = 0%Z /\ calls 0 (trace s) = 1 /\ live (after (trace s)) o = Some 0 /\ known (after (trace s)) 0 = Some (shared, true) /\ c_trivial_destructor shared = false.
Proof.
  exists [Enqueue 0 shared true; Pop 0 0; Call 0; Tell 0]. eexists _, 1. split; [vm_compute; reflexivity|]. repeat (split; [vm_compute; reflexivity|]). reflexivity.
Qed.
(** A callable that can be copied but must not be moved cannot be enqueued even as an lvalue that fits: the traits ask again as for a temporary. *)
Theorem C167_copy_only_refuted : exists c, store_ok c false = true /\ select c false = None /\ call_form c = Some false.
Proof.
  exists {| c_shape := Class; c_empty := false; c_trivial_default := false; c_trivial_destructor := false; c_stateless_lambda := false; c_size := 16; c_align := 8;
    c_nothrow_destructible := true; c_trivially_copyable := false; c_default := false; c_from := negb; c_set := fun _ => false; c_index := false; c_plain := true |}. repeat split.
Qed.

Example C167_run : exists s, run 2 [Enqueue 0 shared true; Enqueue 1 shared false; Pop 1 1; Call 1; Pop 0 0; Tell 1; Finish 1; Call 0; Tell 0; Finish 0] initial = Some s /\
  held s = [] /\ monitor s = 0%Z /\ made s = 2 /\ forall o, o < 4 -> live (after (trace s)) o = None.
Proof.
  eexists. split; [vm_compute; reflexivity|]. cbn [held monitor made trace]. repeat (split; [reflexivity|]). intros o H. do 4 (destruct o as [|o]; [vm_compute; reflexivity|]). lia.
Qed.
Example C167_destroyed_pool : exists s, run 1 [Enqueue 0 shared true; Enqueue 0 shared true; Pop 0 0; Call 0; Tell 0; Finish 0; Drop 0] initial = Some s /\ held s = [] /\ calls 0 (trace s) = 1 /\ calls 1 (trace s) = 0 /\ discards 1 (trace s) = 1.
Proof.
  eexists. split; [vm_compute; reflexivity|]. repeat (split; [vm_compute; reflexivity|]). vm_compute. reflexivity.
Qed.

Print Assumptions C167_lifetimes.
Print Assumptions C167_no_leak.
Print Assumptions C167_one_object.
Print Assumptions C167_once.
Print Assumptions C167_waited.
Print Assumptions C167_kept.
Print Assumptions C167_accepted.
Print Assumptions C167_wait_refuted.
Print Assumptions C167_copy_only_refuted.
