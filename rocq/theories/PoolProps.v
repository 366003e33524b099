(** C51, C52, C77: the task queues of [thread_pool] and waiting for them. *)
From Coq Require Import Lia Permutation.
From Verif Require Import Words PoolModel PoolSpec PoolProofs PoolProofs2 PoolProofs3 PoolProofs4.
Local Open Scope nat_scope.

(** In every interleaving, nothing goes wrong: no task is created over a waiting one, no worker takes a task
    from an empty slot, the busy counter does not go below zero, no destroyed queue is used. *)
Theorem C51_never_fails_partial (A : Type) M cap n m (s : @state A) tr a : 0 < cap -> cap < M -> reachable M cap n m s tr -> no_wrap M cap tr -> step M cap s a <> Bad.
Proof. intros H1 H2 R NW E. destruct (reach_inv M cap H1 H2 n m s tr R NW) as [c I]. pose proof (step_inv M cap H1 H2 s tr c a I NW) as X. rewrite E in X. exact X. Qed.

(** In every interleaving, the tasks leave each queue in the order in which they entered it, and what has not left it
    is in it. *)
Theorem C51_fifo_partial (A : Type) M cap n m (s : @state A) tr q Q : 0 < cap -> cap < M -> reachable M cap n m s tr -> no_wrap M cap tr ->
  nth_error (queues s) q = Some Q -> inserted q tr = removed q tr ++ content M cap Q.
Proof. intros H1 H2 R NW HQ. destruct (reach_inv M cap H1 H2 n m s tr R NW) as [c I]. rewrite (inv_content M cap H1 H2 s tr c q Q I NW HQ). apply (v_log _ _ _ _ _ I). Qed.

(** In every interleaving, every enqueued task is in exactly one place: invoked, destroyed with the pool, held by a worker
    that is about to invoke it, or in a queue. *)
Theorem C51_each_task_in_one_place_partial (A : Type) M cap n m (s : @state A) tr : 0 < cap -> cap < M -> reachable M cap n m s tr -> no_wrap M cap tr ->
  Permutation (all_inserted tr) (invoked tr ++ dropped tr ++ ready s ++ queued M cap s).
Proof. intros H1 H2 R NW. destruct (reach_inv M cap H1 H2 n m s tr R NW) as [c I]. rewrite (inv_queued M cap H1 H2 s tr c I NW). apply (v_perm1 _ _ _ _ _ I). Qed.

(** So no task is invoked twice, none is both invoked and destroyed unrun, *)
Theorem C51_at_most_once_partial (A : Type) M cap n m (s : @state A) tr : 0 < cap -> cap < M -> reachable M cap n m s tr -> no_wrap M cap tr ->
  NoDup (all_inserted tr) -> NoDup (invoked tr) /\ forall t, In t (invoked tr) -> ~ In t (dropped tr).
Proof.
  intros H1 H2 R NW ND. pose proof (Permutation_NoDup (C51_each_task_in_one_place_partial A M cap n m s tr H1 H2 R NW) ND) as X. split.
  - induction (invoked tr) as [|t l IH]; [constructor|]. cbn in X. inversion X as [|? ? N1 N2]; subst. constructor; [|apply IH; exact N2]. intros K. apply N1. apply in_or_app. left. exact K.
  - intros t Ht Hd. induction (invoked tr) as [|u l IH]; [contradiction|]. cbn in X. inversion X as [|? ? N1 N2]; subst. destruct Ht as [->|Ht]; [|exact (IH N2 Ht)]. apply N1. apply in_or_app. right. apply in_or_app. left. exact Hd.
Qed.

(** and before the pool is destroyed none is lost. *)
Theorem C51_none_lost_before_shutdown_partial (A : Type) M cap n m (s : @state A) tr : 0 < cap -> cap < M -> reachable M cap n m s tr -> no_wrap M cap tr ->
  dying s = false -> Permutation (all_inserted tr) (invoked tr ++ ready s ++ queued M cap s).
Proof.
  intros H1 H2 R NW D. pose proof (C51_each_task_in_one_place_partial A M cap n m s tr H1 H2 R NW) as X. destruct (reach_inv M cap H1 H2 n m s tr R NW) as [c I].
  rewrite (proj1 (v_alive _ _ _ _ _ I D)) in X. exact X.
Qed.

(** Every worker invokes the tasks in the order in which it took them (in every interleaving, without exception). *)
Theorem C51_worker_order (A : Type) M cap n m (s : @state A) tr i w : reachable M cap n m s tr -> nth_error (workers s) i = Some w ->
  popped_by i tr = invoked_by i tr ++ w_ready w.
Proof. intros R. exact (wlog_reach M cap n m s tr R i w). Qed.

(** So a pool with one worker invokes all tasks in the order in which they were enqueued. *)
Theorem C51_single_worker_order_partial (A : Type) M cap m (s : @state A) tr : 0 < cap -> cap < M -> reachable M cap 1 m s tr -> no_wrap M cap tr -> dying s = false ->
  all_inserted tr = invoked tr ++ ready s ++ queued M cap s.
Proof.
  intros H1 H2 R NW D. destruct (reach_inv M cap H1 H2 1 m s tr R NW) as [c I]. destruct (sized_reach M cap _ _ _ _ R) as (L1 & L2 & F).
  destruct (one_queue tr F (proj1 (v_alive _ _ _ _ _ I D))) as (E1 & E2 & E3). destruct (queues s) as [|Q [|Q' l]] eqn:EQ; try discriminate L1. destruct (workers s) as [|w [|w' l]] eqn:EW; try discriminate L2.
  rewrite <- E1, (C51_fifo_partial A M cap 1 m s tr 0 Q H1 H2 R NW) by (rewrite EQ; reflexivity). rewrite E2, <- E3, (C51_worker_order A M cap 1 m s tr 0 w R) by (rewrite EW; reflexivity).
  unfold ready, queued. rewrite EQ, EW. cbn [flat_map]. rewrite !app_nil_r. symmetry. apply app_assoc.
Qed.

(** Without the bound on the position counters the claim is false whenever the capacity of a queue does not divide the number of
    values of [size_t]: there is an execution in which a task is created over a waiting one. *)
Theorem C51_no_overwrite_refuted (A : Type) (t : A) M cap : 0 < cap -> cap < M -> M mod cap <> 0 ->
  exists (s : @state A) tr, reachable M cap 1 1 s tr /\ step M cap s (CConstruct 0) = Bad.
Proof. intros H1 H2. exact (overwrites M cap t H1 H2). Qed.

(** C52: if [wait] returns, every task whose enqueueing was complete at any earlier time has finished executing. *)
Theorem C52_wait_returns_when_done (A : Type) M cap n m (s1 s2 s3 : @state A) tr1 tr2 l j es t : 0 < cap -> cap < M ->
  reachable M cap n m s1 tr1 -> exec M cap s1 tr1 l = Some (s2, tr2) -> step M cap s2 (CWaitRet j) = Next s3 es -> no_wrap M cap tr2 ->
  NoDup (all_inserted tr2) -> In t (all_inserted tr1) -> ~ In t (unpublished s1) -> In t (finished tr2).
Proof.
  intros H1 H2 [l0 R] E W NW ND Hi Hn.
  assert (R2 : reachable M cap n m s2 tr2) by (exists (l0 ++ l); rewrite exec_app, R; exact E). destruct (reach_inv M cap H1 H2 n m s2 tr2 R2 NW) as [c I].
  cbn [step] in W. destruct (nth_error (clients s2) j) as [p|] eqn:Hp; [|discriminate W]. cbn in W. destruct p; try discriminate W. destruct (Nat.eqb_spec (busy s2) 0) as [B|B]; [|discriminate W].
  pose proof (idle_not_dying M cap _ _ _ _ _ I Hp eq_refl) as D. pose proof (v_busy _ _ _ _ _ I) as VB. rewrite B in VB. cbn in VB.
  destruct (unpub_exec M cap H1 H2 _ _ _ _ _ E) as (es' & ET & UP). subst tr2. rewrite all_inserted_app in ND.
  assert (NU : ~ In t (unpublished s2)).
  { intros K. destruct (UP t K) as [X|X]; [exact (Hn X)|]. clear -ND Hi X. induction (all_inserted tr1) as [|u l IH]; [contradiction|]. cbn in ND. inversion ND as [|? ? N1 N2]; subst. destruct Hi as [->|Hi]; [|exact (IH N2 Hi)]. apply N1. apply in_or_app. right. exact X. }
  assert (LE : length (unpublished s2) <= length (flat_map c (seq 0 (length (queues s2))))) by (apply flat_map_len_le; intros k; destruct (v_fill _ _ _ _ _ I k) as [c0 ->]; rewrite app_length; lia).
  assert (RZ : ready s2 = []) by (destruct (ready s2); [reflexivity|cbn in VB; lia]). assert (NZ : ran s2 = []) by (destruct (ran s2); [reflexivity|cbn in VB; lia]). rewrite RZ, NZ in VB. cbn in VB.
  assert (CF : forall k, In k (seq 0 (length (queues s2))) -> c k = fill s2 k).
  { intros k Hk. unfold unpublished in VB. clear - I VB Hk. induction (seq 0 (length (queues s2))) as [|q qs IH]; [contradiction|]. cbn in VB. rewrite !app_length in VB.
    assert (L1 : length (fill s2 q) <= length (c q)) by (destruct (v_fill _ _ _ _ _ I q) as [c0 ->]; rewrite app_length; lia).
    assert (L2 : length (flat_map (fill s2) qs) <= length (flat_map c qs)) by (apply flat_map_len_le; intros z; destruct (v_fill _ _ _ _ _ I z) as [c0 ->]; rewrite app_length; lia).
    destruct Hk as [->|Hk]; [|apply IH; [lia|exact Hk]]. destruct (v_fill _ _ _ _ _ I k) as [c0 E]. rewrite E, app_length in VB. rewrite E. destruct c0; [reflexivity|cbn in VB; lia]. }
  assert (X : In t (all_inserted (tr1 ++ es'))) by (rewrite all_inserted_app; apply in_or_app; left; exact Hi).
  rewrite (v_perm1 _ _ _ _ _ I), (proj1 (v_alive _ _ _ _ _ I D)), RZ in X. cbn [app] in X. apply in_app_or in X. destruct X as [X|X].
  - rewrite (v_perm2 _ _ _ _ _ I), NZ, app_nil_r in X. exact X.
  - exfalso. apply NU. unfold unpublished. rewrite <- (flat_map_ext_in c (fill s2)) by exact CF. exact X.
Qed.

(** A task that is in a queue but not yet counted belongs to an [enqueue] or [for_each] call that has not returned. *)
Theorem C52_uncounted_tasks_have_callers (A : Type) (s : @state A) t : In t (unpublished s) ->
  exists j q d ts, In t d /\ (nth_error (clients s) j = Some (CFill q d ts) \/ exists k, nth_error (clients s) j = Some (CCons q k d ts)).
Proof. apply (unpub_caller 2 1); lia. Qed.

(** In every interleaving the busy counter is exactly the number of counted tasks that have not finished (in a queue, or with a
    worker); it is positive whenever a worker is about to decrease it. *)
Theorem C52_busy_counts (A : Type) M cap n m (s : @state A) tr : 0 < cap -> cap < M -> reachable M cap n m s tr -> no_wrap M cap tr ->
  busy s + length (unpublished s) = length (queued M cap s) + length (ready s) + length (ran s) /\
  length (unpublished s) <= length (queued M cap s) /\
  forall i w t, nth_error (workers s) i = Some w -> w_pc w = WRan t -> 0 < busy s.
Proof.
  intros H1 H2 R NW. destruct (reach_inv M cap H1 H2 n m s tr R NW) as [c I]. rewrite (inv_queued M cap H1 H2 s tr c I NW). pose proof (v_busy _ _ _ _ _ I) as VB.
  assert (LE : length (unpublished s) <= length (flat_map c (seq 0 (length (queues s))))) by (apply flat_map_len_le; intros k; destruct (v_fill _ _ _ _ _ I k) as [c0 ->]; rewrite app_length; lia).
  split; [exact VB|]. split; [exact LE|]. intros i w t Hw EP. destruct (frame_list w_ran _ _ _ Hw) as (Rb & Rb1 & _). unfold ran in VB. rewrite (Permutation_length Rb1), app_length in VB. unfold w_ran in VB at 1. rewrite EP in VB. cbn in VB. lia.
Qed.

(** Finished means that the call of the task has returned: the task object may still exist when [wait] returns. *)
Theorem C52_task_may_outlive_wait : exists (s s' : @state nat) tr t, reachable 8 2 1 1 s tr /\ step 8 2 s (CWaitRet 0) = Next s' [EWaited 0] /\
  nth_error (workers s) 0 = Some {| w_pc := WDone t; w_term := false |}.
Proof.
  do 4 eexists. split; [exists [CEnq 0 0 [7]; CRoom 0; CAcquire 0; CConstruct 0; CPublish 0; CUnlock 0; CWait 0; WLock 0 0; WCheck 0; WUnlock 0; WInvoke 0; WDec 0]; vm_compute; reflexivity|].
  split; vm_compute; reflexivity.
Qed.

(** C77: a pool with a worker is never stuck. In every reachable state before destruction, the threads can run on, without any new
    call, until every enqueued task has finished, no call to [enqueue] or [for_each] is left unfinished, and [wait] may return. *)
Theorem C77_no_deadlock (A : Type) M cap n m (s : @state A) tr : 0 < cap -> cap < M -> reachable M cap n m s tr -> 0 < n -> dying s = false -> slack M cap s tr ->
  exists l s' tr', exec M cap s tr l = Some (s', tr') /\ forallb carries_on l = true /\ Permutation (all_inserted tr') (finished tr') /\
    (forall j p, nth_error (clients s') j = Some p -> p = CIdle \/ p = CWaiting) /\
    (forall j, nth_error (clients s') j = Some CWaiting -> exists s'', step M cap s' (CWaitRet j) = Next s'' [EWaited j]).
Proof.
  intros H1 H2 R Hn D SL. destruct (completes M cap H1 H2 n m s tr R Hn D SL) as (l & s' & tr' & E & E1 & E2 & E3 & E4). exists l, s', tr'. repeat (split; [assumption|]).
  intros j Hj. cbn [step]. rewrite Hj. cbn [step_client]. rewrite E2. eexists. reflexivity.
Qed.

(* ------------------------------------------------------------------ witnesses *)
(** Two workers, two clients, queues of two slots, three tasks: one has finished, one has been taken, one is queued. *)
Definition demo : list (@action nat) :=
  [CEnq 0 0 [10]; CRoom 0; CEnq 1 1 [20; 21]; CAcquire 0; CRoom 1; CConstruct 0; CAcquire 1; CPublish 0; CUnlock 0; WLock 1 0; CConstruct 1; CAcquire 1;
   WCheck 1; CConstruct 1; WUnlock 1; CPublish 1; CUnlock 1; WInvoke 1; WLock 0 1; WCheck 0; WDec 1; WUnlock 0].
Example C51_witness : exists s tr, reachable 8 2 2 2 s tr /\ no_wrap 8 2 tr /\ dying s = false /\
  all_inserted tr = [10; 20; 21] /\ inserted 1 tr = [20; 21] /\ removed 1 tr = [20] /\ invoked tr = [10] /\ finished tr = [10] /\ ready s = [20] /\ queued 8 2 s = [21] /\
  busy s = 2 /\ unpublished s = [].
Proof. do 2 eexists. split; [exists demo; vm_compute; reflexivity|]. split; [left; reflexivity|]. repeat split. Qed.
Example C51_witness_one : exists s tr, reachable 7 2 1 1 s tr /\ no_wrap 7 2 tr /\ invoked tr = [1] /\ ready s = [2] /\ queued 7 2 s = [3].
Proof.
  do 2 eexists. split; [exists [CEnq 0 0 [1; 2]; CRoom 0; CAcquire 0; CConstruct 0; CAcquire 0; CConstruct 0; CPublish 0; CUnlock 0; WLock 0 0; WCheck 0; WUnlock 0; WInvoke 0; WDec 0; WDestroy 0;
      WLock 0 0; WCheck 0; WUnlock 0; CEnq 0 0 [3]; CRoom 0; CAcquire 0; CConstruct 0; CPublish 0; CUnlock 0]; vm_compute; reflexivity|].
  split; [right; intros [|q]; vm_compute; lia|]. repeat split.
Qed.
(** A task of an unfinished call: it can be taken as soon as it is there, and [wait] may return before it has run. *)
Example C52_witness_unpublished : exists s s' tr, reachable 8 2 1 2 s tr /\ unpublished s = [5] /\ busy s = 0 /\ step 8 2 s (CWaitRet 1) = Next s' [EWaited 1].
Proof. do 3 eexists. split; [exists [CWait 1; CEnq 0 0 [5]; CRoom 0; CAcquire 0; CConstruct 0]; vm_compute; reflexivity|]. repeat split. Qed.
Example C52_witness : exists s1 s2 s3 tr1 tr2 l, reachable 8 2 1 1 s1 tr1 /\ exec 8 2 s1 tr1 l = Some (s2, tr2) /\ step 8 2 s2 (CWaitRet 0) = Next s3 [EWaited 0] /\
  no_wrap 8 2 tr2 /\ NoDup (all_inserted tr2) /\ all_inserted tr1 = [4; 6] /\ unpublished s1 = [].
Proof.
  do 5 eexists. exists [CWait 0; WLock 0 0; WCheck 0; WUnlock 0; WInvoke 0; WDec 0; WDestroy 0; WLock 0 0; WCheck 0; WUnlock 0; WInvoke 0; WDec 0].
  split; [exists [CEnq 0 0 [4; 6]; CRoom 0; CAcquire 0; CConstruct 0; CAcquire 0; CConstruct 0; CPublish 0; CUnlock 0]; vm_compute; reflexivity|]. split; [vm_compute; reflexivity|]. split; [vm_compute; reflexivity|].
  split; [left; reflexivity|]. split; [|split; reflexivity]. vm_compute. apply NoDup_cons; [intros [H|[]]; discriminate H|apply NoDup_cons; [intros []|apply NoDup_nil]].
Qed.
(** Destruction with a task left in the queue. *)
Example C51_witness_dropped : exists s tr, reachable 8 2 1 1 s tr /\ no_wrap 8 2 tr /\ dropped tr = [4] /\ invoked tr = [].
Proof.
  do 2 eexists. split; [exists [CEnq 0 0 [4]; CRoom 0; CAcquire 0; CConstruct 0; CPublish 0; CUnlock 0; DBegin; DTermQ 0; DTermW 0; WQuit 0; DQueue 0]; vm_compute; reflexivity|].
  split; [left; reflexivity|]. split; reflexivity.
Qed.
Example C77_witness : exists (s : @state nat) tr, reachable 7 2 2 2 s tr /\ slack 7 2 s tr /\ dying s = false /\ todo s = 1 /\ busy s = 1.
Proof.
  do 2 eexists. split; [exists [CEnq 0 0 [4]; CRoom 0; CAcquire 0; CConstruct 0; CPublish 0; CUnlock 0; CWait 0; CEnq 1 1 [5]; CRoom 1; WLock 1 0; WCheck 1]; vm_compute; reflexivity|].
  split; [right; intros [|[|q]]; vm_compute; lia|]. repeat split.
Qed.
(** A queue of three slots and position counters of four bits. *)
Example C51_witness_wrap : exists (s : @state bool) tr, reachable 16 3 1 1 s tr /\ step 16 3 s (CConstruct 0) = Bad.
Proof. apply (C51_no_overwrite_refuted bool true); [lia|lia|discriminate]. Qed.

Print Assumptions C51_never_fails_partial.
Print Assumptions C51_fifo_partial.
Print Assumptions C51_each_task_in_one_place_partial.
Print Assumptions C51_at_most_once_partial.
Print Assumptions C51_none_lost_before_shutdown_partial.
Print Assumptions C51_worker_order.
Print Assumptions C51_single_worker_order_partial.
Print Assumptions C51_no_overwrite_refuted.
Print Assumptions C52_wait_returns_when_done.
Print Assumptions C52_uncounted_tasks_have_callers.
Print Assumptions C52_busy_counts.
Print Assumptions C52_task_may_outlive_wait.
Print Assumptions C77_no_deadlock.
