(** C120: destroying a thread pool comes to an end and leaves nothing behind (src/thread_pool.cpp:176-204, 502-513). *)
From Coq Require Import Lia Permutation.
From Verif Require Import Words EarrModel PoolModel PoolSpec PoolProofs PoolProofs2 PoolProofs4 PoolProofs5.
Local Open Scope nat_scope.

(** The steps of worker threads, and the tasks taken out of a queue by a worker. *)
Definition worker_step {A} (a : @action A) : bool :=
  match a with WLock _ _ | WCheck _ | WUnlock _ | WInvoke _ | WDec _ | WDestroy _ | WQuit _ => true | _ => false end.
Definition taken_by_workers {A} (tr : list (@event A)) : list A := flat_map (fun e => match e with EPop _ _ t => [t] | _ => [] end) tr.

(** Joining ends: a worker told to end can be run to its end by steps of the workers alone, whatever the other workers have been told. *)
Theorem C120_join_ends (A : Type) M cap n m (s : @state A) tr i w : 0 < cap -> cap < M -> reachable M cap n m s tr -> dying s = true -> no_wrap M cap tr ->
  nth_error (workers s) i = Some w -> w_term w = true ->
  exists l s' tr' w', exec M cap s tr l = Some (s', tr') /\ forallb worker_step l = true /\ nth_error (workers s') i = Some w' /\ w_pc w' = WExit.
Proof.
  intros H1 H2 R D NW Hw T. destruct (join_ends M cap H1 H2 n m s tr i w R D NW Hw T) as (l & s' & tr' & w' & E1 & E2 & E3 & E4).
  exists l, s', tr', w'. repeat (split; [assumption | ]). unfold is_exit in E4. destruct (w_pc w'); try discriminate. reflexivity.
Qed.
(** Destroying a queue, once the workers have ended, is possible at once and drops the tasks left in it, oldest first. *)
Theorem C120_queue_ends (A : Type) M cap n m (s : @state A) tr q Q : 0 < cap -> cap < M -> reachable M cap n m s tr -> dying s = true -> no_wrap M cap tr ->
  (forall i w, nth_error (workers s) i = Some w -> w_pc w = WExit) -> nth_error (queues s) q = Some Q -> q_alive Q = true ->
  exists s', step M cap s (DQueue q) = Next s' (map (EDrop q) (content M cap Q)).
Proof.
  intros H1 H2 R D NW Ex HQ AL. apply (queue_ends M cap H1 H2 n m s tr q Q R D NW); try assumption.
  apply (all_nth (A := A) M cap H1 H2). intros i w Hw. unfold is_exit. rewrite (Ex i w Hw). reflexivity.
Qed.
(** So destruction, once begun, can always be carried to its end, with no step of any client. *)
Theorem C120_destruction_ends (A : Type) M cap n m (s : @state A) tr : 0 < cap -> cap < M -> reachable M cap n m s tr -> dying s = true -> no_wrap M cap tr ->
  exists l s' tr', exec M cap s tr l = Some (s', tr') /\
    (forall a, In a l -> match a with CEnq _ _ _ | CRoom _ | CAcquire _ | CConstruct _ | CPublish _ | CUnlock _ | CWait _ | CWaitRet _ | DBegin => False | _ => True end) /\
    (forall i w, nth_error (workers s') i = Some w -> w_pc w = WExit) /\ (forall q Q, nth_error (queues s') q = Some Q -> q_alive Q = false).
Proof.
  intros H1 H2 R D NW. destruct (destroyed M cap H1 H2 n m s tr R D NW) as (l & s' & tr' & E1 & E2 & E3 & E4). exists l, s', tr'. repeat (split; [assumption | ]). split; [ | exact E4].
  intros i w Hw. pose proof (forallb_nth _ _ _ _ E3 Hw) as Y. unfold is_exit in Y. destruct (w_pc w); try discriminate. reflexivity.
Qed.
(** However it got there: when all queues are destroyed, every task ever put in has either finished or been dropped unrun, and the busy count is zero. *)
Theorem C120_nothing_left (A : Type) M cap n m (s : @state A) tr : 0 < cap -> cap < M -> 0 < n -> reachable M cap n m s tr -> no_wrap M cap tr ->
  (forall q Q, nth_error (queues s) q = Some Q -> q_alive Q = false) ->
  Permutation (all_inserted tr) (finished tr ++ dropped tr) /\ busy s = 0.
Proof.
  intros H1 H2 Hn R NW AL. pose proof (sized_reach M cap _ _ _ _ R) as (LQ & _). destruct (reach_inv M cap H1 H2 n m s tr R NW) as [c I].
  assert (Hd : dead_empty s). { destruct R as [l R]. exact (dead_exec M cap H1 H2 l _ _ _ _ _ (init_inv M cap H1 H2 n m) (dead_init M cap H1 H2 n m) R NW). }
  destruct (over M cap H1 H2 s tr c I NW Hd ltac:(lia) AL) as [B P]. split; assumption.
Qed.
(** Once every queue has been told to end, no worker takes another task: whatever happens after, the tasks taken are those taken before. *)
Theorem C120_no_more_taken (A : Type) M cap (s : @state A) tr l s' tr' : 0 < cap -> cap < M ->
  (forall q Q, nth_error (queues s) q = Some Q -> q_term Q = true) -> exec M cap s tr l = Some (s', tr') -> taken_by_workers tr' = taken_by_workers tr.
Proof. intros H1 H2 T H. exact (told_exec M cap H1 H2 l s tr s' tr' T H). Qed.

Print Assumptions C120_join_ends.
Print Assumptions C120_queue_ends.
Print Assumptions C120_destruction_ends.
Print Assumptions C120_nothing_left.
Print Assumptions C120_no_more_taken.

(** Two workers, three tasks: one is being run, one has just been taken, one is queued; the destructor has told all queues and the last worker. *)
Definition dying_demo : list (@action nat) :=
  [CEnq 0 0 [10]; CRoom 0; CAcquire 0; CConstruct 0; CPublish 0; CUnlock 0; CEnq 0 1 [20; 21]; CRoom 0; CAcquire 0; CConstruct 0; CAcquire 0; CConstruct 0; CPublish 0; CUnlock 0;
   WLock 0 0; WCheck 0; WUnlock 0; WInvoke 0; WLock 1 1; WCheck 1; DBegin; DTermQ 0; DTermQ 1; DTermW 1].
Example C120_witness : exists s tr, reachable 8 2 2 1 s tr /\ dying s = true /\ no_wrap 8 2 tr /\ queued 8 2 s = [21] /\ ready s = [20] /\ ran s = [10] /\
  nth_error (workers s) 1 = Some {| w_pc := WGot 1 20; w_term := true |} /\ (forall q Q, nth_error (queues s) q = Some Q -> q_term Q = true).
Proof.
  do 2 eexists. split; [exists dying_demo; vm_compute; reflexivity | ]. split; [reflexivity | ]. split; [left; reflexivity | ]. repeat (split; [reflexivity | ]).
  intros [ | [ | [ | q]]] Q H; try discriminate H; injection H as <-; reflexivity.
Qed.
Example C120_witness_end : exists s tr, reachable 8 2 2 1 s tr /\ no_wrap 8 2 tr /\ finished tr = [20; 10] /\ dropped tr = [21] /\
  (forall q Q, nth_error (queues s) q = Some Q -> q_alive Q = false).
Proof.
  do 2 eexists. split; [exists (dying_demo ++ [WUnlock 1; WInvoke 1; WDec 1; WDestroy 1; WQuit 1; DTermW 0; WDec 0; WDestroy 0; WLock 0 1; WCheck 0; WUnlock 0; WQuit 0; DQueue 0; DQueue 1]); vm_compute; reflexivity | ].
  split; [left; reflexivity | ]. repeat (split; [reflexivity | ]). intros [ | [ | [ | q]]] Q H; try discriminate H; injection H as <-; reflexivity.
Qed.
