(** What C51 and C52 ask of a pool: statements about the events of an execution and the tasks in a state. *)
From Coq Require Import Permutation.
From Verif Require Import Words PoolModel.
Local Open Scope nat_scope.

Section Spec.
  Context {A : Type}.
  Variables (M cap : nat).
  Notation event := (@event A). Notation state := (@state A).

  (* -------------------------------------------------------------- events *)
  (** Tasks put into queue [q], into any queue, and taken out of queue [q] (by a worker or by the destructor). *)
  Definition inserted (q : nat) (tr : list event) : list A :=
    flat_map (fun e => match e with EInsert q' t => if q' =? q then [t] else [] | _ => [] end) tr.
  Definition all_inserted (tr : list event) : list A := flat_map (fun e => match e with EInsert _ t => [t] | _ => [] end) tr.
  Definition removed (q : nat) (tr : list event) : list A :=
    flat_map (fun e => match e with EPop q' _ t | EDrop q' t => if q' =? q then [t] else [] | _ => [] end) tr.
  Definition invoked (tr : list event) : list A := flat_map (fun e => match e with EInvoke _ t => [t] | _ => [] end) tr.
  Definition finished (tr : list event) : list A := flat_map (fun e => match e with EFinish _ t => [t] | _ => [] end) tr.
  Definition dropped (tr : list event) : list A := flat_map (fun e => match e with EDrop _ t => [t] | _ => [] end) tr.

  (* -------------------------------------------------------------- states *)
  (** Taken by a worker and not invoked yet; invoked and not reported yet. *)
  Definition w_ready (w : @worker A) : list A := match w_pc w with WGot _ t | WReady t => [t] | _ => [] end.
  Definition w_ran (w : @worker A) : list A := match w_pc w with WRan t => [t] | _ => [] end.
  Definition ready (s : state) : list A := flat_map w_ready (workers s).
  Definition ran (s : state) : list A := flat_map w_ran (workers s).

  (** The tasks in a queue, oldest first. *)
  Definition content (Q : @queue A) : list A :=
    flat_map (fun k => match nth_error (q_slots Q) (((q_front Q + k) mod M) mod cap) with Some (Some t) => [t] | _ => [] end)
             (seq 0 (size M Q)).
  Definition queued (s : state) : list A := flat_map content (queues s).

  (** The tasks in queue [q] whose [enqueue] or [for_each] call is still putting tasks there. *)
  Definition pc_fill (q : nat) (c : @cpc A) : list A :=
    match c with CFill q' d _ | CCons q' _ d _ => if q' =? q then d else [] | _ => [] end.
  Definition fill (s : state) (q : nat) : list A :=
    match nth_error (queues s) q with
    | Some Q => match q_owner Q with
                | Some (C j) => match nth_error (clients s) j with Some c => pc_fill q c | None => [] end
                | _ => []
                end
    | None => []
    end.
  Definition unpublished (s : state) : list A := flat_map (fill s) (seq 0 (length (queues s))).

  (** [s] with the events [tr] is reached by [n] workers and [m] clients using a new pool. *)
  Definition reachable (n m : nat) (s : state) (tr : list event) : Prop :=
    exists l, exec M cap (init cap n m) [] l = Some (s, tr).

  (** No position counter has gone round: the number of slots divides the number of values of [size_t], or fewer
      tasks than that have been put in each queue. *)
  Definition no_wrap (tr : list event) : Prop := M mod cap = 0 \/ forall q, length (inserted q tr) < M.

  (* -------------------------------------------------------------- per worker *)
  (** Taken and invoked by worker [i]. *)
  Definition popped_by (i : nat) (tr : list event) : list A := flat_map (fun e => match e with EPop _ i' t => if i' =? i then [t] else [] | _ => [] end) tr.
  Definition invoked_by (i : nat) (tr : list event) : list A := flat_map (fun e => match e with EInvoke i' t => if i' =? i then [t] else [] | _ => [] end) tr.

  (* -------------------------------------------------------------- running on *)
  (** The tasks that the calls under way have yet to put in. *)
  Definition pc_todo (p : @cpc A) : nat := match p with CCheck _ ts | CFill _ _ ts | CCons _ _ _ ts => length ts | _ => 0 end.
  Definition todo (s : state) : nat := list_sum (map pc_todo (clients s)).
  (** No position counter goes round before the calls under way are done. *)
  Definition slack (s : state) (tr : list event) : Prop := M mod cap = 0 \/ forall q, length (inserted q tr) + todo s < M.
  (** Steps that only carry on with what has been begun. *)
  Definition carries_on (a : @action A) : bool :=
    match a with CEnq _ _ _ | CWait _ | CWaitRet _ | DBegin | DTermQ _ | DTermW _ | DQueue _ | WQuit _ => false | _ => true end.
End Spec.
