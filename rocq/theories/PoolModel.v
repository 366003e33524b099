(** Model of src/thread_pool.cpp: the task queues, the busy counter ([thread_pool_monitor]), the worker loop,
    enqueueing, [wait] and destruction, as threads that take turns in any order.

    - A [std::mutex] is its owner. Everything else is only touched by the owner, except the busy counter (its
      own mutex is held for one update only, so each update is one step) and the atomic termination flags.
    - Which queue a thread tries is left open at every try: the round-robin order of the code (worker loop,
      lines 352-371; [find_queue], lines 553-573 and 585-604) is one of the allowed orders. Waiting on the
      condition variable of a queue is leaving the mutex and trying again, so timeouts and spurious wake-ups
      are included.
    - [M] is the number of values of [size_t]; [front], [back] wrap around at it. [cap] is the capacity of
      one queue, the same for all.
    - Tasks are values of any type; invoking one is one event. The bytes of a task and moving it (thread_pool.h:
      490-546) are not modelled.
    - [Bad] is a failed assertion, an object created over a live one, a task taken from a slot that has none, a
      negative busy count, or use of a destroyed queue. *)
From Verif Require Import Words EarrModel.
Local Open Scope nat_scope.

Inductive tid := W (i : nat) | C (j : nat).

Section Pool.
  Context {A : Type}.
  Variables (M cap : nat).

  (** thread_pool.cpp:121-130: one queue. [q_slots]: the task object alive in each slot, if any. [q_alive]: not
      yet destroyed. *)
  Record queue := { q_front : nat; q_back : nat; q_enq : nat; q_slots : list (option A); q_owner : option tid;
                    q_term : bool; q_alive : bool }.

  (** Where a worker is: outside, in [pop]/[try_pop] of queue [q] (mutex held), about to leave it without a task,
      about to leave it with task [t], about to invoke [t], to report it done, to destroy it, finished. *)
  Inductive wpc := WIdle | WLocked (q : nat) | WLeave (q : nat) | WGot (q : nat) (t : A) | WReady (t : A) | WRan (t : A) | WDone (t : A) | WExit.
  Record worker := { w_pc : wpc; w_term : bool }.

  (** Where a client is: outside, holding queue [q] to enqueue [ts] before and after finding enough room,
      ([done] already created), having acquired slot [k], about to unlock, or in [wait]. *)
  Inductive cpc := CIdle | CCheck (q : nat) (ts : list A) | CFill (q : nat) (done ts : list A)
                 | CCons (q k : nat) (done ts : list A) | CLeave (q : nat) | CWaiting.

  Record state := { queues : list queue; workers : list worker; clients : list cpc; busy : nat; dying : bool }.

  (** thread_pool.cpp:439-500: a new pool, [n] workers and queues, [m] client threads. *)
  Definition init (n m : nat) : state :=
    {| queues := repeat {| q_front := 0; q_back := 0; q_enq := 0; q_slots := repeat None cap; q_owner := None; q_term := false; q_alive := true |} n;
       workers := repeat {| w_pc := WIdle; w_term := false |} n; clients := repeat CIdle m; busy := 0; dying := false |}.

  (* ------------------------------------------------------------------ queue *)
  (** thread_pool.cpp:211-234 [size], [full], [empty], [available]. *)
  Definition size (q : queue) : nat := (q_back q + M - q_front q) mod M.
  Definition full (q : queue) : bool := cap <=? size q.
  Definition empty (q : queue) : bool := q_back q =? q_front q.
  Definition available (q : queue) : nat := cap - size q.

  Definition set_owner (q : queue) (o : option tid) : queue :=
    {| q_front := q_front q; q_back := q_back q; q_enq := q_enq q; q_slots := q_slots q; q_owner := o; q_term := q_term q; q_alive := q_alive q |}.
  Definition set_slots (q : queue) (l : list (option A)) : queue :=
    {| q_front := q_front q; q_back := q_back q; q_enq := q_enq q; q_slots := l; q_owner := q_owner q; q_term := q_term q; q_alive := q_alive q |}.
  Definition set_enq (q : queue) (n : nat) : queue :=
    {| q_front := q_front q; q_back := q_back q; q_enq := n; q_slots := q_slots q; q_owner := q_owner q; q_term := q_term q; q_alive := q_alive q |}.

  (** thread_pool.cpp:134-156 [get_task({})], [pop_front_task()], and 158-173 [pop_front_task(buf)]: the task leaves
      its slot, which becomes free. *)
  Definition pop_front (q : queue) : option (A * queue) :=
    match nth_error (q_slots q) (q_front q mod cap) with
    | Some (Some t) =>
        Some (t, {| q_front := (q_front q + 1) mod M; q_back := q_back q; q_enq := q_enq q; q_slots := upd (q_slots q) (q_front q mod cap) None;
                    q_owner := q_owner q; q_term := q_term q; q_alive := q_alive q |})
    | _ => None
    end.
  (** thread_pool.cpp:253-264 [acquire]: the slot of the new task. *)
  Definition acquire (q : queue) : option (nat * queue) :=
    if full q then None
    else Some (q_back q mod cap, {| q_front := q_front q; q_back := (q_back q + 1) mod M; q_enq := q_enq q + 1; q_slots := q_slots q;
                                    q_owner := q_owner q; q_term := q_term q; q_alive := q_alive q |}).
  (** thread_pool.cpp:186-195, the loop of the queue's destructor. *)
  Fixpoint drain (n : nat) (q : queue) : option (list A * queue) :=
    match n with
    | O => Some ([], q)
    | S n => x <- pop_front q ;; y <- drain n (snd x) ;; Some (fst x :: fst y, snd y)
    end.

  (* ------------------------------------------------------------------ steps *)
  Inductive action :=
    | WLock (i q : nat) | WCheck (i : nat) | WUnlock (i : nat) | WInvoke (i : nat) | WDec (i : nat) | WDestroy (i : nat) | WQuit (i : nat)
    | CEnq (j q : nat) (ts : list A) | CRoom (j : nat) | CAcquire (j : nat) | CConstruct (j : nat) | CPublish (j : nat) | CUnlock (j : nat)
    | CWait (j : nat) | CWaitRet (j : nat)
    | DBegin | DTermQ (q : nat) | DTermW (i : nat) | DQueue (q : nat).

  (** What can be observed: a task object created in a queue, a task taken out by a worker, an invocation, its end
      (reported to the busy counter), a task destroyed without having run, [wait] returning. *)
  Inductive event := EInsert (q : nat) (t : A) | EPop (q i : nat) (t : A) | EInvoke (i : nat) (t : A) | EFinish (i : nat) (t : A)
                   | EDrop (q : nat) (t : A) | EWaited (j : nat).

  Inductive outcome := Disabled | Bad | Next (s : state) (es : list event).

  Definition put_q (s : state) (k : nat) (q : queue) : state :=
    {| queues := upd (queues s) k q; workers := workers s; clients := clients s; busy := busy s; dying := dying s |}.
  Definition put_w (s : state) (i : nat) (w : worker) : state :=
    {| queues := queues s; workers := upd (workers s) i w; clients := clients s; busy := busy s; dying := dying s |}.
  Definition put_c (s : state) (j : nat) (c : cpc) : state :=
    {| queues := queues s; workers := workers s; clients := upd (clients s) j c; busy := busy s; dying := dying s |}.
  Definition put_busy (s : state) (n : nat) : state :=
    {| queues := queues s; workers := workers s; clients := clients s; busy := n; dying := dying s |}.
  Definition at_w (w : worker) (p : wpc) : worker := {| w_pc := p; w_term := w_term w |}.

  Definition is_exit (w : worker) : bool := match w_pc w with WExit => true | _ => false end.
  Definition is_idle (c : cpc) : bool := match c with CIdle => true | _ => false end.

  (** The worker thread, thread_pool.cpp:352-371. *)
  Definition step_worker (s : state) (i : nat) (w : worker) (a : action) : outcome :=
    match a, w_pc w with
    | WLock _ q, WIdle =>                                         (* mutex of try_pop (286) or pop (298) *)
        match nth_error (queues s) q with
        | None => Disabled
        | Some Q => if negb (q_alive Q) then Bad
                    else match q_owner Q with
                         | Some _ => Disabled
                         | None => Next (put_w (put_q s q (set_owner Q (Some (W i)))) i (at_w w (WLocked q))) []
                         end
        end
    | WCheck _, WLocked q =>                                      (* 287-290, 299-304 *)
        match nth_error (queues s) q with
        | None => Bad
        | Some Q => if empty Q || q_term Q then Next (put_w s i (at_w w (WLeave q))) []
                    else match pop_front Q with
                         | None => Bad
                         | Some (t, Q') => Next (put_w (put_q s q Q') i (at_w w (WGot q t))) [EPop q i t]
                         end
        end
    | WUnlock _, WLeave q =>                                      (* ~unique_lock *)
        match nth_error (queues s) q with
        | None => Bad | Some Q => Next (put_w (put_q s q (set_owner Q None)) i (at_w w WIdle)) []
        end
    | WUnlock _, WGot q t =>
        match nth_error (queues s) q with
        | None => Bad | Some Q => Next (put_w (put_q s q (set_owner Q None)) i (at_w w (WReady t))) []
        end
    | WInvoke _, WReady t => Next (put_w s i (at_w w (WRan t))) [EInvoke i t]                          (* 367 *)
    | WDec _, WRan t =>                                                                                 (* 368 *)
        if busy s =? 0 then Bad else Next (put_w (put_busy s (busy s - 1)) i (at_w w (WDone t))) [EFinish i t]
    | WDestroy _, WDone t => Next (put_w s i (at_w w WIdle)) []                                        (* 369 *)
    | WQuit _, WIdle => if w_term w then Next (put_w s i (at_w w WExit)) [] else Disabled              (* 352, 355 *)
    | _, _ => Disabled
    end.

  (** [enqueue] (thread_pool.h:822-825, 646-652), the shared queue of [for_each] (thread_pool.h:942-977) and [wait]. *)
  Definition step_client (s : state) (j : nat) (c : cpc) (a : action) : outcome :=
    match a, c with
    | CEnq _ q ts, CIdle =>                                       (* try_lock, thread_pool.cpp:236-245 *)
        if dying s then Disabled
        else match nth_error (queues s) q, ts with
             | Some Q, _ :: _ => if negb (q_alive Q) then Bad
                                 else match q_owner Q with
                                      | Some _ => Disabled
                                      | None => Next (put_c (put_q s q (set_enq (set_owner Q (Some (C j))) 0)) j (CCheck q ts)) []
                                      end
             | _, _ => Disabled
             end
    | CRoom _, CCheck q ts =>                                     (* !full() (596), available() >= required (565) *)
        match nth_error (queues s) q with
        | None => Bad | Some Q => Next (put_c s j (if length ts <=? available Q then CFill q [] ts else CLeave q)) []
        end
    | CAcquire _, CFill q d (t :: ts) =>
        match nth_error (queues s) q with
        | None => Bad
        | Some Q => match acquire Q with None => Bad | Some (k, Q') => Next (put_c (put_q s q Q') j (CCons q k d (t :: ts))) [] end
        end
    | CConstruct _, CCons q k d (t :: ts) =>                      (* placement new, thread_pool.h:648-651 *)
        match nth_error (queues s) q with
        | None => Bad
        | Some Q => match nth_error (q_slots Q) k with
                    | Some None => Next (put_c (put_q s q (set_slots Q (upd (q_slots Q) k (Some t)))) j (CFill q (d ++ [t]) ts)) [EInsert q t]
                    | _ => Bad
                    end
        end
    | CPublish _, CFill q d [] =>                                 (* thread_pool.cpp:268-273 *)
        match nth_error (queues s) q with
        | None => Bad
        | Some Q => if q_enq Q =? 0 then Next (put_c s j (CLeave q)) []
                    else match nth_error (q_slots Q) (((q_front Q + (size Q - 1)) mod M) mod cap) with
                         | Some (Some _) => Next (put_c (put_busy s (busy s + q_enq Q)) j (CLeave q)) []
                         | _ => Bad
                         end
        end
    | CUnlock _, CLeave q =>                                      (* thread_pool.cpp:275 *)
        match nth_error (queues s) q with
        | None => Bad | Some Q => Next (put_c (put_q s q (set_owner Q None)) j CIdle) []
        end
    | CWait _, CIdle => if dying s then Disabled else Next (put_c s j CWaiting) []
    | CWaitRet _, CWaiting => if busy s =? 0 then Next (put_c s j CIdle) [EWaited j] else Disabled     (* 93-98 *)
    | _, _ => Disabled
    end.

  (** The pool's destructor, thread_pool.cpp:502-513. It must not run while another thread uses the pool; its own
      steps are allowed in any order, but the queues are destroyed only after all workers have ended. *)
  Definition step (s : state) (a : action) : outcome :=
    match a with
    | WLock i _ | WCheck i | WUnlock i | WInvoke i | WDec i | WDestroy i | WQuit i =>
        match nth_error (workers s) i with None => Disabled | Some w => step_worker s i w a end
    | CEnq j _ _ | CRoom j | CAcquire j | CConstruct j | CPublish j | CUnlock j | CWait j | CWaitRet j =>
        match nth_error (clients s) j with None => Disabled | Some c => step_client s j c a end
    | DBegin =>
        if negb (dying s) && forallb is_idle (clients s)
        then Next {| queues := queues s; workers := workers s; clients := clients s; busy := busy s; dying := true |} [] else Disabled
    | DTermQ q =>                                                 (* 200-204 *)
        match nth_error (queues s) q with
        | Some Q => if dying s then Next (put_q s q {| q_front := q_front Q; q_back := q_back Q; q_enq := q_enq Q; q_slots := q_slots Q;
                                                        q_owner := q_owner Q; q_term := true; q_alive := q_alive Q |}) [] else Disabled
        | None => Disabled
        end
    | DTermW i =>
        match nth_error (workers s) i with
        | Some w => if dying s then Next (put_w s i {| w_pc := w_pc w; w_term := true |}) [] else Disabled
        | None => Disabled
        end
    | DQueue q =>                                                 (* 186-195 *)
        match nth_error (queues s) q with
        | Some Q =>
            if dying s && forallb is_exit (workers s) && q_alive Q && (match q_owner Q with None => true | _ => false end)
            then match drain (size Q) Q with
                 | None => Bad
                 | Some (ts, Q') =>
                     if busy s <? length ts then Bad
                     else Next (put_busy (put_q s q {| q_front := q_front Q'; q_back := q_back Q'; q_enq := q_enq Q'; q_slots := q_slots Q';
                                                       q_owner := q_owner Q'; q_term := q_term Q'; q_alive := false |}) (busy s - length ts))
                               (map (EDrop q) ts)
                 end
            else Disabled
        | None => Disabled
        end
    end.

  (** Any number of steps, with the events in order. *)
  Fixpoint exec (s : state) (tr : list event) (l : list action) : option (state * list event) :=
    match l with
    | [] => Some (s, tr)
    | a :: l => match step s a with Next s' es => exec s' (tr ++ es) l | _ => None end
    end.
End Pool.
