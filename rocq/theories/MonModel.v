(** Model of [thread_pool_monitor] as it is compiled (src/thread_pool.cpp:83-118: a mutex and a condition variable), with sleeping and waking made
    explicit. Any number of threads take turns in any order; a thread asleep does nothing until it is notified or woken for no reason. Counts do not go round
    at the end of size_t. Subtracting more than the count is [Bad]. *)
From Coq Require Import List Bool Arith.
Import ListNotations.

Fixpoint upd {T} (l : list T) (i : nat) (x : T) : list T :=
  match l, i with [], _ => [] | _ :: l, O => x :: l | y :: l, S i => y :: upd l i x end.

(** What a thread does next: start a call, take one step in its call, or wake up for no reason. *)
Inductive action := CallWait (i : nat) | CallIncrement (i k : nat) | CallDecrement (i k : nat) | Step (i : nat) | Spurious (i : nat).
Inductive outcome (T : Type) := Disabled | Bad | Next (s : T) (returned : bool).
Arguments Disabled {T}. Arguments Bad {T}. Arguments Next {T}.

(** Where a thread is: outside; in [wait] (93-98) about to lock, holding the mutex before the test of [busy], asleep, or woken and about to lock again; in
    [increment] (100-104) about to lock, holding the mutex, about to unlock; in [decrement] (106-117) the same ([notify] is the local variable), and about to
    notify. *)
Inductive pc := Out | WEnter | WHold | WSleep | WWoken | IEnter (k : nat) | IHold (k : nat) | ILeave | DEnter (k : nat) | DHold (k : nat) | DLeave (notify : bool) | DNotify.
Record state := State { busy : nat; owner : option nat; pcs : list pc }.
Definition start (n : nat) : state := State 0 None (repeat Out n).
Definition put (s : state) (i : nat) (p : pc) : state := State (busy s) (owner s) (upd (pcs s) i p).
Definition lock (s : state) (i : nat) (p : pc) : outcome state :=
  match owner s with Some _ => Disabled | None => Next (State (busy s) (Some i) (upd (pcs s) i p)) false end.
Definition unlock (s : state) (i : nat) (p : pc) (returned : bool) : outcome state := Next (State (busy s) None (upd (pcs s) i p)) returned.
(** cv.notify_all() *)
Definition wake (p : pc) : pc := match p with WSleep => WWoken | p => p end.
Definition step_thread (s : state) (i : nat) (p : pc) : outcome state :=
  match p with
  | Out | WSleep => Disabled
  | WEnter | WWoken => lock s i WHold
  | WHold => if busy s =? 0 then unlock s i Out true else unlock s i WSleep false      (* while (busy) cv.wait(lock) *)
  | IEnter k => lock s i (IHold k)
  | IHold k => Next (State (busy s + k) (owner s) (upd (pcs s) i ILeave)) false
  | ILeave => unlock s i Out false
  | DEnter k => lock s i (DHold k)
  | DHold k => if busy s <? k then Bad else Next (State (busy s - k) (owner s) (upd (pcs s) i (DLeave (busy s - k =? 0)))) false
  | DLeave notify => unlock s i (if notify then DNotify else Out) false
  | DNotify => Next (State (busy s) (owner s) (upd (map wake (pcs s)) i Out)) false
  end.
Definition step (s : state) (a : action) : outcome state :=
  match a with
  | CallWait i => match nth_error (pcs s) i with Some Out => Next (put s i WEnter) false | _ => Disabled end
  | CallIncrement i k => match nth_error (pcs s) i with Some Out => Next (put s i (IEnter k)) false | _ => Disabled end
  | CallDecrement i k => match nth_error (pcs s) i with Some Out => Next (put s i (DEnter k)) false | _ => Disabled end
  | Step i => match nth_error (pcs s) i with Some p => step_thread s i p | None => Disabled end
  | Spurious i => match nth_error (pcs s) i with Some WSleep => Next (put s i WWoken) false | _ => Disabled end
  end.
Fixpoint exec (s : state) (l : list action) : option state :=
  match l with [] => Some s | a :: l => match step s a with Next s' _ => exec s' l | _ => None end end.
