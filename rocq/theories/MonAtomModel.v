(** Model of the other version of [thread_pool_monitor] (src/thread_pool.cpp:48-81), made of std::atomic::wait and switched off by [&& 0] at line 48. The same
    simplifications as in MonModel.v. *)
From Coq Require Import List Bool Arith.
From Verif Require Import MonModel.
Import ListNotations.

(** Where a thread is: outside; in [wait] (60-68) about to load the count, about to call [count_.wait(v)], or asleep in it; in [increment] (70-74) or
    [decrement] (76-80) about to change the count, or about to notify. [count_.wait(v)] compares the count with [v] and goes to sleep in one
    step, and compares again when woken. *)
Inductive pc := Out | WLoad | WTry (v : nat) | WSleep (v : nat) | IAdd (k : nat) | DSub (k : nat) | Notify.
Record state := State { count : nat; pcs : list pc }.
Definition start (n : nat) : state := State 0 (repeat Out n).
Definition put (s : state) (i : nat) (p : pc) : state := State (count s) (upd (pcs s) i p).
Definition wake (p : pc) : pc := match p with WSleep v => WTry v | p => p end.
Definition step_thread (s : state) (i : nat) (p : pc) : outcome state :=
  match p with
  | Out | WSleep _ => Disabled
  | WLoad => if count s =? 0 then Next (put s i Out) true else Next (put s i (WTry (count s))) false
  | WTry v => Next (put s i (if count s =? v then WSleep v else WLoad)) false
  | IAdd k => Next (State (count s + k) (upd (pcs s) i Notify)) false
  | DSub k => if count s <? k then Bad else Next (State (count s - k) (upd (pcs s) i Notify)) false
  | Notify => Next (State (count s) (upd (map wake (pcs s)) i Out)) false
  end.
Definition step (s : state) (a : action) : outcome state :=
  match a with
  | CallWait i => match nth_error (pcs s) i with Some Out => Next (put s i WLoad) false | _ => Disabled end
  | CallIncrement i k => match nth_error (pcs s) i with Some Out => Next (put s i (IAdd k)) false | _ => Disabled end
  | CallDecrement i k => match nth_error (pcs s) i with Some Out => Next (put s i (DSub k)) false | _ => Disabled end
  | Step i => match nth_error (pcs s) i with Some p => step_thread s i p | None => Disabled end
  | Spurious i => match nth_error (pcs s) i with Some (WSleep v) => Next (put s i (WTry v)) false | _ => Disabled end
  end.
Fixpoint exec (s : state) (l : list action) : option state :=
  match l with [] => Some s | a :: l => match step s a with Next s' _ => exec s' l | _ => None end end.
