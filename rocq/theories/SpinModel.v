(** Model of muu/spin_mutex.h.

    The mutex is one [std::atomic_bool]. Its memory is the list of all writes to it in modification order,
    so threads may read stale values: a load reads any write that is not older than the newest one the
    thread already knows (coherence), a store may be placed anywhere after that one, and a read-modify-write
    is placed directly behind the write it reads (nothing may come between them). This is the
    release/acquire fragment of the C++ memory model for one atomic location, operationally; loads from
    writes that have not happened yet (load buffering) are not possible in it.

    The data protected by the mutex is a counter of all accesses made so far; each thread has the number of
    accesses that happen-before its current point. An access that does not see all earlier ones is a data
    race. [pause] instructions and the growing number of them (lines 46-47, 52-54) are not modelled: they
    have no effect on memory. *)
From Verif Require Import Words EarrModel.
Local Open Scope nat_scope.

(** One write to [held_]: its value, whether it is the write of a read-modify-write, and the number of
    accesses to the protected data that happen before a thread that acquires from it. *)
Record msg := { m_val : bool; m_rmw : bool; m_view : nat }.

(** Where a thread is: outside, before the [exchange] or the inner [load] of [lock], before the [load] or
    the [exchange] of [try_lock], or between a successful lock and its unlock. *)
Inductive pc := Idle | LockX | LockSpin | TryLoad | TryX | Held.

(** A thread: where it is, the newest write to [held_] it knows, the accesses that happen before it. *)
Record thread := { t_pc : pc; t_pos : nat; t_view : nat }.

Record state := { msgs : list msg; threads : list thread; accesses : nat }.

(** spin_mutex.h:33-36: the constructor initialises [held_] to [false]; [n] threads that start after it. *)
Definition init (n : nat) : state :=
  {| msgs := [{| m_val := false; m_rmw := false; m_view := 0 |}];
     threads := repeat {| t_pc := Idle; t_pos := 0; t_view := 0 |} n; accesses := 0 |}.

Definition insert {A} (l : list A) (p : nat) (x : A) : list A := firstn p l ++ x :: skipn p l.
(** Positions of existing writes after an insertion at [p]. *)
Definition shift (p : nat) (t : thread) : thread :=
  {| t_pc := t_pc t; t_pos := if p <=? t_pos t then S (t_pos t) else t_pos t; t_view := t_view t |}.

(** What a thread does next. [Exchange r] and [Load r] read the write number [r]; [Unlock p] stores at
    position [p]; [Access] reads or writes the protected data. *)
Inductive action := CallLock | CallTry | Exchange (r : nat) | Load (r : nat) | Unlock (p : nat) | Access.

Inductive outcome := Disabled | Race | Next (s : state).

Definition goto (t : thread) (p : pc) (pos view : nat) : thread := {| t_pc := p; t_pos := pos; t_view := view |}.
Definition set (s : state) (i : nat) (t : thread) : state :=
  {| msgs := msgs s; threads := upd (threads s) i t; accesses := accesses s |}.

(** May a write be placed at [p] by a thread that knows write number [pos]? *)
Definition can_place (l : list msg) (pos p : nat) : bool :=
  (pos <? p) && (p <=? length l) && match nth_error l p with Some m => negb (m_rmw m) | None => true end.

(** [held_.exchange(true, std::memory_order_acquire)] (lines 48, 65), then to [won] if it returned [false]
    and to [lost] otherwise. The write part is relaxed, so its message only carries on the release sequence
    of the write it read. *)
Definition exchange (s : state) (i : nat) (t : thread) (r : nat) (won lost : pc) : outcome :=
  match nth_error (msgs s) r with
  | None => Disabled
  | Some m =>
      if negb (t_pos t <=? r) || negb (can_place (msgs s) r (S r)) then Disabled
      else
        let w := {| m_val := true; m_rmw := true; m_view := m_view m |} in
        Next {| msgs := insert (msgs s) (S r) w;
                threads := upd (map (shift (S r)) (threads s)) i
                               (goto t (if m_val m then lost else won) (S r) (max (t_view t) (m_view m)));
                accesses := accesses s |}
  end.

(** [held_.load(std::memory_order_relaxed)] (lines 50, 64), then to [tt] or [ff]. *)
Definition load (s : state) (i : nat) (t : thread) (r : nat) (tt ff : pc) : outcome :=
  match nth_error (msgs s) r with
  | None => Disabled
  | Some m => if t_pos t <=? r then Next (set s i (goto t (if m_val m then tt else ff) r (t_view t))) else Disabled
  end.

(** One step of thread [i]. *)
Definition step (s : state) (i : nat) (a : action) : outcome :=
  match nth_error (threads s) i with
  | None => Disabled
  | Some t =>
      match t_pc t, a with
      | Idle, CallLock => Next (set s i (goto t LockX (t_pos t) (t_view t)))
      | Idle, CallTry => Next (set s i (goto t TryLoad (t_pos t) (t_view t)))
      | LockX, Exchange r => exchange s i t r Held LockSpin                    (* line 48 *)
      | LockSpin, Load r => load s i t r LockSpin LockX                        (* lines 49-54 *)
      | TryLoad, Load r => load s i t r Idle TryX                              (* line 64 *)
      | TryX, Exchange r => exchange s i t r Held Idle                         (* line 65 *)
      | Held, Unlock p =>                                                      (* lines 69-72 *)
          if can_place (msgs s) (t_pos t) p then
            Next {| msgs := insert (msgs s) p {| m_val := false; m_rmw := false; m_view := t_view t |};
                    threads := upd (map (shift p) (threads s)) i (goto t Idle p (t_view t));
                    accesses := accesses s |}
          else Disabled
      | Held, Access =>                                                        (* the client's critical section *)
          if t_view t =? accesses s then
            Next {| msgs := msgs s; threads := upd (threads s) i (goto t Held (t_pos t) (S (accesses s)));
                    accesses := S (accesses s) |}
          else Race
      | _, _ => Disabled
      end
  end.

(** Any number of steps of any threads in any order. *)
Fixpoint steps (s : state) (tr : list (nat * action)) : option state :=
  match tr with
  | [] => Some s
  | (i, a) :: tr => match step s i a with Next s' => steps s' tr | _ => None end
  end.
