(** What C49 asks of a mutex, over executions of any number of threads. *)
From Verif Require Import Words SpinModel.
Local Open Scope nat_scope.

(** [s] can be reached by [n] threads using a new mutex. *)
Definition reachable (n : nat) (s : state) : Prop := exists tr, steps (init n) tr = Some s.
(** Thread [i] is between a successful lock/try_lock and its unlock. *)
Definition holds (s : state) (i : nat) : Prop := exists t, nth_error (threads s) i = Some t /\ t_pc t = Held.
Definition at_pc (s : state) (i : nat) (p : pc) : Prop := exists t, nth_error (threads s) i = Some t /\ t_pc t = p.
Definition free (s : state) : Prop := forall i, ~ holds s i.
(** The newest write to the flag. *)
Definition newest (s : state) : nat := length (msgs s) - 1.
(** The step [a] does not read a stale value of the flag. *)
Definition fresh (s : state) (a : action) : Prop :=
  match a with Exchange r | Load r => r = newest s | _ => True end.
