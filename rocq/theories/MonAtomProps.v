(** C119, for the version with std::atomic::wait, which is switched off (src/thread_pool.cpp:48-81). *)
From Coq Require Import List Bool Arith ZArith Lia.
From Verif Require Import MonModel MonAtomModel MonSpec MonProofs0 MonAtomProofs.
Import ListNotations.

Definition changing (p : pc) : bool := match p with IAdd _ | DSub _ => true | _ => false end.
Definition running (s : state) : Z := fold_right (fun p a => match p with IAdd k => Z.of_nat k | DSub k => - Z.of_nat k | _ => 0 end + a)%Z 0%Z (pcs s).

(** The same as C119_waits_end: if the calls balance, the running ones end after three steps of each thread at most, however they go on. *)
Theorem C119_atomic_waits_end : forall n l s,
  exec (start n) l = Some s -> balance l = 0%Z -> (forall i p, nth_error (pcs s) i = Some p -> changing p = false) ->
  forall l' s', steps_only l' -> exec s l' = Some s' ->
    length l' <= 3 * n /\
    ((forall i s'' r, step s' (Step i) <> Next s'' r) -> forall i p, nth_error (pcs s') i = Some p -> p = Out).
Proof. exact waits_end. Qed.
Print Assumptions C119_atomic_waits_end.

(** Whenever the count is zero and a thread is asleep, one step of some other thread wakes it. *)
Theorem C119_atomic_no_lost_wakeup : forall n l s j v,
  exec (start n) l = Some s -> count s = 0 -> nth_error (pcs s) j = Some (WSleep v) ->
  exists i s', step s (Step i) = Next s' false /\ nth_error (pcs s') j = Some (WTry v).
Proof. exact no_lost. Qed.
Print Assumptions C119_atomic_no_lost_wakeup.

(** [wait] returns only when the calls started balance, apart from those which have yet to change the count. *)
Theorem C119_atomic_returns : forall n l s i s',
  exec (start n) l = Some s -> step s (Step i) = Next s' true -> balance l = running s.
Proof. intros n l s i s' H X. exact (proj2 (proj2 (returns n l s i s' H X))). Qed.
Print Assumptions C119_atomic_returns.

(** Thread 0 is asleep on the value two; thread 1 took one away and will notify; thread 2 takes the other. *)
Definition sample : list action :=
  [CallIncrement 1 2; Step 1; Step 1; CallWait 0; Step 0; Step 0; CallDecrement 1 1; CallDecrement 2 1; Step 1; Step 2].
Example sample_sleeps : exec (start 3) sample = Some (State 0 [WSleep 2; Notify; Notify]) /\ balance sample = 0%Z.
Proof. split; reflexivity. Qed.
Example sample_ends : exec (State 0 [WSleep 2; Notify; Notify]) [Step 2; Step 0; Step 1; Step 0] = Some (State 0 [Out; Out; Out]).
Proof. reflexivity. Qed.
