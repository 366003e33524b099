(** C119: nobody who waits for the pool is forgotten (src/thread_pool.cpp:83-118). *)
From Coq Require Import List Bool Arith ZArith Lia.
From Verif Require Import MonModel MonSpec MonProofs0 MonProofs.
Import ListNotations.

(** Is the thread in a call that has still to change the count? By how much? *)
Definition changing (p : pc) : bool := match p with IEnter _ | IHold _ | DEnter _ | DHold _ => true | _ => false end.
Definition running (s : state) : Z :=
  fold_right (fun p a => match p with IEnter k | IHold k => Z.of_nat k | DEnter k | DHold k => - Z.of_nat k | _ => 0 end + a)%Z 0%Z (pcs s).

(** Whatever calls were made and however their steps were mixed, if they balance and all changes are made, then the running calls end: however the threads go on, they
    take three steps each at most, and the only state in which nobody can take another is that in which all calls have returned. No thread sleeps for ever. *)
Theorem C119_waits_end : forall n l s,
  exec (start n) l = Some s -> balance l = 0%Z -> (forall i p, nth_error (pcs s) i = Some p -> changing p = false) ->
  forall l' s', steps_only l' -> exec s l' = Some s' ->
    length l' <= 3 * n /\
    ((forall i s'' r, step s' (Step i) <> Next s'' r) -> forall i p, nth_error (pcs s') i = Some p -> p = Out).
Proof. exact waits_end. Qed.
Print Assumptions C119_waits_end.

(** Whenever the count is zero and a thread is asleep, some other thread wakes it within two steps of its own, which nothing can hold up. *)
Theorem C119_no_lost_wakeup : forall n l s j,
  exec (start n) l = Some s -> busy s = 0 -> nth_error (pcs s) j = Some WSleep ->
  exists i, exists m s', exec s (repeat (Step i) (S m)) = Some s' /\ m <= 1 /\ nth_error (pcs s') j = Some WWoken.
Proof. exact no_lost. Qed.
Print Assumptions C119_no_lost_wakeup.

(** [wait] returns only when the calls started balance, apart from those which have yet to change the count. *)
Theorem C119_returns : forall n l s i s',
  exec (start n) l = Some s -> step s (Step i) = Next s' true -> balance l = running s.
Proof. intros n l s i s' H X. exact (proj2 (proj2 (returns n l s i s' H X))). Qed.
Print Assumptions C119_returns.

(** The count is what the calls make of it. *)
Theorem C119_count : forall n l s,
  exec (start n) l = Some s -> Z.of_nat (busy s) = (balance l - running s)%Z.
Proof. intros n l s H. exact (i_bal _ _ (inv_reach n l s H)). Qed.
Print Assumptions C119_count.

(** At most one thread is between locking and unlocking, and a thread that is can always go on, unless it takes away more than there is. *)
Theorem C119_mutex : forall n l s i p,
  exec (start n) l = Some s -> nth_error (pcs s) i = Some p -> holds p = true ->
  (forall j q, nth_error (pcs s) j = Some q -> holds q = true -> j = i) /\ (step s (Step i) <> Disabled).
Proof.
  intros n l s i p H E O. pose proof (inv_reach n l s H) as I. pose proof (proj1 (i_own _ _ I i p E) O) as W. split.
  - intros j q F Q. pose proof (proj1 (i_own _ _ I j q F) Q). congruence.
  - cbn [step]. rewrite E. destruct p; try discriminate; cbn [step_thread]; unfold unlock; try discriminate.
    + destruct (busy s =? 0); discriminate.
    + destruct (busy s <? k); discriminate.
Qed.
Print Assumptions C119_mutex.

(** Thread 0 waits while thread 1 adds two and threads 1 and 2 take one away each; thread 0 is asleep, thread 2 is about to notify; then all go on. *)
Definition sample : list action :=
  [CallIncrement 1 2; Step 1; Step 1; Step 1; CallWait 0; Step 0; Step 0; CallDecrement 1 1; CallDecrement 2 1; Step 1; Step 1; Step 1; Step 2; Step 2].
Example sample_sleeps : exec (start 3) sample = Some (State 0 (Some 2) [WSleep; Out; DLeave true]) /\ balance sample = 0%Z.
Proof. split; reflexivity. Qed.
Example sample_ends : exec (State 0 (Some 2) [WSleep; Out; DLeave true]) [Step 2; Step 2; Step 0; Step 0] = Some (State 0 None [Out; Out; Out]).
Proof. reflexivity. Qed.
Example sample_returns : exists s s', exec (start 3) (sample ++ [Step 2; Step 2; Step 0]) = Some s /\ step s (Step 0) = Next s' true.
Proof. do 2 eexists. split; reflexivity. Qed.
(** A thread that waits may sleep through a zero, if the count leaves zero again before the thread gets the mutex; the count is one, and it sleeps again. *)
Example zero_missed : exec (start 3) (sample ++ [Step 2; CallIncrement 1 1; Step 1; Step 1; Step 1; Step 2; Step 0; Step 0]) = Some (State 1 None [WSleep; Out; Out]).
Proof. reflexivity. Qed.
