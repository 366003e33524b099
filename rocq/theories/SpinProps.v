(** C49: spin_mutex. Statements over every number of threads and every interleaving, with stale reads. *)
From Coq Require Import Lia.
From Verif Require Import Words EarrModel EarrProofs SpinModel SpinSpec SpinProofs.
Local Open Scope nat_scope.

(** At most one thread is between a successful lock/try_lock and its unlock. *)
Theorem C49_mutual_exclusion n s i j : reachable n s -> holds s i -> holds s j -> i = j.
Proof. intros R (ti & Hi & Pi) (tj & Hj & Pj). eapply (inv_one _ (reachable_inv _ _ R)); eassumption. Qed.
Print Assumptions C49_mutual_exclusion.

(** Everything done inside critical sections is ordered: an access to the protected data inside one happens
    after every access made in earlier ones, so there is no data race on it. *)
Theorem C49_no_data_race n s i a : reachable n s -> step s i a <> Race.
Proof. intros R. apply no_race. eapply reachable_inv. exact R. Qed.
Print Assumptions C49_no_data_race.

(** A free mutex is taken by whichever thread next exchanges the flag's newest value ... *)
Theorem C49_free_mutex_is_taken n s i : reachable n s -> free s -> at_pc s i LockX \/ at_pc s i TryX ->
  exists s', step s i (Exchange (newest s)) = Next s' /\ holds s' i.
Proof.
  intros R FR H. pose proof (reachable_inv _ _ R) as I. destruct (free_last _ I FR) as (m0 & Hm0 & V).
  destruct H as [(t & Ht & PC)|(t & Ht & PC)]; unfold step; rewrite Ht, PC.
  - destruct (exchange_newest s i t Held LockSpin I Ht) as (m & s' & Hm & E & t' & Ht' & PC'). exists s'. split; [exact E|]. exists t'. split; [exact Ht'|].
    rewrite PC'. replace m with m0 by congruence. rewrite V. reflexivity.
  - destruct (exchange_newest s i t Held Idle I Ht) as (m & s' & Hm & E & t' & Ht' & PC'). exists s'. split; [exact E|]. exists t'. split; [exact Ht'|].
    rewrite PC'. replace m with m0 by congruence. rewrite V. reflexivity.
Qed.
Print Assumptions C49_free_mutex_is_taken.

(** ... and a thread waiting in [lock], or calling [lock] or [try_lock], gets there by its own steps alone
    (nobody else has to move). *)
Theorem C49_free_mutex_can_be_taken n s i p : reachable n s -> free s -> at_pc s i p ->
  exists tr s', Forall (fun x => fst x = i) tr /\ length tr <= 3 /\ steps s tr = Some s' /\ holds s' i /\
    (p = LockX \/ p = LockSpin \/ p = TryLoad \/ p = TryX -> length tr <= 2).
Proof.
  intros R FR (t & Ht & PC). pose proof (reachable_inv _ _ R) as I.
  assert (STEP : forall a s1, step s i a = Next s1 -> reachable n s1).
  { intros a s1 E. destruct R as [tr R]. exists (tr ++ [(i, a)]). clear - R E. revert R. generalize (init n). induction tr as [|[j b] tr IH]; intros x R; cbn in *.
    - injection R as ->. rewrite E. reflexivity.
    - destruct (step x j b); try discriminate. apply IH. exact R. }
  assert (TAKE : forall s1, reachable n s1 -> free s1 -> at_pc s1 i LockX \/ at_pc s1 i TryX -> exists s', steps s1 [(i, Exchange (newest s1))] = Some s' /\ holds s' i).
  { intros s1 R1 F1 H. destruct (C49_free_mutex_is_taken n s1 i R1 F1 H) as (s' & E & H'). exists s'. split; [cbn; rewrite E; reflexivity|exact H']. }
  assert (FREE : forall q pos, q <> Held -> free (set s i (goto t q pos (t_view t)))).
  { intros q pos NQ j (tj & Hj & Pj). cbn [set threads] in Hj. apply upd_cases in Hj. destruct Hj as [[-> ->]|[_ Hj]]; [cbn in Pj; congruence|]. apply (FR j). exists tj. split; assumption. }
  assert (ATP : forall q pos, at_pc (set s i (goto t q pos (t_view t))) i q).
  { intros q pos. exists (goto t q pos (t_view t)). split; [apply upd_same; exact (nth_len _ _ _ Ht)|reflexivity]. }
  destruct (free_last _ I FR) as (m0 & Hm0 & V).
  destruct p.
  - (* Idle: call lock *) assert (E : step s i CallLock = Next (set s i (goto t LockX (t_pos t) (t_view t)))) by (unfold step; rewrite Ht, PC; reflexivity).
    destruct (TAKE _ (STEP _ _ E) (FREE LockX (t_pos t) ltac:(discriminate)) (or_introl (ATP _ _))) as (s' & S1 & H').
    eexists ((i, CallLock) :: [(i, Exchange (newest _))]), s'. split; [apply Forall_cons; [reflexivity|apply Forall_cons; [reflexivity|apply Forall_nil]]|]. split; [cbn; lia|]. split; [|split; [exact H'|cbn; lia]].
    cbn [steps]. rewrite E. exact S1.
  - destruct (TAKE s R FR (or_introl (ex_intro _ t (conj Ht PC)))) as (s' & S1 & H'). exists [(i, Exchange (newest s))], s'. split; [apply Forall_cons; [reflexivity|apply Forall_nil]|]. split; [cbn; lia|]. split; [exact S1|]. split; [exact H'|cbn; lia].
  - destruct (load_newest s i t LockSpin LockX I Ht) as (m & Hm & E). replace m with m0 in E by congruence. rewrite V in E.
    assert (E' : step s i (Load (newest s)) = Next (set s i (goto t LockX (newest s) (t_view t)))) by (unfold step; rewrite Ht, PC; exact E).
    destruct (TAKE _ (STEP _ _ E') (FREE LockX (newest s) ltac:(discriminate)) (or_introl (ATP _ _))) as (s' & S1 & H').
    eexists ((i, Load (newest s)) :: [(i, Exchange (newest _))]), s'. split; [apply Forall_cons; [reflexivity|apply Forall_cons; [reflexivity|apply Forall_nil]]|]. split; [cbn; lia|]. split; [|split; [exact H'|cbn; lia]].
    cbn [steps]. rewrite E'. exact S1.
  - destruct (load_newest s i t Idle TryX I Ht) as (m & Hm & E). replace m with m0 in E by congruence. rewrite V in E.
    assert (E' : step s i (Load (newest s)) = Next (set s i (goto t TryX (newest s) (t_view t)))) by (unfold step; rewrite Ht, PC; exact E).
    destruct (TAKE _ (STEP _ _ E') (FREE TryX (newest s) ltac:(discriminate)) (or_intror (ATP _ _))) as (s' & S1 & H').
    eexists ((i, Load (newest s)) :: [(i, Exchange (newest _))]), s'. split; [apply Forall_cons; [reflexivity|apply Forall_cons; [reflexivity|apply Forall_nil]]|]. split; [cbn; lia|]. split; [|split; [exact H'|cbn; lia]].
    cbn [steps]. rewrite E'. exact S1.
  - destruct (TAKE s R FR (or_intror (ex_intro _ t (conj Ht PC)))) as (s' & S1 & H'). exists [(i, Exchange (newest s))], s'. split; [apply Forall_cons; [reflexivity|apply Forall_nil]|]. split; [cbn; lia|]. split; [exact S1|]. split; [exact H'|cbn; lia].
  - exfalso. apply (FR i). exists t. split; assumption.
Qed.
Print Assumptions C49_free_mutex_can_be_taken.

(** [try_lock] gives up only because another thread holds the mutex, as long as it reads fresh values. *)
Theorem C49_try_lock_fails_only_if_held n s s' i a : reachable n s -> at_pc s i TryLoad \/ at_pc s i TryX -> fresh s a ->
  step s i a = Next s' -> at_pc s' i Idle -> exists j, j <> i /\ holds s j.
Proof.
  intros R H FS E AT. pose proof (reachable_inv _ _ R) as I.
  assert (X : exists t, nth_error (threads s) i = Some t /\ t_pc t <> Held /\ exists m, nth_error (msgs s) (newest s) = Some m /\ m_val m = true).
  { destruct H as [(t & Ht & PC)|(t & Ht & PC)]; exists t; (split; [exact Ht|split; [congruence|]]); unfold step in E; rewrite Ht, PC in E; destruct a as [| |r|r|p|]; try discriminate; cbn in FS; subst r.
    - destruct (load_newest s i t Idle TryX I Ht) as (m & Hm & E1). exists m. split; [exact Hm|]. rewrite E1 in E. injection E as <-. destruct AT as (t' & Ht' & PC').
      cbn [set threads] in Ht'. rewrite upd_same in Ht' by exact (nth_len _ _ _ Ht). injection Ht' as <-. cbn in PC'. destruct (m_val m); [reflexivity|discriminate].
    - destruct (exchange_newest s i t Held Idle I Ht) as (m & s1 & Hm & E1 & t' & Ht' & PC'). exists m. split; [exact Hm|]. rewrite E1 in E. injection E as <-. destruct AT as (t2 & Ht2 & PC2).
      rewrite Ht' in Ht2. injection Ht2 as <-. rewrite PC' in PC2. destruct (m_val m); [reflexivity|discriminate]. }
  destruct X as (t & Ht & NH & m & Hm & V).
  (* if nobody held it, the newest value would be false *)
  assert (DEC : forall l, (exists j t, nth_error l j = Some t /\ t_pc t = Held) \/ (forall j t, nth_error l j = Some t -> t_pc t <> Held)).
  { induction l as [|x l IH]; [right; intros [|j] y Hy; discriminate|]. destruct (t_pc x) eqn:PX; try (destruct IH as [(j & y & Hj & P)|IH]; [left; exists (S j), y; split; assumption|right; intros [|j] y Hy; cbn in Hy; [injection Hy as <-; congruence|eapply IH; exact Hy]]).
    left. exists 0, x. split; [reflexivity|exact PX]. }
  destruct (DEC (threads s)) as [(j & tj & Hj & Pj)|NO].
  - exists j. split; [|exists tj; split; assumption]. intros ->. rewrite Ht in Hj. injection Hj as <-. congruence.
  - destruct (free_last s I) as (m' & Hm' & V'); [intros j (tj & Hj & Pj); exact (NO _ _ Hj Pj)|]. congruence.
Qed.
Print Assumptions C49_try_lock_fails_only_if_held.

(** With a stale read it may fail on a free mutex: nothing orders the caller after the last unlock. *)
Theorem C49_try_lock_may_fail_on_stale_read : exists n s i a s', reachable n s /\ free s /\ at_pc s i TryLoad /\ step s i a = Next s' /\ at_pc s' i Idle.
Proof.
  exists 2. eexists _, 1, (Load 1), _. split; [|split; [|split; [|split]]].
  - exists [(0, CallLock); (0, Exchange 0); (0, Unlock 2); (1, CallTry)]. vm_compute. reflexivity.
  - intros [|[|j]] (t & Ht & PC); cbn in Ht; [injection Ht as <-; discriminate PC..|]. destruct j; discriminate.
  - eexists. split; reflexivity.
  - vm_compute. reflexivity.
  - eexists. split; reflexivity.
Qed.
Print Assumptions C49_try_lock_may_fail_on_stale_read.

(** The holder can always unlock, and the mutex is free afterwards. *)
Theorem C49_unlock_frees n s i : reachable n s -> holds s i ->
  (exists p s', step s i (Unlock p) = Next s') /\ forall p s', step s i (Unlock p) = Next s' -> free s'.
Proof.
  intros R (t & Ht & PC). pose proof (reachable_inv _ _ R) as I. pose proof (inv_pos _ I _ _ Ht) as P. split.
  - exists (length (msgs s)). unfold step. rewrite Ht, PC. replace (can_place (msgs s) (t_pos t) (length (msgs s))) with true; [eexists; reflexivity|].
    symmetry. unfold can_place. replace (nth_error (msgs s) (length (msgs s))) with (@None msg) by (symmetry; apply nth_error_None; lia).
    rewrite andb_true_r. apply andb_true_intro. split; [apply Nat.ltb_lt; exact P|apply Nat.leb_refl].
  - intros p s'. unfold step. rewrite Ht, PC. destruct (can_place _ _ _); [|discriminate]. intros [= <-] j (tj & Hj & Pj). cbn [threads] in Hj. apply upd_cases in Hj.
    destruct Hj as [[-> ->]|[N Hj]]; [discriminate Pj|]. apply shift_nth in Hj. destruct Hj as (t0 & H0 & ->). cbn in Pj. apply N. eapply (inv_one _ I); eassumption.
Qed.
Print Assumptions C49_unlock_frees.

(* ------------------------------------------------------------------ witnesses *)
(** Three threads contend; a failed exchange lands behind the first one; the lock is handed over twice. *)
Definition demo : list (nat * action) :=
  [(0, CallLock); (1, CallLock); (2, CallTry); (2, Load 0); (0, Exchange 0); (0, Access); (1, Exchange 1); (1, Load 2); (0, Access);
   (0, Unlock 3); (1, Load 2); (2, Exchange 3); (2, Access); (1, Load 4)].
Example C49_demo : exists s, reachable 3 s /\ holds s 2 /\ at_pc s 1 LockSpin /\ at_pc s 0 Idle /\ accesses s = 3 /\ length (msgs s) = 5.
Proof. eexists. split; [exists demo; vm_compute; reflexivity|]. repeat (split; [eexists; split; reflexivity|]). split; reflexivity. Qed.
Example C49_demo_free : exists s, reachable 3 s /\ free s /\ at_pc s 1 LockSpin.
Proof.
  eexists. split; [exists (demo ++ [(2, Unlock 5)]); vm_compute; reflexivity|]. split; [|eexists; split; reflexivity].
  intros [|[|[|j]]] (t & Ht & PC); cbn in Ht; [injection Ht as <-; discriminate PC..|]. destruct j; discriminate.
Qed.
