(** Property C45: scope guards. *)
From Coq Require Import Lia ZifyBool ZifyNat ZifyN.
From Verif Require Import Words WordsProofs GuardModel GuardSpec GuardProofs.
Local Open Scope N_scope.
Ltac Zify.zify_post_hook ::= idtac.

(** Every program, whatever it throws and catches and with whatever exceptions already in flight when it starts ([ue]),
    behaves as if its guards simply knew how their scope was left; up to 2^31 exceptions in flight. *)
Theorem C45_guards c ue : ue + depth c < 2 ^ 31 ->
  let '(e, _, trace) := exec c ue [] in let '(e', _, trace') := ideal c [] in e = e' /\ trace = trace'.
Proof.
  intros H. pose proof (exec_ok c ue [] [] H (Forall2_nil _)) as K. destruct (exec c ue []) as [[e env] t]. destruct (ideal c []) as [[e' d] t'].
  destruct K as (A & B & _). split; assumption.
Qed.
Print Assumptions C45_guards.

(** No callable runs more often than its guard is declared (programs have no loops). *)
Theorem C45_at_most_once c ue id : (runs id (snd (exec c ue [])) <= declared id c)%nat.
Proof. apply runs_once. Qed.
Print Assumptions C45_at_most_once.

(** One guard, any body that has no guard of that name inside, dismissing or not, in any context: it runs exactly once if it
    should, and not at all otherwise. *)
Theorem C45_one_guard m id body ue : ue + depth body < 2 ^ 31 -> declared id body = 0%nat ->
  let '(e, _, trace) := exec (Guard m id body) ue [] in
  let '(e', d, trace') := ideal body [false] in
  e = e' /\ runs id trace = (if due m e' && negb (hd true d) then 1 else 0)%nat /\
  trace = trace' ++ (if due m e' && negb (hd true d) then [Ran id] else []).
Proof.
  intros H Z. pose proof (exec_ok (Guard m id body) ue [] [] H (Forall2_nil _)) as K. pose proof (runs_once id (Guard m id body) ue []) as O.
  pose proof (exec_ok body ue [g_new m ue] [false] H (Forall2_cons _ _ (proj1 (new_ok m ue ltac:(lia))) (Forall2_nil _))) as B.
  pose proof (runs_once id body ue [g_new m ue]) as OB. rewrite Z in OB.
  destruct (exec (Guard m id body) ue []) as [[e env] t]. cbn [ideal] in K. destruct (exec body ue [g_new m ue]) as [[e0 env0] t0]. cbn [snd] in OB.
  destruct (ideal body [false]) as [[e' d] t']. destruct K as (A & T & _). destruct B as (_ & T0 & _). split; [exact A|]. split; [|exact T].
  subst t t0. rewrite runs_app. assert (runs id t' = 0%nat) as -> by lia. destruct (due m e' && negb (hd true d)); cbn; [rewrite N.eqb_refl|]; reflexivity.
Qed.
Print Assumptions C45_one_guard.

(** A scope_fail that fires during unwinding, inside whose destructor-run code another one, constructed with the exception
    already in flight, rightly stays silent; a dismissed one; and a scope_success. *)
Example C45_witness :
  exec (Try (Guard OnFail 1 (Defer (Seq (Guard OnFail 2 Skip) (Guard OnSuccess 3 (Act 7))) (Seq (Guard Always 4 (Dismiss 0)) Throw))) (Act 8)) 0 []
  = (Normal, [], [Did 7; Ran 3; Ran 1; Did 8]) /\
  (0 + depth (Try (Guard OnFail 1 (Defer (Seq (Guard OnFail 2 Skip) (Guard OnSuccess 3 (Act 7))) (Seq (Guard Always 4 (Dismiss 0)) Throw))) (Act 8)) < 2 ^ 31).
Proof. split; vm_compute; reflexivity. Qed.
