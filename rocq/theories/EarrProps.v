(** Property C40. *)
From Coq Require Import Permutation.
From Verif Require Import Words EarrModel EarrSpec EarrProofs.
Local Open Scope nat_scope.

(** Any program runs without undefined behaviour exactly when the abstract one is within capacity and touches live
    variables only, and then every variable holds its abstract list within its capacity, in distinct blocks, and the same
    values were built and destroyed in the same order. *)
Theorem C40_refinement {V} (triv : bool) (os : list (op V)) :
  match run triv start os, srun triv sstart os with
  | Some s, Some t =>
      log s = slog t /\ length (vars s) = length (svars t) /\
      (forall i, match var s i, svar t i with
                 | Some a, Some (c, l) =>
                     e_cap a = c /\ e_count a = length l /\ length l <= c /\ (e_empty a = true <-> l = []) /\
                     (forall k, k < length l -> e_at (mem s) a k = nth_error l k) /\
                     (forall v r, l = v :: r -> e_front (mem s) a = Some v) /\
                     (forall v r, l = r ++ [v] -> e_back (mem s) a = Some v) /\
                     (0 < c -> e_iterate (mem s) a = Some l)
                 | None, None => True
                 | _, _ => False
                 end)
  | None, None => True
  | _, _ => False
  end.
Proof.
  pose proof (run_ok triv os _ _ (sim_start triv)) as H. destruct (run triv start os) as [s|], (srun triv sstart os) as [t|]; try exact H.
  pose proof H as (G & L & _). split; [exact G|]. split; [exact L|]. intros i. pose proof (sim_var triv s t i H) as R. destruct (var s i) as [a|], (svar t i) as [[c l]|]; try exact R.
  pose proof R as (A & B & C & _). cbn [fst snd] in A, B, C. split; [exact B|]. split; [exact A|]. split; [exact C|]. split.
  { unfold e_empty. rewrite A, Nat.eqb_eq. split; [intros E; destruct l; [reflexivity|discriminate]|intros ->; reflexivity]. }
  split; [intros k; exact (rel_at triv _ _ _ k R)|]. split.
  { intros v r ->. unfold e_front. rewrite (rel_at triv _ _ _ 0 R); [reflexivity|cbn; lia]. }
  split; [|intros K; exact (rel_iterate triv _ _ _ R K)].
  intros v r ->. unfold e_back. rewrite A. rewrite (rel_at triv _ _ _ _ R); cbn [snd]; rewrite app_length; cbn [length]; [|lia].
  rewrite nth_error_app2 by lia. replace (length r + 1 - 1 - length r) with 0 by lia. reflexivity.
Qed.
Print Assumptions C40_refinement.

(** Values are built and destroyed the same number of times once all variables are gone, no block is left allocated, and
    before that the difference is what the variables hold. *)
Theorem C40_no_leak {V} (os : list (op V)) s : run false start os = Some s ->
  exists t, srun false sstart os = Some t /\ Permutation (builts (log s)) (gones (log s) ++ alive (svars t)) /\
  (forall b c, nth_error (mem s) b = Some (Some c) -> exists i a, var s i = Some a /\ e_stor a = Some b) /\
  (forall b i j a a', var s i = Some a -> var s j = Some a' -> e_stor a = Some b -> e_stor a' = Some b -> i = j).
Proof.
  intros E. pose proof (run_ok false os _ _ (sim_start false)) as H. rewrite E in H. destruct (srun false sstart os) as [t|] eqn:T; [|contradiction].
  exists t. split; [reflexivity|]. pose proof H as (G & _ & _ & U & K). split.
  { rewrite G. apply (run_balanced os sstart t); [constructor|exact T]. }
  split.
  - intros b c Hb. destruct (K b c Hb) as (i & a & Ha & Hb'). exists i, a. split; [apply var_nth_iff; exact Ha|exact Hb'].
  - intros b i j a a' Hi Hj Hb Hb'. apply var_nth in Hi, Hj. apply (U i j b); [exists a; split; assumption|exists a'; split; assumption].
Qed.
Print Assumptions C40_no_leak.
(** Moving moves every value without building or destroying any of them, and leaves the source empty. *)
Theorem C40_move_keeps_values {V} triv (os : list (op V)) s t i j a x : run triv start os = Some s -> srun triv sstart os = Some t -> i <> j ->
  var s i = Some a -> svar t j = Some x ->
  exists s', step triv s (MoveAssign i j) = Some s' /\
    (exists b c, var s' i = Some b /\ e_cap b = fst x /\ var s' j = Some c /\ e_cap c = 0 /\ e_count c = 0 /\
      forall k, k < length (snd x) -> e_at (mem s') b k = nth_error (snd x) k) /\
    builts (log s') = builts (log s).
Proof.
  intros E T N Ha Hx. pose proof (run_ok triv os _ _ (sim_start triv)) as H. rewrite E, T in H.
  pose proof (sim_var triv s t i H) as Ri. rewrite Ha in Ri. destruct (svar t i) as [y|] eqn:Hy; [|contradiction].
  pose proof (step_ok triv s t (MoveAssign i j) H) as S1. cbn [sstep] in S1. rewrite Hy, Hx in S1. cbn [option_bind] in S1.
  destruct (step triv s (MoveAssign i j)) as [s'|]; [|contradiction]. exists s'. split; [reflexivity|].
  apply svar_nth in Hx, Hy. pose proof (sim_var triv s' _ i S1) as Pi. pose proof (sim_var triv s' _ j S1) as Pj.
  unfold svar in Pi, Pj. cbn [svars] in Pi, Pj. rewrite (upd_other _ j i) in Pi by congruence. rewrite (upd_same _ i) in Pi by apply (nth_len _ _ _ Hy).
  rewrite (upd_same _ j) in Pj by (rewrite upd_length; apply (nth_len _ _ _ Hx)).
  destruct (var s' i) as [b|]; [|contradiction]. destruct (var s' j) as [c|]; [|contradiction]. split.
  - exists b, c. destruct Pj as (C1 & C2 & _). split; [reflexivity|]. split; [apply Pi|]. split; [reflexivity|]. split; [exact C2|]. split; [exact C1|]. intros k. apply (rel_at triv _ _ _ k Pi).
  - destruct S1 as (G & _). rewrite G. cbn [slog]. rewrite builts_app, (proj1 H). unfold goodbye. destruct triv; [apply app_nil_r|rewrite builts_map; apply app_nil_r].
Qed.
Print Assumptions C40_move_keeps_values.

(** Iterating over an array of capacity 0 is undefined: [begin()] is declared never to return null. *)
Theorem C40_iterate_unallocated_refuted {V} : exists s a, run (V := V) false start [New 0] = Some s /\ var s 0 = Some a /\ e_count a = 0 /\ e_iterate (mem s) a = None.
Proof. do 2 eexists. split; [reflexivity|]. split; [reflexivity|]. split; reflexivity. Qed.
Print Assumptions C40_iterate_unallocated_refuted.

Example C40_witness : exists s, run false start [New 2; Emplace 0 7 false false; Emplace 0 8 false true; Emplace 0 9 true false; MoveNew 0; New 1; Emplace 2 4 false false; MoveAssign 2 1; Destroy 0; Destroy 1] = Some s /\
  log s = [Built 7; Built 9; Built 4; Gone 4] /\ (exists a, var s 2 = Some a /\ e_iterate (mem s) a = Some [7; 9]) /\ run false start [New 1; Emplace 0 1 true false; Emplace 0 2 true false] = None.
Proof. eexists. split; [vm_compute; reflexivity|]. split; [reflexivity|]. split; [|vm_compute; reflexivity]. eexists. split; vm_compute; reflexivity. Qed.
