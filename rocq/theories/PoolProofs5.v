(** Destruction of a pool: it can always be carried to its end, and what it leaves. *)
From Coq Require Import Lia Permutation.
From Verif Require Import Words EarrModel EarrProofs SparamProofs PoolModel PoolSpec PoolProofs PoolProofs2 PoolProofs4.
Local Open Scope nat_scope.

Section D.
  Context {A : Type}.
  Variables (M cap : nat).
  Hypotheses (Hcap : 0 < cap) (HM : cap < M).
  Notation queue := (@queue A). Notation state := (@state A). Notation event := (@event A). Notation action := (@action A).

  Definition live_w (w : @worker A) : nat := if is_exit w then 0 else 1.
  Definition live_q (Q : queue) : nat := if q_alive Q then 1 else 0.

  Lemma idle_todo (s : state) : forallb is_idle (clients s) = true -> todo s = 0.
  Proof using All.
    unfold todo. induction (clients s) as [ | p l IH]; cbn [map forallb]; intro H; [reflexivity | ].
    apply andb_prop in H. destruct H as [H1 H2]. destruct p; try discriminate. change (0 + list_sum (map pc_todo l) = 0). rewrite (IH H2). reflexivity.
  Qed.
  Lemma sum_zero {B} (f : B -> nat) (l : list B) : list_sum (map f l) = 0 -> forall i x, nth_error l i = Some x -> f x = 0.
  Proof using All.
    induction l as [ | y l IH]; intros H [ | i] x E; cbn [nth_error] in E; try discriminate; change (f y + list_sum (map f l) = 0) in H.
    - injection E as <-. lia.
    - apply (IH ltac:(lia) i x E).
  Qed.
  Lemma all_nth {B} (f : B -> bool) (l : list B) : (forall i x, nth_error l i = Some x -> f x = true) -> forallb f l = true.
  Proof using All. induction l as [ | y l IH]; intro H; [reflexivity | ]. cbn. rewrite (H 0 y eq_refl). cbn. apply IH. intros i x E. exact (H (S i) x E). Qed.

  (** All workers end. *)
  Lemma end_workers n : forall s tr c, Inv M cap s tr c -> Own s -> no_wrap M cap tr -> dying s = true -> weight s = 0 -> list_sum (map live_w (workers s)) <= n ->
    exists l s' tr' c', exec M cap s tr l = Some (s', tr') /\ forallb (fun a => match a with DTermW _ | WQuit _ => true | _ => false end) l = true /\
      Inv M cap s' tr' c' /\ Own s' /\ no_wrap M cap tr' /\ dying s' = true /\ weight s' = 0 /\ list_sum (map live_w (workers s')) = 0.
  Proof using All.
    induction n as [ | n IH]; intros s tr c I O NW D Z Hn.
    - exists [], s, tr, c. repeat (split; [first [reflexivity | assumption] | ]). lia.
    - destruct (Nat.eq_dec (list_sum (map live_w (workers s))) 0) as [E0 | N0]; [exists [], s, tr, c; repeat (split; [first [reflexivity | assumption] | ]); exact E0 | ].
      destruct (sum_pos M cap Hcap HM live_w (workers s) ltac:(lia)) as (i & w & Hw & Lw).
      assert (EP : w_pc w = WIdle). { destruct (proj2 (weight_zero M cap Hcap HM s Z) i w Hw) as [K | K]; [exact K | ]. unfold live_w, is_exit in Lw. rewrite K in Lw. lia. }
      assert (S1 : step M cap s (DTermW i) = Next (put_w s i {| w_pc := w_pc w; w_term := true |}) []) by (cbn [step]; rewrite Hw, D; reflexivity).
      set (s1 := put_w s i _) in S1.
      assert (Hw1 : nth_error (workers s1) i = Some {| w_pc := w_pc w; w_term := true |}) by exact (nth_upd_eq _ _ _ _ Hw).
      assert (S2 : step M cap s1 (WQuit i) = Next (put_w s1 i (at_w {| w_pc := w_pc w; w_term := true |} WExit)) []).
      { cbn [step]. rewrite Hw1. unfold step_worker. cbn [w_pc]. rewrite EP. reflexivity. }
      set (s2 := put_w s1 i _) in S2.
      pose proof (step_inv M cap Hcap HM s tr c (DTermW i) I NW) as X. rewrite S1, app_nil_r in X. destruct X as [c1 I1]. pose proof (own_step M cap _ _ _ _ _ _ I O S1) as O1.
      pose proof (step_inv M cap Hcap HM s1 tr c1 (WQuit i) I1 NW) as X. rewrite S2, app_nil_r in X. destruct X as [c2 I2]. pose proof (own_step M cap _ _ _ _ _ _ I1 O1 S2) as O2.
      assert (F : forall f : @worker A -> nat, list_sum (map f (workers s2)) + f w + f {| w_pc := w_pc w; w_term := true |} =
                 list_sum (map f (workers s)) + f {| w_pc := w_pc w; w_term := true |} + f (at_w {| w_pc := w_pc w; w_term := true |} WExit)).
      { intro f. pose proof (sum_upd M cap Hcap HM f _ _ _ {| w_pc := w_pc w; w_term := true |} Hw) as U1.
        pose proof (sum_upd M cap Hcap HM f _ _ _ (at_w {| w_pc := w_pc w; w_term := true |} WExit) Hw1) as U2.
        change (upd (workers s1) i (at_w {| w_pc := w_pc w; w_term := true |} WExit)) with (workers s2) in U2.
        change (upd (workers s) i {| w_pc := w_pc w; w_term := true |}) with (workers s1) in U1. lia. }
      assert (W2 : weight s2 = 0).
      { unfold weight in *. change (clients s2) with (clients s). pose proof (F ww) as U. assert (V1 : ww w = 0) by (unfold ww; rewrite EP; reflexivity).
        assert (V2 : ww (at_w {| w_pc := w_pc w; w_term := true |} WExit) = 0) by reflexivity. lia. }
      assert (L2 : list_sum (map live_w (workers s2)) <= n).
      { pose proof (F live_w) as U. assert (V2 : live_w (at_w {| w_pc := w_pc w; w_term := true |} WExit) = 0) by reflexivity. lia. }
      destruct (IH s2 tr c2 I2 O2 NW D W2 L2) as (l & s' & tr' & c' & R1 & R2 & R).
      exists (DTermW i :: WQuit i :: l), s', tr', c'. cbn [exec]. rewrite S1, app_nil_r, S2, app_nil_r. split; [exact R1 | ]. split; [exact R2 | exact R].
  Qed.

  Lemma drain_alive n : forall Q l Q', @drain A M cap n Q = Some (l, Q') -> q_owner Q' = q_owner Q.
  Proof using All. exact (drain_owner M cap n). Qed.

  (** All queues are destroyed. *)
  Lemma end_queues n : forall s tr c, Inv M cap s tr c -> Own s -> no_wrap M cap tr -> dying s = true -> weight s = 0 -> forallb is_exit (workers s) = true ->
    list_sum (map live_q (queues s)) <= n ->
    exists l s' tr' c', exec M cap s tr l = Some (s', tr') /\ forallb (fun a => match a with DQueue _ => true | _ => false end) l = true /\
      Inv M cap s' tr' c' /\ forallb is_exit (workers s') = true /\ list_sum (map live_q (queues s')) = 0.
  Proof using All.
    induction n as [ | n IH]; intros s tr c I O NW D Z Ex Hn.
    - exists [], s, tr, c. repeat (split; [first [reflexivity | assumption] | ]). lia.
    - destruct (Nat.eq_dec (list_sum (map live_q (queues s))) 0) as [E0 | N0]; [exists [], s, tr, c; repeat (split; [first [reflexivity | assumption] | ]); exact E0 | ].
      destruct (sum_pos M cap Hcap HM live_q (queues s) ltac:(lia)) as (q & Q & HQ & LQ).
      assert (AL : q_alive Q = true) by (unfold live_q in LQ; destruct (q_alive Q); [reflexivity | lia]).
      pose proof (free_queue M cap Hcap HM s O Z q Q HQ) as OW.
      pose proof (step_inv M cap Hcap HM s tr c (DQueue q) I NW) as X.
      destruct (step M cap s (DQueue q)) as [ | | s1 es] eqn:S1; [ | contradiction | ].
      { exfalso. cbn [step] in S1. rewrite HQ, D, Ex, AL, OW in S1. cbn [andb] in S1. destruct (drain M cap (size M Q) Q) as [[ts Q'] | ]; [ | discriminate]. destruct (busy s <? length ts); discriminate. }
      destruct X as [c1 I1]. pose proof (own_step M cap _ _ _ _ _ _ I O S1) as O1.
      cbn [step] in S1. rewrite HQ, D, Ex, AL, OW in S1. cbn [andb] in S1. destruct (drain M cap (size M Q) Q) as [[ts Q'] | ] eqn:EDR; [ | discriminate].
      destruct (busy s <? length ts) eqn:EB; [discriminate | ]. injection S1 as <- <-. set (s1 := put_busy _ _) in *.
      assert (Z1 : weight s1 = 0) by exact Z.
      assert (NW1 : no_wrap M cap (tr ++ map (EDrop q) ts)).
      { destruct NW as [NW | NW]; [left; exact NW | right]. intro k. rewrite inserted_app, (proj2 (proj2 (proj2 (drops_none q ts))) k), app_nil_r. exact (NW k). }
      assert (L1 : list_sum (map live_q (queues s1)) <= n).
      { cbn [s1 put_busy put_q queues].
        match goal with |- context [upd (queues s) q ?Y] => pose proof (sum_upd M cap Hcap HM live_q _ _ _ Y HQ) as U; set (Y0 := Y) in * end.
        assert (live_q Y0 = 0) by reflexivity. assert (live_q Q = 1) by (unfold live_q; rewrite AL; reflexivity). lia. }
      destruct (IH s1 _ c1 I1 O1 NW1 D Z1 Ex L1) as (l & s' & tr' & c' & R1 & R2 & R).
      exists (DQueue q :: l), s', tr', c'. cbn [exec step]. rewrite HQ, D, Ex, AL, OW. cbn [andb]. rewrite EDR, EB. fold s1. split; [exact R1 | ]. split; [exact R2 | exact R].
  Qed.

  (** A destroyed queue is empty. *)
  Definition dead_empty (s : state) : Prop := forall q Q, nth_error (queues s) q = Some Q -> q_alive Q = false -> empty Q = true.
  Lemma pop_shape Q t Q' : @pop_front A M cap Q = Some (t, Q') -> q_alive Q' = q_alive Q.
  Proof using All. unfold pop_front. destruct (nth_error (q_slots Q) _) as [[u | ] | ]; try discriminate. intro H. injection H as _ <-. reflexivity. Qed.
  Lemma acq_shape Q k Q' : @acquire A M cap Q = Some (k, Q') -> q_alive Q' = q_alive Q.
  Proof using All. unfold acquire. destruct (full M cap Q); [discriminate | ]. intro H. injection H as _ <-. reflexivity. Qed.

  Lemma dead_put s s' q Q Q' : dead_empty s -> nth_error (queues s) q = Some Q -> queues s' = upd (queues s) q Q' ->
    (q_alive Q' = false -> q_alive Q = false /\ q_front Q' = q_front Q /\ q_back Q' = q_back Q) -> dead_empty s'.
  Proof using All.
    intros Hd HQ EQ K k Z HZ AZ. rewrite EQ in HZ. destruct (nth_upd_inv _ _ _ _ _ _ HQ HZ) as [[-> ->] | [N HZ']].
    - destruct (K AZ) as (K1 & K2 & K3). pose proof (Hd q Q HQ K1) as E. unfold empty in *. rewrite K2, K3. exact E.
    - exact (Hd k Z HZ' AZ).
  Qed.

  Lemma dead_step s tr c a s' es : Inv M cap s tr c -> no_wrap M cap tr -> dead_empty s -> step M cap s a = Next s' es -> dead_empty s'.
  Proof using All.
    intros I NW Hd E.
    assert (LW : forall i w q, nth_error (workers s) i = Some w -> hold_w (w_pc w) = Some q -> forall Q, nth_error (queues s) q = Some Q -> q_alive Q = true).
    { intros i w q Hw Hh Q HQ. destruct (q_alive Q) eqn:AL; [reflexivity | exfalso]. destruct (v_dead _ _ _ _ _ I q Q HQ AL) as [_ X].
      pose proof (forallb_nth _ _ _ _ X Hw) as Y. unfold is_exit in Y. destruct (w_pc w); discriminate. }
    assert (LC : forall j p q, nth_error (clients s) j = Some p -> hold_c p = Some q -> forall Q, nth_error (queues s) q = Some Q -> q_alive Q = true).
    { intros j p q Hp Hh Q HQ. destruct (q_alive Q) eqn:AL; [reflexivity | exfalso]. destruct (v_dead _ _ _ _ _ I q Q HQ AL) as [X _].
      pose proof (forallb_nth _ _ _ _ (v_dying _ _ _ _ _ I X) Hp) as Y. destruct p; discriminate. }
    assert (ST : forall s2 : state, queues s2 = queues s -> dead_empty s2) by (intros s2 Q k Z HZ; rewrite Q in HZ; exact (Hd k Z HZ)).
    destruct a as [i q | i | i | i | i | i | i | j q ts | j | j | j | j | j | j | j | | q | i | q]; cbn [step] in E;
      try (match type of E with context [step_worker] => idtac end; destruct (nth_error (workers s) i) as [w | ] eqn:Hw; [ | discriminate]; unfold step_worker in E; destruct (w_pc w) as [|q'|q'|q' t|t|t|t|] eqn:EP; try discriminate E);
      try (destruct (nth_error (clients s) j) as [p | ] eqn:Hp; [ | discriminate]; destruct p as [|q' us|q' d us|q' k d us|q'|]; cbn [step_client] in E; try discriminate E).
    - destruct (nth_error (queues s) q) as [Q | ] eqn:HQ; [ | discriminate]. destruct (q_alive Q) eqn:AL; cbn [negb] in E; [ | discriminate]. destruct (q_owner Q); [discriminate | ]. injection E as <- _.
      eapply dead_put; [exact Hd | exact HQ | reflexivity | ]. cbn. congruence.
    - pose proof (LW i w q' Hw) as AL. rewrite EP in AL. destruct (nth_error (queues s) q') as [Q | ] eqn:HQ; [ | discriminate]. specialize (AL eq_refl Q eq_refl).
      destruct (empty Q || q_term Q); [injection E as <- _; apply ST; reflexivity | ]. destruct (pop_front M cap Q) as [[t Q'] | ] eqn:EP'; [ | discriminate]. injection E as <- _.
      eapply dead_put; [exact Hd | exact HQ | reflexivity | ]. rewrite (pop_shape _ _ _ EP'). congruence.
    - destruct (nth_error (queues s) q') as [Q | ] eqn:HQ; [ | discriminate]. injection E as <- _. eapply dead_put; [exact Hd | exact HQ | reflexivity | ]. cbn. auto.
    - destruct (nth_error (queues s) q') as [Q | ] eqn:HQ; [ | discriminate]. injection E as <- _. eapply dead_put; [exact Hd | exact HQ | reflexivity | ]. cbn. auto.
    - injection E as <- _. apply ST. reflexivity.
    - destruct (busy s =? 0); [discriminate | ]. injection E as <- _. apply ST. reflexivity.
    - injection E as <- _. apply ST. reflexivity.
    - destruct (w_term w); [ | discriminate]. injection E as <- _. apply ST. reflexivity.
    - destruct (dying s); [discriminate | ]. destruct (nth_error (queues s) q) as [Q | ] eqn:HQ; [ | discriminate]. destruct ts as [ | t0 ts]; [discriminate | ].
      destruct (q_alive Q) eqn:AL; cbn [negb] in E; [ | discriminate]. destruct (q_owner Q); [discriminate | ]. injection E as <- _. eapply dead_put; [exact Hd | exact HQ | reflexivity | ]. cbn. congruence.
    - destruct (nth_error (queues s) q') as [Q | ]; [ | discriminate]. injection E as <- _. apply ST. reflexivity.
    - destruct us as [ | t us]; [discriminate | ]. pose proof (LC j _ q' Hp eq_refl) as AL. destruct (nth_error (queues s) q') as [Q | ] eqn:HQ; [ | discriminate]. specialize (AL Q eq_refl).
      destruct (acquire M cap Q) as [[k Q'] | ] eqn:EA; [ | discriminate]. injection E as <- _. eapply dead_put; [exact Hd | exact HQ | reflexivity | ]. rewrite (acq_shape _ _ _ EA). congruence.
    - destruct us as [ | t us]; [discriminate | ]. destruct (nth_error (queues s) q') as [Q | ] eqn:HQ; [ | discriminate]. destruct (nth_error (q_slots Q) k) as [[u | ] | ]; try discriminate. injection E as <- _.
      eapply dead_put; [exact Hd | exact HQ | reflexivity | ]. cbn. auto.
    - destruct us as [ | t us]; [ | discriminate]. destruct (nth_error (queues s) q') as [Q | ]; [ | discriminate]. destruct (q_enq Q =? 0); [injection E as <- _; apply ST; reflexivity | ].
      destruct (nth_error (q_slots Q) _) as [[u | ] | ]; try discriminate. injection E as <- _. apply ST. reflexivity.
    - destruct (nth_error (queues s) q') as [Q | ] eqn:HQ; [ | discriminate]. injection E as <- _. eapply dead_put; [exact Hd | exact HQ | reflexivity | ]. cbn. auto.
    - destruct (dying s); [discriminate | ]. injection E as <- _. apply ST. reflexivity.
    - destruct (busy s =? 0); [ | discriminate]. injection E as <- _. apply ST. reflexivity.
    - destruct (negb (dying s) && forallb is_idle (clients s)); [ | discriminate]. injection E as <- _. apply ST. reflexivity.
    - destruct (nth_error (queues s) q) as [Q | ] eqn:HQ; [ | discriminate]. destruct (dying s); [ | discriminate]. injection E as <- _. eapply dead_put; [exact Hd | exact HQ | reflexivity | ]. cbn. auto.
    - destruct (nth_error (workers s) i) as [w | ]; [ | discriminate]. destruct (dying s); [ | discriminate]. injection E as <- _. apply ST. reflexivity.
    - destruct (nth_error (queues s) q) as [Q | ] eqn:HQ; [ | discriminate]. destruct (dying s && _ && _ && _) eqn:EG; [ | discriminate].
      destruct (drain M cap (size M Q) Q) as [[ts Q'] | ] eqn:EDR; [ | discriminate]. destruct (busy s <? length ts) eqn:EB; [discriminate | ]. injection E as <- _.
      apply andb_prop in EG. destruct EG as [EG OW]. assert (OWN : q_owner Q = None) by (destruct (q_owner Q); [discriminate | reflexivity]).
      pose proof (v_ring _ _ _ _ _ I q Q HQ) as R. rewrite (acq_n _ _ _ HQ OWN) in R. pose proof (ring_size M cap Hcap HM _ _ _ _ R) as SZ. rewrite Nat.add_0_r in SZ.
      assert (AP : apart M cap (length (removed q tr)) (length (c q))) by (eapply (apart_of M cap Hcap HM s tr c q); try eassumption; lia).
      destruct (ring_drain M cap Hcap HM (c q) Q (length (removed q tr)) AP R) as (Q2 & D2 & R2 & _).
      rewrite SZ, D2 in EDR. injection EDR as <- <-.
      intros k Z HZ AZ. destruct (nth_upd_inv _ _ _ _ _ _ HQ HZ) as [[-> ->] | [N HZ']]; [ | exact (Hd k Z HZ' AZ)].
      unfold empty. cbn [q_back q_front]. pose proof (proj2 (ring_empty M cap Hcap HM _ _ _ R2) eq_refl) as X. exact X.
  Qed.

  Lemma dead_exec l : forall s tr c s' tr', Inv M cap s tr c -> dead_empty s -> exec M cap s tr l = Some (s', tr') -> no_wrap M cap tr' -> dead_empty s'.
  Proof using All.
    induction l as [ | a l IH]; cbn [exec]; intros s tr c s' tr' I Hd H NW.
    - injection H as <- <-. exact Hd.
    - destruct (step M cap s a) as [| |s1 es] eqn:E; try discriminate H. destruct (exec_trace M cap _ _ _ _ _ H) as [es' ET]. subst tr'.
      assert (NW0 : no_wrap M cap tr) by (rewrite <- app_assoc in NW; eapply no_wrap_pre; try exact NW; assumption).
      pose proof (dead_step s tr c a s1 es I NW0 Hd E) as D1. pose proof (step_inv M cap Hcap HM s tr c a I NW0) as X. rewrite E in X. destruct X as [c1 I1].
      eapply IH; eassumption.
  Qed.
  Lemma dead_init n m : dead_empty (init cap n m).
  Proof using All. intros q Q H AL. apply nth_repeat in H. subst Q. discriminate. Qed.

  (** When all is over, every task has finished or was dropped, and none is counted. *)
  Lemma over (s : state) tr c : Inv M cap s tr c -> no_wrap M cap tr -> dead_empty s -> 0 < length (queues s) -> (forall q Q, nth_error (queues s) q = Some Q -> q_alive Q = false) ->
    busy s = 0 /\ Permutation (all_inserted tr) (finished tr ++ dropped tr).
  Proof using All.
    intros I NW Hd L0 AL. destruct (nth_error (queues s) 0) as [Q0 | ] eqn:H0; [ | apply nth_error_None in H0; lia].
    destruct (v_dead _ _ _ _ _ I 0 Q0 H0 (AL 0 Q0 H0)) as [D Ex]. destruct (exit_tasks _ Ex) as [RZ NZ].
    assert (F : forall q, fill s q = []) by exact (idle_fill M cap _ _ _ I D). pose proof (unpublished_nil s F) as UZ.
    assert (CZ : flat_map c (seq 0 (length (queues s))) = []).
    { apply flat_map_nil. intros q Hq. apply in_seq in Hq. destruct (nth_error (queues s) q) as [Q | ] eqn:HQ; [ | apply nth_error_None in HQ; lia].
      pose proof (v_ring _ _ _ _ _ I q Q HQ) as R.
      assert (OW : acq s q = 0). { unfold acq. rewrite HQ. destruct (q_owner Q) as [[i|j]|]; try reflexivity. destruct (nth_error (clients s) j) as [p | ] eqn:Hp; [ | reflexivity].
        pose proof (forallb_nth _ _ _ _ (v_dying _ _ _ _ _ I D) Hp) as Y. destruct p; try discriminate; reflexivity. }
      rewrite OW in R. apply (ring_empty M cap Hcap HM _ _ _ R). exact (Hd q Q HQ (AL q Q HQ)). }
    pose proof (v_busy _ _ _ _ _ I) as B. unfold ready, ran in *. rewrite UZ, CZ, RZ, NZ in B. cbn [length] in B. split; [lia | ].
    pose proof (v_perm1 _ _ _ _ _ I) as P1. pose proof (v_perm2 _ _ _ _ _ I) as P2. unfold ready, ran in *. rewrite CZ, RZ in P1. rewrite NZ in P2. rewrite !app_nil_r in *.
    rewrite P1, P2. reflexivity.
  Qed.

  Lemma destroyed n m (s : state) tr : reachable M cap n m s tr -> dying s = true -> no_wrap M cap tr ->
    exists l s' tr', exec M cap s tr l = Some (s', tr') /\ (forall a, In a l -> match a with CEnq _ _ _ | CRoom _ | CAcquire _ | CConstruct _ | CPublish _ | CUnlock _ | CWait _ | CWaitRet _ | DBegin => False | _ => True end) /\
      forallb is_exit (workers s') = true /\ (forall q Q, nth_error (queues s') q = Some Q -> q_alive Q = false).
  Proof using All.
    intros R D NW. destruct R as [l0 R].
    destruct (both_exec M cap Hcap HM l0 _ _ _ _ _ (init_inv M cap Hcap HM n m) (own_init cap n m) R NW) as (c & I & O).
    assert (SL : slack M cap s tr).
    { destruct NW as [NW | NW]; [left; exact NW | right]. intro q. rewrite (idle_todo s (v_dying _ _ _ _ _ I D)), Nat.add_0_r. exact (NW q). }
    destruct (to_quiet M cap Hcap HM _ s tr c (Nat.le_refl _) I O SL) as (l1 & s1 & tr1 & c1 & T1 & T2 & T3 & T4 & T5 & T6 & T7 & T8 & _).
    pose proof (slack_no_wrap M cap Hcap HM _ _ T5) as NW1.
    destruct (end_workers _ s1 tr1 c1 T3 T4 NW1 ltac:(congruence) T7 (Nat.le_refl _)) as (l2 & s2 & tr2 & c2 & U1 & U2 & U3 & U4 & U5 & U6 & U7 & U8).
    assert (Ex : forallb is_exit (workers s2) = true).
    { apply all_nth. intros i w Hw. pose proof (sum_zero live_w _ U8 i w Hw) as K. unfold live_w in K. destruct (is_exit w); [reflexivity | discriminate]. }
    destruct (end_queues _ s2 tr2 c2 U3 U4 U5 U6 U7 Ex (Nat.le_refl _)) as (l3 & s3 & tr3 & c3 & V1 & V2 & V3 & V4 & V5).
    exists (l1 ++ l2 ++ l3), s3, tr3. rewrite exec_app, T1. cbn [fst snd]. rewrite exec_app, U1. cbn [fst snd]. split; [exact V1 | ]. split; [ | split; [exact V4 | ]].
    - assert (CD : forall j p, nth_error (clients s) j = Some p -> p = CIdle).
      { intros j p Hp. pose proof (forallb_nth _ _ _ _ (v_dying _ _ _ _ _ I D) Hp) as Y. destruct p; try discriminate; reflexivity. }
      assert (K : forall l (s s' : state) tr tr', (forall j p, nth_error (clients s) j = Some p -> p = CIdle) -> dying s = true -> exec M cap s tr l = Some (s', tr') ->
         forall a, In a l -> match a with CEnq _ _ _ | CRoom _ | CAcquire _ | CConstruct _ | CPublish _ | CUnlock _ | CWait _ | CWaitRet _ | DBegin => False | _ => True end).
      { clear. induction l as [ | a l IH]; intros s s' tr tr' CI D H b [] ; cbn [exec] in H.
        - subst b. destruct (step M cap s a) as [| |s1 es] eqn:E; try discriminate H.
          destruct a; try exact Logic.I; cbn [step] in E; try (destruct (nth_error (clients s) j) as [p | ] eqn:Hp; [ | discriminate]; rewrite (CI j p Hp) in E; cbn [step_client] in E; rewrite ?D in E; discriminate).
          rewrite D in E. discriminate.
        - destruct (step M cap s a) as [| |s1 es] eqn:E; try discriminate H. refine (IH s1 s' _ tr' _ _ H b H0).
          + intros j p Hp. apply (CI j p).
            destruct a as [i q|i|i|i|i|i|i|j' q ts|j'|j'|j'|j'|j'|j'|j'| |q|i|q]; cbn [step] in E;
              try (destruct (nth_error (clients s) j') as [p' | ] eqn:Hp'; [ | discriminate]; rewrite (CI j' p' Hp') in E; cbn [step_client] in E; rewrite ?D in E; discriminate);
              try (match type of E with context [step_worker] => idtac end; destruct (nth_error (workers s) i) as [w | ]; [ | discriminate]; unfold step_worker in E; destruct (w_pc w); try discriminate E);
              repeat (match type of E with context [match ?x with _ => _ end] => destruct x; try discriminate E end); injection E as <- _; exact Hp.
          + destruct a as [i q|i|i|i|i|i|i|j' q ts|j'|j'|j'|j'|j'|j'|j'| |q|i|q]; cbn [step] in E;
              try (destruct (nth_error (clients s) j') as [p' | ] eqn:Hp'; [ | discriminate]; rewrite (CI j' p' Hp') in E; cbn [step_client] in E; rewrite ?D in E; discriminate);
              try (match type of E with context [step_worker] => idtac end; destruct (nth_error (workers s) i) as [w | ]; [ | discriminate]; unfold step_worker in E; destruct (w_pc w); try discriminate E);
              repeat (match type of E with context [match ?x with _ => _ end] => destruct x eqn:?; try discriminate E end); injection E as <- _; cbn; auto. }
      apply (K (l1 ++ l2 ++ l3) s s3 tr tr3 CD D). rewrite exec_app, T1. cbn [fst snd]. rewrite exec_app, U1. cbn [fst snd]. exact V1.
    - intros q Q HQ. pose proof (sum_zero live_q _ V5 q Q HQ) as X. unfold live_q in X. destruct (q_alive Q); [discriminate | reflexivity].
  Qed.

  (** Once all queues are told to end, no worker takes a task. *)
  Definition told (s : state) : Prop := forall q Q, nth_error (queues s) q = Some Q -> q_term Q = true.
  Lemma told_put s s' q Q Q' : told s -> nth_error (queues s) q = Some Q -> queues s' = upd (queues s) q Q' -> q_term Q' = true -> told s'.
  Proof using All.
    intros T HQ EQ K k Z HZ. rewrite EQ in HZ. destruct (nth_upd_inv _ _ _ _ _ _ HQ HZ) as [[-> ->] | [N HZ']]; [exact K | exact (T k Z HZ')].
  Qed.
  Lemma drain_term n : forall Q l Q', @drain A M cap n Q = Some (l, Q') -> q_term Q' = q_term Q.
  Proof using All.
    induction n as [ | n IH]; intros Q l Q' H; cbn [drain] in H; [congruence | ].
    destruct (pop_front M cap Q) as [[t Q1] | ] eqn:E; [ | discriminate]. cbn [option_bind fst snd] in H. destruct (drain M cap n Q1) as [[l2 Q2] | ] eqn:E2; [ | discriminate].
    cbn [option_bind fst snd] in H. injection H as _ <-. rewrite (IH _ _ _ E2). unfold pop_front in E. destruct (nth_error (q_slots Q) _) as [[u | ] | ]; try discriminate. injection E as _ <-. reflexivity.
  Qed.
  Definition taken (tr : list event) : list A := flat_map (fun e => match e with EPop _ _ t => [t] | _ => [] end) tr.
  Lemma told_step s a s' es : told s -> step M cap s a = Next s' es -> told s' /\ taken es = [].
  Proof using All.
    intros T E.
    assert (ST : forall s2 : state, queues s2 = queues s -> told s2) by (intros s2 Q k Z HZ; rewrite Q in HZ; exact (T k Z HZ)).
    destruct a as [i q | i | i | i | i | i | i | j q ts | j | j | j | j | j | j | j | | q | i | q]; cbn [step] in E;
      try (match type of E with context [step_worker] => idtac end; destruct (nth_error (workers s) i) as [w | ] eqn:Hw; [ | discriminate]; unfold step_worker in E; destruct (w_pc w) as [|q'|q'|q' t|t|t|t|] eqn:EP; try discriminate E);
      try (destruct (nth_error (clients s) j) as [p | ] eqn:Hp; [ | discriminate]; destruct p as [|q' us|q' d us|q' k d us|q'|]; cbn [step_client] in E; try discriminate E).
    - destruct (nth_error (queues s) q) as [Q | ] eqn:HQ; [ | discriminate]. destruct (q_alive Q) eqn:AL; cbn [negb] in E; [ | discriminate]. destruct (q_owner Q); [discriminate | ]. injection E as <- <-.
      split; [eapply told_put; [exact T | exact HQ | reflexivity | exact (T q Q HQ)] | reflexivity].
    - destruct (nth_error (queues s) q') as [Q | ] eqn:HQ; [ | discriminate]. rewrite (T q' Q HQ), orb_true_r in E. injection E as <- <-. split; [apply ST; reflexivity | reflexivity].
    - destruct (nth_error (queues s) q') as [Q | ] eqn:HQ; [ | discriminate]. injection E as <- <-. split; [eapply told_put; [exact T | exact HQ | reflexivity | exact (T q' Q HQ)] | reflexivity].
    - destruct (nth_error (queues s) q') as [Q | ] eqn:HQ; [ | discriminate]. injection E as <- <-. split; [eapply told_put; [exact T | exact HQ | reflexivity | exact (T q' Q HQ)] | reflexivity].
    - injection E as <- <-. split; [apply ST; reflexivity | reflexivity].
    - destruct (busy s =? 0); [discriminate | ]. injection E as <- <-. split; [apply ST; reflexivity | reflexivity].
    - injection E as <- <-. split; [apply ST; reflexivity | reflexivity].
    - destruct (w_term w); [ | discriminate]. injection E as <- <-. split; [apply ST; reflexivity | reflexivity].
    - destruct (dying s); [discriminate | ]. destruct (nth_error (queues s) q) as [Q | ] eqn:HQ; [ | discriminate]. destruct ts as [ | t0 ts]; [discriminate | ].
      destruct (q_alive Q) eqn:AL; cbn [negb] in E; [ | discriminate]. destruct (q_owner Q); [discriminate | ]. injection E as <- <-. split; [eapply told_put; [exact T | exact HQ | reflexivity | exact (T q Q HQ)] | reflexivity].
    - destruct (nth_error (queues s) q') as [Q | ]; [ | discriminate]. injection E as <- <-. split; [apply ST; reflexivity | reflexivity].
    - destruct us as [ | t us]; [discriminate | ]. destruct (nth_error (queues s) q') as [Q | ] eqn:HQ; [ | discriminate]. unfold acquire in E. destruct (full M cap Q); [discriminate | ]. injection E as <- <-.
      split; [eapply told_put; [exact T | exact HQ | reflexivity | exact (T q' Q HQ)] | reflexivity].
    - destruct us as [ | t us]; [discriminate | ]. destruct (nth_error (queues s) q') as [Q | ] eqn:HQ; [ | discriminate]. destruct (nth_error (q_slots Q) k) as [[u | ] | ]; try discriminate. injection E as <- <-.
      split; [eapply told_put; [exact T | exact HQ | reflexivity | exact (T q' Q HQ)] | reflexivity].
    - destruct us as [ | t us]; [ | discriminate]. destruct (nth_error (queues s) q') as [Q | ]; [ | discriminate]. destruct (q_enq Q =? 0); [injection E as <- <-; split; [apply ST; reflexivity | reflexivity] | ].
      destruct (nth_error (q_slots Q) _) as [[u | ] | ]; try discriminate. injection E as <- <-. split; [apply ST; reflexivity | reflexivity].
    - destruct (nth_error (queues s) q') as [Q | ] eqn:HQ; [ | discriminate]. injection E as <- <-. split; [eapply told_put; [exact T | exact HQ | reflexivity | exact (T q' Q HQ)] | reflexivity].
    - destruct (dying s); [discriminate | ]. injection E as <- <-. split; [apply ST; reflexivity | reflexivity].
    - destruct (busy s =? 0); [ | discriminate]. injection E as <- <-. split; [apply ST; reflexivity | reflexivity].
    - destruct (negb (dying s) && forallb is_idle (clients s)); [ | discriminate]. injection E as <- <-. split; [apply ST; reflexivity | reflexivity].
    - destruct (nth_error (queues s) q) as [Q | ] eqn:HQ; [ | discriminate]. destruct (dying s); [ | discriminate]. injection E as <- <-. split; [eapply told_put; [exact T | exact HQ | reflexivity | reflexivity] | reflexivity].
    - destruct (nth_error (workers s) i) as [w | ]; [ | discriminate]. destruct (dying s); [ | discriminate]. injection E as <- <-. split; [apply ST; reflexivity | reflexivity].
    - destruct (nth_error (queues s) q) as [Q | ] eqn:HQ; [ | discriminate]. destruct (dying s && _ && _ && _) eqn:EG; [ | discriminate].
      destruct (drain M cap (size M Q) Q) as [[ts Q'] | ] eqn:EDR; [ | discriminate]. destruct (busy s <? length ts) eqn:EB; [discriminate | ]. injection E as <- <-. split.
      + eapply told_put; [exact T | exact HQ | reflexivity | ]. cbn [q_term]. rewrite (drain_term _ _ _ _ EDR). exact (T q Q HQ).
      + clear. induction ts as [ | t ts IH]; [reflexivity | exact IH].
  Qed.
  Lemma told_exec l : forall s tr s' tr', told s -> exec M cap s tr l = Some (s', tr') -> taken tr' = taken tr.
  Proof using All.
    induction l as [ | a l IH]; cbn [exec]; intros s tr s' tr' T H; [congruence | ].
    destruct (step M cap s a) as [| |s1 es] eqn:E; try discriminate H. destruct (told_step s a s1 es T E) as [T1 T2].
    rewrite (IH _ _ _ _ T1 H). unfold taken in *. rewrite flat_map_app, T2, app_nil_r. reflexivity.
  Qed.

  (** A worker told to end stays told; it can always be run to its end, by steps of the workers alone. *)
  Lemma term_step (s : state) a s' es i w : step M cap s a = Next s' es -> nth_error (workers s) i = Some w -> w_term w = true ->
    exists w', nth_error (workers s') i = Some w' /\ w_term w' = true.
  Proof using All.
    intros E Hi T.
    assert (U : forall k v v', nth_error (workers s) k = Some v -> (w_term v = true -> w_term v' = true) -> exists w', nth_error (upd (workers s) k v') i = Some w' /\ w_term w' = true).
    { intros k v v' Hk Ht. destruct (Nat.eq_dec k i) as [-> | N].
      - exists v'. split; [exact (nth_upd_eq _ _ _ _ Hk) | ]. apply Ht. congruence.
      - exists w. split; [ | exact T]. rewrite <- Hi. apply upd_other. exact N. }
    destruct a as [i' q | i' | i' | i' | i' | i' | i' | j q ts | j | j | j | j | j | j | j | | q | i' | q]; cbn [step] in E;
      try (match type of E with context [step_worker] => idtac end; destruct (nth_error (workers s) i') as [w' | ] eqn:Hw; [ | discriminate]; unfold step_worker in E;
           destruct (w_pc w') eqn:EP; try discriminate E);
      try (match type of E with context [step_client] => idtac end; destruct (nth_error (clients s) j) as [p | ]; [ | discriminate]; destruct p; cbn [step_client] in E; try discriminate E);
      repeat (match type of E with context [match ?x with _ => _ end] => destruct x eqn:?; try discriminate E end); injection E as <- _; cbn [put_w put_q put_c put_busy workers];
      first [exists w; split; assumption | eapply U; [eassumption | cbn; auto]].
  Qed.
  Lemma term_exec l : forall (s : state) tr s' tr' i w, exec M cap s tr l = Some (s', tr') -> nth_error (workers s) i = Some w -> w_term w = true ->
    exists w', nth_error (workers s') i = Some w' /\ w_term w' = true.
  Proof using All.
    induction l as [ | a l IH]; cbn [exec]; intros s tr s' tr' i w H Hw T; [injection H as <- <-; eauto | ].
    destruct (step M cap s a) as [| |s1 es] eqn:E; try discriminate H. destruct (term_step s a s1 es i w E Hw T) as (w1 & H1 & T1). eapply IH; eassumption.
  Qed.

  Definition of_worker (a : action) : bool := match a with WLock _ _ | WCheck _ | WUnlock _ | WInvoke _ | WDec _ | WDestroy _ | WQuit _ => true | _ => false end.
  Lemma only_workers l : forall (s s' : state) tr tr', forallb is_idle (clients s) = true -> dying s = true -> exec M cap s tr l = Some (s', tr') -> forallb carries_on l = true ->
    forallb of_worker l = true.
  Proof using All.
    induction l as [ | a l IH]; intros s s' tr tr' CI D H C; [reflexivity | ]. cbn [exec forallb] in *. apply andb_prop in C. destruct C as [C1 C2].
    destruct (step M cap s a) as [| |s1 es] eqn:E; try discriminate H.
    assert (K : of_worker a = true /\ clients s1 = clients s /\ dying s1 = dying s).
    { destruct a as [i' q | i' | i' | i' | i' | i' | i' | j q ts | j | j | j | j | j | j | j | | q | i' | q]; try discriminate C1; cbn [step] in E;
        try (match type of E with context [step_client] => idtac end; destruct (nth_error (clients s) j) as [p | ] eqn:Hp; [ | discriminate];
             pose proof (forallb_nth _ _ _ _ CI Hp) as Y; destruct p; try discriminate Y; cbn [step_client] in E; rewrite ?D in E; discriminate E);
        (destruct (nth_error (workers s) i') as [w' | ] eqn:Hw; [ | discriminate]; unfold step_worker in E; destruct (w_pc w') eqn:EP; try discriminate E);
        repeat (match type of E with context [match ?x with _ => _ end] => destruct x eqn:?; try discriminate E end); injection E as <- _; repeat split. }
    destruct K as (K1 & K2 & K3). rewrite K1. cbn [andb]. apply (IH s1 s' (tr ++ es) tr'); try assumption; congruence.
  Qed.

  Lemma join_ends n m (s : state) tr i w : reachable M cap n m s tr -> dying s = true -> no_wrap M cap tr -> nth_error (workers s) i = Some w -> w_term w = true ->
    exists l s' tr' w', exec M cap s tr l = Some (s', tr') /\ forallb of_worker l = true /\ nth_error (workers s') i = Some w' /\ is_exit w' = true.
  Proof using All.
    intros [l0 R] D NW Hw T.
    destruct (both_exec M cap Hcap HM l0 _ _ _ _ _ (init_inv M cap Hcap HM n m) (own_init cap n m) R NW) as (c & I & O).
    pose proof (v_dying _ _ _ _ _ I D) as CI.
    assert (SL : slack M cap s tr).
    { destruct NW as [NW | NW]; [left; exact NW | right]. intro q. rewrite (idle_todo s CI), Nat.add_0_r. exact (NW q). }
    destruct (to_quiet M cap Hcap HM _ s tr c (Nat.le_refl _) I O SL) as (l1 & s1 & tr1 & c1 & T1 & T2 & T3 & T4 & T5 & T6 & T7 & T8 & _).
    pose proof (only_workers l1 s s1 tr tr1 CI D T1 T2) as OW.
    destruct (term_exec l1 s tr s1 tr1 i w T1 Hw T) as (w1 & H1 & H2).
    destruct (proj2 (weight_zero M cap Hcap HM s1 T7) i w1 H1) as [EP | EP].
    - exists (l1 ++ [WQuit i]). do 3 eexists. rewrite exec_app, T1. cbn [fst snd exec step]. rewrite H1. unfold step_worker. rewrite EP, H2. split; [reflexivity | ].
      split; [rewrite forallb_app, OW; reflexivity | ]. split; [exact (nth_upd_eq _ _ _ _ H1) | reflexivity].
    - exists l1, s1, tr1, w1. split; [exact T1 | ]. split; [exact OW | ]. split; [exact H1 | ]. unfold is_exit. rewrite EP. reflexivity.
  Qed.

  Lemma queue_ends n m (s : state) tr q Q : reachable M cap n m s tr -> dying s = true -> no_wrap M cap tr -> forallb is_exit (workers s) = true ->
    nth_error (queues s) q = Some Q -> q_alive Q = true ->
    exists s', step M cap s (DQueue q) = Next s' (map (EDrop q) (content M cap Q)).
  Proof using All.
    intros [l0 R] D NW Ex HQ AL.
    destruct (both_exec M cap Hcap HM l0 _ _ _ _ _ (init_inv M cap Hcap HM n m) (own_init cap n m) R NW) as (c & I & O).
    assert (OW : q_owner Q = None).
    { destruct (q_owner Q) as [[i | j] | ] eqn:E; [ | | reflexivity]; exfalso.
      - destruct (o_w _ O _ _ _ HQ E) as (w & H1 & H2). pose proof (forallb_nth _ _ _ _ Ex H1) as Y. unfold is_exit in Y. destruct (w_pc w); discriminate.
      - destruct (o_c _ O _ _ _ HQ E) as (p & H1 & H2). pose proof (forallb_nth _ _ _ _ (v_dying _ _ _ _ _ I D) H1) as Y. destruct p; discriminate. }
    pose proof (v_ring _ _ _ _ _ I q Q HQ) as Rg. rewrite (acq_n _ _ _ HQ OW) in Rg. pose proof (ring_size M cap Hcap HM _ _ _ _ Rg) as SZ. rewrite Nat.add_0_r in SZ.
    assert (AP : apart M cap (length (removed q tr)) (length (c q))) by (eapply (apart_of M cap Hcap HM s tr c q); try eassumption; lia).
    destruct (ring_drain M cap Hcap HM (c q) Q (length (removed q tr)) AP Rg) as (Q2 & D2 & R2 & _).
    pose proof (step_inv M cap Hcap HM s tr c (DQueue q) I NW) as X. cbn [step] in X |- *. rewrite HQ, D, Ex, AL, OW in *. cbn [andb] in *. rewrite SZ, D2 in *.
    destruct (busy s <? length (c q)); [contradiction | ]. rewrite (inv_content M cap Hcap HM s tr c q Q I NW HQ). eauto.
  Qed.
End D.
