From Coq Require Import Lia Permutation.
From Verif Require Import Words EarrModel EarrProofs SparamProofs PoolModel PoolSpec PoolProofs PoolProofs2.
Local Open Scope nat_scope.

Section L.
  Context {A : Type}.
  Variables (M cap : nat).
  Hypotheses (Hcap : 0 < cap) (HM : cap < M).
  Notation queue := (@queue A). Notation state := (@state A). Notation event := (@event A). Notation action := (@action A).

  (* ------------------------------------------------------------ every held queue has its holder *)
  Record Own (s : state) : Prop := {
    o_w : forall q Q i, nth_error (queues s) q = Some Q -> q_owner Q = Some (W i) -> exists w, nth_error (workers s) i = Some w /\ hold_w (w_pc w) = Some q;
    o_c : forall q Q j, nth_error (queues s) q = Some Q -> q_owner Q = Some (C j) -> exists p, nth_error (clients s) j = Some p /\ hold_c p = Some q;
    o_q : dying s = false -> forall q Q, nth_error (queues s) q = Some Q -> q_term Q = false;
    o_t : dying s = false -> forall i w, nth_error (workers s) i = Some w -> w_term w = false /\ is_exit w = false
  }.

  Lemma own_init n m : Own (init cap n m).
  Proof.
    constructor.
    - intros q Q i H. apply nth_repeat in H. subst Q. discriminate.
    - intros q Q i H. apply nth_repeat in H. subst Q. discriminate.
    - intros _ q Q H. apply nth_repeat in H. subst Q. reflexivity.
    - intros _ i w H. apply nth_repeat in H. subst w. split; reflexivity.
  Qed.

  Lemma own_w (s s' : state) i w w' : Own s -> nth_error (workers s) i = Some w -> queues s' = queues s -> workers s' = upd (workers s) i w' -> clients s' = clients s -> dying s' = dying s ->
    hold_w (w_pc w') = hold_w (w_pc w) -> (dying s = false -> w_term w' = false /\ is_exit w' = false) -> Own s'.
  Proof.
    intros O Hw EQ EW EC ED Hh Ht. destruct O as [O1 O2 O3 O4]. constructor.
    - intros q Q k HQ HO. rewrite EQ in HQ. destruct (O1 _ _ _ HQ HO) as (v & V1 & V2). rewrite EW. destruct (Nat.eq_dec k i) as [->|N].
      + exists w'. split; [exact (nth_upd_eq _ _ _ _ Hw)|]. congruence.
      + exists v. rewrite upd_other by congruence. split; assumption.
    - rewrite EQ, EC. exact O2.
    - rewrite ED, EQ. exact O3.
    - rewrite ED, EW. intros D k v Hv. destruct (nth_upd_inv _ _ _ _ _ _ Hw Hv) as [[-> ->]|[_ K]]; [exact (Ht D)|exact (O4 D k v K)].
  Qed.
  Lemma own_wq (s s' : state) i w w' q Q Q' : Own s -> nth_error (workers s) i = Some w -> nth_error (queues s) q = Some Q ->
    queues s' = upd (queues s) q Q' -> workers s' = upd (workers s) i w' -> clients s' = clients s -> dying s' = dying s ->
    (hold_w (w_pc w) = None \/ hold_w (w_pc w) = Some q) ->
    (q_owner Q' = Some (W i) /\ hold_w (w_pc w') = Some q \/ q_owner Q' = None) -> q_term Q' = q_term Q ->
    (dying s = false -> w_term w' = false /\ is_exit w' = false) -> Own s'.
  Proof.
    intros O Hw HQ EQ EW EC ED Hh HO Hq Ht. destruct O as [O1 O2 O3 O4]. constructor.
    - intros k Z i' HZ ZO. rewrite EQ in HZ. rewrite EW. destruct (nth_upd_inv _ _ _ _ _ _ HQ HZ) as [[-> ->]|[Nk K]].
      + destruct HO as [[H1 H2]|H1]; [|congruence]. assert (i' = i) by congruence. subst i'. exists w'. split; [exact (nth_upd_eq _ _ _ _ Hw)|exact H2].
      + destruct (O1 _ _ _ K ZO) as (v & V1 & V2). destruct (Nat.eq_dec i' i) as [->|N]; [|exists v; rewrite upd_other by congruence; split; assumption].
        exfalso. rewrite Hw in V1. injection V1 as <-. destruct Hh; congruence.
    - intros k Z j HZ ZO. rewrite EQ in HZ. rewrite EC. destruct (nth_upd_inv _ _ _ _ _ _ HQ HZ) as [[-> ->]|[Nk K]]; [destruct HO as [[H1 H2]|H1]; congruence|exact (O2 _ _ _ K ZO)].
    - rewrite ED, EQ. intros D k Z HZ. destruct (nth_upd_inv _ _ _ _ _ _ HQ HZ) as [[-> ->]|[Nk K]]; [rewrite Hq; exact (O3 D _ _ HQ)|exact (O3 D _ _ K)].
    - rewrite ED, EW. intros D k v Hv. destruct (nth_upd_inv _ _ _ _ _ _ Hw Hv) as [[-> ->]|[_ K]]; [exact (Ht D)|exact (O4 D k v K)].
  Qed.
  Lemma own_cq (s s' : state) j p p' q Q Q' : Own s -> nth_error (clients s) j = Some p -> nth_error (queues s) q = Some Q ->
    queues s' = upd (queues s) q Q' -> workers s' = workers s -> clients s' = upd (clients s) j p' -> dying s' = dying s ->
    (hold_c p = None \/ hold_c p = Some q) ->
    (q_owner Q' = Some (C j) /\ hold_c p' = Some q \/ q_owner Q' = None) -> q_term Q' = q_term Q -> Own s'.
  Proof.
    intros O Hp HQ EQ EW EC ED Hh HO Hq. destruct O as [O1 O2 O3 O4]. constructor.
    - intros k Z i HZ ZO. rewrite EQ in HZ. rewrite EW. destruct (nth_upd_inv _ _ _ _ _ _ HQ HZ) as [[-> ->]|[Nk K]]; [destruct HO as [[H1 H2]|H1]; congruence|exact (O1 _ _ _ K ZO)].
    - intros k Z i' HZ ZO. rewrite EQ in HZ. rewrite EC. destruct (nth_upd_inv _ _ _ _ _ _ HQ HZ) as [[-> ->]|[Nk K]].
      + destruct HO as [[H1 H2]|H1]; [|congruence]. assert (i' = j) by congruence. subst i'. exists p'. split; [exact (nth_upd_eq _ _ _ _ Hp)|exact H2].
      + destruct (O2 _ _ _ K ZO) as (v & V1 & V2). destruct (Nat.eq_dec i' j) as [->|N]; [|exists v; rewrite upd_other by congruence; split; assumption].
        exfalso. rewrite Hp in V1. injection V1 as <-. destruct Hh; congruence.
    - rewrite ED, EQ. intros D k Z HZ. destruct (nth_upd_inv _ _ _ _ _ _ HQ HZ) as [[-> ->]|[Nk K]]; [rewrite Hq; exact (O3 D _ _ HQ)|exact (O3 D _ _ K)].
    - rewrite ED, EW. exact O4.
  Qed.
  Lemma own_c (s s' : state) j p p' : Own s -> nth_error (clients s) j = Some p -> queues s' = queues s -> workers s' = workers s -> clients s' = upd (clients s) j p' -> dying s' = dying s ->
    hold_c p' = hold_c p -> Own s'.
  Proof.
    intros O Hp EQ EW EC ED Hh. destruct O as [O1 O2 O3 O4]. constructor.
    - rewrite EQ, EW. exact O1.
    - intros q Q k HQ HO. rewrite EQ in HQ. destruct (O2 _ _ _ HQ HO) as (v & V1 & V2). rewrite EC. destruct (Nat.eq_dec k j) as [->|N].
      + exists p'. split; [exact (nth_upd_eq _ _ _ _ Hp)|]. congruence.
      + exists v. rewrite upd_other by congruence. split; assumption.
    - rewrite ED, EQ. exact O3.
    - rewrite ED, EW. exact O4.
  Qed.

  Lemma pop_term Q t Q' : @pop_front A M cap Q = Some (t, Q') -> q_term Q' = q_term Q.
  Proof. unfold pop_front. destruct (nth_error _ _) as [[u|]|]; try discriminate. intros [= <- <-]. reflexivity. Qed.
  Lemma acquire_term Q k Q' : @acquire A M cap Q = Some (k, Q') -> q_term Q' = q_term Q.
  Proof. unfold acquire. destruct (full M cap Q); try discriminate. intros [= <- <-]. reflexivity. Qed.

  Lemma own_step s tr c a s' es : Inv M cap s tr c -> Own s -> step M cap s a = Next s' es -> Own s'.
  Proof.
    intros I O E. unfold step in E. destruct a.
    - destruct (nth_error (workers s) i) as [w|] eqn:Hw; [|discriminate E]; unfold step_worker in E; destruct (w_pc w) as [|q'|q'|q' t|t|t|t|] eqn:EP; try discriminate E. ungrd s E. injection E as <- <-.
      eapply (own_wq s _ i w); try eassumption; try reflexivity; [left; rewrite EP; reflexivity|left; split; reflexivity|]. intros D. split; [apply (o_t _ O D _ _ Hw)|reflexivity].
    - destruct (nth_error (workers s) i) as [w|] eqn:Hw; [|discriminate E]; unfold step_worker in E; destruct (w_pc w) as [|q'|q'|q' t|t|t|t|] eqn:EP; try discriminate E.
      destruct (v_ownw _ _ _ _ _ I i w q' Hw) as (Q & HQ & OW); [rewrite EP; reflexivity|]. rewrite HQ in E. ungrd s E; injection E as <- <-.
      + eapply (own_w s _ i w); try eassumption; try reflexivity; [rewrite EP; reflexivity|]. intros D. split; [apply (o_t _ O D _ _ Hw)|reflexivity].
      + eapply (own_wq s _ i w _ q' Q q); try eassumption; try reflexivity; [right; rewrite EP; reflexivity|left; split; [rewrite (pop_owner _ _ _ _ _ Heqo); exact OW|reflexivity]|eapply pop_term; eassumption|].
        intros D. split; [apply (o_t _ O D _ _ Hw)|reflexivity].
    - destruct (nth_error (workers s) i) as [w|] eqn:Hw; [|discriminate E]; unfold step_worker in E; destruct (w_pc w) as [|q'|q'|q' t|t|t|t|] eqn:EP; try discriminate E; ungrd s E; injection E as <- <-;
        (eapply (own_wq s _ i w); try eassumption; try reflexivity; [right; rewrite EP; reflexivity|right; reflexivity|]; intros D; split; [apply (o_t _ O D _ _ Hw)|reflexivity]).
    - destruct (nth_error (workers s) i) as [w|] eqn:Hw; [|discriminate E]; unfold step_worker in E; destruct (w_pc w) as [|q'|q'|q' t|t|t|t|] eqn:EP; try discriminate E; ungrd s E; injection E as <- <-;
        (eapply (own_w s _ i w); try eassumption; try reflexivity; [rewrite EP; reflexivity|]; intros D; split; [apply (o_t _ O D _ _ Hw)|reflexivity]).
    - destruct (nth_error (workers s) i) as [w|] eqn:Hw; [|discriminate E]; unfold step_worker in E; destruct (w_pc w) as [|q'|q'|q' t|t|t|t|] eqn:EP; try discriminate E; ungrd s E; injection E as <- <-;
        (eapply (own_w s _ i w); try eassumption; try reflexivity; [rewrite EP; reflexivity|]; intros D; split; [apply (o_t _ O D _ _ Hw)|reflexivity]).
    - destruct (nth_error (workers s) i) as [w|] eqn:Hw; [|discriminate E]; unfold step_worker in E; destruct (w_pc w) as [|q'|q'|q' t|t|t|t|] eqn:EP; try discriminate E; ungrd s E; injection E as <- <-;
        (eapply (own_w s _ i w); try eassumption; try reflexivity; [rewrite EP; reflexivity|]; intros D; split; [apply (o_t _ O D _ _ Hw)|reflexivity]).
    - destruct (nth_error (workers s) i) as [w|] eqn:Hw; [|discriminate E]; unfold step_worker in E; destruct (w_pc w) as [|q'|q'|q' t|t|t|t|] eqn:EP; try discriminate E; ungrd s E; injection E as <- <-.
      eapply (own_w s _ i w); try eassumption; try reflexivity; [rewrite EP; reflexivity|]. intros D. destruct (o_t _ O D _ _ Hw). congruence.
    - destruct (nth_error (clients s) j) as [p|] eqn:Hp; [|discriminate E]; unfold step_client in E; destruct p as [|q' us|q' d us|q' k d us|q'|] eqn:EP; try discriminate E. ungrd s E. injection E as <- <-.
      eapply (own_cq s _ j); try eassumption; try reflexivity; [left; reflexivity|left; split; reflexivity].
    - destruct (nth_error (clients s) j) as [p|] eqn:Hp; [|discriminate E]; unfold step_client in E; destruct p as [|q' us|q' d us|q' k d us|q'|] eqn:EP; try discriminate E. ungrd s E. injection E as <- <-.
      eapply (own_c s _ j); try eassumption; try reflexivity. destruct (length us <=? available M cap Q); reflexivity.
    - destruct (nth_error (clients s) j) as [p|] eqn:Hp; [|discriminate E]; unfold step_client in E; destruct p as [|q' us|q' d us|q' k d us|q'|] eqn:EP; try discriminate E.
      destruct (v_ownc _ _ _ _ _ I j _ q' Hp eq_refl) as (Q & HQ & OW). rewrite HQ in E. ungrd s E. injection E as <- <-.
      eapply (own_cq s _ j); try eassumption; try reflexivity; [right; reflexivity|left; split; [rewrite (acquire_owner _ _ _ _ _ Heqo); exact OW|reflexivity]|eapply acquire_term; eassumption].
    - destruct (nth_error (clients s) j) as [p|] eqn:Hp; [|discriminate E]; unfold step_client in E; destruct p as [|q' us|q' d us|q' k d us|q'|] eqn:EP; try discriminate E.
      destruct (v_ownc _ _ _ _ _ I j _ q' Hp eq_refl) as (Q & HQ & OW). rewrite HQ in E. ungrd s E. injection E as <- <-.
      eapply (own_cq s _ j); try eassumption; try reflexivity; [right; reflexivity|left; split; [exact OW|reflexivity]].
    - destruct (nth_error (clients s) j) as [p|] eqn:Hp; [|discriminate E]; unfold step_client in E; destruct p as [|q' us|q' d us|q' k d us|q'|] eqn:EP; try discriminate E. ungrd s E; injection E as <- <-;
        (eapply (own_c s _ j); try eassumption; reflexivity).
    - destruct (nth_error (clients s) j) as [p|] eqn:Hp; [|discriminate E]; unfold step_client in E; destruct p as [|q' us|q' d us|q' k d us|q'|] eqn:EP; try discriminate E. ungrd s E. injection E as <- <-.
      eapply (own_cq s _ j _ _ q' Q (set_owner Q None)); try eassumption; try reflexivity; [right; reflexivity|right; reflexivity].
    - destruct (nth_error (clients s) j) as [p|] eqn:Hp; [|discriminate E]; unfold step_client in E; destruct p as [|q' us|q' d us|q' k d us|q'|] eqn:EP; try discriminate E. ungrd s E; injection E as <- <-;
        (eapply (own_c s _ j); try eassumption; try reflexivity; cbn; congruence).
    - destruct (nth_error (clients s) j) as [p|] eqn:Hp; [|discriminate E]; unfold step_client in E; destruct p as [|q' us|q' d us|q' k d us|q'|] eqn:EP; try discriminate E. ungrd s E; injection E as <- <-;
        (eapply (own_c s _ j); try eassumption; reflexivity).
    - destruct (negb (dying s) && _); [|discriminate E]. injection E as <- <-. destruct O as [O1 O2 O3 O4]. constructor; try assumption; discriminate.
    - destruct (nth_error (queues s) q) as [Q|] eqn:HQ; [|discriminate E]. destruct (dying s) eqn:D; [|discriminate E]. injection E as <- <-. destruct O as [O1 O2 O3 O4]. constructor; cbn [put_q queues workers clients dying]; try congruence.
      + intros k Z i HZ ZO. destruct (nth_upd_inv _ _ _ _ _ _ HQ HZ) as [[-> ->]|[Nk K]]; [exact (O1 _ _ _ HQ ZO)|exact (O1 _ _ _ K ZO)].
      + intros k Z i HZ ZO. destruct (nth_upd_inv _ _ _ _ _ _ HQ HZ) as [[-> ->]|[Nk K]]; [exact (O2 _ _ _ HQ ZO)|exact (O2 _ _ _ K ZO)].
    - destruct (nth_error (workers s) i) as [w|] eqn:Hw; [|discriminate E]. destruct (dying s) eqn:D; [|discriminate E]. injection E as <- <-.
      eapply (own_w s _ i w); try eassumption; try reflexivity. congruence.
    - destruct (nth_error (queues s) q) as [Q|] eqn:HQ; [|discriminate E]. destruct (dying s) eqn:D; [|discriminate E]. destruct (forallb is_exit (workers s)); [|discriminate E]. destruct (q_alive Q); [|discriminate E]. destruct (q_owner Q) eqn:OW; [discriminate E|]. cbn [andb] in E.
      destruct (drain M cap _ Q) as [[ts Q']|] eqn:EDR; [|discriminate E]. destruct (busy s <? length ts); [discriminate E|]. injection E as <- <-. apply drain_owner in EDR. destruct O as [O1 O2 O3 O4]. constructor; cbn [put_busy put_q queues workers clients dying]; try congruence.
      + intros k Z i HZ ZO. destruct (nth_upd_inv _ _ _ _ _ _ HQ HZ) as [[-> ->]|[Nk K]]; [cbn in ZO; congruence|exact (O1 _ _ _ K ZO)].
      + intros k Z i HZ ZO. destruct (nth_upd_inv _ _ _ _ _ _ HQ HZ) as [[-> ->]|[Nk K]]; [cbn in ZO; congruence|exact (O2 _ _ _ K ZO)].
  Qed.

  Lemma both_exec l : forall (s : state) tr c s' tr', Inv M cap s tr c -> Own s -> exec M cap s tr l = Some (s', tr') -> no_wrap M cap tr' -> exists c', Inv M cap s' tr' c' /\ Own s'.
  Proof.
    induction l as [|a l IH]; cbn [exec]; intros s tr c s' tr' I O H NW.
    - injection H as <- <-. exists c. split; assumption.
    - destruct (step M cap s a) as [| |s1 es] eqn:E; try discriminate H. destruct (exec_trace _ _ _ _ _ _ _ H) as [es' ET]. subst tr'. pose proof (own_step _ _ _ _ _ _ I O E) as O1.
      pose proof (step_inv M cap Hcap HM s tr c a I) as X. rewrite E in X. destruct X as [c1 I1]; [rewrite <- app_assoc in NW; eapply no_wrap_pre; try exact NW; assumption|]. eapply IH; eassumption.
  Qed.

  (* ------------------------------------------------------------ progress *)
  Notation slack := (PoolSpec.slack M cap).
  Lemma slack_no_wrap (s : state) tr : slack s tr -> no_wrap M cap tr.
  Proof. intros [H|H]; [left; exact H|right]. intros q. specialize (H q). lia. Qed.

  Definition cw (p : @cpc A) : nat :=
    match p with CIdle | CWaiting => 0 | CCheck _ ts => 3 + 2 * length ts | CFill _ _ ts => 2 + 2 * length ts | CCons _ _ _ ts => 1 + 2 * length ts | CLeave _ => 1 end.
  Definition ww (w : @worker A) : nat :=
    match w_pc w with WIdle | WExit => 0 | WLocked _ => 6 | WLeave _ => 1 | WGot _ _ => 5 | WReady _ => 4 | WRan _ => 3 | WDone _ => 2 end.
  Definition weight (s : state) : nat := list_sum (map cw (clients s)) + list_sum (map ww (workers s)).

  Lemma sum_upd {B} (f : B -> nat) (l : list B) : forall i x y, nth_error l i = Some x -> list_sum (map f (upd l i y)) + f x = list_sum (map f l) + f y.
  Proof.
    induction l as [|z l IH]; intros [|i] x y H; try discriminate H; cbn [nth_error upd] in *.
    - injection H as ->. change (f y + list_sum (map f l) + f x = f x + list_sum (map f l) + f y). lia.
    - specialize (IH _ _ y H). change (f z + list_sum (map f (upd l i y)) + f x = f z + list_sum (map f l) + f y). lia.
  Qed.
  Lemma sum_pos {B} (f : B -> nat) (l : list B) : 0 < list_sum (map f l) -> exists i x, nth_error l i = Some x /\ 0 < f x.
  Proof.
    induction l as [|z l IH]; intros H; [cbn in H; lia|]. change (0 < f z + list_sum (map f l)) in H. destruct (f z) eqn:E.
    - destruct (IH ltac:(lia)) as (i & x & H1 & H2). exists (S i), x. split; assumption.
    - exists 0, z. split; [reflexivity|lia].
  Qed.

  Lemma prog_client s tr c j p : Inv M cap s tr c -> slack s tr -> nth_error (clients s) j = Some p -> 0 < cw p ->
    exists a s' es, step M cap s a = Next s' es /\ carries_on a = true /\ dying s' = dying s /\ weight s' < weight s /\ slack s' (tr ++ es) /\
      length (workers s') = length (workers s) /\ length (all_inserted es) + todo s' <= todo s /\ length (ready s) <= length (invoked es) + length (ready s').
  Proof.
    intros I SL Hp Hc. pose proof (slack_no_wrap _ _ SL) as NW.
    assert (G : exists a s' es p', step M cap s a = Next s' es /\ carries_on a = true /\ dying s' = dying s /\ workers s' = workers s /\ clients s' = upd (clients s) j p' /\ cw p' < cw p /\
                (forall q, length (inserted q es) + pc_todo p' <= pc_todo p) /\ length (all_inserted es) + pc_todo p' <= pc_todo p).
    { destruct p as [|q us|q d us|q k d us|q|]; cbn in Hc; try lia.
      - destruct (v_ownc _ _ _ _ _ I j _ q Hp eq_refl) as (Q & HQ & OW). exists (CRoom j). cbn [step]. rewrite Hp. cbn [step_client]. rewrite HQ. do 3 eexists. repeat (split; [reflexivity|]).
        destruct (length us <=? available M cap Q); cbn; repeat split; intros; lia.
      - destruct (v_ownc _ _ _ _ _ I j _ q Hp eq_refl) as (Q & HQ & OW). destruct us as [|t us].
        + pose proof (step_client_inv M cap Hcap HM s tr c j _ (CPublish j) I NW Hp) as X. exists (CPublish j). cbn [step]. rewrite Hp. cbn [step_client] in *. rewrite HQ in *.
          destruct (q_enq Q =? 0); [do 3 eexists; repeat (split; [reflexivity|]); cbn; repeat split; intros; lia|].
          destruct (nth_error (q_slots Q) _) as [[u|]|]; try contradiction. do 3 eexists; repeat (split; [reflexivity|]); cbn; repeat split; intros; lia.
        + pose proof (step_client_inv M cap Hcap HM s tr c j _ (CAcquire j) I NW Hp) as X. exists (CAcquire j). cbn [step]. rewrite Hp. cbn [step_client] in *. rewrite HQ in *.
          destruct (acquire M cap Q) as [[k Q']|]; [|contradiction]. do 3 eexists; repeat (split; [reflexivity|]); cbn; repeat split; intros; lia.
      - destruct (v_ownc _ _ _ _ _ I j _ q Hp eq_refl) as (Q & HQ & OW). destruct (v_pc _ _ _ _ _ I j _ Hp) as (T1 & _). destruct us as [|t us]; [congruence|].
        pose proof (step_client_inv M cap Hcap HM s tr c j _ (CConstruct j) I NW Hp) as X. exists (CConstruct j). cbn [step]. rewrite Hp. cbn [step_client] in *. rewrite HQ in *.
        destruct (nth_error (q_slots Q) k) as [[u|]|]; try contradiction. do 3 eexists; repeat (split; [reflexivity|]); cbn; split; [lia|]. split; [|lia]. intros q'. destruct (q =? q'); cbn; lia.
      - destruct (v_ownc _ _ _ _ _ I j _ q Hp eq_refl) as (Q & HQ & OW). exists (CUnlock j). cbn [step]. rewrite Hp. cbn [step_client]. rewrite HQ. do 3 eexists. repeat (split; [reflexivity|]). cbn; repeat split; intros; lia. }
    destruct G as (a & s' & es & p' & G1 & G2 & G3 & G4 & G5 & G6 & G7 & G8). exists a, s', es. repeat (split; [assumption|]). split; [|split; [|split; [|split]]].
    - unfold weight. rewrite G4, G5. pose proof (sum_upd cw _ _ _ p' Hp). lia.
    - destruct SL as [SL|SL]; [left; exact SL|right]. intros q. specialize (SL q). specialize (G7 q). unfold todo in *. rewrite G5. pose proof (sum_upd pc_todo _ _ _ p' Hp). rewrite inserted_app, app_length. lia.
    - rewrite G4. reflexivity.
    - unfold todo. rewrite G5. pose proof (sum_upd pc_todo _ _ _ p' Hp). lia.
    - unfold ready. rewrite G4. lia.
  Qed.

  Lemma prog_worker s tr c i w : Inv M cap s tr c -> slack s tr -> nth_error (workers s) i = Some w -> 0 < ww w ->
    exists a s' es, step M cap s a = Next s' es /\ carries_on a = true /\ dying s' = dying s /\ weight s' < weight s /\ slack s' (tr ++ es) /\
      length (workers s') = length (workers s) /\ length (all_inserted es) + todo s' <= todo s /\ length (ready s) <= length (invoked es) + length (ready s').
  Proof.
    intros I SL Hw Hc. pose proof (slack_no_wrap _ _ SL) as NW.
    assert (G : exists a s' es w', step M cap s a = Next s' es /\ carries_on a = true /\ dying s' = dying s /\ clients s' = clients s /\ workers s' = upd (workers s) i w' /\ ww w' < ww w /\
                (forall q, inserted q es = []) /\ all_inserted es = [] /\ length (w_ready w) <= length (invoked es) + length (w_ready w')).
    { unfold ww in Hc. destruct (w_pc w) as [|q|q|q t|t|t|t|] eqn:EP; try lia.
      - destruct (v_ownw _ _ _ _ _ I i w q Hw) as (Q & HQ & OW); [rewrite EP; reflexivity|]. pose proof (step_worker_inv M cap Hcap HM s tr c i w (WCheck i) I NW Hw) as X.
        exists (WCheck i). cbn [step]. rewrite Hw. unfold step_worker in *. rewrite EP, HQ in *. destruct (empty Q || q_term Q).
        + do 3 eexists. repeat (split; [reflexivity|]). unfold ww, w_ready. rewrite EP. cbn. repeat split; lia.
        + destruct (pop_front M cap Q) as [[t Q']|]; [|contradiction]. do 3 eexists. repeat (split; [reflexivity|]). unfold ww, w_ready. rewrite EP. cbn. repeat split; lia.
      - destruct (v_ownw _ _ _ _ _ I i w q Hw) as (Q & HQ & OW); [rewrite EP; reflexivity|]. exists (WUnlock i). cbn [step]. rewrite Hw. unfold step_worker in *. rewrite EP, HQ.
        do 3 eexists. repeat (split; [reflexivity|]). unfold ww, w_ready. rewrite EP. cbn. repeat split; lia.
      - destruct (v_ownw _ _ _ _ _ I i w q Hw) as (Q & HQ & OW); [rewrite EP; reflexivity|]. exists (WUnlock i). cbn [step]. rewrite Hw. unfold step_worker in *. rewrite EP, HQ.
        do 3 eexists. repeat (split; [reflexivity|]). unfold ww, w_ready. rewrite EP. cbn. repeat split; lia.
      - exists (WInvoke i). cbn [step]. rewrite Hw. unfold step_worker in *. rewrite EP. do 3 eexists. repeat (split; [reflexivity|]). unfold ww, w_ready. rewrite EP. cbn. repeat split; lia.
      - pose proof (step_worker_inv M cap Hcap HM s tr c i w (WDec i) I NW Hw) as X. exists (WDec i). cbn [step]. rewrite Hw. unfold step_worker in *. rewrite EP in *. destruct (busy s =? 0); [contradiction|].
        do 3 eexists. repeat (split; [reflexivity|]). unfold ww, w_ready. rewrite EP. cbn. repeat split; lia.
      - exists (WDestroy i). cbn [step]. rewrite Hw. unfold step_worker in *. rewrite EP. do 3 eexists. repeat (split; [reflexivity|]). unfold ww, w_ready. rewrite EP. cbn. repeat split; lia. }
    destruct G as (a & s' & es & p' & G1 & G2 & G3 & G4 & G5 & G6 & G7 & G8 & G9). exists a, s', es. repeat (split; [assumption|]). split; [|split; [|split; [|split]]].
    - unfold weight. rewrite G4, G5. pose proof (sum_upd ww _ _ _ p' Hw). lia.
    - destruct SL as [SL|SL]; [left; exact SL|right]. intros q. specialize (SL q). unfold todo in *. rewrite G4, inserted_app, G7, app_nil_r. exact SL.
    - rewrite G5. apply upd_length.
    - unfold todo. rewrite G4, G8. reflexivity.
    - unfold ready. rewrite G5. destruct (frame_list w_ready _ _ _ Hw) as (Ra & Ra1 & Ra2). rewrite (Permutation_length Ra1), (Permutation_length (Ra2 p')), !app_length. lia.
  Qed.

  Lemma to_quiet n : forall s tr c, weight s <= n -> Inv M cap s tr c -> Own s -> slack s tr ->
    exists l s' tr' c', exec M cap s tr l = Some (s', tr') /\ forallb carries_on l = true /\ Inv M cap s' tr' c' /\ Own s' /\ slack s' tr' /\ dying s' = dying s /\ weight s' = 0 /\
      length (workers s') = length (workers s) /\ length (all_inserted tr') + todo s' <= length (all_inserted tr) + todo s /\ length (invoked tr) + length (ready s) <= length (invoked tr') + length (ready s').
  Proof.
    induction n as [|n IH]; intros s tr c Hn I O SL.
    - exists [], s, tr, c. repeat (split; [first [reflexivity|assumption|lia]|]). lia.
    - destruct (Nat.eq_dec (weight s) 0) as [Z|NZ]; [exists [], s, tr, c; repeat (split; [first [reflexivity|assumption|lia]|]); lia|].
      assert (P : exists a s' es, step M cap s a = Next s' es /\ carries_on a = true /\ dying s' = dying s /\ weight s' < weight s /\ slack s' (tr ++ es) /\
        length (workers s') = length (workers s) /\ length (all_inserted es) + todo s' <= todo s /\ length (ready s) <= length (invoked es) + length (ready s')).
      { unfold weight in NZ. destruct (Nat.eq_dec (list_sum (map cw (clients s))) 0) as [Y|Y].
        - destruct (sum_pos ww (workers s) ltac:(lia)) as (i & w & W1 & W2). eapply prog_worker; eassumption.
        - destruct (sum_pos cw (clients s) ltac:(lia)) as (i & w & W1 & W2). eapply prog_client; eassumption. }
      destruct P as (a & s1 & es & P1 & P2 & P3 & P4 & P5 & P6 & P7 & P8). pose proof (own_step _ _ _ _ _ _ I O P1) as O1.
      pose proof (step_inv M cap Hcap HM s tr c a I (slack_no_wrap _ _ SL)) as X. rewrite P1 in X. destruct X as [c1 I1].
      destruct (IH s1 (tr ++ es) c1 ltac:(lia) I1 O1 P5) as (l & s2 & tr2 & c2 & Q1 & Q2 & Q3 & Q4 & Q5 & Q6 & Q7 & Q8 & Q9 & Q10).
      exists (a :: l), s2, tr2, c2. cbn [exec forallb]. rewrite P1, P2, Q2. repeat (split; [first [reflexivity|assumption|congruence]|]). rewrite all_inserted_app, app_length in Q9. rewrite invoked_app, app_length in Q10. split; lia.
  Qed.

  Lemma weight_zero s : weight s = 0 -> (forall j p, nth_error (clients s) j = Some p -> p = CIdle \/ p = CWaiting) /\ (forall i w, nth_error (workers s) i = Some w -> w_pc w = WIdle \/ w_pc w = WExit).
  Proof.
    intros H. unfold weight in H. split.
    - intros j p Hp. pose proof (sum_upd cw _ _ _ CIdle Hp) as X. destruct p; cbn in X; try (left; reflexivity); try (right; reflexivity); lia.
    - intros i w Hw. pose proof (sum_upd ww _ _ _ {| w_pc := WIdle; w_term := false |} Hw) as X. unfold ww in X at 2. cbn in X. destruct (w_pc w); try (left; reflexivity); try (right; reflexivity); lia.
  Qed.
  Lemma free_queue s : Own s -> weight s = 0 -> forall q Q, nth_error (queues s) q = Some Q -> q_owner Q = None.
  Proof.
    intros O Z q Q HQ. destruct (weight_zero s Z) as [Z1 Z2]. destruct (q_owner Q) as [[i|j]|] eqn:E; [| |reflexivity]; exfalso.
    - destruct (o_w _ O _ _ _ HQ E) as (w & H1 & H2). destruct (Z2 _ _ H1) as [K|K]; rewrite K in H2; discriminate H2.
    - destruct (o_c _ O _ _ _ HQ E) as (w & H1 & H2). destruct (Z1 _ _ H1) as [K|K]; rewrite K in H2; discriminate H2.
  Qed.
  Lemma quiet_tasks s tr c : Inv M cap s tr c -> weight s = 0 -> ready s = [] /\ ran s = [] /\ unpublished s = [].
  Proof.
    intros I Z. destruct (weight_zero s Z) as [Z1 Z2]. repeat split.
    - apply flat_map_nil. intros w Hw. apply In_nth_error in Hw. destruct Hw as [i Hw]. unfold w_ready. destruct (Z2 _ _ Hw) as [-> | ->]; reflexivity.
    - apply flat_map_nil. intros w Hw. apply In_nth_error in Hw. destruct Hw as [i Hw]. unfold w_ran. destruct (Z2 _ _ Hw) as [-> | ->]; reflexivity.
    - apply unpublished_nil. intros q. unfold fill. destruct (nth_error (queues s) q) as [Q|]; [|reflexivity]. destruct (q_owner Q) as [[i|j]|]; try reflexivity.
      destruct (nth_error (clients s) j) as [p|] eqn:E; [|reflexivity]. destruct (Z1 _ _ E) as [-> | ->]; reflexivity.
  Qed.

  (** One waiting task is run. *)
  Lemma run_one s tr c q : Inv M cap s tr c -> Own s -> slack s tr -> dying s = false -> weight s = 0 -> 0 < length (workers s) -> q < length (queues s) -> c q <> [] ->
    exists s' tr' c', exec M cap s tr [WLock 0 q; WCheck 0] = Some (s', tr') /\ Inv M cap s' tr' c' /\ Own s' /\ slack s' tr' /\ dying s' = false /\ length (workers s') = length (workers s) /\ length (queues s') = length (queues s) /\
      length (all_inserted tr') = length (all_inserted tr) /\ length (ready s') = 1 /\ invoked tr' = invoked tr /\ todo s' = todo s.
  Proof.
    intros I O SL ND Z HW HQ0 NE. destruct (weight_zero s Z) as [Z1 Z2]. pose proof (slack_no_wrap _ _ SL) as NW.
    destruct (nth_error (workers s) 0) as [w|] eqn:Hw; [|apply nth_error_None in Hw; lia]. destruct (nth_error (queues s) q) as [Q|] eqn:HQ; [|apply nth_error_None in HQ; lia].
    pose proof (free_queue s O Z q Q HQ) as OW. destruct (o_t _ O ND _ _ Hw) as [T1 T2]. pose proof (o_q _ O ND _ _ HQ) as T3. pose proof (proj2 (v_alive _ _ _ _ _ I ND) _ _ HQ) as T4.
    assert (EP : w_pc w = WIdle). { destruct (Z2 _ _ Hw) as [K|K]; [exact K|]. unfold is_exit in T2. rewrite K in T2. discriminate T2. }
    assert (S1 : step M cap s (WLock 0 q) = Next (put_w (put_q s q (set_owner Q (Some (W 0)))) 0 (at_w w (WLocked q))) []).
    { cbn [step]. rewrite Hw. unfold step_worker. rewrite EP, HQ, T4, OW. reflexivity. }
    set (s1 := put_w _ _ _) in S1. set (Q1 := set_owner _ _) in *.
    pose proof (step_inv M cap Hcap HM s tr c (WLock 0 q) I NW) as X. rewrite S1, app_nil_r in X. destruct X as [c1 I1]. pose proof (own_step _ _ _ _ _ _ I O S1) as O1.
    assert (HQ1 : nth_error (queues s1) q = Some Q1) by exact (nth_upd_eq _ _ _ _ HQ).
    assert (Hw1 : nth_error (workers s1) 0 = Some (at_w w (WLocked q))) by exact (nth_upd_eq _ _ _ _ Hw).
    pose proof (v_ring _ _ _ _ _ I q Q HQ) as R. rewrite (acq_n _ _ _ HQ OW) in R.
    assert (NEQ : empty Q1 = false). { destruct (empty Q1) eqn:E; [|reflexivity]. exfalso. apply NE. apply (ring_empty M cap Hcap HM Q (c q) _ R). exact E. }
    destruct (c q) as [|t l] eqn:EC; [congruence|].
    destruct (ring_pop M cap Hcap HM Q1 t l (length (removed q tr))) as (Q2 & P & R' & K1 & K2 & K3 & K4); [|exact R|].
    { eapply (apart_of M cap Hcap HM s tr c q); try eassumption. rewrite EC. cbn. lia. }
    assert (S2 : step M cap s1 (WCheck 0) = Next (put_w (put_q s1 q Q2) 0 (at_w (at_w w (WLocked q)) (WGot q t))) [EPop q 0 t]).
    { cbn [step]. rewrite Hw1. unfold step_worker. cbn [at_w w_pc]. rewrite HQ1, NEQ. cbn [orb]. change (q_term Q1) with (q_term Q). rewrite T3, P. reflexivity. }
    pose proof (step_inv M cap Hcap HM s1 tr c1 (WCheck 0) I1 NW) as X. rewrite S2 in X. destruct X as [c2 I2]. pose proof (own_step _ _ _ _ _ _ I1 O1 S2) as O2.
    eexists _, _, c2. split; [cbn [exec]; rewrite S1, app_nil_r, S2; reflexivity|]. split; [exact I2|]. split; [exact O2|]. split; [|split; [exact ND|]].
    - destruct SL as [SL|SL]; [left; exact SL|right]. intros k. rewrite inserted_app. cbn [inserted flat_map]. rewrite app_nil_r. exact (SL k).
    - cbn [put_w put_q s1 workers queues]. rewrite !upd_length. split; [reflexivity|]. split; [reflexivity|]. rewrite all_inserted_app, invoked_app. cbn [all_inserted invoked flat_map]. rewrite !app_nil_r. split; [reflexivity|]. split; [|split; reflexivity].
      unfold ready, s1. cbn [put_w put_q workers]. destruct (quiet_tasks _ _ _ I Z) as (RZ & _). unfold ready in RZ.
      destruct (frame_list w_ready _ _ _ Hw) as (Ra & Ra1 & Ra2). rewrite RZ in Ra1. apply Permutation_nil in Ra1. apply app_eq_nil in Ra1. destruct Ra1 as [_ ->].
      assert (UU : forall (l0 : list (@worker A)) x y, upd (upd l0 0 x) 0 y = upd l0 0 y) by (intros [|? ?] ? ?; reflexivity). rewrite UU. rewrite (Permutation_length (Ra2 _)). reflexivity.
  Qed.

  Lemma finish_all n : forall s tr c, Inv M cap s tr c -> Own s -> slack s tr -> dying s = false -> 0 < length (workers s) -> weight s = 0 ->
    length (all_inserted tr) - length (invoked tr) <= n ->
    exists l s' tr' c', exec M cap s tr l = Some (s', tr') /\ forallb carries_on l = true /\ Inv M cap s' tr' c' /\ weight s' = 0 /\ dying s' = false /\ flat_map c' (seq 0 (length (queues s'))) = [].
  Proof.
    induction n as [|n IH]; intros s tr c I O SL ND HW Z Hn; destruct (quiet_tasks _ _ _ I Z) as (RZ & RN & UN);
      pose proof (Permutation_length (v_perm1 _ _ _ _ _ I)) as PL; rewrite RZ, (proj1 (v_alive _ _ _ _ _ I ND)) in PL; cbn [app] in PL; rewrite app_length in PL.
    - exists [], s, tr, c. repeat (split; [first [reflexivity|assumption]|]). destruct (flat_map c _); [reflexivity|cbn in PL; lia].
    - destruct (flat_map c (seq 0 (length (queues s)))) as [|t0 l0] eqn:EF.
      + exists [], s, tr, c. repeat (split; [first [reflexivity|assumption]|]). exact EF.
      + assert (NE : exists q, q < length (queues s) /\ c q <> []).
        { assert (X : In t0 (flat_map c (seq 0 (length (queues s))))) by (rewrite EF; left; reflexivity). apply in_flat_map in X. destruct X as (q & Q1 & Q2). apply in_seq in Q1. exists q. split; [lia|]. intros K. rewrite K in Q2. contradiction. }
        destruct NE as (q & Q1 & Q2). destruct (run_one s tr c q I O SL ND Z HW Q1 Q2) as (s1 & tr1 & c1 & R1 & R2 & R3 & R4 & R5 & R6 & R7 & R8 & R9 & R10 & R11).
        destruct (to_quiet (weight s1) s1 tr1 c1 ltac:(lia) R2 R3 R4) as (l2 & s2 & tr2 & c2 & T1 & T2 & T3 & T4 & T5 & T6 & T7 & T8 & T9 & T10).
        destruct (IH s2 tr2 c2 T3 T4 T5) as (l3 & s3 & tr3 & c3 & U1 & U2 & U3 & U4 & U5 & U6).
        * congruence.
        * rewrite T8, R6. exact HW.
        * exact T7.
        * destruct (quiet_tasks _ _ _ T3 T7) as (RZ2 & _). rewrite RZ2, R9, R10 in T10. cbn [length] in T10.
          assert (TZ : todo s = 0). { unfold todo. destruct (weight_zero s Z) as [Z1 _]. destruct (list_sum (map pc_todo (clients s))) eqn:ET; [reflexivity|]. exfalso. destruct (sum_pos pc_todo (clients s) ltac:(lia)) as (j & p & J1 & J2). destruct (Z1 _ _ J1) as [-> | ->]; cbn in J2; lia. }
          lia.
        * exists ([WLock 0 q; WCheck 0] ++ l2 ++ l3), s3, tr3, c3. rewrite exec_app, R1. cbn [fst snd]. rewrite exec_app, T1. cbn [fst snd]. rewrite U1. cbn [app forallb carries_on]. rewrite forallb_app, T2, U2. repeat (split; [first [reflexivity|assumption]|]). exact U6.
  Qed.

  Lemma completes n m (s : state) tr : reachable M cap n m s tr -> 0 < n -> dying s = false -> slack s tr ->
    exists l s' tr', exec M cap s tr l = Some (s', tr') /\ forallb carries_on l = true /\ busy s' = 0 /\ Permutation (all_inserted tr') (finished tr') /\
      (forall j p, nth_error (clients s') j = Some p -> p = CIdle \/ p = CWaiting).
  Proof.
    intros R Hn ND SL. pose proof (sized_reach M cap _ _ _ _ R) as (_ & LW & _). destruct R as [l0 R].
    destruct (both_exec l0 _ _ _ _ _ (init_inv M cap Hcap HM n m) (own_init n m) R (slack_no_wrap _ _ SL)) as (c & I & O).
    destruct (to_quiet _ s tr c (Nat.le_refl _) I O SL) as (l1 & s1 & tr1 & c1 & T1 & T2 & T3 & T4 & T5 & T6 & T7 & T8 & _).
    destruct (finish_all _ s1 tr1 c1 T3 T4 T5 ltac:(congruence) ltac:(lia) T7 (Nat.le_refl _)) as (l2 & s2 & tr2 & c2 & U1 & U2 & U3 & U4 & U5 & U6).
    exists (l1 ++ l2), s2, tr2. rewrite exec_app, T1. cbn [fst snd]. split; [exact U1|]. split; [rewrite forallb_app, T2, U2; reflexivity|].
    destruct (quiet_tasks _ _ _ U3 U4) as (V1 & V2 & V3). pose proof (v_busy _ _ _ _ _ U3) as B. rewrite V1, V2, V3, U6 in B. cbn [length] in B. split; [lia|]. split; [|apply (weight_zero _ U4)].
    rewrite (v_perm1 _ _ _ _ _ U3), (v_perm2 _ _ _ _ _ U3), V1, V2, U6, (proj1 (v_alive _ _ _ _ _ U3 U5)), !app_nil_r. reflexivity.
  Qed.
End L.
