From Coq Require Import Lia Permutation.
From Verif Require Import Words EarrModel EarrProofs SparamProofs PoolModel PoolSpec PoolProofs.
Local Open Scope nat_scope.

Lemma nth_repeat {B} (x y : B) n k : nth_error (repeat x n) k = Some y -> y = x.
Proof. intros H. apply nth_error_In, repeat_spec in H. exact H. Qed.
Lemma nth_repeat_lt {B} (x : B) n : forall k, k < n -> nth_error (repeat x n) k = Some x.
Proof. induction n as [|n IH]; intros [|k] H; try lia; [reflexivity|]. cbn. apply IH. lia. Qed.
Lemma flat_map_nil {B C} (f : B -> list C) l : (forall x, In x l -> f x = []) -> flat_map f l = [].
Proof. induction l as [|x l IH]; intros H; cbn; [reflexivity|]. rewrite (H x (or_introl eq_refl)), IH; [reflexivity|]. intros y Hy. apply H. right. exact Hy. Qed.
Lemma flat_map_seq {B C} (f : B -> list C) (g : nat -> list C) l : forall a, (forall k x, nth_error l k = Some x -> f x = g (a + k)) -> flat_map f l = flat_map g (seq a (length l)).
Proof.
  induction l as [|x l IH]; intros a H; cbn [length seq flat_map]; [reflexivity|]. rewrite (H 0 x eq_refl), Nat.add_0_r. f_equal. apply IH. intros k y Hy. rewrite (H (S k) y Hy). f_equal. lia.
Qed.

(** Takes the branches of a step apart. *)
Ltac ungrd s E :=
  repeat match type of E with
         | context [if dying s then _ else _] => destruct (dying s) eqn:?; try discriminate E
         | context [match nth_error (queues s) ?q with _ => _ end] => destruct (nth_error (queues s) q) as [?Q|] eqn:?; [|discriminate E]
         | context [match ?l with [] => _ | _ :: _ => _ end] => is_var l; destruct l; try discriminate E
         | context [match q_owner ?Q with _ => _ end] => destruct (q_owner Q) eqn:?; try discriminate E
         | context [if empty ?b || q_term ?b then _ else _] => destruct (empty b || q_term b) eqn:?; try discriminate E
         | context [match pop_front ?M ?cap ?Q with _ => _ end] => destruct (pop_front M cap Q) as [[? ?]|] eqn:?; try discriminate E
         | context [match acquire ?M ?cap ?Q with _ => _ end] => destruct (acquire M cap Q) as [[? ?]|] eqn:?; try discriminate E
         | context [match nth_error (q_slots ?Q) ?k with _ => _ end] => destruct (nth_error (q_slots Q) k) as [[?|]|] eqn:?; try discriminate E
         | context [if negb ?b then _ else _] => destruct b eqn:?; cbn [negb] in E; try discriminate E
         | context [if ?b =? 0 then _ else _] => destruct (b =? 0) eqn:?; try discriminate E
         | context [if w_term ?b then _ else _] => destruct (w_term b) eqn:?; try discriminate E
         end.

Section P.
  Context {A : Type}.
  Variables (M cap : nat).
  Hypotheses (Hcap : 0 < cap) (HM : cap < M).
  Notation queue := (@queue A). Notation state := (@state A). Notation event := (@event A). Notation action := (@action A).

  Lemma init_inv n m : Inv M cap (init cap n m) ([] : list event) (fun _ => []).
  Proof.
    assert (FN : forall q, @fill A (init cap n m) q = []).
    { intros q. unfold fill, init. cbn [queues]. destruct (nth_error _ q) as [Q|] eqn:E; [|reflexivity]. apply nth_repeat in E. subst Q. reflexivity. }
    assert (AN : forall q, @acq A (init cap n m) q = 0).
    { intros q. unfold acq, init. cbn [queues]. destruct (nth_error _ q) as [Q|] eqn:E; [|reflexivity]. apply nth_repeat in E. subst Q. reflexivity. }
    assert (RN : @ready A (init cap n m) = [] /\ @ran A (init cap n m) = []).
    { unfold ready, ran, init. cbn [workers]. split; apply flat_map_nil; intros w Hw; apply repeat_spec in Hw; subst w; reflexivity. }
    destruct RN as [RN1 RN2].
    assert (CN : flat_map (fun _ : nat => @nil A) (seq 0 (length (queues (@init A cap n m)))) = []) by (apply flat_map_nil; reflexivity).
    constructor.
    - intros i w q H1 H2. apply nth_repeat in H1. subst w. discriminate H2.
    - intros j p q H1 H2. apply nth_repeat in H1. subst p. discriminate H2.
    - intros q Q H. rewrite AN. apply nth_repeat in H. subst Q. cbn [removed flat_map length]. unfold ring. cbn [q_front q_back q_slots length]. rewrite repeat_length, !Nat.mod_0_l by lia.
      repeat split; try lia; [intros [|k]; discriminate|]. intros j Hj _. apply nth_repeat_lt. exact Hj.
    - reflexivity.
    - reflexivity.
    - intros q. exists []. rewrite FN. reflexivity.
    - intros j p H. apply nth_repeat in H. subst p. exact Logic.I.
    - rewrite RN1, RN2, CN. rewrite (unpublished_nil _ FN). reflexivity.
    - rewrite RN1, CN. reflexivity.
    - rewrite RN2. reflexivity.
    - intros _. split; [reflexivity|]. intros q Q H. apply nth_repeat in H. subst Q. reflexivity.
    - intros q Q H HA. apply nth_repeat in H. subst Q. discriminate HA.
    - discriminate.
  Qed.

  Lemma no_wrap_pre (tr es : list event) : no_wrap M cap (tr ++ es) -> no_wrap M cap tr.
  Proof. intros [H|H]; [left; exact H|right]. intros q. specialize (H q). rewrite inserted_app, app_length in H. lia. Qed.
  Lemma exec_trace l : forall (s : state) tr s' tr', exec M cap s tr l = Some (s', tr') -> exists es, tr' = tr ++ es.
  Proof.
    induction l as [|a l IH]; cbn [exec]; intros s tr s' tr' H.
    - injection H as <- <-. exists []. symmetry. apply app_nil_r.
    - destruct (step M cap s a) as [| |s1 es] eqn:E; try discriminate H. destruct (IH _ _ _ _ H) as [es' ->]. exists (es ++ es'). symmetry. apply app_assoc.
  Qed.
  Lemma exec_app l1 : forall l2 (s : state) tr, exec M cap s tr (l1 ++ l2) = match exec M cap s tr l1 with Some r => exec M cap (fst r) (snd r) l2 | None => None end.
  Proof. induction l1 as [|a l1 IH]; intros l2 s tr; cbn [app exec fst snd]; [reflexivity|]. destruct (step M cap s a); try reflexivity. apply IH. Qed.
  Lemma exec_inv l : forall (s : state) tr c s' tr', Inv M cap s tr c -> exec M cap s tr l = Some (s', tr') -> no_wrap M cap tr' -> exists c', Inv M cap s' tr' c'.
  Proof.
    induction l as [|a l IH]; cbn [exec]; intros s tr c s' tr' I H NW.
    - injection H as <- <-. exists c. exact I.
    - destruct (step M cap s a) as [| |s1 es] eqn:E; try discriminate H. destruct (exec_trace _ _ _ _ _ H) as [es' ET]. subst tr'.
      pose proof (step_inv M cap Hcap HM s tr c a I) as X. rewrite E in X. destruct X as [c1 I1]; [rewrite <- app_assoc in NW; apply (no_wrap_pre _ _ NW)|]. eapply IH; eassumption.
  Qed.
  Lemma reach_inv n m (s : state) tr : reachable M cap n m s tr -> no_wrap M cap tr -> exists c, Inv M cap s tr c.
  Proof. intros [l H] NW. eapply exec_inv; [apply init_inv|exact H|exact NW]. Qed.

  Lemma inv_content (s : state) tr c q Q : Inv M cap s tr c -> no_wrap M cap tr -> nth_error (queues s) q = Some Q -> content M cap Q = c q.
  Proof.
    intros I NW HQ. eapply (content_ring M cap Hcap HM Q (c q) _ (acq s q)).
    - unfold acq. rewrite HQ. destruct (q_owner Q) as [[i|j]|]; try lia. destruct (nth_error (clients s) j) as [p|]; [|lia]. destruct p; cbn; try lia. destruct (q0 =? q); lia.
    - intros _. eapply (apart_of M cap Hcap HM s tr c q); [exact I|exact NW|lia].
    - apply (v_ring _ _ _ _ _ I). exact HQ.
  Qed.
  Lemma inv_queued (s : state) tr c : Inv M cap s tr c -> no_wrap M cap tr -> queued M cap s = flat_map c (seq 0 (length (queues s))).
  Proof. intros I NW. unfold queued. apply flat_map_seq. intros k Q HQ. cbn. eapply inv_content; eassumption. Qed.

  (* ------------------------------------------------------------ per worker *)
  Definition wlog (s : state) (tr : list event) : Prop := forall i w, nth_error (workers s) i = Some w -> popped_by i tr = invoked_by i tr ++ w_ready w.

  Lemma popped_by_app i (a b : list event) : popped_by i (a ++ b) = popped_by i a ++ popped_by i b. Proof. apply flat_map_app. Qed.
  Lemma invoked_by_app i (a b : list event) : invoked_by i (a ++ b) = invoked_by i a ++ invoked_by i b. Proof. apply flat_map_app. Qed.
  Lemma wlog_put s s' tr es i w w' : wlog s tr -> nth_error (workers s) i = Some w -> workers s' = upd (workers s) i w' ->
    (forall k, k <> i -> popped_by k es = [] /\ invoked_by k es = []) -> w_ready w ++ popped_by i es = invoked_by i es ++ w_ready w' -> wlog s' (tr ++ es).
  Proof.
    intros H Hw EW Ho HE k v Hk. rewrite EW in Hk. rewrite popped_by_app, invoked_by_app. destruct (nth_upd_inv _ _ _ _ _ _ Hw Hk) as [[-> ->]|[Nk K]].
    - rewrite (H _ _ Hw). rewrite <- !app_assoc. f_equal. exact HE.
    - destruct (Ho k Nk) as [E1 E2]. rewrite E1, E2, !app_nil_r. apply H. exact K.
  Qed.
  Lemma wlog_same s s' tr es : wlog s tr -> workers s' = workers s -> (forall k, popped_by k es = [] /\ invoked_by k es = []) -> wlog s' (tr ++ es).
  Proof. intros H EW Ho k v Hk. rewrite EW in Hk. rewrite popped_by_app, invoked_by_app. destruct (Ho k) as [E1 E2]. rewrite E1, E2, !app_nil_r. apply H. exact Hk. Qed.
  Lemma drops_quiet k q (l : list A) : popped_by k (map (EDrop q) l) = [] /\ invoked_by k (map (EDrop q) l) = [].
  Proof. induction l as [|t l [I1 I2]]; cbn; split; try reflexivity; assumption. Qed.

  Lemma wlog_step s tr a s' es : wlog s tr -> step M cap s a = Next s' es -> wlog s' (tr ++ es).
  Proof.
    intros H E. unfold step in E. destruct a.
    1-7: destruct (nth_error (workers s) i) as [w|] eqn:Hw; [|discriminate E]; unfold step_worker in E; destruct (w_pc w) as [|q'|q'|q' t|t|t|t|] eqn:EP; try discriminate E;
      ungrd s E;  injection E as <- <-; eapply (wlog_put s _ tr _ i w); try eassumption; try reflexivity;
      try (intros k Nk; cbn [popped_by invoked_by flat_map]; rewrite ?other_q by exact Nk; split; reflexivity);
      unfold w_ready; rewrite ?EP; cbn [popped_by invoked_by flat_map at_w w_pc app]; rewrite ?Nat.eqb_refl; reflexivity.
    1-8: destruct (nth_error (clients s) j) as [p|] eqn:Hp; [|discriminate E]; unfold step_client in E; destruct p as [|q' us|q' d us|q' k0 d us|q'|] eqn:EP; try discriminate E;
      ungrd s E;  injection E as <- <-; apply (wlog_same s _ tr _ H); try reflexivity; intros k'; split; reflexivity.
    - destruct (negb (dying s) && _); [|discriminate E]. injection E as <- <-. apply (wlog_same s _ tr _ H); try reflexivity; intros k'; split; reflexivity.
    - destruct (nth_error (queues s) q); [|discriminate E]. destruct (dying s); [|discriminate E]. injection E as <- <-. apply (wlog_same s _ tr _ H); try reflexivity; intros k'; split; reflexivity.
    - destruct (nth_error (workers s) i) as [w|] eqn:Hw; [|discriminate E]. destruct (dying s); [|discriminate E]. injection E as <- <-.
      eapply (wlog_put s _ tr _ i w); try eassumption; try reflexivity; [intros; split; reflexivity|]. cbn. apply app_nil_r.
    - destruct (nth_error (queues s) q) as [Q|]; [|discriminate E]. destruct (dying s && _ && _ && _); [|discriminate E]. destruct (drain M cap _ Q) as [[ts Q']|]; [|discriminate E].
      destruct (busy s <? length ts); [discriminate E|]. injection E as <- <-. apply (wlog_same s _ tr _ H); try reflexivity. intros k'. apply drops_quiet.
  Qed.

  Lemma wlog_exec l : forall (s : state) tr s' tr', wlog s tr -> exec M cap s tr l = Some (s', tr') -> wlog s' tr'.
  Proof.
    induction l as [|a l IH]; cbn [exec]; intros s tr s' tr' I H; [injection H as <- <-; exact I|].
    destruct (step M cap s a) as [| |s1 es] eqn:E; try discriminate H. eapply IH; [|exact H]. eapply wlog_step; eassumption.
  Qed.
  Lemma wlog_reach n m (s : state) tr : reachable M cap n m s tr -> wlog s tr.
  Proof. intros [l H]. eapply wlog_exec; [|exact H]. intros i w Hw. apply nth_repeat in Hw. subst w. reflexivity. Qed.

  (* ------------------------------------------------------------ the numbers in the events *)
  Definition ev_ok (n : nat) (e : event) : Prop :=
    match e with EInsert q _ | EDrop q _ => q < n | EPop q i _ => q < n /\ i < n | EInvoke i _ | EFinish i _ => i < n | EWaited _ => True end.
  Definition sized (n : nat) (s : state) (tr : list event) : Prop := length (queues s) = n /\ length (workers s) = n /\ Forall (ev_ok n) tr.
  Lemma sized_step n s tr a s' es : sized n s tr -> step M cap s a = Next s' es -> sized n s' (tr ++ es).
  Proof.
    intros (H1 & H2 & H3) E.
    assert (NQ : forall q Q, nth_error (queues s) q = Some Q -> q < n) by (intros q Q K; apply nth_len in K; congruence).
    assert (G : length (queues s') = length (queues s) /\ length (workers s') = length (workers s) /\ Forall (ev_ok n) es).
    { unfold step in E. destruct a.
      1-7: destruct (nth_error (workers s) i) as [w|] eqn:Hw; [|discriminate E]; pose proof (nth_len _ _ _ Hw) as NI; rewrite H2 in NI; unfold step_worker in E; destruct (w_pc w) as [|q'|q'|q' t|t|t|t|] eqn:EP; try discriminate E;
        ungrd s E; injection E as <- <-; cbn [put_w put_q put_busy queues workers]; rewrite ?upd_length; repeat split; try (apply Forall_nil); apply Forall_cons; cbn [ev_ok]; try apply Forall_nil; try split; try assumption; eapply NQ; eassumption.
      1-8: destruct (nth_error (clients s) j) as [p|] eqn:Hp; [|discriminate E]; unfold step_client in E; destruct p as [|q' us|q' d us|q' k0 d us|q'|] eqn:EP; try discriminate E;
        ungrd s E; injection E as <- <-; cbn [put_c put_q put_busy queues workers]; rewrite ?upd_length; repeat split; try (apply Forall_nil); apply Forall_cons; cbn [ev_ok]; try apply Forall_nil; try exact Logic.I; eapply NQ; eassumption.
      - destruct (negb (dying s) && _); [|discriminate E]. injection E as <- <-. repeat split. apply Forall_nil.
      - destruct (nth_error (queues s) q); [|discriminate E]. destruct (dying s); [|discriminate E]. injection E as <- <-. cbn [put_q queues workers]. rewrite upd_length. repeat split. apply Forall_nil.
      - destruct (nth_error (workers s) i) as [w|] eqn:Hw; [|discriminate E]. destruct (dying s); [|discriminate E]. injection E as <- <-. cbn [put_w queues workers]. rewrite upd_length. repeat split. apply Forall_nil.
      - destruct (nth_error (queues s) q) as [Q|] eqn:HQ; [|discriminate E]. destruct (dying s && _ && _ && _); [|discriminate E]. destruct (drain M cap _ Q) as [[ts Q']|]; [|discriminate E].
        destruct (busy s <? length ts); [discriminate E|]. injection E as <- <-. cbn [put_q put_busy queues workers]. rewrite upd_length. repeat split. apply Forall_map, Forall_forall. intros t _. eapply NQ. exact HQ. }
    destruct G as (G1 & G2 & G3). split; [congruence|]. split; [congruence|]. apply Forall_app. split; assumption.
  Qed.
  Lemma sized_exec n l : forall (s : state) tr s' tr', sized n s tr -> exec M cap s tr l = Some (s', tr') -> sized n s' tr'.
  Proof.
    induction l as [|a l IH]; cbn [exec]; intros s tr s' tr' I H; [injection H as <- <-; exact I|].
    destruct (step M cap s a) as [| |s1 es] eqn:E; try discriminate H. eapply IH; [|exact H]. eapply sized_step; eassumption.
  Qed.
  Lemma sized_reach n m (s : state) tr : reachable M cap n m s tr -> sized n s tr.
  Proof. intros [l H]. eapply sized_exec; [|exact H]. repeat split; try apply repeat_length. apply Forall_nil. Qed.

  Lemma one_queue (tr : list event) : Forall (ev_ok 1) tr -> dropped tr = [] ->
    inserted 0 tr = all_inserted tr /\ removed 0 tr = popped_by 0 tr /\ invoked_by 0 tr = invoked tr.
  Proof.
    induction 1 as [|e tr He H IH]; intros D; [repeat split|]. destruct e; cbn [ev_ok] in He; try match type of He with _ /\ _ => destruct He end;
      cbn [inserted all_inserted removed popped_by invoked_by invoked dropped flat_map] in *; try discriminate D; specialize (IH D); destruct IH as (I1 & I2 & I3);
      repeat match goal with Hx : _ < 1 |- _ => apply Nat.lt_1_r in Hx; subst end; cbn [Nat.eqb app]; repeat split; first [assumption|f_equal; assumption].
  Qed.

  (* ------------------------------------------------------------ tasks of enqueue calls in progress *)
  Lemma pop_owner Q t Q' : @pop_front A M cap Q = Some (t, Q') -> q_owner Q' = q_owner Q.
  Proof. unfold pop_front. destruct (nth_error _ _) as [[u|]|]; try discriminate. intros [= <- <-]. reflexivity. Qed.
  Lemma acquire_owner Q k Q' : @acquire A M cap Q = Some (k, Q') -> q_owner Q' = q_owner Q.
  Proof. unfold acquire. destruct (full M cap Q); try discriminate. intros [= <- <-]. reflexivity. Qed.
  Lemma drain_owner n : forall Q l Q', @drain A M cap n Q = Some (l, Q') -> q_owner Q' = q_owner Q.
  Proof.
    induction n as [|n IH]; cbn [drain]; intros Q l Q' H; [injection H as <- <-; reflexivity|]. destruct (pop_front M cap Q) as [[t Q1]|] eqn:E; [|discriminate H]. cbn [option_bind fst snd] in H.
    destruct (drain M cap n Q1) as [[l1 Q2]|] eqn:E1; [|discriminate H]. cbn [option_bind fst snd] in H. injection H as <- <-. rewrite (IH _ _ _ E1). eapply pop_owner. exact E.
  Qed.

  (** The queue part of a step never gives a queue to a client whose position has tasks. *)
  Lemma fill_put_q (s s' : state) q Q Q' : nth_error (queues s) q = Some Q -> queues s' = upd (queues s) q Q' -> clients s' = clients s ->
    (q_owner Q' = q_owner Q \/ q_owner Q' = None \/ exists i, q_owner Q' = Some (W i)) -> forall k t, In t (fill s' k) -> In t (fill s k).
  Proof.
    intros HQ EQ EC O k t H. unfold fill in *. rewrite EQ, EC in H. destruct (Nat.eq_dec k q) as [->|K].
    - rewrite (nth_upd_eq _ _ _ _ HQ) in H. rewrite HQ. destruct O as [O|[O|[i O]]]; rewrite O in H; [exact H|contradiction|contradiction].
    - rewrite upd_other in H by congruence. exact H.
  Qed.
  Lemma fill_put_c (s s' : state) j p p' (es : list event) : nth_error (clients s) j = Some p -> queues s' = queues s -> clients s' = upd (clients s) j p' ->
    (forall k t, In t (pc_fill k p') -> In t (pc_fill k p) \/ In t (all_inserted es)) -> forall k t, In t (fill s' k) -> In t (fill s k) \/ In t (all_inserted es).
  Proof.
    intros Hp EQ EC O k t H. unfold fill in *. rewrite EQ, EC in H. destruct (nth_error (queues s) k) as [Q|]; [|contradiction]. destruct (q_owner Q) as [[i|j']|]; try contradiction.
    destruct (Nat.eq_dec j' j) as [->|K].
    - rewrite (nth_upd_eq _ _ _ _ Hp) in H. rewrite Hp. apply O. exact H.
    - rewrite upd_other in H by congruence. left. exact H.
  Qed.
  Lemma fill_step (s : state) a s' es : step M cap s a = Next s' es -> forall k t, In t (fill s' k) -> In t (fill s k) \/ In t (all_inserted es).
  Proof.
    intros E k t H. unfold step in E. destruct a.
    1-7: destruct (nth_error (workers s) i) as [w|] eqn:Hw; [|discriminate E]; unfold step_worker in E; destruct (w_pc w) as [|q'|q'|q' u|u|u|u|] eqn:EP; try discriminate E;
      ungrd s E; injection E as <- <-; left; first [exact H | refine (fill_put_q s _ _ _ _ _ _ _ _ k t H); [eassumption|reflexivity|reflexivity|]]; cbn [set_owner q_owner]; try (right; left; reflexivity); try (right; right; eexists; reflexivity).
    { left. eapply pop_owner. eassumption. }
    - destruct (nth_error (clients s) j) as [p|] eqn:Hp; [|discriminate E]. unfold step_client in E; destruct p; try discriminate E. ungrd s E. injection E as <- <-. left.
      unfold fill in *. cbn [put_c put_q queues clients] in H. destruct (Nat.eq_dec k q) as [->|K].
      + rewrite (nth_upd_eq _ _ _ _ Heqo) in H. cbn [set_enq set_owner q_owner] in H. rewrite (nth_upd_eq _ _ _ _ Hp) in H. contradiction.
      + rewrite upd_other in H by congruence. destruct (nth_error (queues s) k) as [Z|]; [|contradiction]. destruct (q_owner Z) as [[i|j']|]; try contradiction.
        destruct (Nat.eq_dec j' j) as [->|N]; [rewrite (nth_upd_eq _ _ _ _ Hp) in H; contradiction|]. rewrite upd_other in H by congruence. exact H.
    - destruct (nth_error (clients s) j) as [p|] eqn:Hp; [|discriminate E]. unfold step_client in E; destruct p; try discriminate E. ungrd s E. injection E as <- <-.
      refine (fill_put_c s _ _ _ _ _ _ _ _ _ k t H); [exact Hp|reflexivity|reflexivity|]. intros k' t'. destruct (length ts <=? available M cap Q); cbn; [destruct (q =? k')|]; contradiction.
    - destruct (nth_error (clients s) j) as [p|] eqn:Hp; [|discriminate E]. unfold step_client in E; destruct p; try discriminate E. ungrd s E. injection E as <- <-.
      destruct (fill_put_c (put_q s q q0) (put_c (put_q s q q0) j (CCons q n done (a :: ts))) j _ _ [] Hp eq_refl eq_refl) with (k := k) (t := t) as [Y|Y]; [|exact H| |contradiction].
      + intros k' t' Z. left. exact Z.
      + left. refine (fill_put_q s _ _ _ _ _ _ _ _ k t Y); [eassumption|reflexivity|reflexivity|]. left. eapply acquire_owner. eassumption.
    - destruct (nth_error (clients s) j) as [p|] eqn:Hp; [|discriminate E]. unfold step_client in E; destruct p; try discriminate E. ungrd s E. injection E as <- <-.
      set (Q1 := set_slots _ _) in H.
      assert (Y : In t (fill (put_q s q Q1) k) \/ In t (all_inserted [EInsert q a])).
      { refine (fill_put_c (put_q s q Q1) _ _ _ _ _ _ _ _ _ k t H); [exact Hp|reflexivity|reflexivity|].
        intros k' t' Z. cbn [pc_fill] in *. destruct (q =? k'); [|contradiction]. apply in_app_or in Z. destruct Z as [Z|Z]; [left; exact Z|right; exact Z]. }
      destruct Y as [Y|Y]; [left|right; exact Y]. refine (fill_put_q s _ _ _ _ _ _ _ _ k t Y); [eassumption|reflexivity|reflexivity|]. left. reflexivity.
    - destruct (nth_error (clients s) j) as [p|] eqn:Hp; [|discriminate E]. unfold step_client in E; destruct p; try discriminate E. ungrd s E; injection E as <- <-;
        (refine (fill_put_c s _ _ _ _ _ _ _ _ _ k t H); [exact Hp|reflexivity|reflexivity|]; intros k' t' Z; contradiction).
    - destruct (nth_error (clients s) j) as [p|] eqn:Hp; [|discriminate E]. unfold step_client in E; destruct p; try discriminate E. ungrd s E. injection E as <- <-.
      set (Q1 := set_owner _ _) in H.
      assert (Y : In t (fill (put_q s q Q1) k) \/ In t (all_inserted [])).
      { refine (fill_put_c (put_q s q Q1) _ _ _ _ _ _ _ _ _ k t H); [exact Hp|reflexivity|reflexivity|]. intros k' t' Z. contradiction. }
      destruct Y as [Y|Y]; [left|right; exact Y]. refine (fill_put_q s _ _ _ _ _ _ _ _ k t Y); [eassumption|reflexivity|reflexivity|]. right. left. reflexivity.
    - destruct (nth_error (clients s) j) as [p|] eqn:Hp; [|discriminate E]. unfold step_client in E; destruct p; try discriminate E. ungrd s E; injection E as <- <-;
        (refine (fill_put_c s _ _ _ _ _ _ _ _ _ k t H); [exact Hp|reflexivity|reflexivity|]; intros k' t' Z; contradiction).
    - destruct (nth_error (clients s) j) as [p|] eqn:Hp; [|discriminate E]. unfold step_client in E; destruct p; try discriminate E. ungrd s E; injection E as <- <-;
        (refine (fill_put_c s _ _ _ _ _ _ _ _ _ k t H); [exact Hp|reflexivity|reflexivity|]; intros k' t' Z; contradiction).
    - destruct (negb (dying s) && _); [|discriminate E]. injection E as <- <-. left. exact H.
    - destruct (nth_error (queues s) q) as [Q|] eqn:HQ; [|discriminate E]. destruct (dying s); [|discriminate E]. injection E as <- <-. left. refine (fill_put_q s _ _ _ _ _ _ _ _ k t H); [exact HQ|reflexivity|reflexivity|]. left. reflexivity.
    - destruct (nth_error (workers s) i) as [w|] eqn:Hw; [|discriminate E]. destruct (dying s); [|discriminate E]. injection E as <- <-. left. exact H.
    - destruct (nth_error (queues s) q) as [Q|] eqn:HQ; [|discriminate E]. destruct (dying s && _ && _ && _); [|discriminate E]. destruct (drain M cap _ Q) as [[ts Q']|] eqn:ED; [|discriminate E].
      destruct (busy s <? length ts); [discriminate E|]. injection E as <- <-. left. refine (fill_put_q s _ _ _ _ _ _ _ _ k t H); [exact HQ|reflexivity|reflexivity|]. left. cbn [q_owner]. eapply drain_owner. exact ED.
  Qed.
  Lemma in_unpublished (s : state) t : In t (unpublished s) <-> exists k, In t (fill s k).
  Proof.
    unfold unpublished. rewrite in_flat_map. split; [intros (k & _ & H); exists k; exact H|]. intros (k & H). exists k. split; [|exact H]. apply in_seq.
    unfold fill in H. destruct (nth_error (queues s) k) as [Q|] eqn:E; [|contradiction]. apply nth_len in E. lia.
  Qed.
  Lemma unpub_exec l : forall (s : state) tr s' tr', exec M cap s tr l = Some (s', tr') -> exists es, tr' = tr ++ es /\ forall t, In t (unpublished s') -> In t (unpublished s) \/ In t (all_inserted es).
  Proof.
    induction l as [|a l IH]; cbn [exec]; intros s tr s' tr' H; [injection H as <- <-; exists []; split; [symmetry; apply app_nil_r|intros t Ht; left; exact Ht]|].
    destruct (step M cap s a) as [| |s1 es] eqn:E; try discriminate H. destruct (IH _ _ _ _ H) as (es' & -> & K). exists (es ++ es'). split; [symmetry; apply app_assoc|].
    intros t Ht. rewrite all_inserted_app. destruct (K t Ht) as [X|X]; [|right; apply in_or_app; right; exact X]. apply in_unpublished in X. destruct X as [k X].
    destruct (fill_step _ _ _ _ E k t X) as [Y|Y]; [left; apply in_unpublished; exists k; exact Y|right; apply in_or_app; left; exact Y].
  Qed.
  Lemma unpub_caller (s : state) t : In t (unpublished s) -> exists j q d ts, In t d /\ (nth_error (clients s) j = Some (CFill q d ts) \/ exists k, nth_error (clients s) j = Some (CCons q k d ts)).
  Proof.
    rewrite in_unpublished. intros [k H]. unfold fill in H. destruct (nth_error (queues s) k) as [Q|]; [|contradiction]. destruct (q_owner Q) as [[i|j]|]; try contradiction.
    destruct (nth_error (clients s) j) as [p|] eqn:E; [|contradiction]. destruct p; cbn [pc_fill] in H; try contradiction; (destruct (q =? k); [|contradiction]); exists j, q, done, ts; (split; [exact H|]); [left|right; eexists]; exact E.
  Qed.
End P.
