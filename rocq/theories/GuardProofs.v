From Coq Require Import Lia ZifyBool ZifyNat ZifyN.
From Verif Require Import Words WordsProofs GuardModel GuardSpec.
Local Open Scope N_scope.
Ltac Zify.zify_post_hook ::= idtac.

Definition wf (g : gstate) : Prop := match g with GFlag _ => True | GWord d => d < 2 ^ 32 end.
Definition R (g : gstate) (b : bool) : Prop := wf g /\ g_dismissed g = b.
(** What no operation on a guard changes. *)
Definition key (g : gstate) : bool * N := match g with GFlag _ => (true, 0) | GWord d => (false, N.land d excount_mask) end.

Lemma dismiss_ok g : wf g -> wf (g_dismiss g) /\ g_dismissed (g_dismiss g) = true /\ key (g_dismiss g) = key g.
Proof.
  destruct g as [b|d]; cbn [wf g_dismiss g_dismissed key]; intros H; [tauto|]. split; [|split].
  - apply lt_pow2_bits. intros i Hi. rewrite N.lor_spec, (testbit_high 32 d i H Hi). unfold dismissed_mask. rewrite N.pow2_bits_eqb. apply N.eqb_neq. lia.
  - apply negb_true_iff, N.eqb_neq. intros E. apply (f_equal (fun x => N.testbit x 31)) in E. rewrite N.land_spec, N.lor_spec in E.
    unfold dismissed_mask in E. rewrite N.pow2_bits_true, orb_true_r in E. discriminate.
  - f_equal. rewrite N.land_lor_distr_l. change (N.land dismissed_mask excount_mask) with 0. apply N.lor_0_r.
Qed.
Lemma new_ok m ue : ue < 2 ^ 31 -> R (g_new m ue) false /\ (m <> Always -> g_count (g_new m ue) = ue).
Proof.
  intros H. assert (H2 : ue < 2 ^ 32) by (apply N.lt_trans with (2 ^ 31); [exact H|reflexivity]).
  assert (A : trunc 32 ue = ue) by (apply trunc_small, H2).
  assert (B : N.land ue dismissed_mask = 0).
  { apply N.bits_inj_0. intros i. rewrite N.land_spec. unfold dismissed_mask. rewrite N.pow2_bits_eqb. destruct (N.eqb_spec 31 i) as [<-|E]; [|apply andb_false_r].
    rewrite (testbit_high 31 ue 31 H); [reflexivity|lia]. }
  assert (C : N.land ue excount_mask = ue). { change excount_mask with (N.ones 31). rewrite N.land_ones. apply N.mod_small, H. }
  destruct m; cbn [g_new g_count]; unfold R; cbn [wf g_dismissed]; rewrite ?A, ?B, ?C; repeat split; try exact H2; congruence.
Qed.

Lemma upd_length {A} (l : list A) i f : length (upd l i f) = length l.
Proof.
  unfold upd. destruct (nth_error l i) as [x|] eqn:E; [|reflexivity]. rewrite app_length, firstn_length. cbn [length]. rewrite skipn_length.
  assert (i < length l)%nat by (apply nth_error_Some; congruence). lia.
Qed.
Lemma upd_rel env dis i : Forall2 R env dis -> Forall2 R (upd env i g_dismiss) (upd dis i (fun _ => true)) /\ map key (upd env i g_dismiss) = map key env.
Proof.
  intros F. revert i. induction F as [|g b env dis H F IH]; intros i; [destruct i; split; [constructor|reflexivity|constructor|reflexivity]|].
  destruct i as [|i].
  - unfold upd. cbn [nth_error firstn skipn app]. destruct H as [W D]. destruct (dismiss_ok g W) as (A & B & C). split; [constructor; [split; assumption|exact F]|].
    cbn [map]. rewrite C. reflexivity.
  - destruct (IH i) as [I1 I2]. unfold upd in *. cbn [nth_error firstn skipn].
    assert (L : length env = length dis) by (clear - F; induction F; cbn; congruence).
    destruct (nth_error env i) as [x|] eqn:E1, (nth_error dis i) as [y|] eqn:E2.
    + cbn [app]. split; [constructor; assumption|]. change (key g :: map key (firstn i env ++ g_dismiss x :: skipn (S i) env) = key g :: map key env). rewrite I2. reflexivity.
    + exfalso. assert (i < length env)%nat by (apply nth_error_Some; congruence). apply nth_error_None in E2. lia.
    + exfalso. assert (i < length dis)%nat by (apply nth_error_Some; congruence). apply nth_error_None in E1. lia.
    + split; [constructor; assumption|reflexivity].
Qed.
Lemma rel_nth env dis i : Forall2 R env dis -> match nth_error env i, nth_error dis i with Some g, Some b => g_dismissed g = b | None, None => True | _, _ => False end.
Proof.
  intros F. revert i. induction F as [|g b env dis H F IH]; intros [|i]; cbn [nth_error]; try exact I; [apply H|apply IH].
Qed.

Lemma exec_ok c : forall ue env dis, ue + depth c < 2 ^ 31 -> Forall2 R env dis ->
  let '(e, env1, t) := exec c ue env in
  let '(e', dis1, t') := ideal c dis in
  e = e' /\ t = t' /\ Forall2 R env1 dis1 /\ map key env1 = map key env.
Proof.
  induction c as [| | | | |a IHa b IHb|m id body IH|d IHd body IH|body IH h IHh]; intros ue env dis HD F; cbn [depth] in HD; cbn [exec ideal].
  - tauto.
  - tauto.
  - tauto.
  - destruct (upd_rel env dis i F) as [A B]. tauto.
  - pose proof (rel_nth env dis i F) as K. split; [reflexivity|]. split; [|tauto].
    destruct (nth_error env i), (nth_error dis i); try contradiction; congruence.
  - specialize (IHa ue env dis ltac:(lia) F). destruct (exec a ue env) as [[e env1] t1]. destruct (ideal a dis) as [[e' d1] t1'].
    destruct IHa as (-> & -> & F1 & K1). destruct e'; [|tauto|tauto].
    specialize (IHb ue env1 d1 ltac:(lia) F1). destruct (exec b ue env1) as [[e env2] t2]. destruct (ideal b d1) as [[e' d2] t2'].
    destruct IHb as (-> & -> & F2 & K2). rewrite <- K1. tauto.
  - destruct (new_ok m ue ltac:(lia)) as [NR NC]. specialize (IH ue (g_new m ue :: env) (false :: dis) ltac:(lia) ltac:(constructor; assumption)).
    destruct (exec body ue (g_new m ue :: env)) as [[e env1] t1]. destruct (ideal body (false :: dis)) as [[e' d1] t1'].
    destruct IH as (-> & -> & F1 & K1). cbn [map] in K1. destruct F1 as [|g b env2 d2 H1 F2]; [discriminate|]. cbn [map] in K1.
    injection K1 as K0 K2. cbn [hd tl]. destruct H1 as [W D].
    assert (CT : m <> Always -> g_count g = ue).
    { intros M. rewrite <- (NC M). destruct m; [congruence| |]; cbn [g_new] in K0 |- *; (destruct g as [x|x]; cbn [key] in K0; [discriminate|]); injection K0 as K0; exact K0. }
    destruct e'.
    + split; [reflexivity|]. split; [|split; assumption]. f_equal. unfold g_runs. rewrite D. destruct m; cbn [due andb]; [reflexivity| |];
        rewrite CT by discriminate; rewrite N.eqb_refl; reflexivity.
    + split; [reflexivity|]. split; [|split; assumption]. f_equal. unfold g_runs. rewrite D. destruct m; cbn [due andb]; [reflexivity| |];
        rewrite CT by discriminate; replace (ue =? ue + 1) with false by (symmetry; apply N.eqb_neq; lia); reflexivity.
    + split; [reflexivity|]. split; [|split; assumption]. destruct m; cbn [due andb]; rewrite app_nil_r; reflexivity.
  - specialize (IH ue env dis ltac:(lia) F). destruct (exec body ue env) as [[e env1] t1]. destruct (ideal body dis) as [[e' d1] t1'].
    destruct IH as (-> & -> & F1 & K1). destruct e'; [| |tauto].
    + specialize (IHd ue env1 d1 ltac:(lia) F1). destruct (exec d ue env1) as [[e env2] t2]. destruct (ideal d d1) as [[e' d2] t2'].
      destruct IHd as (-> & -> & F2 & K2). rewrite <- K1. tauto.
    + specialize (IHd (ue + 1) env1 d1 ltac:(lia) F1). destruct (exec d (ue + 1) env1) as [[e env2] t2]. destruct (ideal d d1) as [[e' d2] t2'].
      destruct IHd as (-> & -> & F2 & K2). rewrite <- K1. tauto.
  - specialize (IH ue env dis ltac:(lia) F). destruct (exec body ue env) as [[e env1] t1]. destruct (ideal body dis) as [[e' d1] t1'].
    destruct IH as (-> & -> & F1 & K1). destruct e'; [tauto| |tauto].
    specialize (IHh ue env1 d1 ltac:(lia) F1). destruct (exec h ue env1) as [[e env2] t2]. destruct (ideal h d1) as [[e' d2] t2'].
    destruct IHh as (-> & -> & F2 & K2). rewrite <- K1. tauto.
Qed.

Lemma runs_app id a b : runs id (a ++ b) = (runs id a + runs id b)%nat.
Proof. unfold runs. rewrite filter_app, app_length. reflexivity. Qed.
Lemma runs_once id c : forall ue env, (runs id (snd (exec c ue env)) <= declared id c)%nat.
Proof.
  induction c as [| | | | |a IHa b IHb|m g body IH|d IHd body IH|body IH h IHh]; intros ue env; cbn [exec declared]; try (cbn; lia).
  - destruct (nth_error env i); cbn; lia.
  - specialize (IHa ue env). destruct (exec a ue env) as [[e env1] t1]. cbn [snd] in IHa. destruct e; try (cbn [snd]; lia).
    specialize (IHb ue env1). destruct (exec b ue env1) as [[e2 env2] t2]. cbn [snd] in *. rewrite runs_app. lia.
  - specialize (IH ue (g_new m ue :: env)). destruct (exec body ue (g_new m ue :: env)) as [[e env1] t1]. cbn [snd] in IH.
    assert (B : forall x : bool, (runs id (if x then [Ran g] else []) <= if N.eqb g id then 1 else 0)%nat).
    { intros [|]; unfold runs; cbn [filter]; [destruct (g =? id); cbn; lia|cbn; lia]. }
    destruct e, env1 as [|s env2]; cbn [snd]; rewrite ?runs_app; try (eapply Nat.le_trans; [apply Nat.add_le_mono; [exact IH|apply B]|lia]); lia.
  - specialize (IH ue env). destruct (exec body ue env) as [[e env1] t1]. cbn [snd] in IH. destruct e; try (cbn [snd]; lia).
    + specialize (IHd ue env1). destruct (exec d ue env1) as [[e2 env2] t2]. cbn [snd] in *. rewrite runs_app. lia.
    + specialize (IHd (ue + 1) env1). destruct (exec d (ue + 1) env1) as [[e2 env2] t2]. cbn [snd] in *. rewrite runs_app. lia.
  - specialize (IH ue env). destruct (exec body ue env) as [[e env1] t1]. cbn [snd] in IH. destruct e; try (cbn [snd]; lia).
    specialize (IHh ue env1). destruct (exec h ue env1) as [[e2 env2] t2]. cbn [snd] in *. rewrite runs_app. lia.
Qed.
