(** The version with std::atomic::wait: a thread asleep on an old value will be notified. *)
From Coq Require Import List Bool Arith ZArith Lia.
From Verif Require Import MonModel MonAtomModel MonSpec MonProofs0.
Import ListNotations.

Definition pend (p : pc) : Z := match p with IAdd k => Z.of_nat k | DSub k => - Z.of_nat k | _ => 0 end%Z.
Definition changing (p : pc) : bool := match p with IAdd _ | DSub _ => true | _ => false end.

Record inv (s : state) (b : Z) : Prop := {
  i_nz : forall j v, nth_error (pcs s) j = Some (WSleep v) \/ nth_error (pcs s) j = Some (WTry v) -> v <> 0;
  i_wake : forall j v, nth_error (pcs s) j = Some (WSleep v) -> count s <> v -> exists i, nth_error (pcs s) i = Some Notify;
  i_bal : Z.of_nat (count s) = (b - zsum pend (pcs s))%Z }.

Lemma inv_start n : inv (start n) 0.
Proof.
  split; cbn [start pcs count].
  - intros j v [H | H]; apply nth_repeat in H; discriminate.
  - intros j v H. apply nth_repeat in H. discriminate.
  - rewrite zsum_zero; [reflexivity | ]. intros i x H. apply nth_repeat in H. subst x. reflexivity.
Qed.
Definition delta (a : action) : Z := match a with CallIncrement _ k => Z.of_nat k | CallDecrement _ k => - Z.of_nat k | _ => 0 end%Z.

Lemma inv_move s b i p q c d :
  inv s b -> nth_error (pcs s) i = Some p ->
  (forall v, q = WSleep v \/ q = WTry v -> v <> 0) -> (forall v, q = WSleep v -> c = v) ->
  (c = count s \/ q = Notify) -> p <> Notify ->
  (Z.of_nat c + pend q = Z.of_nat (count s) + pend p + d)%Z ->
  inv (State c (upd (pcs s) i q)) (b + d).
Proof.
  intros [Hn Hw Hb] E H1 H2 H3 H4 H5. split; cbn [pcs count].
  - intros j v [F | F]; (destruct (nth_upd_inv _ _ _ _ _ F) as [[_ Q] | [N F']]; [apply H1; auto | apply (Hn j v); auto]).
  - intros j v F N0. destruct (nth_upd_inv _ _ _ _ _ F) as [[_ Q] | [N F']]; [exfalso; apply N0; apply H2; congruence | ].
    destruct H3 as [-> | ->].
    + destruct (Hw j v F' N0) as [m M]. exists m. rewrite nth_upd_ne; [exact M | ]. intro; subst m. congruence.
    + exists i. exact (nth_upd_eq _ _ _ _ E).
  - rewrite (zsum_upd pend _ _ _ _ E). lia.
Qed.
Lemma wake_pend p : pend (wake p) = pend p. Proof. destruct p; reflexivity. Qed.
Lemma wake_sleep p v : wake p <> WSleep v. Proof. destruct p; discriminate. Qed.

Lemma inv_notify s b i : inv s b -> nth_error (pcs s) i = Some Notify -> inv (State (count s) (upd (map wake (pcs s)) i Out)) b.
Proof.
  intros [Hn Hw Hb] E. assert (E' : nth_error (map wake (pcs s)) i = Some Notify) by (rewrite nth_error_map, E; reflexivity).
  assert (K : forall j q, nth_error (upd (map wake (pcs s)) i Out) j = Some q -> q = Out \/ exists r, nth_error (pcs s) j = Some r /\ q = wake r).
  { intros j q F. destruct (nth_upd_inv _ _ _ _ _ F) as [[_ ->] | [N F']]; [left; reflexivity | right].
    rewrite nth_error_map in F'. destruct (nth_error (pcs s) j) as [r | ] eqn:G; cbn in F'; [ | discriminate]. exists r. split; [reflexivity | congruence]. }
  split; cbn [pcs count].
  - intros j v [F | F]; destruct (K _ _ F) as [C | (r & R & C)]; try discriminate; [exfalso; exact (wake_sleep r v (eq_sym C)) | ].
    apply (Hn j v). destruct r; cbn in C; try discriminate; injection C as <-; auto.
  - intros j v F. exfalso. destruct (K _ _ F) as [C | (r & R & C)]; [discriminate | exact (wake_sleep r v (eq_sym C))].
  - rewrite (zsum_upd pend _ _ _ _ E'). rewrite (zsum_map pend wake _ wake_pend). cbn [pend]. lia.
Qed.

Lemma inv_step s b a s' r : inv s b -> step s a = Next s' r -> inv s' (b + delta a).
Proof.
  intros I H.
  destruct a as [i | i k | i k | i | i]; cbn [step delta] in H |- *; destruct (nth_error (pcs s) i) as [p | ] eqn:E; try discriminate.
  - destruct p; try discriminate. injection H as <- _. apply (inv_move s b i Out); auto; try discriminate; try (cbn [pend]; lia). intros v [C | C]; discriminate.
  - destruct p; try discriminate. injection H as <- _. apply (inv_move s b i Out); auto; try discriminate; try (cbn [pend]; lia). intros v [C | C]; discriminate.
  - destruct p; try discriminate. injection H as <- _. apply (inv_move s b i Out); auto; try discriminate; try (cbn [pend]; lia). intros v [C | C]; discriminate.
  - destruct p; cbn [step_thread] in H; try discriminate.
    + destruct (count s =? 0) eqn:Z0; injection H as <- _.
      * apply (inv_move s b i WLoad); auto; try discriminate; try (cbn [pend]; lia). intros v [C | C]; discriminate.
      * apply Nat.eqb_neq in Z0. apply (inv_move s b i WLoad); auto; try discriminate; try (cbn [pend]; lia). intros v [C | C]; [discriminate | ]. congruence.
    + injection H as <- _. pose proof (i_nz _ _ I i v (or_intror E)) as Nv. destruct (count s =? v) eqn:Q.
      * apply Nat.eqb_eq in Q. apply (inv_move s b i (WTry v)); auto; try discriminate; try (cbn [pend]; lia).
        { intros w [C | C]; congruence. } { intros w C. congruence. }
      * apply (inv_move s b i (WTry v)); auto; try discriminate; try (cbn [pend]; lia). intros w [C | C]; discriminate.
    + injection H as <- _. apply (inv_move s b i (IAdd k)); auto; try discriminate; try (cbn [pend]; lia). intros v [C | C]; discriminate.
    + destruct (count s <? k) eqn:L; [discriminate | ]. apply Nat.ltb_ge in L. injection H as <- _.
      apply (inv_move s b i (DSub k)); auto; try discriminate; try (cbn [pend]; lia). intros v [C | C]; discriminate.
    + injection H as <- _. rewrite Z.add_0_r. exact (inv_notify s b i I E).
  - destruct p; try discriminate. injection H as <- _. pose proof (i_nz _ _ I i v (or_introl E)) as Nv.
    apply (inv_move s b i (WSleep v)); auto; try discriminate; try (cbn [pend]; lia). intros w [C | C]; congruence.
Qed.
Lemma balance_delta a l : balance (a :: l) = (delta a + balance l)%Z.
Proof. destruct a; cbn [balance delta]; lia. Qed.
Lemma inv_exec l : forall s b s', inv s b -> exec s l = Some s' -> inv s' (b + balance l).
Proof.
  induction l as [ | a l IH]; intros s b s' I H; cbn [exec] in H.
  - injection H as <-. cbn [balance]. rewrite Z.add_0_r. exact I.
  - destruct (step s a) as [ | | s1 r] eqn:E; try discriminate. rewrite balance_delta, Z.add_assoc.
    exact (IH s1 _ s' (inv_step _ _ _ _ _ I E) H).
Qed.
Lemma inv_reach n l s : exec (start n) l = Some s -> inv s (balance l).
Proof. intro H. exact (inv_exec l _ 0 s (inv_start n) H). Qed.

Lemma no_lost n l s j v :
  exec (start n) l = Some s -> count s = 0 -> nth_error (pcs s) j = Some (WSleep v) ->
  exists i s', step s (Step i) = Next s' false /\ nth_error (pcs s') j = Some (WTry v).
Proof.
  intros H Z0 F. pose proof (inv_reach n l s H) as I. pose proof (i_nz _ _ I j v (or_introl F)) as Nv.
  destruct (i_wake _ _ I j v F) as [i E]; [congruence | ]. exists i. cbn [step]. rewrite E. cbn [step_thread].
  eexists. split; [reflexivity | ]. cbn [pcs]. rewrite nth_upd_ne by (intro; subst; congruence). rewrite nth_error_map, F. reflexivity.
Qed.

Definition rank (p : pc) : nat := match p with Out => 0 | WLoad => 1 | WTry _ => 2 | WSleep _ => 3 | Notify => 1 | _ => 0 end.
Lemma wake_rank p : rank (wake p) <= rank p. Proof. destruct p; cbn; lia. Qed.
Lemma wake_changing p : changing (wake p) = changing p. Proof. destruct p; reflexivity. Qed.
Definition settled (s : state) : Prop := count s = 0 /\ forall i p, nth_error (pcs s) i = Some p -> changing p = false.

Lemma settled_step s b i s' r : inv s b -> settled s -> step s (Step i) = Next s' r -> settled s' /\ nsum rank (pcs s') < nsum rank (pcs s).
Proof.
  intros I S H. pose proof S as [Z0 C]. cbn [step] in H. destruct (nth_error (pcs s) i) as [p | ] eqn:E; [ | discriminate].
  pose proof (C i p E) as Cp.
  assert (U : forall q, changing q = false -> rank q < rank p -> settled (put s i q) /\ nsum rank (pcs (put s i q)) < nsum rank (pcs s)).
  { intros q Q R. split.
    - split; [exact Z0 | ]. cbn [put pcs]. intros j r' F. destruct (nth_upd_inv _ _ _ _ _ F) as [[_ ->] | [_ F']]; [exact Q | exact (C j r' F')].
    - cbn [put pcs]. pose proof (nsum_upd rank _ _ q _ E). lia. }
  destruct p; cbn [step_thread changing] in H, Cp; try discriminate.
  - rewrite Z0 in H. cbn [Nat.eqb] in H. injection H as <- _. apply U; cbn; auto.
  - pose proof (i_nz _ _ I i v (or_intror E)) as Nv. rewrite Z0 in H. destruct v; [congruence | ]. cbn [Nat.eqb] in H. injection H as <- _.
    apply U; cbn; auto.
  - injection H as <- _. assert (E' : nth_error (map wake (pcs s)) i = Some Notify) by (rewrite nth_error_map, E; reflexivity). split.
    + split; [exact Z0 | ]. cbn [pcs]. intros j r' F. destruct (nth_upd_inv _ _ _ _ _ F) as [[_ ->] | [_ F']]; [reflexivity | ].
      rewrite nth_error_map in F'. destruct (nth_error (pcs s) j) as [x | ] eqn:G; cbn in F'; [ | discriminate].
      injection F' as <-. rewrite wake_changing. exact (C j x G).
    + cbn [pcs]. pose proof (nsum_upd rank _ _ Out _ E'). pose proof (nsum_map rank wake (pcs s) wake_rank). cbn [rank] in *. lia.
Qed.
Lemma settled_exec l : forall s b s', inv s b -> steps_only l -> settled s -> exec s l = Some s' ->
  inv s' (b + balance l) /\ settled s' /\ length l + nsum rank (pcs s') <= nsum rank (pcs s).
Proof.
  intros s b s' I L S H. split; [exact (inv_exec l s b s' I H) | ]. revert s b s' I L S H.
  induction l as [ | a l IH]; intros s b s' I L S H; cbn [exec] in H.
  - injection H as <-. split; [exact S | cbn; lia].
  - destruct (L a (or_introl eq_refl)) as [i ->]. destruct (step s (Step i)) as [ | | s1 r] eqn:E; try discriminate.
    destruct (settled_step s b i s1 r I S E) as [S1 R1].
    destruct (IH s1 _ s' (inv_step _ _ _ _ _ I E) (fun b0 B => L b0 (or_intror B)) S1 H) as [S2 R2]. split; [exact S2 | cbn [length]; lia].
Qed.
Lemma nsum_bound (l : list pc) : nsum rank l <= 3 * length l.
Proof. induction l as [ | p l IH]; cbn [nsum fold_right length]; [lia | ]. unfold nsum in IH. destruct p; cbn [rank]; lia. Qed.
Lemma settled_progress s b : inv s b -> settled s -> (exists i p, nth_error (pcs s) i = Some p /\ p <> Out) -> exists i s' r, step s (Step i) = Next s' r.
Proof.
  intros I [Z0 C] (i & p & E & N). pose proof (C i p E) as Cp.
  assert (P : forall i p, nth_error (pcs s) i = Some p -> p = Notify \/ p = WLoad \/ (exists v, p = WTry v) -> exists i s' r, step s (Step i) = Next s' r).
  { clear i p E N Cp. intros i p E K. exists i. cbn [step]. rewrite E. destruct K as [-> | [-> | [v ->]]]; cbn [step_thread]; eauto. rewrite Z0. cbn. eauto. }
  destruct p; cbn [changing] in Cp; try discriminate; try congruence.
  - apply (P i _ E). auto.
  - apply (P i _ E). eauto.
  - pose proof (i_nz _ _ I i v (or_introl E)) as Nv. destruct (i_wake _ _ I i v E) as [m M]; [congruence | ]. apply (P m _ M). auto.
  - apply (P i _ E). auto.
Qed.
Lemma count_is n l s : exec (start n) l = Some s -> (forall i p, nth_error (pcs s) i = Some p -> changing p = false) -> Z.of_nat (count s) = balance l.
Proof.
  intros H C. pose proof (i_bal _ _ (inv_reach n l s H)) as B. rewrite zsum_zero in B; [lia | ].
  intros i p E. pose proof (C i p E) as Cp. destruct p; try discriminate; reflexivity.
Qed.
Lemma exec_length l : forall s s', exec s l = Some s' -> length (pcs s') = length (pcs s).
Proof.
  assert (U : forall T (l : list T) i x, length (upd l i x) = length l).
  { intros T l0. induction l0 as [ | y l0 IH]; intros [ | i] x; cbn; auto. }
  assert (St : forall s a s' r, step s a = Next s' r -> length (pcs s') = length (pcs s)).
  { intros s a s' r H. destruct a; cbn [step] in H; destruct (nth_error (pcs s) i) as [p | ]; try discriminate; destruct p; try discriminate;
      cbn [step_thread] in H; unfold put in H;
      try (match type of H with (if ?x then _ else _) = _ => destruct x; try discriminate end);
      injection H as <- _; cbn [pcs]; rewrite ?U, ?map_length; reflexivity. }
  induction l as [ | a l IH]; intros s s' H; cbn [exec] in H; [congruence | ].
  destruct (step s a) as [ | | s1 r] eqn:E; try discriminate. rewrite (IH _ _ H). exact (St _ _ _ _ E).
Qed.
Lemma waits_end n l s :
  exec (start n) l = Some s -> balance l = 0%Z -> (forall i p, nth_error (pcs s) i = Some p -> changing p = false) ->
  (forall l' s', steps_only l' -> exec s l' = Some s' ->
     length l' <= 3 * n /\ ((forall i s'' r, step s' (Step i) <> Next s'' r) -> forall i p, nth_error (pcs s') i = Some p -> p = Out)).
Proof.
  intros H B C l' s' L X. assert (Z0 : count s = 0). { pose proof (count_is n l s H C). lia. }
  destruct (settled_exec l' s _ s' (inv_reach n l s H) L (conj Z0 C) X) as (I & S' & R). split.
  - pose proof (nsum_bound (pcs s)). pose proof (exec_length _ _ _ H) as Ln. cbn [start pcs] in Ln. rewrite repeat_length in Ln. lia.
  - intros D i p E.
    destruct p; try reflexivity; exfalso;
      (destruct (settled_progress s' _ I S') as (m & s2 & r2 & K); [eexists; eexists; split; [exact E | discriminate] | exact (D m s2 r2 K)]).
Qed.
Lemma returns n l s i s' :
  exec (start n) l = Some s -> step s (Step i) = Next s' true -> nth_error (pcs s') i = Some Out /\ count s = 0 /\ balance l = zsum pend (pcs s).
Proof.
  intros H X. cbn [step] in X. destruct (nth_error (pcs s) i) as [p | ] eqn:E; [ | discriminate].
  pose proof (i_bal _ _ (inv_reach n l s H)) as B.
  destruct p; cbn [step_thread] in X; try discriminate;
    repeat (match type of X with context [if ?x then _ else _] => destruct x eqn:?; try discriminate end).
  injection X as <-. apply Nat.eqb_eq in Heqb. cbn [put pcs]. split; [exact (nth_upd_eq _ _ _ _ E) | split; [exact Heqb | lia]].
Qed.
