(** The mutex and condition variable version: who holds the mutex, who will notify, what the count is. *)
From Coq Require Import List Bool Arith ZArith Lia.
From Verif Require Import MonModel MonSpec MonProofs0.
Import ListNotations.

Definition holds (p : pc) : bool := match p with WHold | IHold _ | ILeave | DHold _ | DLeave _ => true | _ => false end.
Definition pend (p : pc) : Z := match p with IEnter k | IHold k => Z.of_nat k | DEnter k | DHold k => - Z.of_nat k | _ => 0 end%Z.
Definition will_notify (p : pc) : Prop := p = DLeave true \/ p = DNotify.

Record inv (s : state) (b : Z) : Prop := {
  i_own : forall i p, nth_error (pcs s) i = Some p -> (holds p = true <-> owner s = Some i);
  i_held : forall i, owner s = Some i -> exists p, nth_error (pcs s) i = Some p;
  i_wake : busy s = 0 -> forall j, nth_error (pcs s) j = Some WSleep -> exists i p, nth_error (pcs s) i = Some p /\ will_notify p;
  i_bal : Z.of_nat (busy s) = (b - zsum pend (pcs s))%Z }.

Lemma inv_start n : inv (start n) 0.
Proof.
  split; cbn [start pcs owner busy].
  - intros i p H. apply nth_repeat in H. subst p. cbn. split; discriminate.
  - discriminate.
  - intros _ j H. apply nth_repeat in H. discriminate.
  - rewrite zsum_zero; [reflexivity | ]. intros i x H. apply nth_repeat in H. subst x. reflexivity.
Qed.

Definition delta (a : action) : Z := match a with CallIncrement _ k => Z.of_nat k | CallDecrement _ k => - Z.of_nat k | _ => 0 end%Z.

(** One thread moves from [p] to [q]; the others stay. *)
Lemma inv_move s b i p q bz ow d :
  inv s b -> nth_error (pcs s) i = Some p ->
  (holds q = true <-> ow = Some i) ->
  (forall j, j <> i -> (owner s = Some j <-> ow = Some j)) ->
  (bz = 0 -> (busy s = 0 \/ will_notify q) /\ q <> WSleep /\ (will_notify p -> will_notify q)) ->
  (Z.of_nat bz + pend q = Z.of_nat (busy s) + pend p + d)%Z ->
  inv (State bz ow (upd (pcs s) i q)) (b + d).
Proof.
  intros [Ho Hh Hw Hb] E H1 H2 H3 H4. split; cbn [pcs owner busy].
  - intros j r F. destruct (nth_upd_inv _ _ _ _ _ F) as [[<- ->] | [N F']]; [exact H1 | ].
    rewrite (Ho j r F'). apply H2. congruence.
  - intros j O. destruct (Nat.eq_dec j i) as [-> | N].
    + exists q. exact (nth_upd_eq _ _ _ _ E).
    + rewrite nth_upd_ne by congruence. apply Hh. apply H2; assumption.
  - intros Z0 j F. destruct (H3 Z0) as (K1 & K2 & K3). destruct (nth_upd_inv _ _ _ _ _ F) as [[<- C] | [N F']]; [congruence | ].
    destruct K1 as [K1 | K1].
    + destruct (Hw K1 j F') as (m & r & M1 & M2). destruct (Nat.eq_dec m i) as [-> | Nm].
      * exists i, q. split; [exact (nth_upd_eq _ _ _ _ E) | ]. apply K3. congruence.
      * exists m, r. rewrite nth_upd_ne by congruence. tauto.
    + exists i, q. split; [exact (nth_upd_eq _ _ _ _ E) | exact K1].
  - rewrite (zsum_upd pend _ _ _ _ E). lia.
Qed.

Lemma wake_holds p : holds (wake p) = holds p. Proof. destruct p; reflexivity. Qed.
Lemma wake_pend p : pend (wake p) = pend p. Proof. destruct p; reflexivity. Qed.
Lemma wake_sleep p : wake p <> WSleep. Proof. destruct p; discriminate. Qed.

Ltac simp_will := unfold will_notify; intuition (try congruence; try discriminate).

Lemma inv_notify s b i : inv s b -> nth_error (pcs s) i = Some DNotify -> inv (State (busy s) (owner s) (upd (map wake (pcs s)) i Out)) b.
Proof.
  intros [Ho Hh Hw Hb] E. assert (E' : nth_error (map wake (pcs s)) i = Some DNotify) by (rewrite nth_error_map, E; reflexivity).
  split; cbn [pcs owner busy].
  - intros j r F. destruct (nth_upd_inv _ _ _ _ _ F) as [[<- ->] | [N F']].
    + rewrite <- (Ho i DNotify E). reflexivity.
    + rewrite nth_error_map in F'. destruct (nth_error (pcs s) j) as [r' | ] eqn:G; cbn in F'; [ | discriminate].
      injection F' as <-. rewrite wake_holds. exact (Ho j r' G).
  - intros j O. destruct (Hh j O) as [p G]. destruct (Nat.eq_dec j i) as [-> | N].
    + exists Out. exact (nth_upd_eq _ _ _ _ E').
    + rewrite nth_upd_ne by congruence. rewrite nth_error_map, G. eexists. reflexivity.
  - intros _ j F. exfalso. destruct (nth_upd_inv _ _ _ _ _ F) as [[<- C] | [N F']]; [discriminate | ].
    rewrite nth_error_map in F'. destruct (nth_error (pcs s) j) as [r' | ] eqn:G; cbn in F'; [ | discriminate].
    injection F' as C. exact (wake_sleep _ C).
  - rewrite (zsum_upd pend _ _ _ _ E'). rewrite (zsum_map pend wake _ wake_pend). cbn [pend]. lia.
Qed.

Lemma inv_step s b a s' r : inv s b -> step s a = Next s' r -> inv s' (b + delta a).
Proof.
  intros I H. assert (Ho := i_own s b I).
  destruct a as [i | i k | i k | i | i]; cbn [step delta] in H |- *;
    destruct (nth_error (pcs s) i) as [p | ] eqn:E; try discriminate; pose proof (Ho i p E) as O;
    assert (O2 : forall j, j <> i -> owner s = Some i -> owner s = Some j -> False) by (intros; congruence).
  - destruct p; try discriminate. injection H as <- _. cbn [holds] in O.
    apply (inv_move s b i Out); cbn [holds pend]; auto; try tauto; try lia. simp_will.
  - destruct p; try discriminate. injection H as <- _. cbn [holds] in O.
    apply (inv_move s b i Out); cbn [holds pend]; auto; try tauto; try lia. simp_will.
  - destruct p; try discriminate. injection H as <- _. cbn [holds] in O.
    apply (inv_move s b i Out); cbn [holds pend]; auto; try tauto; try lia. simp_will.
  - destruct p; cbn [step_thread] in H; try discriminate; unfold lock, unlock in H; cbn [holds] in O.
    + destruct (owner s) eqn:W; [discriminate | ]. injection H as <- _.
      apply (inv_move s b i WEnter); cbn [holds pend]; auto; try tauto; try lia; [intros; rewrite W; split; congruence | simp_will].
    + assert (W : owner s = Some i) by tauto. destruct (busy s =? 0) eqn:Z0; injection H as <- _.
      * apply Nat.eqb_eq in Z0. apply (inv_move s b i WHold); cbn [holds pend]; auto; try lia; [split; discriminate | intros; rewrite W; split; congruence | simp_will].
      * apply Nat.eqb_neq in Z0. apply (inv_move s b i WHold); cbn [holds pend]; auto; try lia; [split; discriminate | intros; rewrite W; split; congruence].
    + destruct (owner s) eqn:W; [discriminate | ]. injection H as <- _.
      apply (inv_move s b i WWoken); cbn [holds pend]; auto; try tauto; try lia; [intros; rewrite W; split; congruence | simp_will].
    + destruct (owner s) eqn:W; [discriminate | ]. injection H as <- _.
      apply (inv_move s b i (IEnter k)); cbn [holds pend]; auto; try tauto; try lia; [intros; rewrite W; split; congruence | simp_will].
    + injection H as <- _. assert (W : owner s = Some i) by tauto.
      apply (inv_move s b i (IHold k)); cbn [holds pend]; auto; try tauto; try lia. intros Z0. split; [left; lia | simp_will].
    + assert (W : owner s = Some i) by tauto. injection H as <- _.
      apply (inv_move s b i ILeave); cbn [holds pend]; auto; try lia; [split; discriminate | intros; rewrite W; split; congruence | simp_will].
    + destruct (owner s) eqn:W; [discriminate | ]. injection H as <- _.
      apply (inv_move s b i (DEnter k)); cbn [holds pend]; auto; try tauto; try lia; [intros; rewrite W; split; congruence | simp_will].
    + destruct (busy s <? k) eqn:L; [discriminate | ]. injection H as <- _. apply Nat.ltb_ge in L. assert (W : owner s = Some i) by tauto.
      apply (inv_move s b i (DHold k)); cbn [holds pend]; auto; try tauto; try lia. intros Z0. rewrite Z0. simp_will.
    + assert (W : owner s = Some i) by tauto. injection H as <- _.
      apply (inv_move s b i (DLeave notify)); auto;
        [destruct notify; cbn [holds]; split; discriminate | intros; rewrite W; split; congruence | | destruct notify; cbn [pend]; lia].
      intros Z0. destruct notify; simp_will.
    + injection H as <- _. rewrite Z.add_0_r. exact (inv_notify s b i I E).
  - destruct p; try discriminate. injection H as <- _. cbn [holds] in O.
    apply (inv_move s b i WSleep); cbn [holds pend]; auto; try tauto; try lia. simp_will.
Qed.

Lemma balance_delta a l : balance (a :: l) = (delta a + balance l)%Z.
Proof. destruct a; cbn [balance delta]; lia. Qed.

Lemma inv_exec l : forall s b s', inv s b -> exec s l = Some s' -> inv s' (b + balance l).
Proof.
  induction l as [ | a l IH]; intros s b s' I H; cbn [exec] in H.
  - injection H as <-. cbn [balance]. rewrite Z.add_0_r. exact I.
  - destruct (step s a) as [ | | s1 r] eqn:E; try discriminate. rewrite balance_delta, Z.add_assoc.
    exact (IH s1 _ s' (inv_step _ _ _ _ _ I E) H).
Qed.
Lemma inv_reach n l s : exec (start n) l = Some s -> inv s (balance l).
Proof. intro H. exact (inv_exec l _ 0 s (inv_start n) H). Qed.

(* ------------------------------------------------------------------ no lost wake-up *)
Lemma no_lost n l s j :
  exec (start n) l = Some s -> busy s = 0 -> nth_error (pcs s) j = Some WSleep ->
  exists i, exists m s', exec s (repeat (Step i) (S m)) = Some s' /\ m <= 1 /\ nth_error (pcs s') j = Some WWoken.
Proof.
  intros H Z0 F. pose proof (inv_reach n l s H) as I. destruct (i_wake _ _ I Z0 j F) as (i & p & E & W). exists i.
  assert (K : forall s, nth_error (pcs s) i = Some DNotify -> nth_error (pcs s) j = Some WSleep ->
     exists s', step s (Step i) = Next s' false /\ nth_error (pcs s') j = Some WWoken).
  { intros t Et Ft. cbn [step]. rewrite Et. cbn [step_thread]. eexists. split; [reflexivity | ]. cbn [pcs].
    rewrite nth_upd_ne by (intro; subst; congruence). rewrite nth_error_map, Ft. reflexivity. }
  destruct W as [-> | ->].
  - exists 1. destruct (K (State (busy s) None (upd (pcs s) i DNotify))) as (s' & K1 & K2).
    { cbn [pcs]. exact (nth_upd_eq _ _ _ _ E). }
    { cbn [pcs]. rewrite nth_upd_ne by (intro; subst; congruence). exact F. }
    exists s'. split; [ | split; [lia | exact K2]]. cbn [repeat exec]. cbn [step] in K1 |- *. rewrite E. cbn [step_thread]. unfold unlock.
    rewrite K1. reflexivity.
  - exists 0. destruct (K s E F) as (s' & K1 & K2). exists s'. split; [ | split; [lia | exact K2]]. cbn [repeat exec]. rewrite K1. reflexivity.
Qed.

(* ------------------------------------------------------------------ waiting ends *)
(** The calls that may still change the count. *)
Definition changing (p : pc) : bool := match p with IEnter _ | IHold _ | DEnter _ | DHold _ => true | _ => false end.
Definition rank (p : pc) : nat :=
  match p with Out => 0 | WHold => 1 | WEnter | WWoken => 2 | WSleep => 3 | ILeave => 1 | DLeave _ => 2 | DNotify => 1 | _ => 0 end.
Lemma wake_rank p : rank (wake p) <= rank p. Proof. destruct p; cbn; lia. Qed.
Lemma wake_changing p : changing (wake p) = changing p. Proof. destruct p; reflexivity. Qed.

Definition settled (s : state) : Prop := busy s = 0 /\ forall i p, nth_error (pcs s) i = Some p -> changing p = false.

Lemma settled_upd s i p q ow : settled s -> nth_error (pcs s) i = Some p -> changing q = false -> settled (State (busy s) ow (upd (pcs s) i q)).
Proof.
  intros [Z0 C] E Q. split; [exact Z0 | ]. cbn [pcs]. intros j r F.
  destruct (nth_upd_inv _ _ _ _ _ F) as [[_ ->] | [_ F']]; [exact Q | exact (C j r F')].
Qed.

Lemma settled_step s i s' r : settled s -> step s (Step i) = Next s' r -> settled s' /\ nsum rank (pcs s') < nsum rank (pcs s).
Proof.
  intros S H. pose proof S as [Z0 C]. cbn [step] in H. destruct (nth_error (pcs s) i) as [p | ] eqn:E; [ | discriminate].
  pose proof (C i p E) as Cp.
  assert (U : forall q ow, changing q = false -> rank q < rank p ->
     settled (State (busy s) ow (upd (pcs s) i q)) /\ nsum rank (pcs (State (busy s) ow (upd (pcs s) i q))) < nsum rank (pcs s)).
  { intros q ow Q R. split; [exact (settled_upd s i p q ow S E Q) | ]. cbn [pcs]. pose proof (nsum_upd rank _ _ q _ E). lia. }
  destruct p; cbn [step_thread changing] in H, Cp; try discriminate; unfold lock, unlock in H.
  - destruct (owner s); [discriminate | ]. injection H as <- _. apply U; cbn; auto.
  - rewrite Z0 in H. cbn [Nat.eqb] in H. injection H as <- _. rewrite <- Z0. apply U; cbn; auto.
  - destruct (owner s); [discriminate | ]. injection H as <- _. apply U; cbn; auto.
  - injection H as <- _. apply U; cbn; auto.
  - injection H as <- _. destruct notify; apply U; cbn; auto; lia.
  - injection H as <- _. assert (E' : nth_error (map wake (pcs s)) i = Some DNotify) by (rewrite nth_error_map, E; reflexivity).
    split.
    + split; [exact Z0 | ]. cbn [pcs]. intros j r' F. destruct (nth_upd_inv _ _ _ _ _ F) as [[_ ->] | [_ F']]; [reflexivity | ].
      rewrite nth_error_map in F'. destruct (nth_error (pcs s) j) as [x | ] eqn:G; cbn in F'; [ | discriminate].
      injection F' as <-. rewrite wake_changing. exact (C j x G).
    + cbn [pcs]. pose proof (nsum_upd rank _ _ Out _ E'). pose proof (nsum_map rank wake (pcs s) wake_rank). cbn [rank] in *. lia.
Qed.

Lemma settled_exec l : forall s s', steps_only l -> settled s -> exec s l = Some s' -> settled s' /\ length l + nsum rank (pcs s') <= nsum rank (pcs s).
Proof.
  induction l as [ | a l IH]; intros s s' L S H; cbn [exec] in H.
  - injection H as <-. split; [exact S | cbn; lia].
  - destruct (L a (or_introl eq_refl)) as [i ->]. destruct (step s (Step i)) as [ | | s1 r] eqn:E; try discriminate.
    destruct (settled_step s i s1 r S E) as [S1 R1].
    destruct (IH s1 s' (fun b B => L b (or_intror B)) S1 H) as [S2 R2]. split; [exact S2 | cbn [length]; lia].
Qed.

Lemma nsum_bound (l : list pc) : nsum rank l <= 3 * length l.
Proof. induction l as [ | p l IH]; cbn [nsum fold_right length]; [lia | ]. unfold nsum in IH. destruct p; cbn [rank]; lia. Qed.

(** In a settled state in which somebody is inside a call, somebody can go on. *)
Lemma settled_progress s b : inv s b -> settled s -> (exists i p, nth_error (pcs s) i = Some p /\ p <> Out) -> exists i s' r, step s (Step i) = Next s' r.
Proof.
  intros I [Z0 C] (i & p & E & N).
  assert (P : forall i p, nth_error (pcs s) i = Some p -> holds p = true \/ p = DNotify -> exists i s' r, step s (Step i) = Next s' r).
  { clear i p E N. intros i p E K. exists i. cbn [step]. rewrite E. pose proof (C i p E) as Cp.
    destruct p; cbn [holds changing] in K, Cp; destruct K as [K | K]; try discriminate; cbn [step_thread].
    - rewrite Z0. cbn. unfold unlock. eauto.
    - unfold unlock. eauto.
    - unfold unlock. eauto.
    - eauto. }
  destruct (owner s) as [o | ] eqn:W.
  - destruct (i_held _ _ I o W) as [q Q]. apply (P o q Q). left. apply (i_own _ _ I o q Q). exact W.
  - assert (L : forall i p, nth_error (pcs s) i = Some p -> p = WEnter \/ p = WWoken -> exists i s' r, step s (Step i) = Next s' r).
    { intros j q F K. exists j. cbn [step]. rewrite F. destruct K as [-> | ->]; cbn [step_thread]; unfold lock; rewrite W; eauto. }
    pose proof (C i p E) as Cp. pose proof (i_own _ _ I i p E) as O. rewrite W in O.
    destruct p; cbn [changing holds] in Cp, O; try discriminate; try congruence.
    + apply (L i WEnter E). auto.
    + exfalso. destruct O as [O _]. specialize (O eq_refl). discriminate.
    + destruct (i_wake _ _ I Z0 i E) as (m & q & M & [-> | ->]); [apply (P m _ M); auto | apply (P m _ M); auto].
    + apply (L i WWoken E). auto.
    + exfalso. destruct O as [O _]. specialize (O eq_refl). discriminate.
    + exfalso. destruct O as [O _]. specialize (O eq_refl). discriminate.
    + apply (P i _ E). auto.
Qed.

(** A count is what the calls make of it, once those that change it have done so. *)
Lemma count_is n l s : exec (start n) l = Some s -> (forall i p, nth_error (pcs s) i = Some p -> changing p = false) -> Z.of_nat (busy s) = balance l.
Proof.
  intros H C. pose proof (i_bal _ _ (inv_reach n l s H)) as B. rewrite zsum_zero in B; [lia | ].
  intros i p E. pose proof (C i p E) as Cp. destruct p; try discriminate; reflexivity.
Qed.

Lemma exec_app l1 : forall l2 s, exec s (l1 ++ l2) = match exec s l1 with Some s' => exec s' l2 | None => None end.
Proof. induction l1 as [ | a l1 IH]; intros l2 s; cbn [app exec]; [reflexivity | ]. destruct (step s a); try reflexivity. apply IH. Qed.
Lemma balance_app l1 l2 : balance (l1 ++ l2) = (balance l1 + balance l2)%Z.
Proof. induction l1 as [ | a l1 IH]; [reflexivity | ]. rewrite <- app_comm_cons, !balance_delta, IH. lia. Qed.
Lemma steps_balance l : steps_only l -> balance l = 0%Z.
Proof.
  induction l as [ | a l IH]; intro H; [reflexivity | ]. destruct (H a (or_introl eq_refl)) as [i ->]. cbn [balance].
  apply IH. intros b B. exact (H b (or_intror B)).
Qed.

Lemma exec_length l : forall s s', exec s l = Some s' -> length (pcs s') = length (pcs s).
Proof.
  assert (U : forall T (l : list T) i x, length (upd l i x) = length l).
  { intros T l0. induction l0 as [ | y l0 IH]; intros [ | i] x; cbn; auto. }
  assert (St : forall s a s' r, step s a = Next s' r -> length (pcs s') = length (pcs s)).
  { intros s a s' r H. destruct a; cbn [step] in H; destruct (nth_error (pcs s) i) as [p | ]; try discriminate; destruct p; try discriminate;
      cbn [step_thread] in H; unfold lock, unlock, put in H;
      repeat (match type of H with context [match ?x with _ => _ end] => destruct x; try discriminate end);
      injection H as <- _; cbn [pcs]; rewrite ?U, ?map_length; reflexivity. }
  induction l as [ | a l IH]; intros s s' H; cbn [exec] in H; [congruence | ].
  destruct (step s a) as [ | | s1 r] eqn:E; try discriminate. rewrite (IH _ _ H). exact (St _ _ _ _ E).
Qed.

Lemma waits_end n l s :
  exec (start n) l = Some s -> balance l = 0%Z -> (forall i p, nth_error (pcs s) i = Some p -> changing p = false) ->
  (forall l' s', steps_only l' -> exec s l' = Some s' ->
     length l' <= 3 * n /\ ((forall i s'' r, step s' (Step i) <> Next s'' r) -> forall i p, nth_error (pcs s') i = Some p -> p = Out)).
Proof.
  intros H B C l' s' L X. assert (Z0 : busy s = 0). { pose proof (count_is n l s H C). lia. }
  destruct (settled_exec l' s s' L (conj Z0 C) X) as [S' R]. split.
  - pose proof (nsum_bound (pcs s)). pose proof (exec_length _ _ _ H) as Ln. cbn [start pcs] in Ln. rewrite repeat_length in Ln. lia.
  - intros D i p E. assert (I : inv s' (balance (l ++ l'))). { apply (inv_reach n). rewrite exec_app, H. exact X. }
    destruct p; try reflexivity; exfalso;
      (destruct (settled_progress s' _ I S') as (m & s2 & r2 & K); [eexists; eexists; split; [exact E | discriminate] | exact (D m s2 r2 K)]).
Qed.

(** A call of [wait] returns only when the calls balance. *)
Lemma returns n l s i s' :
  exec (start n) l = Some s -> step s (Step i) = Next s' true -> nth_error (pcs s') i = Some Out /\ busy s = 0 /\ balance l = zsum pend (pcs s).
Proof.
  intros H X. cbn [step] in X. destruct (nth_error (pcs s) i) as [p | ] eqn:E; [ | discriminate].
  pose proof (i_bal _ _ (inv_reach n l s H)) as B.
  destruct p; cbn [step_thread] in X; unfold lock, unlock in X; try discriminate;
    repeat (match type of X with context [match ?x with _ => _ end] => destruct x eqn:?; try discriminate end).
  injection X as <-. apply Nat.eqb_eq in Heqb. cbn [pcs]. split; [exact (nth_upd_eq _ _ _ _ E) | split; [exact Heqb | lia]].
Qed.
