From Coq Require Import Lia.
From Verif Require Import Words EarrModel EarrProofs SpinModel SpinSpec.
Local Open Scope nat_scope.

(* ---------------------------------------------------------------- insertion *)
Lemma insert_length {A} (l : list A) p x : p <= length l -> length (insert l p x) = S (length l).
Proof. intros H. unfold insert. rewrite app_length, firstn_length. cbn. rewrite skipn_length. lia. Qed.
Lemma insert_at {A} (l : list A) p x : p <= length l -> nth_error (insert l p x) p = Some x.
Proof. intros H. unfold insert. rewrite nth_error_app2; rewrite firstn_length; [|lia]. replace (p - min p (length l)) with 0 by lia. reflexivity. Qed.
Lemma insert_lo {A} (l : list A) p x k : k < p -> p <= length l -> nth_error (insert l p x) k = nth_error l k.
Proof.
  intros H1 H2. unfold insert. rewrite nth_error_app1 by (rewrite firstn_length; lia).
  revert p k H1 H2. induction l as [|y l IH]; intros [|p] [|k] H1 H2; cbn in *; try lia; [reflexivity|]. apply IH; lia.
Qed.
Lemma nth_skip {A} (l : list A) : forall p k, nth_error (skipn p l) k = nth_error l (p + k).
Proof. induction l as [|y l IH]; intros [|p] k; cbn; [reflexivity| |reflexivity|apply IH]. destruct k; reflexivity. Qed.
Lemma insert_hi {A} (l : list A) p x k : p <= k -> p <= length l -> nth_error (insert l p x) (S k) = nth_error l k.
Proof.
  intros H1 H2. unfold insert. rewrite nth_error_app2 by (rewrite firstn_length; lia). rewrite firstn_length.
  replace (S k - min p (length l)) with (S (k - p)) by lia. cbn [nth_error]. rewrite nth_skip. f_equal. lia.
Qed.
Lemma insert_end {A} (l : list A) x : insert l (length l) x = l ++ [x].
Proof. unfold insert. rewrite firstn_all, skipn_all. reflexivity. Qed.

(* ---------------------------------------------------------------- invariant *)
Definition is_rmw (s : state) (k : nat) : Prop := exists m, nth_error (msgs s) k = Some m /\ m_rmw m = true.
Definition is_plain (s : state) (k : nat) : Prop := exists m, nth_error (msgs s) k = Some m /\ m_rmw m = false.

Record Inv (s : state) : Prop := {
  inv_ne : 0 < length (msgs s);
  inv_val : forall k m, nth_error (msgs s) k = Some m -> m_val m = m_rmw m;
  inv_next : forall k m, nth_error (msgs s) k = Some m -> m_rmw m = false -> S k < length (msgs s) ->
             exists m', nth_error (msgs s) (S k) = Some m' /\ m_rmw m' = true;
  inv_pos : forall i t, nth_error (threads s) i = Some t -> t_pos t < length (msgs s);
  inv_one : forall i j ti tj, nth_error (threads s) i = Some ti -> nth_error (threads s) j = Some tj ->
            t_pc ti = Held -> t_pc tj = Held -> i = j;
  inv_held : forall i t, nth_error (threads s) i = Some t -> t_pc t = Held ->
             t_view t = accesses s /\ forall k m, t_pos t <= k -> nth_error (msgs s) k = Some m -> m_rmw m = true;
  inv_free : (forall i t, nth_error (threads s) i = Some t -> t_pc t <> Held) ->
             exists m, nth_error (msgs s) (length (msgs s) - 1) = Some m /\ m_rmw m = false /\ m_view m = accesses s;
  inv_views : forall i t, nth_error (threads s) i = Some t -> t_view t <= accesses s;
  inv_mviews : forall k m, nth_error (msgs s) k = Some m -> m_view m <= accesses s
}.

Lemma init_inv n : Inv (init n).
Proof.
  assert (E : forall i t, nth_error (repeat {| t_pc := Idle; t_pos := 0; t_view := 0 |} n) i = Some t -> t = {| t_pc := Idle; t_pos := 0; t_view := 0 |}).
  { intros i t H. apply nth_error_In in H. symmetry. symmetry. exact (repeat_spec _ _ _ H). }
  split; cbn [init msgs threads accesses length].
  - lia.
  - intros [|[|k]] m; cbn; intros H; inversion H; reflexivity.
  - intros [|[|k]] m; cbn; intros H; inversion H; intros; lia.
  - intros i t H. rewrite (E _ _ H). cbn. lia.
  - intros i j ti tj H. rewrite (E _ _ H). cbn. discriminate.
  - intros i t H. rewrite (E _ _ H). cbn. discriminate.
  - intros _. cbn. eexists. split; [reflexivity|]. split; reflexivity.
  - intros i t H. rewrite (E _ _ H). cbn. lia.
  - intros [|[|k]] m; cbn; intros H; inversion H; cbn; lia.
Qed.

(* -------------------------------------------- a thread moves, memory unchanged *)
Lemma set_inv s i t p pos : Inv s -> nth_error (threads s) i = Some t -> t_pc t <> Held -> p <> Held -> pos < length (msgs s) ->
  Inv (set s i (goto t p pos (t_view t))).
Proof.
  intros I Ht N1 N2 L. pose proof (nth_len _ _ _ Ht) as Li.
  assert (OLD : forall j tj, nth_error (upd (threads s) i (goto t p pos (t_view t))) j = Some tj -> t_pc tj = Held -> nth_error (threads s) j = Some tj).
  { intros j tj H E. apply upd_cases in H. destruct H as [[-> ->]|[_ H]]; [cbn in E; congruence|exact H]. }
  destruct I as [A B C D E F G V M]. split; cbn [set msgs threads accesses].
  - exact A.
  - exact B.
  - exact C.
  - intros j tj H. apply upd_cases in H. destruct H as [[-> ->]|[_ H]]; [exact L|eapply D; exact H].
  - intros j k tj tk H1 H2 E1 E2. eapply E; eauto.
  - intros j tj H1 E1. eapply F; eauto.
  - intros H. apply G. intros j tj H1 E1. destruct (Nat.eq_dec i j) as [->|NE].
    + rewrite Ht in H1. injection H1 as <-. congruence.
    + apply (H j tj); [|exact E1]. rewrite upd_other by exact NE. exact H1.
  - intros j tj H. apply upd_cases in H. destruct H as [[-> ->]|[_ H]]; [cbn; eapply V; exact Ht|eapply V; exact H].
  - exact M.
Qed.

(* ---------------------------------------------------------------- exchange *)
Lemma can_place_spec l pos p : can_place l pos p = true -> pos < p /\ p <= length l /\ forall m, nth_error l p = Some m -> m_rmw m = false.
Proof.
  unfold can_place. intros H. apply andb_prop in H. destruct H as [H X]. apply andb_prop in H. destruct H as [H1 H2].
  apply Nat.ltb_lt in H1. apply Nat.leb_le in H2. repeat split; try assumption. intros m E. rewrite E in X. destruct (m_rmw m); [discriminate|reflexivity].
Qed.

Lemma shift_nth p l i t' : nth_error (map (shift p) l) i = Some t' -> exists t, nth_error l i = Some t /\ t' = shift p t.
Proof. rewrite nth_error_map. destruct (nth_error l i) as [t|]; [|discriminate]. intros [= <-]. exists t. split; reflexivity. Qed.

Lemma exchange_inv s i t r won_lost lost s' : won_lost = Held -> lost <> Held -> Inv s -> nth_error (threads s) i = Some t -> t_pc t <> Held ->
  exchange s i t r won_lost lost = Next s' -> Inv s'.
Proof.
  intros -> NL I Ht NH. unfold exchange. destruct (nth_error (msgs s) r) as [m|] eqn:Hm; [|discriminate].
  destruct (t_pos t <=? r) eqn:P; cbn [negb orb]; [|discriminate]. apply Nat.leb_le in P.
  destruct (can_place (msgs s) r (S r)) eqn:CP; cbn [negb]; [|discriminate]. apply can_place_spec in CP. destruct CP as [_ [LE NX]].
  intros [= <-]. destruct I as [A B C D E F G V M].
  set (w := {| m_val := true; m_rmw := true; m_view := m_view m |}). set (l' := insert (msgs s) (S r) w).
  assert (LEN : length l' = S (length (msgs s))) by (apply insert_length; exact LE).
  assert (LO : forall k, k < S r -> nth_error l' k = nth_error (msgs s) k) by (intros k Hk; apply insert_lo; assumption).
  assert (HI : forall k, S r <= k -> nth_error l' (S k) = nth_error (msgs s) k) by (intros k Hk; apply insert_hi; assumption).
  assert (AT : nth_error l' (S r) = Some w) by (apply insert_at; exact LE).
  (* every old message is in the new list *)
  assert (CASES : forall k x, nth_error l' k = Some x -> (k <= r /\ nth_error (msgs s) k = Some x) \/ (k = S r /\ x = w) \/ (exists k', k = S k' /\ S r <= k' /\ nth_error (msgs s) k' = Some x)).
  { intros k x H. destruct (le_lt_dec k r) as [L|L]; [left; split; [exact L|rewrite <- LO by lia; exact H]|right].
    destruct (Nat.eq_dec k (S r)) as [->|NE]; [left; split; [reflexivity|congruence]|right]. exists (k - 1). repeat split; [lia|lia|].
    rewrite <- HI by lia. replace (S (k - 1)) with k by lia. exact H. }
  pose proof (nth_len _ _ _ Ht) as Li.
  assert (TH : forall j tj, nth_error (upd (map (shift (S r)) (threads s)) i (goto t (if m_val m then lost else Held) (S r) (max (t_view t) (m_view m)))) j = Some tj ->
     (j = i /\ tj = goto t (if m_val m then lost else Held) (S r) (max (t_view t) (m_view m))) \/ (j <> i /\ exists t0, nth_error (threads s) j = Some t0 /\ tj = shift (S r) t0)).
  { intros j tj H. apply upd_cases in H. destruct H as [[-> ->]|[N H]]; [left; split; reflexivity|right]. split; [congruence|]. apply shift_nth. exact H. }
  assert (NEWI : nth_error (upd (map (shift (S r)) (threads s)) i (goto t (if m_val m then lost else Held) (S r) (max (t_view t) (m_view m)))) i = Some (goto t (if m_val m then lost else Held) (S r) (max (t_view t) (m_view m)))).
  { apply upd_same. rewrite map_length. exact Li. }
  (* if the exchange succeeds it reads the newest message and the mutex was free *)
  assert (WIN : m_val m = false -> S r = length (msgs s) /\ (forall j tj, nth_error (threads s) j = Some tj -> t_pc tj <> Held) /\ m_view m = accesses s).
  { intros W. pose proof (B _ _ Hm) as R. rewrite W in R. symmetry in R.
    assert (S r = length (msgs s)) as EQ.
    { destruct (Nat.eq_dec (S r) (length (msgs s))) as [Q|Q]; [exact Q|]. destruct (C _ _ Hm R) as (m' & Hm' & R'); [lia|]. rewrite (NX _ Hm') in R'. discriminate. }
    split; [exact EQ|].
    assert (FR : forall j tj, nth_error (threads s) j = Some tj -> t_pc tj <> Held).
    { intros j tj Hj Hh. destruct (F _ _ Hj Hh) as [_ X]. rewrite (X r m) in R; [discriminate| |exact Hm]. pose proof (D _ _ Hj). lia. }
    split; [exact FR|]. destruct (G FR) as (m' & Hm' & _ & V'). replace (length (msgs s) - 1) with r in Hm' by lia. congruence. }
  split; cbn [msgs threads accesses]; fold w l'.
  - lia.
  - intros k x H. destruct (CASES _ _ H) as [[_ H']|[[_ ->]|(k' & _ & _ & H')]]; [eapply B; exact H'|reflexivity|eapply B; exact H'].
  - intros k x H R L. destruct (CASES _ _ H) as [[K H']|[[-> ->]|(k' & -> & K & H')]].
    + destruct (Nat.eq_dec k r) as [->|NE]; [exists w; split; [exact AT|reflexivity]|].
      destruct (C _ _ H' R) as (m' & H2 & R2); [pose proof (nth_len _ _ _ Hm); lia|]. exists m'. split; [rewrite LO by lia; exact H2|exact R2].
    + cbn in R. discriminate.
    + destruct (C _ _ H' R) as (m' & H2 & R2); [lia|]. exists m'. split; [rewrite HI by lia; exact H2|exact R2].
  - intros j tj H. destruct (TH _ _ H) as [[-> ->]|(N & t0 & H0 & ->)]; [cbn [goto t_pos]; pose proof (nth_len _ _ _ Hm); lia|].
    pose proof (D _ _ H0). unfold shift; cbn [t_pos]. destruct (S r <=? t_pos t0); lia.
  - intros j k tj tk H1 H2 E1 E2. destruct (TH _ _ H1) as [[-> ->]|(N1 & t1 & H1' & ->)]; destruct (TH _ _ H2) as [[-> ->]|(N2 & t2 & H2' & ->)]; cbn [goto shift t_pc] in *.
    + reflexivity.
    + destruct (m_val m) eqn:W; [congruence|]. destruct (WIN eq_refl) as (_ & FR & _). exfalso. exact (FR _ _ H2' E2).
    + destruct (m_val m) eqn:W; [congruence|]. destruct (WIN eq_refl) as (_ & FR & _). exfalso. exact (FR _ _ H1' E1).
    + eapply E; eauto.
  - intros j tj H Hh. destruct (TH _ _ H) as [[-> ->]|(N & t0 & H0 & ->)]; cbn [goto shift t_pc t_view t_pos] in *.
    + destruct (m_val m) eqn:W; [congruence|]. destruct (WIN eq_refl) as (EQ & FR & VW). pose proof (V _ _ Ht). split; [lia|].
      intros k x K Hk. destruct (CASES _ _ Hk) as [[K' H']|[[_ ->]|(k' & -> & K' & H')]]; [lia|reflexivity|]. pose proof (nth_len _ _ _ H'). lia.
    + destruct (F _ _ H0 Hh) as [VV X]. split; [exact VV|]. intros k x K Hk.
      destruct (CASES _ _ Hk) as [[K' H']|[[_ ->]|(k' & -> & K' & H')]].
      * apply (X k); [|exact H']. revert K. destruct (S r <=? t_pos t0) eqn:Q; [apply Nat.leb_le in Q|apply Nat.leb_gt in Q]; lia.
      * reflexivity.
      * apply (X k'); [|exact H']. revert K. destruct (S r <=? t_pos t0) eqn:Q; [apply Nat.leb_le in Q|apply Nat.leb_gt in Q]; lia.
  - intros H. assert (W : m_val m = true). { destruct (m_val m) eqn:W; [reflexivity|]. exfalso. exact (H _ _ NEWI eq_refl). }
    assert (FR : forall j tj, nth_error (threads s) j = Some tj -> t_pc tj <> Held).
    { intros j tj Hj Hh. destruct (Nat.eq_dec j i) as [->|NE]; [rewrite Ht in Hj; injection Hj as <-; congruence|].
      apply (H j (shift (S r) tj)); [|exact Hh]. rewrite upd_other by congruence. rewrite nth_error_map, Hj. reflexivity. }
    destruct (G FR) as (m' & Hm' & R' & V').
    assert (S r < length (msgs s)).
    { destruct (Nat.eq_dec (S r) (length (msgs s))) as [Q|Q]; [|lia]. replace (length (msgs s) - 1) with r in Hm' by lia. rewrite Hm in Hm'. injection Hm' as <-. rewrite (B _ _ Hm) in W. congruence. }
    exists m'. split; [|split; assumption]. rewrite LEN. replace (S (length (msgs s)) - 1) with (S (length (msgs s) - 1)) by lia. rewrite HI by lia. exact Hm'.
  - intros j tj H. destruct (TH _ _ H) as [[-> ->]|(N & t0 & H0 & ->)]; cbn [goto shift t_view]; [pose proof (V _ _ Ht); pose proof (M _ _ Hm); lia|eapply V; exact H0].
  - intros k x H. destruct (CASES _ _ H) as [[_ H']|[[_ ->]|(k' & _ & _ & H')]]; [eapply M; exact H'|cbn; eapply M; exact Hm|eapply M; exact H'].
Qed.

(* ---------------------------------------------------------------- unlock *)
Lemma unlock_place s i t p : Inv s -> nth_error (threads s) i = Some t -> t_pc t = Held -> can_place (msgs s) (t_pos t) p = true -> p = length (msgs s).
Proof.
  intros I Ht Hh CP. apply can_place_spec in CP. destruct CP as (L1 & L2 & X). destruct (Nat.eq_dec p (length (msgs s))) as [E|E]; [exact E|].
  destruct (nth_error (msgs s) p) as [m|] eqn:Hm; [|apply nth_error_None in Hm; lia]. destruct (inv_held _ I _ _ Ht Hh) as [_ Y].
  specialize (Y p m ltac:(lia) Hm). rewrite (X _ eq_refl) in Y. discriminate.
Qed.

Lemma unlock_inv s i t : Inv s -> nth_error (threads s) i = Some t -> t_pc t = Held ->
  Inv {| msgs := insert (msgs s) (length (msgs s)) {| m_val := false; m_rmw := false; m_view := t_view t |};
         threads := upd (map (shift (length (msgs s))) (threads s)) i (goto t Idle (length (msgs s)) (t_view t)); accesses := accesses s |}.
Proof.
  intros I Ht Hh. rewrite insert_end. set (w := {| m_val := false; m_rmw := false; m_view := t_view t |}). destruct I as [A B C D E F G V M].
  destruct (F _ _ Ht Hh) as [VT RM]. pose proof (nth_len _ _ _ Ht) as Li. set (n := length (msgs s)) in *.
  assert (CASES : forall k x, nth_error (msgs s ++ [w]) k = Some x -> (k < n /\ nth_error (msgs s) k = Some x) \/ (k = n /\ x = w)).
  { intros k x H. destruct (lt_dec k n) as [L|L]; [left; split; [exact L|]; rewrite nth_error_app1 in H by exact L; exact H|right].
    rewrite nth_error_app2 in H by (unfold n in L; lia). pose proof (nth_len _ _ _ H) as Q. cbn in Q. replace (k - length (msgs s)) with 0 in H by lia. cbn in H. split; [unfold n; lia|congruence]. }
  assert (SH : map (shift n) (threads s) = threads s).
  { rewrite <- (map_id (threads s)) at 2. apply map_ext_in. intros x Hx. apply In_nth_error in Hx. destruct Hx as [j Hj]. pose proof (D _ _ Hj) as Q.
    unfold shift. destruct (n <=? t_pos x) eqn:Z; [apply Nat.leb_le in Z; unfold n in Z; lia|]. destruct x; reflexivity. }
  rewrite SH.
  assert (TH : forall j tj, nth_error (upd (threads s) i (goto t Idle n (t_view t))) j = Some tj -> (j = i /\ tj = goto t Idle n (t_view t)) \/ (j <> i /\ nth_error (threads s) j = Some tj)).
  { intros j tj H. apply upd_cases in H. destruct H as [[-> ->]|[N H]]; [left; split; reflexivity|right; split; [congruence|exact H]]. }
  assert (NOH : forall j tj, nth_error (upd (threads s) i (goto t Idle n (t_view t))) j = Some tj -> t_pc tj = Held -> False).
  { intros j tj H Hj. destruct (TH _ _ H) as [[-> ->]|[N H0]]; [discriminate Hj|]. apply N. eapply E; eauto. }
  split; cbn [msgs threads accesses].
  - rewrite app_length. cbn. lia.
  - intros k x H. destruct (CASES _ _ H) as [[_ H']|[_ ->]]; [eapply B; exact H'|reflexivity].
  - intros k x H R L. rewrite app_length in L. cbn in L. destruct (CASES _ _ H) as [[K H']|[-> ->]]; [|fold n in L; lia].
    destruct (Nat.eq_dec (S k) n) as [Q|Q].
    + (* the last old message is rmw *) exfalso. pose proof (D _ _ Ht). rewrite (RM k x) in R; [discriminate| |exact H']. fold n in H0. lia.
    + destruct (C _ _ H' R) as (m' & H2 & R2); [fold n; lia|]. exists m'. split; [|exact R2]. rewrite nth_error_app1 by (fold n; lia). exact H2.
  - intros j tj H. rewrite app_length. cbn. destruct (TH _ _ H) as [[-> ->]|[N H0]]; [cbn [goto t_pos]; unfold n; lia|]. pose proof (D _ _ H0). lia.
  - intros j k tj tk H1 H2 E1 E2. exfalso. exact (NOH _ _ H1 E1).
  - intros j tj H1 E1. exfalso. exact (NOH _ _ H1 E1).
  - intros _. exists w. rewrite app_length. cbn [length]. replace (length (msgs s) + 1 - 1) with (length (msgs s)) by lia. rewrite nth_app_mid. repeat split. cbn. exact VT.
  - intros j tj H. destruct (TH _ _ H) as [[-> ->]|[N H0]]; [cbn; lia|eapply V; exact H0].
  - intros k x H. destruct (CASES _ _ H) as [[_ H']|[_ ->]]; [eapply M; exact H'|cbn; lia].
Qed.

Lemma access_inv s i t : Inv s -> nth_error (threads s) i = Some t -> t_pc t = Held ->
  Inv {| msgs := msgs s; threads := upd (threads s) i (goto t Held (t_pos t) (S (accesses s))); accesses := S (accesses s) |}.
Proof.
  intros I Ht Hh. destruct I as [A B C D E F G V M]. pose proof (nth_len _ _ _ Ht) as Li.
  assert (TH : forall j tj, nth_error (upd (threads s) i (goto t Held (t_pos t) (S (accesses s)))) j = Some tj -> (j = i /\ tj = goto t Held (t_pos t) (S (accesses s))) \/ (j <> i /\ nth_error (threads s) j = Some tj)).
  { intros j tj H. apply upd_cases in H. destruct H as [[-> ->]|[N H]]; [left; split; reflexivity|right; split; [congruence|exact H]]. }
  split; cbn [msgs threads accesses]; try assumption.
  - intros j tj H. destruct (TH _ _ H) as [[-> ->]|[N H0]]; [cbn; eapply D; exact Ht|eapply D; exact H0].
  - intros j k tj tk H1 H2 E1 E2. destruct (TH _ _ H1) as [[-> ->]|[N1 H1']]; destruct (TH _ _ H2) as [[-> ->]|[N2 H2']].
    + reflexivity.
    + eapply E; eauto.
    + eapply E; eauto.
    + eapply E; eauto.
  - intros j tj H1 E1. destruct (TH _ _ H1) as [[-> ->]|[N1 H1']].
    + cbn. split; [reflexivity|]. apply (F _ _ Ht Hh).
    + exfalso. apply N1. eapply E; eauto.
  - intros H. exfalso. apply (H i (goto t Held (t_pos t) (S (accesses s)))); [|reflexivity]. apply upd_same. exact Li.
  - intros j tj H. destruct (TH _ _ H) as [[-> ->]|[N H0]]; [cbn; lia|]. pose proof (V _ _ H0). lia.
  - intros k x H. pose proof (M _ _ H). lia.
Qed.

(* ---------------------------------------------------------------- all steps *)
Lemma load_inv s i t r a b s' : Inv s -> nth_error (threads s) i = Some t -> t_pc t <> Held -> a <> Held -> b <> Held -> load s i t r a b = Next s' -> Inv s'.
Proof.
  intros I Ht NH Na Nb. unfold load. destruct (nth_error (msgs s) r) as [m|] eqn:Hm; [|discriminate]. destruct (t_pos t <=? r); [|discriminate].
  intros [= <-]. apply set_inv; [exact I|exact Ht|exact NH| |exact (nth_len _ _ _ Hm)]. destruct (m_val m); assumption.
Qed.

Lemma step_inv s i a s' : Inv s -> step s i a = Next s' -> Inv s'.
Proof.
  intros I. unfold step. destruct (nth_error (threads s) i) as [t|] eqn:Ht; [|discriminate]. pose proof (inv_pos _ I _ _ Ht) as P.
  destruct (t_pc t) eqn:PC; destruct a as [| |r|r|p|]; try discriminate.
  - intros [= <-]. apply set_inv; try assumption; congruence.
  - intros [= <-]. apply set_inv; try assumption; congruence.
  - apply exchange_inv; try assumption; try congruence; reflexivity.
  - apply load_inv; try assumption; congruence.
  - apply load_inv; try assumption; congruence.
  - apply exchange_inv; try assumption; try congruence; reflexivity.
  - destruct (can_place (msgs s) (t_pos t) p) eqn:CP; [|discriminate]. pose proof (unlock_place _ _ _ _ I Ht PC CP) as ->. intros [= <-]. apply unlock_inv; assumption.
  - destruct (t_view t =? accesses s); [|discriminate]. intros [= <-]. apply access_inv; assumption.
Qed.

Lemma steps_inv tr : forall s s', Inv s -> steps s tr = Some s' -> Inv s'.
Proof.
  induction tr as [|[i a] tr IH]; intros s s' I H; cbn in H; [congruence|]. destruct (step s i a) as [| |s1] eqn:E; try discriminate.
  eapply IH; [|exact H]. eapply step_inv; eassumption.
Qed.
Lemma reachable_inv n s : reachable n s -> Inv s.
Proof. intros [tr H]. eapply steps_inv; [apply init_inv|exact H]. Qed.

Lemma no_race s i a : Inv s -> step s i a <> Race.
Proof.
  intros I. unfold step. destruct (nth_error (threads s) i) as [t|] eqn:Ht; [|discriminate].
  destruct (t_pc t) eqn:PC; destruct a as [| |r|r|p|]; try discriminate; unfold exchange, load.
  1-4: destruct (nth_error (msgs s) r); [|discriminate].
  1,4: match goal with |- context [if ?c then _ else _] => destruct c end; discriminate.
  1,2: destruct (t_pos t <=? r); discriminate.
  - destruct (can_place _ _ _); discriminate.
  - destruct (inv_held _ I _ _ Ht PC) as [-> _]. rewrite Nat.eqb_refl. discriminate.
Qed.

Lemma free_last s : Inv s -> free s -> exists m, nth_error (msgs s) (newest s) = Some m /\ m_val m = false.
Proof.
  intros I FR. destruct (inv_free _ I) as (m & Hm & R & _).
  - intros i t Ht Hh. apply (FR i). exists t. split; assumption.
  - exists m. split; [exact Hm|]. rewrite (inv_val _ I _ _ Hm). exact R.
Qed.
Lemma held_last s i : Inv s -> holds s i -> exists m, nth_error (msgs s) (newest s) = Some m /\ m_val m = true.
Proof.
  intros I (t & Ht & Hh). destruct (inv_held _ I _ _ Ht Hh) as [_ X]. pose proof (inv_ne _ I) as NE. pose proof (inv_pos _ I _ _ Ht) as P.
  destruct (nth_error (msgs s) (newest s)) as [m|] eqn:Hm; [|apply nth_error_None in Hm; unfold newest in Hm; lia].
  exists m. split; [reflexivity|]. rewrite (inv_val _ I _ _ Hm). apply (X (newest s)); [unfold newest; lia|exact Hm].
Qed.

Lemma exchange_newest s i t w l : Inv s -> nth_error (threads s) i = Some t ->
  exists m s', nth_error (msgs s) (newest s) = Some m /\ exchange s i t (newest s) w l = Next s' /\
    exists t', nth_error (threads s') i = Some t' /\ t_pc t' = if m_val m then l else w.
Proof.
  intros I Ht. pose proof (inv_ne _ I) as NE. pose proof (inv_pos _ I _ _ Ht) as P. unfold exchange.
  destruct (nth_error (msgs s) (newest s)) as [m|] eqn:Hm; [|apply nth_error_None in Hm; unfold newest in Hm; lia].
  replace (t_pos t <=? newest s) with true by (symmetry; apply Nat.leb_le; unfold newest; lia).
  replace (can_place (msgs s) (newest s) (S (newest s))) with true.
  - cbn [negb orb]. eexists _, _. split; [reflexivity|]. split; [reflexivity|]. cbn [threads]. eexists. split; [apply upd_same; rewrite map_length; exact (nth_len _ _ _ Ht)|]. reflexivity.
  - symmetry. unfold can_place. replace (newest s <? S (newest s)) with true by (symmetry; apply Nat.ltb_lt; lia).
    replace (S (newest s) <=? length (msgs s)) with true by (symmetry; apply Nat.leb_le; unfold newest; lia).
    replace (nth_error (msgs s) (S (newest s))) with (@None msg); [reflexivity|]. symmetry. apply nth_error_None. unfold newest. lia.
Qed.
Lemma load_newest s i t a b : Inv s -> nth_error (threads s) i = Some t ->
  exists m, nth_error (msgs s) (newest s) = Some m /\ load s i t (newest s) a b = Next (set s i (goto t (if m_val m then a else b) (newest s) (t_view t))).
Proof.
  intros I Ht. pose proof (inv_ne _ I) as NE. pose proof (inv_pos _ I _ _ Ht) as P. unfold load.
  destruct (nth_error (msgs s) (newest s)) as [m|] eqn:Hm; [|apply nth_error_None in Hm; unfold newest in Hm; lia].
  replace (t_pos t <=? newest s) with true by (symmetry; apply Nat.leb_le; unfold newest; lia). exists m. split; reflexivity.
Qed.
