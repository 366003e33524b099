From Coq Require Import Lia.
From Verif Require Import Words EarrModel EarrProofs SparamProofs PoolModel PoolSpec PoolProofs PoolProofs2.
Local Open Scope nat_scope.

(** When the number of slots does not divide the number of values of [size_t], the position counter going round makes
    a new task overwrite a waiting one. *)
Section W.
  Context {A : Type}.
  Variables (M cap : nat) (u : A).
  Hypotheses (Hcap : 0 < cap) (HM : cap < M).
  Notation state := (@state A).

  Definition st (p b : nat) (sl : list (option A)) (e : nat) (o : option tid) (c : @cpc A) (z : nat) (w : @wpc A) : state :=
    {| queues := [{| q_front := p; q_back := b; q_enq := e; q_slots := sl; q_owner := o; q_term := false; q_alive := true |}];
       workers := [{| w_pc := w; w_term := false |}]; clients := [c]; busy := z; dying := false |}.
  Definition sz (p b : nat) : nat := (b + M - p) mod M.

  Lemma s_enq p b sl e z w ts : ts <> [] -> step M cap (st p b sl e None CIdle z w) (CEnq 0 0 ts) = Next (st p b sl 0 (Some (C 0)) (CCheck 0 ts) z w) [].
  Proof. destruct ts; [congruence|reflexivity]. Qed.
  Lemma s_room p b sl e o z w ts : length ts <= cap - sz p b -> step M cap (st p b sl e o (CCheck 0 ts) z w) (CRoom 0) = Next (st p b sl e o (CFill 0 [] ts) z w) [].
  Proof. intros H. cbn. unfold available, size. cbn. fold (sz p b). apply Nat.leb_le in H. rewrite H. reflexivity. Qed.
  Lemma s_acq p b sl e o z w d t ts : sz p b < cap -> step M cap (st p b sl e o (CFill 0 d (t :: ts)) z w) (CAcquire 0) = Next (st p ((b + 1) mod M) sl (e + 1) o (CCons 0 (b mod cap) d (t :: ts)) z w) [].
  Proof. intros H. cbn. unfold acquire, full, size. cbn. fold (sz p b). replace (cap <=? sz p b) with false by (symmetry; apply Nat.leb_gt; exact H). reflexivity. Qed.
  Lemma s_con p b sl e o z w k d t ts : nth_error sl k = Some None -> step M cap (st p b sl e o (CCons 0 k d (t :: ts)) z w) (CConstruct 0) = Next (st p b (upd sl k (Some t)) e o (CFill 0 (d ++ [t]) ts) z w) [EInsert 0 t].
  Proof. intros H. cbn. rewrite H. reflexivity. Qed.
  Lemma s_bad p b sl e o z w k d t ts x : nth_error sl k = Some (Some x) -> step M cap (st p b sl e o (CCons 0 k d (t :: ts)) z w) (CConstruct 0) = Bad.
  Proof. intros H. cbn. rewrite H. reflexivity. Qed.
  Lemma s_pub p b sl e o z w d x : e <> 0 -> nth_error sl (((p + (sz p b - 1)) mod M) mod cap) = Some (Some x) -> step M cap (st p b sl e o (CFill 0 d []) z w) (CPublish 0) = Next (st p b sl e o (CLeave 0) (z + e) w) [].
  Proof. intros H K. cbn. unfold size. cbn [q_back q_front]. fold (sz p b). rewrite K. destruct (Nat.eqb_spec e 0); [contradiction|reflexivity]. Qed.
  Lemma s_pop p b sl e o c z x : b <> p -> nth_error sl (p mod cap) = Some (Some x) -> step M cap (st p b sl e o c z (WLocked 0)) (WCheck 0) = Next (st ((p + 1) mod M) b (upd sl (p mod cap) None) e o c z (WGot 0 x)) [EPop 0 0 x].
  Proof. intros H K. cbn. unfold empty. cbn [q_back q_front]. destruct (Nat.eqb_spec b p); [contradiction|]. cbn [orb]. unfold pop_front. cbn [q_slots q_front]. rewrite K. reflexivity. Qed.

  Lemma s_unl p b sl e o z w : step M cap (st p b sl e o (CLeave 0) z w) (CUnlock 0) = Next (st p b sl e None CIdle z w) [].
  Proof. reflexivity. Qed.
  Lemma s_lock p b sl e c z : step M cap (st p b sl e None c z WIdle) (WLock 0 0) = Next (st p b sl e (Some (W 0)) c z (WLocked 0)) [].
  Proof. reflexivity. Qed.
  Lemma exec_cons (s : state) tr a l s1 es : step M cap s a = Next s1 es -> exec M cap s tr (a :: l) = exec M cap s1 (tr ++ es) l.
  Proof. intros H. cbn [exec]. rewrite H. reflexivity. Qed.

  Lemma sz_same p : p < M -> sz p p = 0.
  Proof. intros H. unfold sz. replace (p + M - p) with (0 + 1 * M) by lia. rewrite Nat.mod_add, Nat.mod_0_l by lia. reflexivity. Qed.
  Lemma sz_next p k : p < M -> k < M -> sz p ((p + k) mod M) = k.
  Proof.
    intros H K. unfold sz. destruct (lt_dec (p + k) M) as [C|C].
    - rewrite (Nat.mod_small (p + k)) by exact C. replace (p + k + M - p) with (k + 1 * M) by lia. rewrite Nat.mod_add, Nat.mod_small by lia. reflexivity.
    - replace ((p + k) mod M) with (p + k - M) by (apply (Nat.mod_unique _ _ 1); lia). replace (p + k - M + M - p) with k by lia. apply Nat.mod_small. exact K.
  Qed.
  Lemma upd_repeat (n k : nat) (x : option A) : upd (upd (repeat None n) k x) k None = repeat None n.
  Proof. revert k. induction n as [|n IH]; intros [|k]; cbn; try reflexivity. f_equal. apply IH. Qed.

  Definition cyc : list (@action A) :=
    [CEnq 0 0 [u]; CRoom 0; CAcquire 0; CConstruct 0; CPublish 0; CUnlock 0; WLock 0 0; WCheck 0; WUnlock 0; WInvoke 0; WDec 0; WDestroy 0].
  Lemma cycle p e tr : p + 1 < M -> exists e' tr', exec M cap (st p p (repeat None cap) e None CIdle 0 WIdle) tr cyc = Some (st (p + 1) (p + 1) (repeat None cap) e' None CIdle 0 WIdle, tr').
  Proof.
    intros H. unfold cyc. assert (S1 : sz p ((p + 1) mod M) = 1) by (apply sz_next; lia). rewrite (Nat.mod_small (p + 1)) in S1 by exact H.
    assert (P1 : nth_error (upd (repeat None cap) (p mod cap) (Some u)) (p mod cap) = Some (Some u)) by (apply upd_same; rewrite repeat_length; apply Nat.mod_upper_bound; lia).
    rewrite (exec_cons _ _ _ _ _ _ (s_enq _ _ _ _ _ _ [u] ltac:(discriminate))). erewrite (exec_cons _ _ (CRoom 0)); [|apply s_room; rewrite sz_same by lia; cbn; lia].
    erewrite (exec_cons _ _ (CAcquire 0)); [|apply s_acq; rewrite sz_same by lia; exact Hcap]. rewrite (Nat.mod_small (p + 1)) by exact H.
    erewrite (exec_cons _ _ (CConstruct 0)); [|apply s_con; apply nth_repeat_lt, Nat.mod_upper_bound; lia].
    erewrite (exec_cons _ _ (CPublish 0)); [|eapply s_pub; [lia|]; rewrite S1; cbn [Nat.sub]; rewrite Nat.add_0_r, (Nat.mod_small p M) by lia; exact P1].
    rewrite (exec_cons _ _ _ _ _ _ (s_unl _ _ _ _ _ _ _)), (exec_cons _ _ _ _ _ _ (s_lock _ _ _ _ _ _)).
    erewrite (exec_cons _ _ (WCheck 0)); [|apply s_pop; [lia|exact P1]]. rewrite (Nat.mod_small (p + 1)) by exact H. rewrite upd_repeat.
    do 3 eexists.
  Qed.
  Lemma cycles n : n < M -> exists l e tr, exec M cap (st 0 0 (repeat None cap) 0 None CIdle 0 WIdle) [] l = Some (st n n (repeat None cap) e None CIdle 0 WIdle, tr).
  Proof.
    induction n as [|n IH]; intros H; [exists [], 0, []; reflexivity|]. destruct (IH ltac:(lia)) as (l & e & tr & E). destruct (cycle n e tr ltac:(lia)) as (e' & tr' & E').
    exists (l ++ cyc), e', tr'. rewrite exec_app, E. cbn [fst snd]. rewrite E'. replace (n + 1) with (S n) by lia. reflexivity.
  Qed.

  (** From [front = back = M - 1]: the first [k] tasks of a batch of [r + 1]. *)
  Lemma batch r k : r = M mod cap -> 0 < k <= r -> forall e tr, exists l sl e' d tr' x,
    exec M cap (st (M - 1) (M - 1) (repeat None cap) e (Some (C 0)) (CFill 0 [] (repeat u (r + 1))) 0 WIdle) tr l =
      Some (st (M - 1) ((M - 1 + k) mod M) sl e' (Some (C 0)) (CFill 0 d (repeat u (r + 1 - k))) 0 WIdle, tr') /\
    length sl = cap /\ nth_error sl (r - 1) = Some (Some x) /\ forall j, k - 1 <= j < r - 1 -> nth_error sl j = Some None.
  Proof.
    intros Er Hk e tr. assert (Hr : r < cap) by (subst r; apply Nat.mod_upper_bound; lia).
    assert (D : (M - 1) mod cap = r - 1).
    { symmetry. apply (Nat.mod_unique _ _ (M / cap)); [lia|]. pose proof (Nat.div_mod M cap ltac:(lia)). lia. }
    induction k as [|k IH]; [lia|]. destruct (Nat.eq_dec k 0) as [->|N].
    - replace (r + 1) with (S r) by lia. change (repeat u (S r)) with (u :: repeat u r). do 4 eexists. exists (tr ++ [] ++ [EInsert 0 u]), u. split; [|split; [|split]].
      + instantiate (4 := [CAcquire 0; CConstruct 0]). erewrite (exec_cons _ _ (CAcquire 0)); [|apply s_acq; rewrite sz_same by lia; exact Hcap]. rewrite D.
        erewrite exec_cons; [|apply s_con; apply nth_repeat_lt; lia]. rewrite <- app_assoc. replace (S r - 1) with r by lia. reflexivity.
      + rewrite upd_length. apply repeat_length.
      + apply upd_same. rewrite repeat_length. lia.
      + intros j Hj. rewrite upd_other by lia. apply nth_repeat_lt. lia.
    - destruct (IH ltac:(lia)) as (l & sl & e' & d & tr' & x & E & L & N1 & N2). exists (l ++ [CAcquire 0; CConstruct 0]). do 4 eexists. exists x. split; [|split; [|split]].
      + rewrite exec_app, E. cbn [fst snd]. replace (r + 1 - k) with (S (r + 1 - S k)) by lia. cbn [repeat].
        erewrite (exec_cons _ _ (CAcquire 0)); [|apply s_acq; rewrite sz_next by lia; lia].
        assert (B : (M - 1 + k) mod M = k - 1) by (symmetry; apply (Nat.mod_unique _ _ 1); lia). rewrite B. rewrite (Nat.mod_small (k - 1) cap) by lia.
        erewrite exec_cons; [|apply s_con; apply N2; lia]. replace ((M - 1 + S k) mod M) with ((k - 1 + 1) mod M); [reflexivity|].
        rewrite (Nat.mod_small (k - 1 + 1)) by lia. apply (Nat.mod_unique _ _ 1); lia.
      + rewrite upd_length. exact L.
      + rewrite upd_other by lia. exact N1.
      + intros j Hj. rewrite upd_other by lia. apply N2. lia.
  Qed.

  Lemma overwrites : M mod cap <> 0 -> exists (s : state) tr, reachable M cap 1 1 s tr /\ step M cap s (CConstruct 0) = Bad.
  Proof.
    intros H. set (r := M mod cap) in *. assert (Hr : r < cap) by (apply Nat.mod_upper_bound; lia).
    destruct (cycles (M - 1) ltac:(lia)) as (l & e & tr & E).
    destruct (batch r r eq_refl ltac:(lia) 0 ((tr ++ []) ++ [])) as (l2 & sl & e2 & d & tr2 & x & E2 & L2 & N1 & _).
    exists (st (M - 1) (((M - 1 + r) mod M + 1) mod M) sl (e2 + 1) (Some (C 0)) (CCons 0 (((M - 1 + r) mod M) mod cap) d (repeat u (r + 1 - r))) 0 WIdle), (tr2 ++ []). split.
    - exists (l ++ [CEnq 0 0 (repeat u (r + 1)); CRoom 0] ++ l2 ++ [CAcquire 0]). rewrite exec_app.
      change (init cap 1 1) with (st 0 0 (repeat None cap) 0 None CIdle 0 WIdle). rewrite E. cbn [fst snd].
      rewrite exec_app. erewrite (exec_cons _ _ (CEnq 0 0 _)); [|apply s_enq; replace (r + 1) with (S r) by lia; discriminate].
      erewrite (exec_cons _ _ (CRoom 0)); [|apply s_room; rewrite repeat_length, sz_same by lia; lia]. cbn [exec fst snd].
      rewrite exec_app, E2. cbn [fst snd]. replace (r + 1 - r) with 1 by lia. cbn [repeat]. erewrite exec_cons; [|apply s_acq; rewrite sz_next by lia; lia]. reflexivity.
    - replace (r + 1 - r) with 1 by lia. cbn [repeat]. apply s_bad with (x := x).
      replace ((M - 1 + r) mod M) with (r - 1) by (apply (Nat.mod_unique _ _ 1); lia). rewrite Nat.mod_small by lia. exact N1.
  Qed.
End W.
