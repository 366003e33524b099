(** The Taylor series of sine and cosine, their tails, and how rounding errors add up when the sums are computed term by term. *)
From Coq Require Import ZArith Reals Lra Lia.
Local Open Scope R_scope.

Section Series.
  Variable a : Z.
  Hypothesis a_pos : (1 <= a)%Z.
  Variable x sg : R.
  Definition d (k : nat) : R := IZR ((2 * Z.of_nat k + a) * (2 * Z.of_nat k + a + 1)).
  Definition q (k : nat) : R := x * x / d k.
  Fixpoint T (k : nat) : R := match k with O => sg | S k => - (T k * q k) end.
  Definition A (k : nat) : R := Rabs (T k).
  Definition Sum (k : nat) : R := sum_f_R0 T k.

  Lemma d_pos k : 2 <= d k.
  Proof using a_pos. unfold d. apply IZR_le. nia. Qed.
  Lemma q_nonneg k : 0 <= q k.
  Proof using a_pos. unfold q. pose proof (d_pos k). apply Rmult_le_pos; [nra|]. apply Rlt_le, Rinv_0_lt_compat. lra. Qed.
  Lemma A_nonneg k : 0 <= A k. Proof using. apply Rabs_pos. Qed.
  Lemma A_S k : A (S k) = A k * q k.
  Proof using a_pos. unfold A. cbn [T]. rewrite Rabs_Ropp, Rabs_mult. f_equal. apply Rabs_pos_eq, q_nonneg. Qed.

  Variable p r : nat -> R.
  Hypothesis p_nonneg : forall k, 0 <= p k.
  Hypothesis r_nonneg : forall k, 0 <= r k.
  Hypothesis p_ok : forall k, q k * (1 + p (S k)) <= p k.
  Hypothesis r_ok : forall k, q k * (INR (S k) + r (S k)) <= r k.

  Lemma sum_step k : A (S k) * (1 + p (S k)) <= A k * p k.
  Proof using a_pos p_ok. rewrite A_S, Rmult_assoc. apply Rmult_le_compat_l; [apply A_nonneg|apply p_ok]. Qed.
  Lemma sum_A k : sum_f_R0 A k + p k * A k <= (1 + p O) * Rabs sg.
  Proof using a_pos p_ok.
    induction k as [|k IH]; [unfold A; cbn; lra|]. cbn [sum_f_R0]. pose proof (sum_step k). lra.
  Qed.
  Lemma sum_jA k : sum_f_R0 (fun j => INR j * A j) k + r k * A k <= r O * Rabs sg.
  Proof using a_pos r_ok.
    induction k as [|k IH]; [unfold A; cbn; lra|]. cbn [sum_f_R0].
    assert (H : A (S k) * (INR (S k) + r (S k)) <= A k * r k).
    { rewrite A_S, Rmult_assoc. apply Rmult_le_compat_l; [apply A_nonneg|apply r_ok]. }
    lra.
  Qed.
  Lemma Sum_bound k : Rabs (Sum k) <= (1 + p O) * Rabs sg.
  Proof using a_pos p_ok p_nonneg.
    apply Rle_trans with (sum_f_R0 A k); [apply Rsum_abs|]. pose proof (sum_A k).
    pose proof (Rmult_le_pos _ _ (p_nonneg k) (A_nonneg k)). lra.
  Qed.
  Lemma sum_diff k n : Rabs (Sum (k + n) - Sum k) + p (k + n)%nat * A (k + n) <= p k * A k.
  Proof using a_pos p_ok.
    induction n as [|n IH].
    - rewrite Nat.add_0_r. rewrite Rminus_diag_eq by reflexivity. rewrite Rabs_R0. lra.
    - rewrite Nat.add_succ_r. change (Sum (S (k + n))) with (Sum (k + n) + T (S (k + n))).
      replace (Sum (k + n) + T (S (k + n)) - Sum k) with (Sum (k + n) - Sum k + T (S (k + n))) by ring.
      pose proof (Rabs_triang (Sum (k + n) - Sum k) (T (S (k + n)))) as H. fold (A (S (k + n))) in H.
      pose proof (sum_step (k + n)). lra.
  Qed.
  (** The tail of the series *)
  Lemma tail l k : Un_cv Sum l -> Rabs (l - Sum k) <= p k * A k.
  Proof using a_pos p_ok p_nonneg.
    intros C. apply le_epsilon. intros e E. destruct (C e E) as (N & HN).
    specialize (HN (k + N)%nat ltac:(lia)). unfold R_dist in HN.
    pose proof (sum_diff k N). pose proof (Rmult_le_pos _ _ (p_nonneg (k + N)%nat) (A_nonneg (k + N))).
    replace (l - Sum k) with (- (Sum (k + N) - l) + (Sum (k + N) - Sum k)) by ring.
    pose proof (Rabs_triang (- (Sum (k + N) - l)) (Sum (k + N) - Sum k)) as H1. rewrite Rabs_Ropp in H1. lra.
  Qed.

  (** One step of the computed sum: [t'] for the next term, [s'] for the sum. *)
  Variable u z w : R.
  Hypothesis u_range : 0 <= u <= / 1000000.
  Hypothesis z_nonneg : 0 <= z.
  Variable N : nat.
  Hypothesis N_small : (N <= 100)%nat.
  Hypothesis q_small : forall k, q k <= 39.9 / 2.
  Definition zk (k : nat) : R := (20 ^ k - 1) * z.
  Hypothesis w_ok : zk N <= w.

  Definition term_ok (k : nat) (t : R) : Prop := Rabs (t - T k) <= 4 * INR k * u * A k + zk k.
  Definition tot : R := (1 + p O) * Rabs sg.
  Definition D (k : nat) : R := 1.01 * (4 * u * sum_f_R0 (fun j => INR j * A j) k) + 1.01 * INR k * (u * tot + w).
  Definition sum_ok (k : nat) (s : R) : Prop := Rabs (s - Sum k) <= D k.

  Lemma INR_N k : (k <= N)%nat -> INR k <= 100.
  Proof using N_small. intros H. replace 100 with (INR 100) by (rewrite INR_IZR_INZ; reflexivity). apply le_INR. lia. Qed.
  Lemma zk_nonneg k : 0 <= zk k.
  Proof using z_nonneg. unfold zk. apply Rmult_le_pos; [|exact z_nonneg]. pose proof (pow_R1_Rle 20 k ltac:(lra)). lra. Qed.
  Lemma zk_w k : (k <= N)%nat -> zk k <= w.
  Proof using z_nonneg w_ok.
    intros H. apply Rle_trans with (zk N); [|exact w_ok]. unfold zk. apply Rmult_le_compat_r; [exact z_nonneg|].
    pose proof (Rle_pow 20 k N ltac:(lra) H). lra.
  Qed.

  Lemma term_step k t t' : (S k <= N)%nat -> term_ok k t -> Rabs (t' + t * q k) <= 3.1 * u * Rabs t * q k + z -> term_ok (S k) t'.
  Proof using a_pos u_range z_nonneg N_small q_small.
    intros HN Ht H. unfold term_ok in *. rewrite A_S. cbn [T].
    pose proof (q_nonneg k) as Q0. pose proof (q_small k) as Q1. pose proof (A_nonneg k) as A0. pose proof (zk_nonneg k) as Z0.
    pose proof (INR_N (S k) HN) as I1. rewrite S_INR in *. pose proof (pos_INR k) as I0. set (i := INR k) in *.
    assert (Tt : Rabs t <= A k + (4 * i * u * A k + zk k)).
    { replace t with (T k + (t - T k)) by ring. apply Rle_trans with (1 := Rabs_triang _ _). unfold A at 1. lra. }
    replace (t' - - (T k * q k)) with ((t' + t * q k) - (t - T k) * q k) by ring.
    apply Rle_trans with (1 := Rabs_triang _ _). rewrite Rabs_Ropp, Rabs_mult, (Rabs_pos_eq (q k)) by exact Q0.
    assert (Zs : zk (S k) = 20 * zk k + 19 * z) by (unfold zk; cbn [pow]; ring).
    rewrite Zs. set (E := 4 * i * u * A k + zk k) in *.
    assert (H1 : Rabs (t - T k) * q k <= E * q k) by (apply Rmult_le_compat_r; assumption).
    assert (H2 : 3.1 * u * Rabs t * q k <= 3.1 * u * (A k + E) * q k).
    { apply Rmult_le_compat_r; [exact Q0|]. apply Rmult_le_compat_l; lra. }
    assert (iu : 0 <= i * u <= / 1000) by (split; [apply Rmult_le_pos; lra|]; nra).
    set (Aq := A k * q k). assert (Aq0 : 0 <= Aq) by (apply Rmult_le_pos; assumption).
    assert (zq : 0 <= zk k * q k <= zk k * (39.9 / 2)) by (split; [apply Rmult_le_pos|apply Rmult_le_compat_l]; assumption).
    assert (X : E * q k + 3.1 * u * (A k + E) * q k = (4 * i * u + 3.1 * u + 3.1 * u * (4 * i * u)) * Aq + (1 + 3.1 * u) * (zk k * q k)) by (unfold E, Aq; ring).
    assert (Y : (4 * i * u + 3.1 * u + 3.1 * u * (4 * i * u)) * Aq <= 4 * (i + 1) * u * Aq).
    { apply Rmult_le_compat_r; [exact Aq0|]. assert (3.1 * u * (4 * (i * u)) <= 3.1 * u * (4 * / 1000)) by (apply Rmult_le_compat_l; lra). lra. }
    assert (V : (1 + 3.1 * u) * (zk k * q k) <= 20 * zk k).
    { apply Rle_trans with ((1 + 3.1 * u) * (zk k * (39.9 / 2))); [apply Rmult_le_compat_l; lra|]. nra. }
    lra.
  Qed.

  Lemma tot_nonneg : 0 <= tot.
  Proof using p_nonneg. unfold tot. apply Rmult_le_pos; [|apply Rabs_pos]. pose proof (p_nonneg O). lra. Qed.
  Lemma w_nonneg : 0 <= w. Proof using z_nonneg w_ok. apply Rle_trans with (2 := w_ok). apply zk_nonneg. Qed.
  Lemma jA_bound k : (k <= N)%nat -> 0 <= sum_f_R0 (fun j => INR j * A j) k <= 100 * tot.
  Proof using a_pos p_ok p_nonneg N_small.
    intros HN. assert (H : 0 <= sum_f_R0 (fun j => INR j * A j) k <= 100 * sum_f_R0 A k).
    { induction k as [|k IH]; [cbn [sum_f_R0]; pose proof (A_nonneg 0); cbn; lra|]. cbn [sum_f_R0]. specialize (IH ltac:(lia)).
      pose proof (INR_N (S k) HN). pose proof (A_nonneg (S k)). pose proof (pos_INR (S k)).
      pose proof (Rmult_le_compat_r (A (S k)) _ _ H0 H). pose proof (Rmult_le_pos _ _ H1 H0). lra. }
    pose proof (sum_A k). pose proof (Rmult_le_pos _ _ (p_nonneg k) (A_nonneg k)). unfold tot. lra.
  Qed.
  Lemma D_bound k : (k <= N)%nat -> 0 <= D k <= 600 * (u * tot + w).
  Proof using a_pos p_ok p_nonneg N_small u_range z_nonneg w_ok.
    intros HN. unfold D. pose proof (jA_bound k HN) as [J0 J1]. pose proof tot_nonneg. pose proof w_nonneg. pose proof (INR_N k HN). pose proof (pos_INR k).
    assert (0 <= u * tot) by (apply Rmult_le_pos; lra).
    set (J := sum_f_R0 _ k) in *. assert (0 <= u * J <= u * (100 * tot)) by (split; [apply Rmult_le_pos|apply Rmult_le_compat_l]; lra).
    assert (0 <= INR k * (u * tot + w) <= 100 * (u * tot + w)) by (split; [apply Rmult_le_pos|apply Rmult_le_compat_r]; lra).
    lra.
  Qed.

  Lemma sum_step_ok k s t' s' : (S k <= N)%nat -> sum_ok k s -> term_ok (S k) t' -> Rabs (s' - (s + t')) <= u * Rabs (s + t') -> sum_ok (S k) s'.
  Proof using a_pos p_ok p_nonneg N_small u_range z_nonneg w_ok.
    intros HN Hs Ht H. unfold sum_ok, term_ok in *. pose proof (D_bound k ltac:(lia)) as [D0 D1].
    pose proof (zk_w (S k) HN) as Zw. pose proof tot_nonneg as T0. pose proof w_nonneg as W0.
    assert (Bs : Rabs (Sum (S k)) <= tot) by apply Sum_bound.
    change (Sum (S k)) with (Sum k + T (S k)) in *.
    pose proof (INR_N (S k) HN) as I1. pose proof (pos_INR (S k)) as I0. pose proof (A_nonneg (S k)) as A0.
    assert (At : A (S k) <= tot). { pose proof (sum_A (S k)) as Q. cbn [sum_f_R0] in Q. pose proof (Rmult_le_pos _ _ (p_nonneg (S k)) A0).
      assert (0 <= sum_f_R0 A k). { apply cond_pos_sum. intros. apply A_nonneg. } unfold tot. lra. }
    assert (DS : D (S k) = D k + 1.01 * (4 * INR (S k) * u * A (S k)) + 1.01 * (u * tot + w)) by (unfold D; cbn [sum_f_R0]; rewrite !S_INR; ring).
    rewrite DS. set (e := 4 * INR (S k) * u * A (S k)) in *.
    assert (e0 : 0 <= e <= 400 * (u * tot)).
    { unfold e. assert (0 <= u * A (S k) <= u * tot) by (split; [apply Rmult_le_pos|apply Rmult_le_compat_l]; lra).
      assert (0 <= INR (S k) * (u * A (S k)) <= 100 * (u * A (S k))) by (split; [apply Rmult_le_pos|apply Rmult_le_compat_r]; lra). lra. }
    assert (St : Rabs (s + t') <= tot + D k + (e + w)).
    { replace (s + t') with ((Sum k + T (S k)) + ((s - Sum k) + (t' - T (S k)))) by ring.
      apply Rle_trans with (1 := Rabs_triang _ _). pose proof (Rabs_triang (s - Sum k) (t' - T (S k))). lra. }
    replace (s' - (Sum k + T (S k))) with ((s' - (s + t')) + ((s - Sum k) + (t' - T (S k)))) by ring.
    apply Rle_trans with (1 := Rabs_triang _ _). pose proof (Rabs_triang (s - Sum k) (t' - T (S k))).
    assert (ut0 : 0 <= u * tot) by (apply Rmult_le_pos; lra).
    assert (u * Rabs (s + t') <= u * tot + u * (1001 * (u * tot + w))).
    { apply Rle_trans with (u * (tot + D k + (e + w))); [apply Rmult_le_compat_l; lra|].
      rewrite <- Rmult_plus_distr_l. apply Rmult_le_compat_l; lra. }
    assert (u * (1001 * (u * tot + w)) <= / 1000000 * (1001 * (u * tot + w))) by (apply Rmult_le_compat_r; lra).
    lra.
  Qed.

  (** The loop, from the [k]th term [t] and sum [s] to the result. *)
  Definition step (k : nat) (t t' : R) : Prop := Rabs (t' + t * q k) <= 3.1 * u * Rabs t * q k + z.
  Inductive run : nat -> R -> R -> R -> Prop :=
  | run_end t s : run N t s s
  | run_exit k t s t' : (k < N)%nat -> step k t t' -> Rabs t' <= 1.01 * u * Rabs s -> run k t s s
  | run_next k t s t' s' r : (k < N)%nat -> step k t t' -> Rabs (s' - (s + t')) <= u * Rabs (s + t') -> u / 5 * Rabs s < Rabs t' ->
      run (S k) t' s' r -> run k t s r.

  Lemma run_ok k t s v : run k t s v -> (k <= N)%nat -> term_ok k t -> sum_ok k s ->
    exists j, (k <= j <= N)%nat /\ sum_ok j v /\ (j = N \/ exists t', (j < N)%nat /\ term_ok (S j) t' /\ Rabs t' <= 1.01 * u * Rabs v) /\
      forall i, (k <= i < j)%nat -> exists s' t', sum_ok i s' /\ term_ok (S i) t' /\ u / 5 * Rabs s' < Rabs t'.
  Proof using a_pos p_ok p_nonneg N_small u_range z_nonneg w_ok q_small.
    induction 1 as [t s|k t s t' K St E|k t s t' s' v K St Hs E R IH]; intros HN Ht Hsum.
    - exists N. split; [lia|]. split; [exact Hsum|]. split; [now left|]. intros; lia.
    - exists k. split; [lia|]. split; [exact Hsum|]. split; [right|intros; lia]. exists t'. split; [exact K|]. split; [|exact E].
      apply term_step with t; [lia|exact Ht|exact St].
    - assert (Ht' : term_ok (S k) t') by (apply term_step with t; [lia|exact Ht|exact St]).
      assert (Hs' : sum_ok (S k) s') by (apply sum_step_ok with s t'; [lia|exact Hsum|exact Ht'|exact Hs]).
      destruct (IH ltac:(lia) Ht' Hs') as (j & J & Sj & X & L). exists j. split; [lia|]. split; [exact Sj|]. split; [exact X|].
      intros i I. destruct (Nat.eq_dec i k) as [->|Ne]; [|apply L; lia]. exists s, t'. repeat split; assumption.
  Qed.

  (** The exact term from the computed one, and the other way round. *)
  Lemma term_A k t : (k <= N)%nat -> term_ok k t -> A k <= 1.001 * (Rabs t + w) /\ Rabs t <= 1.001 * A k + w.
  Proof using a_pos N_small u_range z_nonneg w_ok.
    intros HN H. unfold term_ok in H. pose proof (INR_N k HN). pose proof (pos_INR k). pose proof (A_nonneg k). pose proof (zk_w k HN). pose proof w_nonneg.
    pose proof (Rabs_pos t).
    assert (0 <= 4 * INR k * u * A k <= / 2000 * A k).
    { split; [repeat apply Rmult_le_pos; lra|]. apply Rmult_le_compat_r; [lra|]. nra. }
    pose proof (Rabs_triang_inv (T k) t). pose proof (Rabs_triang_inv t (T k)). rewrite (Rabs_minus_sym (T k) t) in *. unfold A in *. split; lra.
  Qed.

  Hypothesis p_A : forall k, p k <= 1 \/ 1 <= A k.
  Hypothesis tot_small : u * tot <= / 1000.
  Hypothesis w_small : w <= / 1000.
  Variable J : nat.
  Hypothesis J_range : (2 <= J <= N)%nat.
  (** Either the loop certainly stops by itself before term [J], or [J] is its limit. *)
  Hypothesis J_ok : (J < N)%nat /\ A J <= u / 100 * Rabs sg /\ p O <= / 2 /\ u * tot <= / 10000 * Rabs sg /\ w <= u / 10000 * Rabs sg \/ J = N /\ A N <= u * tot.

  Lemma run_result k t s v l : run k t s v -> (k < J)%nat -> term_ok k t -> sum_ok k s -> Un_cv Sum l ->
    Rabs (v - l) <= 1.01 * (4 * u * (r O * Rabs sg)) + (1.01 * INR J + 2.1) * (u * tot + w) + w.
  Proof using All.
    intros R K Ht Hs C. destruct (run_ok _ _ _ _ R ltac:(lia) Ht Hs) as (j & Jr & Sj & X & L).
    pose proof tot_nonneg as T0. pose proof w_nonneg as W0. assert (ut0 : 0 <= u * tot) by (apply Rmult_le_pos; lra).
    assert (jJ : (j <= J)%nat).
    { destruct J_ok as [(JN & AJ & p0 & us & ws)|[-> _]]; [|lia]. destruct (le_lt_dec j J) as [?|G]; [assumption|exfalso].
      destruct (L (pred J) ltac:(lia)) as (s' & t' & Hs' & Ht' & E). replace (S (pred J)) with J in Ht' by lia.
      pose proof (term_A J t' ltac:(lia) Ht') as [_ Q]. pose proof (D_bound (pred J) ltac:(lia)) as [_ Db].
      pose proof (sum_diff O (pred J)) as Sd. cbn [Nat.add] in Sd. change (Sum O) with sg in Sd. change (A O) with (Rabs sg) in Sd.
      pose proof (Rmult_le_pos _ _ (p_nonneg (pred J)) (A_nonneg (pred J))). pose proof (Rabs_pos sg) as sg0.
      pose proof (Rmult_le_compat_r (Rabs sg) _ _ sg0 p0) as p1.
      pose proof (Rabs_triang_inv sg (sg - Sum (pred J))) as H1. replace (sg - (sg - Sum (pred J))) with (Sum (pred J)) in H1 by ring.
      rewrite (Rabs_minus_sym sg) in H1.
      unfold sum_ok in Hs'. pose proof (Rabs_triang_inv (Sum (pred J)) (Sum (pred J) - s')) as H2.
      replace (Sum (pred J) - (Sum (pred J) - s')) with s' in H2 by ring. rewrite (Rabs_minus_sym (Sum (pred J)) s') in H2.
      assert (us' : u / 10000 * Rabs sg <= / 10000 * Rabs sg) by (apply Rmult_le_compat_r; lra).
      assert (S1 : 0.3 * Rabs sg <= Rabs s') by lra.
      assert (u / 5 * (0.3 * Rabs sg) <= u / 5 * Rabs s') by (apply Rmult_le_compat_l; lra).
      pose proof (Rmult_le_pos u (Rabs sg) ltac:(lra) sg0). lra. }
    assert (DJ : D j <= 1.01 * (4 * u * (r O * Rabs sg)) + 1.01 * INR J * (u * tot + w)).
    { unfold D. pose proof (sum_jA j) as H. pose proof (Rmult_le_pos _ _ (r_nonneg j) (A_nonneg j)).
      assert (u * sum_f_R0 (fun i => INR i * A i) j <= u * (r O * Rabs sg)) by (apply Rmult_le_compat_l; lra).
      assert (INR j * (u * tot + w) <= INR J * (u * tot + w)) by (apply Rmult_le_compat_r; [lra|now apply le_INR]). lra. }
    replace (v - l) with ((v - Sum j) - (l - Sum j)) by ring. apply Rle_trans with (1 := Rabs_triang _ _). rewrite Rabs_Ropp.
    unfold sum_ok in Sj. assert (Tl : Rabs (l - Sum j) <= 2.1 * (u * tot + w) + w); [|lra].
    pose proof (tail l j C) as Q.
    destruct X as [->|(t' & jN & Ht' & E)].
    - destruct J_ok as [(? & _)|[_ AN]]; [lia|]. destruct (p_A N) as [p1|A1]; [|lra].
      pose proof (A_nonneg N). pose proof (Rmult_le_compat_r (A N) _ _ H p1). lra.
    - pose proof (term_A (S j) t' ltac:(lia) Ht') as [Q1 _].
      assert (Q2 : Rabs (l - Sum j) <= (1 + p (S j)) * A (S j)).
      { pose proof (tail l (S j) C) as Q3. change (Sum (S j)) with (Sum j + T (S j)) in Q3.
        replace (l - Sum j) with ((l - (Sum j + T (S j))) + T (S j)) by ring. apply Rle_trans with (1 := Rabs_triang _ _). fold (A (S j)). lra. }
      pose proof (Sum_bound j) as Sb. fold tot in Sb. pose proof (D_bound j ltac:(lia)) as [_ Db].
      assert (Vb : Rabs v <= tot + 600 * (u * tot + w)).
      { replace v with (Sum j + (v - Sum j)) by ring. apply Rle_trans with (1 := Rabs_triang _ _). lra. }
      assert (uV : u * Rabs v <= u * tot + / 1000 * (u * tot + w)).
      { apply Rle_trans with (u * (tot + 600 * (u * tot + w))); [apply Rmult_le_compat_l; lra|].
        assert (u * (600 * (u * tot + w)) <= / 1000000 * (600 * (u * tot + w))) by (apply Rmult_le_compat_r; lra). lra. }
      destruct (p_A (S j)) as [p1|A1]; [|lra].
      pose proof (Rmult_le_compat_r (A (S j)) _ _ (A_nonneg (S j)) p1). lra.
  Qed.
End Series.

(** The two series *)
Lemma cos_T x k : T 1 x 1 k = cos_n k * (x * x) ^ k.
Proof.
  induction k as [|k IH]; [cbn; unfold cos_n; cbn; field|]. cbn [T]. rewrite IH. unfold q, d. cbn [pow]. unfold cos_n. cbn [pow].
  replace (2 * S k)%nat with (S (S (2 * k))) by lia. rewrite !fact_simpl, !mult_INR. pose proof (INR_fact_neq_0 (2 * k)) as F. rewrite !S_INR, mult_INR.
  replace (IZR ((2 * Z.of_nat k + 1) * (2 * Z.of_nat k + 1 + 1))) with ((2 * INR k + 1) * (2 * INR k + 1 + 1)).
  2:{ rewrite mult_IZR, !plus_IZR, !mult_IZR, <- !INR_IZR_INZ. ring. }
  pose proof (pos_INR k). change (INR 2) with 2. field. repeat split; try lra; exact F.
Qed.
Lemma sin_T x k : T 2 x x k = x * (sin_n k * (x * x) ^ k).
Proof.
  induction k as [|k IH]; [cbn; unfold sin_n; cbn; field|]. cbn [T]. rewrite IH. unfold q, d. cbn [pow]. unfold sin_n. cbn [pow].
  replace (2 * S k + 1)%nat with (S (S (2 * k + 1))) by lia. rewrite !fact_simpl, !mult_INR. pose proof (INR_fact_neq_0 (2 * k + 1)) as F. rewrite !S_INR, !plus_INR, mult_INR.
  replace (IZR ((2 * Z.of_nat k + 2) * (2 * Z.of_nat k + 2 + 1))) with ((2 * INR k + 2) * (2 * INR k + 2 + 1)).
  2:{ rewrite mult_IZR, !plus_IZR, !mult_IZR, <- !INR_IZR_INZ. ring. }
  pose proof (pos_INR k). change (INR 2) with 2. change (INR 1) with 1. field. repeat split; try lra; exact F.
Qed.
Lemma cos_series x : Un_cv (Sum 1 x 1) (cos x).
Proof.
  unfold cos. destruct (exist_cos (Rsqr x)) as (l & H). unfold cos_in, infinite_sum in H. intros e E. destruct (H e E) as (M & HM). exists M.
  intros n Hn. unfold Sum. replace (sum_f_R0 (T 1 x 1) n) with (sum_f_R0 (fun i => cos_n i * Rsqr x ^ i) n); [now apply HM|].
  apply sum_eq. intros i _. symmetry. apply cos_T.
Qed.
Lemma sin_series x : Un_cv (Sum 2 x x) (sin x).
Proof.
  unfold sin. destruct (exist_sin (Rsqr x)) as (l & H). unfold sin_in, infinite_sum in H.
  assert (H' : Un_cv (fun n => x * sum_f_R0 (fun i => sin_n i * Rsqr x ^ i) n) (x * l)).
  { apply (CV_mult (fun _ => x) (fun n => sum_f_R0 (fun i => sin_n i * Rsqr x ^ i) n)); [|exact H]. intros e E. exists O. intros. unfold R_dist. rewrite Rminus_diag_eq by reflexivity. now rewrite Rabs_R0. }
  intros e E. destruct (H' e E) as (M & HM). exists M. intros n Hn. unfold Sum.
  replace (sum_f_R0 (T 2 x x) n) with (x * sum_f_R0 (fun i => sin_n i * Rsqr x ^ i) n); [now apply HM|].
  rewrite scal_sum. apply sum_eq. intros i _. rewrite sin_T. unfold Rsqr. ring.
Qed.
