From Coq Require Import Reals List Psatz Lra.
From Verif Require Import Words MatModel VecModel VecSpec.
Import ListNotations.
Local Open Scope R_scope.

Lemma for_app {S : Type} (from n : nat) (body : S -> nat -> S) s : for_ from (from + Datatypes.S n) body s = body (for_ from (from + n) body s) (from + n)%nat.
Proof. unfold for_. replace (from + Datatypes.S n - from)%nat with (Datatypes.S n) by lia. replace (from + n - from)%nat with n by lia. rewrite seq_S, fold_left_app. reflexivity. Qed.

Fixpoint sumR (n : nat) (f : nat -> R) : R := match n with O => 0 | S n => sumR n f + f n end.
Lemma accumulate_sum n f : (1 <= n)%nat -> accumulate n f = sumR n f.
Proof.
  intros H. destruct n as [|[|[|[|[|n]]]]]; try lia; cbn [accumulate sumR]; try ring.
  replace (S (S (S (S (S n))))) with (4 + S n)%nat by lia. induction n as [|n IH]; [cbn [sumR]; unfold for_; cbn; ring|].
  rewrite for_app. rewrite IH by lia. cbn [Nat.add sumR]. ring.
Qed.
Lemma sumR_cons n f : sumR (S n) f = f 0%nat + sumR n (fun i => f (S i)).
Proof. induction n as [|n IH]; [cbn; ring|]. change (sumR (S (S n)) f) with (sumR (S n) f + f (S n)). rewrite IH. cbn [sumR]. ring. Qed.
Lemma sumR_inner n v w : List.length v = n -> List.length w = n -> sumR n (fun i => at_ v i * at_ w i) = inner v w.
Proof.
  revert n w. induction v as [|x v IH]; intros n w Hv Hw; cbn in Hv; subst n; [destruct w; [reflexivity|discriminate]|].
  destruct w as [|y w]; [discriminate|]. cbn [List.length]. rewrite sumR_cons. cbn [inner]. f_equal. cbn in Hw. injection Hw as Hw.
  rewrite <- (IH (List.length v) w eq_refl Hw). reflexivity.
Qed.
Lemma dot_inner n v w : (1 <= n)%nat -> List.length v = n -> List.length w = n -> dot n v w = inner v w.
Proof. intros H Hv Hw. unfold dot. rewrite accumulate_sum by exact H. apply sumR_inner; assumption. Qed.
Lemma length_squared_inner n v : (1 <= n)%nat -> List.length v = n -> length_squared n v = inner v v.
Proof. intros H Hv. exact (dot_inner n v v H Hv Hv). Qed.

Lemma construct_map n f : List.length (construct n f) = n.
Proof. unfold construct. rewrite map_length, seq_length. reflexivity. Qed.
Lemma construct_nth n f (v : list R) : List.length v = n -> (forall i, (i < n)%nat -> f i = at_ v i) -> construct n f = v.
Proof.
  intros L H. apply (nth_ext _ _ (f 0%nat) 0); [rewrite construct_map; congruence|]. intros i Hi. rewrite construct_map in Hi.
  unfold construct. rewrite map_nth, seq_nth by exact Hi. apply H, Hi.
Qed.
Lemma sum2_length v w : List.length v = List.length w -> List.length (sum2 v w) = List.length v.
Proof. revert w. induction v as [|x v IH]; intros [|y w] H; try discriminate; [reflexivity|]. cbn. f_equal. apply IH. cbn in H. lia. Qed.
Lemma sum2_nth v w i : List.length v = List.length w -> at_ (sum2 v w) i = at_ v i + at_ w i.
Proof.
  revert w i. induction v as [|x v IH]; intros [|y w] i H; try discriminate; [destruct i; unfold at_; cbn; ring|].
  destruct i as [|i]; [reflexivity|]. cbn in H. exact (IH w i ltac:(lia)).
Qed.
Lemma times_length s v : List.length (times s v) = List.length v. Proof. apply map_length. Qed.
Lemma times_nth s v i : at_ (times s v) i = s * at_ v i.
Proof. unfold at_, times. rewrite <- (Rmult_0_r s) at 1. apply map_nth. Qed.
Lemma plus_sum2 n v w : List.length v = n -> List.length w = n -> plus n v w = sum2 v w.
Proof. intros Hv Hw. apply construct_nth; [rewrite sum2_length; congruence|]. intros i _. rewrite sum2_nth by congruence. reflexivity. Qed.
Lemma minus_diff n v w : List.length v = n -> List.length w = n -> minus n v w = diff v w.
Proof. intros Hv Hw. apply construct_nth; [unfold diff; rewrite sum2_length; [exact Hv|rewrite times_length; congruence]|]. intros i _. unfold diff. rewrite sum2_nth by (rewrite times_length; congruence). rewrite times_nth. ring. Qed.
Lemma scale_times n v s : List.length v = n -> scale n v s = times s v.
Proof. intros Hv. apply construct_nth; [rewrite times_length; exact Hv|]. intros i _. rewrite times_nth. ring. Qed.

Lemma inner_sym v w : inner v w = inner w v.
Proof. revert w. induction v as [|x v IH]; intros [|y w]; try reflexivity. cbn. rewrite IH. ring. Qed.
Lemma inner_times s v w : inner (times s v) w = s * inner v w.
Proof. revert w. induction v as [|x v IH]; intros [|y w]; cbn; try ring. rewrite IH. ring. Qed.
Lemma inner_sum2 u v w : List.length u = List.length v -> inner (sum2 u v) w = inner u w + inner v w.
Proof. revert v w. induction u as [|x u IH]; intros [|y v] [|z w] H; try discriminate; cbn; try ring. cbn in H. rewrite IH by lia. ring. Qed.
Lemma inner_nonneg v : 0 <= inner v v.
Proof. induction v as [|x v IH]; cbn; [lra|]. pose proof (Rle_0_sqr x) as Hx. unfold Rsqr in Hx. lra. Qed.
Lemma inner_null v : inner v v = 0 <-> null v.
Proof.
  induction v as [|x v IH]; cbn [inner]; [split; [intros _ x []|reflexivity]|]. pose proof (inner_nonneg v) as Hv. pose proof (Rle_0_sqr x) as Hx. unfold Rsqr in Hx. split.
  - intros H y [<-|Hy]; [|apply IH; [lra|exact Hy]]. assert (E : x * x = 0) by lra. apply Rmult_integral in E. tauto.
  - intros H. rewrite (H x (or_introl eq_refl)). assert (E : inner v v = 0) by (apply IH; intros y Hy; apply H; right; exact Hy). rewrite E. ring.
Qed.
Lemma cauchy_step a b s p q : 0 <= p -> 0 <= q -> s * s <= p * q -> 2 * (a * b * s) <= a * a * q + b * b * p.
Proof.
  intros Hp Hq H. set (u := sqrt p). set (v := sqrt q). assert (Eu : u * u = p) by (apply sqrt_sqrt, Hp). assert (Ev : v * v = q) by (apply sqrt_sqrt, Hq).
  assert (Hu : 0 <= u) by apply sqrt_pos. assert (Hv : 0 <= v) by apply sqrt_pos. rewrite <- Eu, <- Ev in *. clearbody u v.
  assert (Hs : Rabs s <= u * v).
  { apply Rsqr_incr_0_var; [|nra]. rewrite <- Rsqr_abs. unfold Rsqr. nra. }
  assert (Hab : a * b * s <= Rabs a * Rabs b * (u * v)).
  { apply Rle_trans with (Rabs (a * b * s)); [apply Rle_abs|]. rewrite !Rabs_mult. apply Rmult_le_compat_l; [|exact Hs]. apply Rmult_le_pos; apply Rabs_pos. }
  assert (Ea : a * a = Rabs a * Rabs a) by (rewrite <- Rabs_mult; symmetry; apply Rabs_pos_eq; nra).
  assert (Eb : b * b = Rabs b * Rabs b) by (rewrite <- Rabs_mult; symmetry; apply Rabs_pos_eq; nra).
  rewrite Ea, Eb. set (x := Rabs a) in *. set (y := Rabs b) in *. clearbody x y. pose proof (Rle_0_sqr (x * v - y * u)) as K. unfold Rsqr in K. nra.
Qed.
Lemma cauchy v w : inner v w * inner v w <= inner v v * inner w w.
Proof.
  revert w. induction v as [|x v IH]; intros [|y w]; cbn [inner]; try (rewrite ?Rmult_0_l, ?Rmult_0_r; lra).
  pose proof (cauchy_step x y (inner v w) (inner v v) (inner w w) (inner_nonneg v) (inner_nonneg w) (IH w)) as K. pose proof (IH w). nra.
Qed.
Lemma norm_nonneg v : 0 <= norm v. Proof. apply sqrt_pos. Qed.
Lemma norm_sqr v : norm v * norm v = inner v v. Proof. apply sqrt_sqrt, inner_nonneg. Qed.
Lemma norm_zero v : norm v = 0 <-> null v.
Proof. rewrite <- inner_null. split; intros H; [rewrite <- norm_sqr, H; ring|unfold norm; rewrite H; apply sqrt_0]. Qed.
Lemma cauchy_norm v w : Rabs (inner v w) <= norm v * norm w.
Proof.
  apply Rsqr_incr_0_var; [|apply Rmult_le_pos; apply norm_nonneg]. rewrite <- Rsqr_abs. unfold Rsqr.
  replace (norm v * norm w * (norm v * norm w)) with (norm v * norm v * (norm w * norm w)) by ring. rewrite !norm_sqr. apply cauchy.
Qed.
Lemma norm_times s v : norm (times s v) = Rabs s * norm v.
Proof.
  unfold norm. rewrite inner_times, inner_sym, inner_times. replace (s * (s * inner v v)) with (Rsqr s * inner v v) by (unfold Rsqr; ring).
  rewrite sqrt_mult; [|apply Rle_0_sqr|apply inner_nonneg]. rewrite sqrt_Rsqr_abs. reflexivity.
Qed.
Lemma norm_triangle v w : List.length v = List.length w -> norm (sum2 v w) <= norm v + norm w.
Proof.
  intros L. apply Rsqr_incr_0_var; [|apply Rplus_le_le_0_compat; apply norm_nonneg]. unfold Rsqr. rewrite norm_sqr.
  rewrite inner_sum2 by exact L. rewrite (inner_sym v), (inner_sym w). rewrite !inner_sum2 by exact L. rewrite (inner_sym w v).
  pose proof (cauchy_norm v w) as C. pose proof (Rle_abs (inner v w)) as A. pose proof (norm_sqr v) as Nv. pose proof (norm_sqr w) as Nw. nra.
Qed.
Lemma length_norm n v : (2 <= n)%nat -> List.length v = n -> length n v = norm v.
Proof. intros H L. unfold length, norm. rewrite (length_squared_inner n v) by lia. destruct n as [|[|n]]; [lia|lia|reflexivity]. Qed.
Lemma distance_norm n p q : (1 <= n)%nat -> List.length p = n -> List.length q = n -> distance n p q = norm (diff q p).
Proof.
  intros H Lp Lq. unfold distance, distance_squared, norm. rewrite minus_diff by assumption. rewrite length_squared_inner; [reflexivity|exact H|].
  unfold diff. rewrite sum2_length; [exact Lq|]. rewrite times_length. congruence.
Qed.
Lemma diff_length v w : List.length v = List.length w -> List.length (diff v w) = List.length v.
Proof. intros H. unfold diff. apply sum2_length. rewrite times_length. exact H. Qed.
Lemma diff_nth v w i : List.length v = List.length w -> at_ (diff v w) i = at_ v i - at_ w i.
Proof. intros H. unfold diff. rewrite sum2_nth by (rewrite times_length; exact H). rewrite times_nth. ring. Qed.
Lemma vec_eq (v w : list R) : List.length v = List.length w -> (forall i, at_ v i = at_ w i) -> v = w.
Proof. intros L H. apply (nth_ext v w 0 0 L). intros i _. apply H. Qed.
Lemma diff_swap p q : List.length p = List.length q -> diff q p = times (-1) (diff p q).
Proof. intros L. apply vec_eq; [rewrite times_length, !diff_length; congruence|]. intros i. rewrite times_nth, !diff_nth by congruence. ring. Qed.
Lemma diff_chain p q r : List.length p = List.length q -> List.length q = List.length r -> diff r p = sum2 (diff q p) (diff r q).
Proof.
  intros L M. assert (D1 : List.length (diff q p) = List.length (diff r q)) by (rewrite !diff_length; congruence).
  apply vec_eq; [rewrite sum2_length by exact D1; rewrite !diff_length; congruence|]. intros i. rewrite sum2_nth by exact D1. rewrite !diff_nth by congruence. ring.
Qed.
Lemma diff_null p q : List.length p = List.length q -> null (diff q p) <-> p = q.
Proof.
  intros L. split.
  - intros H. apply vec_eq; [exact L|]. intros i. assert (E : at_ (diff q p) i = 0).
    { unfold at_. destruct (Nat.lt_ge_cases i (List.length (diff q p))) as [K|K]; [apply H, nth_In, K|apply nth_overflow, K]. }
    rewrite diff_nth in E by congruence. lra.
  - intros <- x Hx. destruct (In_nth _ _ 0 Hx) as (i & _ & E). rewrite <- E. fold (at_ (diff p p) i). rewrite diff_nth by reflexivity. ring.
Qed.
