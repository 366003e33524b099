(** How far a direction moves, and what repeated packing does, in exact arithmetic. *)
From Coq Require Import Reals Lra Psatz.
From Flocq Require Import Core BinarySingleNaN.
From Verif Require Import Words WordsProofs PuvModel PuvSpec PuvProofs PuvProofs2.

Local Open Scope R_scope.

(** ** Chords *)
Lemma chord a1 a2 a3 b1 b2 b3 A B :
  0 < A -> 0 < B -> A * A = a1 * a1 + a2 * a2 + a3 * a3 -> B * B = b1 * b1 + b2 * b2 + b3 * b3 ->
  (a1 / A - b1 / B) * (a1 / A - b1 / B) + (a2 / A - b2 / B) * (a2 / A - b2 / B) + (a3 / A - b3 / B) * (a3 / A - b3 / B)
  <= ((a1 - b1) * (a1 - b1) + (a2 - b2) * (a2 - b2) + (a3 - b3) * (a3 - b3)) / (A * B).
Proof.
  intros PA PB EA EB. unfold Rdiv. rewrite Rinv_mult.
  pose proof (Rinv_0_lt_compat A PA) as PIA. pose proof (Rinv_0_lt_compat B PB) as PIB.
  assert (IA : A * / A = 1) by (apply Rinv_r; lra). assert (IB : B * / B = 1) by (apply Rinv_r; lra).
  set (ia := / A) in *. set (ib := / B) in *.
  replace ((a1 * ia - b1 * ib) * (a1 * ia - b1 * ib) + (a2 * ia - b2 * ib) * (a2 * ia - b2 * ib) + (a3 * ia - b3 * ib) * (a3 * ia - b3 * ib))
    with ((a1 * a1 + a2 * a2 + a3 * a3) * ia * ia + (b1 * b1 + b2 * b2 + b3 * b3) * ib * ib - 2 * (a1 * b1 + a2 * b2 + a3 * b3) * (ia * ib))
    by ring.
  rewrite <- EA, <- EB.
  replace (((a1 - b1) * (a1 - b1) + (a2 - b2) * (a2 - b2) + (a3 - b3) * (a3 - b3)) * (ia * ib))
    with ((a1 * a1 + a2 * a2 + a3 * a3) * ia * ib + (b1 * b1 + b2 * b2 + b3 * b3) * ia * ib - 2 * (a1 * b1 + a2 * b2 + a3 * b3) * (ia * ib))
    by ring.
  rewrite <- EA, <- EB.
  replace (A * A * ia * ia) with 1 by (replace (A * A * ia * ia) with ((A * ia) * (A * ia)) by ring; rewrite IA; ring).
  replace (B * B * ib * ib) with 1 by (replace (B * B * ib * ib) with ((B * ib) * (B * ib)) by ring; rewrite IB; ring).
  assert (Q : 0 <= (A - B) * (A - B) * (ia * ib)) by (apply Rmult_le_pos; [apply Rle_0_sqr|apply Rmult_le_pos; lra]).
  replace ((A - B) * (A - B) * (ia * ib)) with (A * A * ia * ib + B * B * ia * ib - 2 * ((A * ia) * (B * ib))) in Q by ring.
  rewrite IA, IB in Q. lra.
Qed.

Lemma len2_sq x y : len2 x y * len2 x y = x * x + y * y.
Proof. unfold len2. apply sqrt_sqrt. pose proof (Rle_0_sqr x). pose proof (Rle_0_sqr y). unfold Rsqr in *. lra. Qed.
Lemma len3_sq x y z : len3 x y z * len3 x y z = x * x + y * y + z * z.
Proof. unfold len3. apply sqrt_sqrt. pose proof (Rle_0_sqr x). pose proof (Rle_0_sqr y). pose proof (Rle_0_sqr z). unfold Rsqr in *. lra. Qed.
Lemma len2_pos x y : 0 <= len2 x y. Proof. apply sqrt_pos. Qed.
Lemma len3_pos x y z : 0 <= len3 x y z. Proof. apply sqrt_pos. Qed.

Lemma len2_part x y : x + y = 1 -> / 2 <= len2 x y * len2 x y.
Proof. intros H. rewrite len2_sq. replace y with (1 - x) by lra. pose proof (Rle_0_sqr (2 * x - 1)) as Q. unfold Rsqr in Q. lra. Qed.
Lemma len3_part x y z : x + y + z = 1 -> / 3 <= len3 x y z * len3 x y z.
Proof.
  intros H. rewrite len3_sq.
  pose proof (Rle_0_sqr (x - y)) as Q1. pose proof (Rle_0_sqr (x - z)) as Q2. pose proof (Rle_0_sqr (y - z)) as Q3. unfold Rsqr in *.
  assert (E : (x + y + z) * (x + y + z) = 1) by (rewrite H; ring). lra.
Qed.

Lemma pos_of_sq a c : 0 <= a -> 0 < c -> c <= a * a -> 0 < a.
Proof. intros A C H. destruct (Req_dec a 0) as [->|N]; [lra|lra]. Qed.

Lemma mul_ge c a b : 0 < c -> 0 <= a -> 0 <= b -> c <= a * a -> c <= b * b -> c <= a * b.
Proof.
  intros C A B HA HB. destruct (Rle_or_lt c (a * b)) as [H|H]; [exact H|exfalso].
  destruct (Rle_dec a b) as [O|O].
  - assert (a * a <= a * b) by (apply Rmult_le_compat_l; lra). lra.
  - assert (b * b <= a * b) by (apply Rmult_le_compat_r; lra). lra.
Qed.

Lemma div_le e m c : 0 < c -> c <= m -> 0 <= e -> e / m <= e / c.
Proof. intros C M E. unfold Rdiv. apply Rmult_le_compat_l; [exact E|]. apply Rinv_le; lra. Qed.

(** ** Two components *)
Lemma sg_sq s : sg s * sg s = 1.
Proof. destruct s; unfold sg; lra. Qed.

Lemma near2 q p e : 0 <= e -> Rabs (q - p) <= e ->
  len2 (q / len2 q (1 - q) - p / len2 p (1 - p)) ((1 - q) / len2 q (1 - q) - (1 - p) / len2 p (1 - p)) <= 2 * e.
Proof.
  intros He D.
  pose proof (len2_part q (1 - q) ltac:(lra)) as Q. pose proof (len2_part p (1 - p) ltac:(lra)) as P.
  pose proof (pos_of_sq _ (/ 2) (len2_pos q (1 - q)) ltac:(lra) Q) as QP. pose proof (pos_of_sq _ (/ 2) (len2_pos p (1 - p)) ltac:(lra) P) as PP.
  pose proof (chord q (1 - q) 0 p (1 - p) 0 _ _ QP PP) as C.
  rewrite !len2_sq in C. specialize (C ltac:(ring) ltac:(ring)).
  pose proof (mul_ge (/ 2) _ _ ltac:(lra) (Rlt_le _ _ QP) (Rlt_le _ _ PP) Q P) as M.
  assert (E2 : (q - p) * (q - p) <= e * e).
  { replace ((q - p) * (q - p)) with (Rabs (q - p) * Rabs (q - p)) by (rewrite <- Rabs_mult; apply Rabs_pos_eq, Rle_0_sqr).
    apply Rmult_le_compat; try apply Rabs_pos; exact D. }
  pose proof (Rle_0_sqr (q - p)) as S0. unfold Rsqr in S0.
  unfold len2 at 1. apply Rle_trans with (sqrt ((2 * e) * (2 * e))); [|rewrite sqrt_square by lra; lra].
  apply sqrt_le_1_alt.
  replace (0 / len2 q (1 - q) - 0 / len2 p (1 - p)) with 0 in C by (unfold Rdiv; ring).
  apply Rle_trans with (((q - p) * (q - p) + (1 - q - (1 - p)) * (1 - q - (1 - p)) + (0 - 0) * (0 - 0)) / (len2 q (1 - q) * len2 p (1 - p))).
  - lra.
  - apply Rle_trans with (((q - p) * (q - p) + (1 - q - (1 - p)) * (1 - q - (1 - p)) + (0 - 0) * (0 - 0)) / / 2).
    + apply div_le; [lra|exact M|]. replace (1 - q - (1 - p)) with (- (q - p)) by ring. lra.
    + replace (1 - q - (1 - p)) with (- (q - p)) by ring. unfold Rdiv. rewrite Rinv_inv. lra.
Qed.

Lemma near3 q1 q2 q3 p1 p2 p3 e : 0 <= e -> q1 + q2 + q3 = 1 -> p1 + p2 + p3 = 1 ->
  Rabs (q1 - p1) <= 3 / 2 * e -> Rabs (q2 - p2) <= 3 / 2 * e -> Rabs (q3 - p3) <= 2 * e ->
  len3 (q1 / len3 q1 q2 q3 - p1 / len3 p1 p2 p3) (q2 / len3 q1 q2 q3 - p2 / len3 p1 p2 p3) (q3 / len3 q1 q2 q3 - p3 / len3 p1 p2 p3)
  <= 51 / 10 * e.
Proof.
  intros He SQ SP D1 D2 D3.
  pose proof (len3_part _ _ _ SQ) as Q. pose proof (len3_part _ _ _ SP) as P.
  pose proof (pos_of_sq _ (/ 3) (len3_pos q1 q2 q3) ltac:(lra) Q) as QP. pose proof (pos_of_sq _ (/ 3) (len3_pos p1 p2 p3) ltac:(lra) P) as PP.
  pose proof (chord q1 q2 q3 p1 p2 p3 _ _ QP PP (len3_sq q1 q2 q3) (len3_sq p1 p2 p3)) as C.
  pose proof (mul_ge (/ 3) _ _ ltac:(lra) (Rlt_le _ _ QP) (Rlt_le _ _ PP) Q P) as M.
  assert (SQR : forall a b c, 0 <= c -> Rabs (a - b) <= c -> 0 <= (a - b) * (a - b) <= c * c).
  { intros a b c Hc D. split; [apply Rle_0_sqr|].
    replace ((a - b) * (a - b)) with (Rabs (a - b) * Rabs (a - b)) by (rewrite <- Rabs_mult; apply Rabs_pos_eq, Rle_0_sqr).
    apply Rmult_le_compat; try apply Rabs_pos; exact D. }
  pose proof (SQR _ _ (3 / 2 * e) ltac:(lra) D1) as E1. pose proof (SQR _ _ (3 / 2 * e) ltac:(lra) D2) as E2. pose proof (SQR _ _ (2 * e) ltac:(lra) D3) as E3.
  unfold len3 at 1. apply Rle_trans with (sqrt ((51 / 10 * e) * (51 / 10 * e))); [|rewrite sqrt_square by lra; lra].
  apply sqrt_le_1_alt. eapply Rle_trans; [exact C|].
  apply Rle_trans with (((q1 - p1) * (q1 - p1) + (q2 - p2) * (q2 - p2) + (q3 - p3) * (q3 - p3)) / / 3).
  - apply div_le; [lra|exact M|lra].
  - unfold Rdiv. rewrite Rinv_inv. lra.
Qed.

Section Level.
  Variable n : N.
  Hypothesis Hn : (2 <= n)%N.

  Lemma real_n : 2 <= real n.
  Proof using Hn. apply (IZR_le 2). lia. Qed.

  Lemma level_error t : 0 <= t <= 1 -> Rabs (real (near n t) / real n - t) <= 3 / 2 * / real n.
  Proof using Hn.
    intros Ht. pose proof (near_bounds n ltac:(lia) t Ht) as B. pose proof real_n as G.
    pose proof (Rinv_0_lt_compat (real n) ltac:(lra)) as PI.
    replace (real (near n t) / real n - t) with ((real (near n t) - t * real n) * / real n) by (field; lra).
    rewrite Rabs_mult, (Rabs_pos_eq (/ real n)) by lra. apply Rmult_le_compat_r; [lra|].
    apply Rabs_le. lra.
  Qed.

  Lemma level_error2 t s : 0 <= t -> 0 <= s -> t + s <= 1 ->
    Rabs (1 - real (near n t) / real n - real (near n s) / real n - (1 - t - s)) <= 2 * / real n.
  Proof using Hn.
    intros Ht Hs H. pose proof (near_bounds n ltac:(lia) t ltac:(lra)) as B1. pose proof (near_bounds n ltac:(lia) s ltac:(lra)) as B2.
    pose proof real_n as G. pose proof (Rinv_0_lt_compat (real n) ltac:(lra)) as PI.
    replace (1 - real (near n t) / real n - real (near n s) / real n - (1 - t - s))
      with (- ((real (near n t) + real (near n s) - (t + s) * real n) * / real n)) by (field; lra).
    rewrite Rabs_Ropp, Rabs_mult, (Rabs_pos_eq (/ real n)) by lra. apply Rmult_le_compat_r; [lra|].
    apply Rabs_le. lra.
  Qed.

  Lemma level_range t : 0 <= t <= 1 -> 0 <= real (near n t) / real n <= 1.
  Proof using Hn.
    intros Ht. pose proof (near_le n ltac:(lia) t Ht) as L. pose proof (real_pos (near n t)) as P. pose proof real_n as G.
    pose proof (real_le (near n t) n ltac:(lia)) as U.
    pose proof (Rinv_0_lt_compat (real n) ltac:(lra)) as PI. unfold Rdiv. split; [apply Rmult_le_pos; lra|].
    apply Rmult_le_reg_r with (real n); [lra|]. rewrite Rmult_assoc, Rinv_l by lra. lra.
  Qed.

  Lemma level_zero t : t = 0 -> real (near n t) / real n = 0.
  Proof using.
    intros ->. rewrite (near_unique n 0 0); change (real 0) with 0; [unfold Rdiv; ring|lra].
  Qed.

  (** The level that a stored level turns into. *)
  Definition step (i : N) : N := if (2 * i <=? n)%N then i else (i - 1)%N.

  Lemma near_level i : (i <= n)%N -> near n (real i / real n) = step i.
  Proof using Hn.
    intros Hi. pose proof real_n as G. pose proof (real_pos i) as P. pose proof (real_le i n Hi) as U.
    assert (E : real i / real n * (real n - 1) = real i - real i / real n) by (field; lra).
    assert (F : 0 <= real i / real n <= 1).
    { pose proof (Rinv_0_lt_compat (real n) ltac:(lra)) as PI. unfold Rdiv. split; [apply Rmult_le_pos; lra|].
      apply Rmult_le_reg_r with (real n); [lra|]. rewrite Rmult_assoc, Rinv_l by lra. lra. }
    assert (M : real i / real n * real n = real i) by (field; lra).
    apply near_unique. rewrite E. unfold step. destruct (N.leb_spec (2 * i) n) as [H|H].
    - assert (K : 2 * real i <= real n).
      { replace (2 * real i) with (real (2 * i)); [now apply real_le|]. unfold real. rewrite N2Z.inj_mul, mult_IZR. reflexivity. }
      assert (real i / real n <= / 2); [|lra].
      apply Rmult_le_reg_r with (real n); lra.
    - assert (K : real n < 2 * real i).
      { replace (2 * real i) with (real (2 * i)); [now apply real_lt|]. unfold real. rewrite N2Z.inj_mul, mult_IZR. reflexivity. }
      rewrite real_pred by lia.
      assert (/ 2 < real i / real n); [|lra].
      apply Rmult_lt_reg_r with (real n); lra.
  Qed.
End Level.

Lemma abs_over x k : 0 < k -> Rabs (x / k) = Rabs x / k.
Proof. intros K. unfold Rdiv. rewrite Rabs_mult, (Rabs_pos_eq (/ k)); [reflexivity|]. pose proof (Rinv_0_lt_compat k K). lra. Qed.
Lemma abs_sg s x : 0 <= x -> Rabs (sg s * x) = x.
Proof. intros H. rewrite Rabs_mult. rewrite (Rabs_pos_eq x) by exact H. destruct s; unfold sg; [rewrite Rabs_left by lra|rewrite Rabs_pos_eq by lra]; lra. Qed.

Lemma neg_sg s x k : 0 <= x -> 0 < k -> neg (sg s * x / k) = (s && negb (Req_bool x 0)).
Proof.
  intros X K. pose proof (Rinv_0_lt_compat k K) as PK. unfold neg, Rdiv.
  destruct (Req_bool_spec x 0) as [->|N].
  - replace (sg s * 0 * / k) with 0 by ring. rewrite Bool.andb_false_r. apply Rlt_bool_false. lra.
  - assert (0 < x * / k) by (apply Rmult_lt_0_compat; lra). rewrite Bool.andb_true_r. rewrite Rmult_assoc. destruct s; unfold sg.
    + apply Rlt_bool_true. lra.
    + apply Rlt_bool_false. lra.
Qed.

Lemma share2_dir x y : 0 < Rabs x + Rabs y ->
  let p := share2 x y in
  1 - p = Rabs y / (Rabs x + Rabs y) /\ len2 p (1 - p) = len2 x y / (Rabs x + Rabs y)
  /\ p / len2 p (1 - p) = Rabs x / len2 x y /\ (1 - p) / len2 p (1 - p) = Rabs y / len2 x y /\ 0 < len2 x y.
Proof.
  intros S p. assert (E1 : 1 - p = Rabs y / (Rabs x + Rabs y)) by (unfold p, share2; field; lra).
  pose proof (Rinv_0_lt_compat _ S) as PI.
  assert (E2 : len2 p (1 - p) = len2 x y / (Rabs x + Rabs y)).
  { rewrite E1. unfold p, share2, len2. unfold Rdiv.
    replace (Rabs x * / (Rabs x + Rabs y) * (Rabs x * / (Rabs x + Rabs y)) + Rabs y * / (Rabs x + Rabs y) * (Rabs y * / (Rabs x + Rabs y)))
      with ((Rabs x * Rabs x + Rabs y * Rabs y) * (/ (Rabs x + Rabs y) * / (Rabs x + Rabs y))) by ring.
    rewrite <- !Rabs_mult, (Rabs_pos_eq (x * x)), (Rabs_pos_eq (y * y)) by apply Rle_0_sqr.
    rewrite sqrt_mult_alt by (pose proof (Rle_0_sqr x); pose proof (Rle_0_sqr y); unfold Rsqr in *; lra).
    rewrite sqrt_square by lra. reflexivity. }
  assert (PL : 0 < len2 x y).
  { pose proof (pos_of_sq _ (/ 2) (len2_pos p (1 - p)) ltac:(lra) (len2_part p (1 - p) ltac:(lra))) as Q. rewrite E2 in Q.
    unfold Rdiv in Q. apply Rmult_lt_reg_r with (1 := PI). lra. }
  repeat split; try assumption.
  - rewrite E2. unfold p, share2. field. lra.
  - rewrite E2, E1. field. lra.
Qed.

Lemma share3_dir x y z : 0 < Rabs x + Rabs y + Rabs z ->
  let p := share3 x y z in let q := share3 y x z in
  1 - p - q = share3 z x y
  /\ p / len3 p q (1 - p - q) = Rabs x / len3 x y z /\ q / len3 p q (1 - p - q) = Rabs y / len3 x y z
  /\ (1 - p - q) / len3 p q (1 - p - q) = Rabs z / len3 x y z /\ 0 < len3 x y z.
Proof.
  intros S p q. set (s := Rabs x + Rabs y + Rabs z) in *.
  assert (EP : p = Rabs x / s) by reflexivity.
  assert (EQ : q = Rabs y / s) by (unfold q, share3, s; f_equal; ring).
  assert (EZ : share3 z x y = Rabs z / s) by (unfold share3, s; f_equal; ring).
  assert (E1 : 1 - p - q = Rabs z / s) by (rewrite EP, EQ; unfold s; field; unfold s in S; lra).
  pose proof (Rinv_0_lt_compat _ S) as PI.
  assert (E2 : len3 p q (1 - p - q) = len3 x y z / s).
  { rewrite E1, EP, EQ. unfold len3, Rdiv.
    replace (Rabs x * / s * (Rabs x * / s) + Rabs y * / s * (Rabs y * / s) + Rabs z * / s * (Rabs z * / s))
      with ((Rabs x * Rabs x + Rabs y * Rabs y + Rabs z * Rabs z) * (/ s * / s)) by ring.
    rewrite <- !Rabs_mult, (Rabs_pos_eq (x * x)), (Rabs_pos_eq (y * y)), (Rabs_pos_eq (z * z)) by apply Rle_0_sqr.
    rewrite sqrt_mult_alt by (pose proof (Rle_0_sqr x); pose proof (Rle_0_sqr y); pose proof (Rle_0_sqr z); unfold Rsqr in *; lra).
    rewrite sqrt_square by lra. reflexivity. }
  assert (PL : 0 < len3 x y z).
  { pose proof (pos_of_sq _ (/ 3) (len3_pos p q (1 - p - q)) ltac:(lra) (len3_part p q (1 - p - q) ltac:(lra))) as Q. rewrite E2 in Q.
    unfold Rdiv in Q. apply Rmult_lt_reg_r with (1 := PI). lra. }
  repeat split; try assumption.
  - now rewrite E1, EZ.
  - rewrite E2, EP. field. lra.
  - rewrite E2, EQ. field. lra.
  - rewrite E2, E1. field. lra.
Qed.
