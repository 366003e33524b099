(** The series of the arc tangent (Euler's) and of the arc sine, with bounds for what is left out. *)
From Coq Require Import ZArith Reals Lra Lia Psatz.
Local Open Scope R_scope.

(** A function that starts at or below another and grows no faster stays below. *)
Lemma grows (f g f' g' : R -> R) x : 0 <= x -> f 0 <= g 0 ->
  (forall y, 0 <= y <= x -> derivable_pt_lim f y (f' y)) -> (forall y, 0 <= y <= x -> derivable_pt_lim g y (g' y)) ->
  (forall y, 0 <= y <= x -> f' y <= g' y) -> f x <= g x.
Proof.
  intros X Z Df Dg L. destruct (Req_dec x 0) as [->|N]; [exact Z|].
  destruct (MVT_cor2 (fun y => g y - f y) (fun y => g' y - f' y) 0 x ltac:(lra)) as (y & E & Y).
  { intros y Y. now apply derivable_pt_lim_minus; [apply Dg|apply Df]. }
  cbv beta in E. assert (0 <= (g' y - f' y) * (x - 0)) by (apply Rmult_le_pos; [specialize (L y ltac:(lra)); lra|lra]). lra.
Qed.
Lemma lim_eq f x a b : derivable_pt_lim f x a -> a = b -> derivable_pt_lim f x b.
Proof. now intros H <-. Qed.
Lemma lim_ext f g x a : derivable_pt_lim f x a -> (forall y, f y = g y) -> derivable_pt_lim g x a.
Proof. intros H E eps Heps. destruct (H eps Heps) as (d & D). exists d. intros h Hh Hd. rewrite <- !E. now apply D. Qed.
Lemma lim_scal f x a k : derivable_pt_lim f x a -> derivable_pt_lim (fun y => k * f y) x (k * a).
Proof. exact (derivable_pt_lim_scal f k x a). Qed.
Lemma lim_plus f g x a b : derivable_pt_lim f x a -> derivable_pt_lim g x b -> derivable_pt_lim (fun y => f y + g y) x (a + b).
Proof. exact (derivable_pt_lim_plus f g x a b). Qed.
Lemma lim_minus f g x a b : derivable_pt_lim f x a -> derivable_pt_lim g x b -> derivable_pt_lim (fun y => f y - g y) x (a - b).
Proof. exact (derivable_pt_lim_minus f g x a b). Qed.
Lemma lim_mult f g x a b : derivable_pt_lim f x a -> derivable_pt_lim g x b -> derivable_pt_lim (fun y => f y * g y) x (a * g x + f x * b).
Proof. exact (derivable_pt_lim_mult f g x a b). Qed.
Lemma lim_const k x : derivable_pt_lim (fun _ => k) x 0.
Proof. exact (derivable_pt_lim_const k x). Qed.
Lemma lim_id x : derivable_pt_lim (fun y => y) x 1.
Proof. exact (derivable_pt_lim_id x). Qed.
Lemma lim_sq x : derivable_pt_lim (fun y => y * y) x (2 * x).
Proof. apply (lim_eq _ _ _ _ (lim_mult (fun y => y) (fun y => y) x 1 1 (lim_id x) (lim_id x))). ring. Qed.

(* ------------------------------------------------------------------ the arc tangent *)
Definition yy (x : R) : R := x * x / (1 + x * x).
Definition qa (k : nat) (x : R) : R := (2 * INR (S k) * (x * x)) / ((2 * INR (S k) + 1) * (x * x + 1)).
Fixpoint Ta (k : nat) (x : R) : R := match k with O => 1 | S k => Ta k x * qa k x end.
Fixpoint Sa (n : nat) (x : R) : R := match n with O => 1 | S n => Sa n x + Ta (S n) x end.

Lemma sq_pos x : 0 < 1 + x * x. Proof. pose proof (Rle_0_sqr x) as H. unfold Rsqr in H. lra. Qed.
Lemma yy_range x : 0 <= yy x < 1.
Proof.
  pose proof (sq_pos x). pose proof (Rle_0_sqr x) as S. unfold Rsqr in S. unfold yy. split; [apply Rmult_le_pos; [exact S|left; now apply Rinv_0_lt_compat]|].
  apply Rmult_lt_reg_r with (1 + x * x); [exact H|]. unfold Rdiv. rewrite Rmult_assoc, Rinv_l by lra. lra.
Qed.
Lemma INR_pos k : 0 < INR (S k). Proof. apply lt_0_INR. lia. Qed.
Lemma qa_yy k x : qa k x = 2 * INR (S k) / (2 * INR (S k) + 1) * yy x.
Proof. unfold qa, yy. pose proof (sq_pos x). pose proof (INR_pos k). field. lra. Qed.
Lemma qa_range k x : 0 <= qa k x <= yy x.
Proof.
  rewrite qa_yy. pose proof (yy_range x) as Y. pose proof (INR_pos k) as K. assert (C : 0 <= 2 * INR (S k) / (2 * INR (S k) + 1) <= 1).
  { split; [apply Rmult_le_pos; [lra|left; apply Rinv_0_lt_compat; lra]|]. apply Rmult_le_reg_r with (2 * INR (S k) + 1); [lra|]. unfold Rdiv. rewrite Rmult_assoc, Rinv_l by lra. lra. }
  split; [apply Rmult_le_pos; lra|]. rewrite <- (Rmult_1_l (yy x)) at 2. apply Rmult_le_compat_r; lra.
Qed.
Lemma Ta_nonneg k x : 0 <= Ta k x.
Proof. induction k as [|k IH]; cbn [Ta]; [lra|]. apply Rmult_le_pos; [exact IH|apply qa_range]. Qed.
Lemma Sa_low n x : 1 <= Sa n x.
Proof. induction n as [|n IH]; cbn [Sa]; [lra|]. pose proof (Ta_nonneg (S n) x). lra. Qed.

Definition Ga (k : nat) (x : R) : R := x / (1 + x * x) * Ta k x.
Lemma yy_lim x : derivable_pt_lim yy x (2 * x / ((1 + x * x) * (1 + x * x))).
Proof.
  pose proof (sq_pos x) as P. apply (lim_eq _ _ _ _ (derivable_pt_lim_div (fun y => y * y) (fun y => 1 + y * y) x (2 * x) (0 + 2 * x)
    (lim_sq x) (lim_plus (fun _ => 1) (fun y => y * y) x 0 (2 * x) (lim_const 1 x) (lim_sq x)) ltac:(cbv beta; lra))).
  unfold Rsqr. field. lra.
Qed.
Lemma Ga_lim k x : derivable_pt_lim (Ga k) x (Ta k x * ((2 * INR k + 1) - (2 * INR k + 2) * yy x) / (1 + x * x)).
Proof.
  pose proof (sq_pos x) as P. induction k as [|k IH].
  - apply lim_ext with (fun y => y / (1 + y * y)); [|intros y; unfold Ga; cbn [Ta]; ring].
    apply (lim_eq _ _ _ _ (derivable_pt_lim_div (fun y => y) (fun y => 1 + y * y) x 1 (0 + 2 * x)
      (lim_id x) (lim_plus (fun _ => 1) (fun y => y * y) x 0 (2 * x) (lim_const 1 x) (lim_sq x)) ltac:(cbv beta; lra))).
    unfold Rsqr, yy. cbn [Ta]. change (INR 0) with 0. field. lra.
  - set (a := 2 * INR (S k) / (2 * INR (S k) + 1)).
    apply lim_ext with (fun y => Ga k y * (a * yy y)). 2:{ intros y. unfold Ga. cbn [Ta]. rewrite qa_yy. fold a. ring. }
    eapply lim_eq; [apply lim_mult; [exact IH|apply lim_scal, yy_lim]|]. cbn [Ta]. rewrite qa_yy. fold a. unfold Ga. set (t := Ta k x).
    replace (2 * INR k + 2) with (2 * INR (S k)) by (rewrite S_INR; ring). replace (2 * INR k + 1) with (2 * INR (S k) - 1) by (rewrite S_INR; ring).
    unfold yy. field. lra.
Qed.
Lemma Sa_lim n x : derivable_pt_lim (fun y => y / (1 + y * y) * Sa n y) x ((1 - (2 * INR n + 2) * Ta n x * yy x) / (1 + x * x)).
Proof.
  pose proof (sq_pos x) as P. induction n as [|n IH].
  - apply lim_ext with (Ga 0); [|intros y; reflexivity]. eapply lim_eq; [apply Ga_lim|]. cbn [Ta]. change (INR 0) with 0. field. lra.
  - apply lim_ext with (fun y => y / (1 + y * y) * Sa n y + Ga (S n) y). 2:{ intros y. unfold Ga. cbn [Sa]. ring. }
    eapply lim_eq; [apply lim_plus; [exact IH|apply Ga_lim]|].
    assert (E : (2 * INR n + 2) * Ta n x * yy x = (2 * INR (S n) + 1) * Ta (S n) x).
    { cbn [Ta]. rewrite qa_yy. replace (2 * INR n + 2) with (2 * INR (S n)) by (rewrite S_INR; ring). pose proof (INR_pos n). field. lra. }
    rewrite E. field. lra.
Qed.
(** What is left out is positive, and at most the last summand times [x * yy x]. *)
Lemma atan_series_bound n x : 0 <= x -> 0 <= atan x - x / (1 + x * x) * Sa n x <= x * Ta n x * yy x.
Proof.
  intros X. assert (At : forall y, derivable_pt_lim atan y (/ (1 + y * y))).
  { intros y. eapply lim_eq; [apply derivable_pt_lim_atan|]. f_equal. ring. }
  assert (Pos : forall y, 0 <= (2 * INR n + 2) * Ta n y * yy y / (1 + y * y)).
  { intros y. pose proof (sq_pos y). apply Rmult_le_pos; [|left; now apply Rinv_0_lt_compat]. pose proof (pos_INR n). apply Rmult_le_pos; [apply Rmult_le_pos; [lra|apply Ta_nonneg]|apply yy_range]. }
  split.
  - apply Rge_le, Rge_minus, Rle_ge. apply (grows (fun y => y / (1 + y * y) * Sa n y) atan (fun y => (1 - (2 * INR n + 2) * Ta n y * yy y) / (1 + y * y)) (fun y => / (1 + y * y)) x X).
    + rewrite atan_0. unfold Rdiv. rewrite !Rmult_0_l. lra.
    + intros y _. apply Sa_lim.
    + intros y _. apply At.
    + intros y _. specialize (Pos y). unfold Rdiv in *. lra.
  - replace (x * Ta n x * yy x) with (Ga n x * (x * x)). 2:{ unfold Ga, yy. field. pose proof (sq_pos x). lra. }
    apply (grows (fun y => atan y - y / (1 + y * y) * Sa n y) (fun y => Ga n y * (y * y)) (fun y => / (1 + y * y) - (1 - (2 * INR n + 2) * Ta n y * yy y) / (1 + y * y))
      (fun y => Ta n y * ((2 * INR n + 1) - (2 * INR n + 2) * yy y) / (1 + y * y) * (y * y) + Ga n y * (2 * y)) x X).
    + rewrite atan_0. unfold Ga, Rdiv. rewrite !Rmult_0_l. lra.
    + intros y _. apply lim_minus; [apply At|apply Sa_lim].
    + intros y _. exact (lim_mult _ _ _ _ _ (Ga_lim n y) (lim_sq y)).
    + intros y _. pose proof (sq_pos y) as P. pose proof (Ta_nonneg n y) as T. pose proof (yy_range y) as Y.
      replace (/ (1 + y * y) - (1 - (2 * INR n + 2) * Ta n y * yy y) / (1 + y * y)) with (Ta n y * yy y * ((2 * INR n + 2) * (1 - yy y))) by (unfold yy; field; lra).
      replace (Ta n y * ((2 * INR n + 1) - (2 * INR n + 2) * yy y) / (1 + y * y) * (y * y) + Ga n y * (2 * y)) with (Ta n y * yy y * ((2 * INR n + 3) - (2 * INR n + 2) * yy y)) by (unfold Ga, yy; field; lra).
      apply Rmult_le_compat_l; [now apply Rmult_le_pos|]. lra.
Qed.

(* ------------------------------------------------------------------ the arc sine *)
Definition rb (k : nat) : R := (2 * INR k + 1) / (2 * INR k + 2).
Fixpoint bb (k : nat) (z : R) : R := match k with O => 1 | S k => bb k z * (z * rb k) end.
Fixpoint BB (n : nat) (z : R) : R := match n with O => 1 | S n => BB n z + bb (S n) z end.
Lemma rb_range k : 0 <= rb k <= 1.
Proof.
  pose proof (pos_INR k). unfold rb. split; [apply Rmult_le_pos; [lra|left; apply Rinv_0_lt_compat; lra]|].
  apply Rmult_le_reg_r with (2 * INR k + 2); [lra|]. unfold Rdiv. rewrite Rmult_assoc, Rinv_l by lra. lra.
Qed.
Lemma bb_nonneg k z : 0 <= z -> 0 <= bb k z.
Proof. intros Z. induction k as [|k IH]; cbn [bb]; [lra|]. apply Rmult_le_pos; [exact IH|]. apply Rmult_le_pos; [exact Z|apply rb_range]. Qed.
Lemma BB_low n z : 0 <= z -> 1 <= BB n z.
Proof. intros Z. induction n as [|n IH]; cbn [BB]; [lra|]. pose proof (bb_nonneg (S n) z Z). lra. Qed.
Definition db (k : nat) (z : R) : R := match k with O => 0 | S k => bb k z * ((2 * INR k + 1) / 2) end.
Lemma db_z k z : z * db k z = INR k * bb k z.
Proof. destruct k as [|k]; [cbn; ring|]. cbn [db bb]. rewrite S_INR. unfold rb. pose proof (pos_INR k). field. lra. Qed.
Lemma bb_lim k z : derivable_pt_lim (bb k) z (db k z).
Proof.
  induction k as [|k IH]; [exact (lim_const 1 z)|].
  apply lim_ext with (fun y => bb k y * (rb k * y)). 2:{ intros y. cbn [bb]. ring. }
  apply (lim_eq _ _ _ _ (lim_mult _ _ _ _ _ IH (lim_scal _ _ _ (rb k) (lim_id z)))). replace (db k z * (rb k * z) + bb k z * (rb k * 1)) with (rb k * (z * db k z + bb k z)) by ring.
  rewrite db_z. cbn [db]. unfold rb. pose proof (pos_INR k). field. lra.
Qed.
Fixpoint dB (n : nat) (z : R) : R := match n with O => 0 | S n => dB n z + db (S n) z end.
Lemma BB_lim n z : derivable_pt_lim (BB n) z (dB n z).
Proof. induction n as [|n IH]; [exact (lim_const 1 z)|]. cbn [BB dB]. apply lim_plus; [exact IH|apply bb_lim]. Qed.
Lemma dB_eq n z : 2 * (1 - z) * dB n z - BB n z = - ((2 * INR n + 1) * bb n z).
Proof.
  induction n as [|n IH]; [cbn; ring|]. cbn [dB BB].
  replace (2 * (1 - z) * (dB n z + db (S n) z) - (BB n z + bb (S n) z)) with (2 * (1 - z) * dB n z - BB n z + (2 * (1 - z) * db (S n) z - bb (S n) z)) by ring.
  rewrite IH. replace (2 * (1 - z) * db (S n) z) with (2 * db (S n) z - 2 * (z * db (S n) z)) by ring. rewrite db_z. cbn [db]. rewrite S_INR. field.
Qed.
Definition QQ (n : nat) (z : R) : R := (1 - z) * (BB n z * BB n z).
Lemma QQ_lim n z : derivable_pt_lim (QQ n) z (- ((2 * INR n + 1) * bb n z * BB n z)).
Proof.
  unfold QQ. apply (lim_eq _ _ _ _ (lim_mult _ _ _ _ _ (lim_minus _ _ _ _ _ (lim_const 1 z) (lim_id z)) (lim_mult _ _ _ _ _ (BB_lim n z) (BB_lim n z)))). cbv beta.
  replace ((0 - 1) * (BB n z * BB n z) + (1 - z) * (dB n z * BB n z + BB n z * dB n z)) with (BB n z * (2 * (1 - z) * dB n z - BB n z)) by ring. rewrite dB_eq. ring.
Qed.
Lemma BB_0 n : BB n 0 = 1.
Proof. induction n as [|n IH]; [reflexivity|]. cbn [BB bb]. rewrite IH. ring. Qed.
Lemma QQ_0 n : QQ n 0 = 1.
Proof. unfold QQ. rewrite BB_0. ring. Qed.
Lemma QQ_upper n z : 0 <= z -> QQ n z <= 1.
Proof.
  intros Z. apply (grows (QQ n) (fun _ => 1) (fun z => - ((2 * INR n + 1) * bb n z * BB n z)) (fun _ => 0) z Z).
  - rewrite QQ_0. lra.
  - intros y _. apply QQ_lim.
  - intros y _. apply lim_const.
  - intros y Y. pose proof (pos_INR n). pose proof (bb_nonneg n y ltac:(lra)). pose proof (BB_low n y ltac:(lra)).
    assert (0 <= (2 * INR n + 1) * bb n y * BB n y) by (apply Rmult_le_pos; [apply Rmult_le_pos|]; lra). lra.
Qed.
Lemma BB_high n z : 0 <= z <= 0.51 -> BB n z <= 1.5.
Proof.
  intros Z. pose proof (QQ_upper n z ltac:(lra)) as Q. pose proof (BB_low n z ltac:(lra)) as B. unfold QQ in Q. apply Rnot_lt_le. intros L.
  assert (1.5 * 1.5 <= BB n z * BB n z) by (apply Rmult_le_compat; lra). assert (0.49 * (1.5 * 1.5) <= (1 - z) * (BB n z * BB n z)) by (apply Rmult_le_compat; lra). lra.
Qed.
Lemma QQ_lower n z : 0 <= z <= 0.51 -> 1 - QQ n z <= 3 * (z * bb n z).
Proof.
  intros Z. apply (grows (fun z => 1 - QQ n z) (fun z => 3 * (z * bb n z)) (fun z => 0 - - ((2 * INR n + 1) * bb n z * BB n z)) (fun z => 3 * (1 * bb n z + z * db n z)) z ltac:(lra)).
  - rewrite QQ_0. lra.
  - intros y _. apply lim_minus; [apply lim_const|apply QQ_lim].
  - intros y _. exact (lim_scal _ _ _ 3 (lim_mult _ _ _ _ _ (lim_id y) (bb_lim n y))).
  - intros y Y. rewrite db_z. pose proof (pos_INR n). pose proof (bb_nonneg n y ltac:(lra)) as b. pose proof (BB_low n y ltac:(lra)). pose proof (BB_high n y ltac:(lra)).
    assert ((2 * INR n + 1) * bb n y * BB n y <= (2 * INR n + 1) * bb n y * 1.5) by (apply Rmult_le_compat_l; [apply Rmult_le_pos|]; lra).
    assert (0 <= INR n * bb n y) by now apply Rmult_le_pos. lra.
Qed.

Definition pb (k : nat) (x : R) : R := x * bb k (x * x) / (2 * INR k + 1).
Fixpoint Sb (n : nat) (x : R) : R := match n with O => x | S n => Sb n x + pb (S n) x end.
Lemma pb_nonneg k x : 0 <= x -> 0 <= pb k x.
Proof.
  intros X. unfold pb. pose proof (pos_INR k). apply Rmult_le_pos; [apply Rmult_le_pos; [exact X|apply bb_nonneg; now apply Rmult_le_pos]|left; apply Rinv_0_lt_compat; lra].
Qed.
Lemma pb_lim k x : derivable_pt_lim (pb k) x (bb k (x * x)).
Proof.
  induction k as [|k IH].
  - apply lim_ext with (fun y => y); [|intros y; unfold pb; cbn [bb]; change (INR 0) with 0; field]. exact (lim_id x).
  - pose proof (pos_INR k) as K. set (r := (2 * INR k + 1) / (2 * INR k + 3) * rb k).
    apply lim_ext with (fun y => pb k y * (r * (y * y))). 2:{ intros y. unfold pb, r. cbn [bb]. rewrite S_INR. field. lra. }
    apply (lim_eq _ _ _ _ (lim_mult _ _ _ _ _ IH (lim_scal _ _ _ r (lim_sq x)))). unfold pb, r. cbn [bb]. field. lra.
Qed.
Lemma Sb_lim n x : derivable_pt_lim (Sb n) x (BB n (x * x)).
Proof.
  induction n as [|n IH]; [exact (lim_id x)|]. cbn [Sb BB]. apply lim_plus; [exact IH|apply pb_lim].
Qed.
Lemma asin_lim x : -1 < x < 1 -> derivable_pt_lim asin x (/ sqrt (1 - x * x)).
Proof. intros H. apply lim_eq with (derive_pt asin x (derivable_pt_asin x H)); [now apply (derive_pt_eq_1 asin x _ (derivable_pt_asin x H))|]. rewrite derive_pt_asin. unfold Rdiv, Rsqr. ring. Qed.
Lemma inv_root n x : 0 <= x -> x * x <= 0.51 -> 0 <= / sqrt (1 - x * x) - BB n (x * x) <= 4.3 * (x * x) * bb n (x * x).
Proof.
  intros X H. pose proof (Rmult_le_pos x x X X) as X2. set (z := x * x) in *. pose proof (QQ_upper n z X2) as U. pose proof (QQ_lower n z ltac:(lra)) as L. unfold QQ in *.
  set (r := sqrt (1 - z)) in *. assert (R2 : r * r = 1 - z) by (apply sqrt_sqrt; lra). assert (R0 : 0.7 <= r). { rewrite <- (sqrt_square 0.7) by lra. apply sqrt_le_1; lra. }
  rewrite <- R2 in *. set (B := BB n z) in *. assert (B1 : 1 <= B) by now apply BB_low. assert (b0 : 0 <= bb n z) by now apply bb_nonneg. set (b := bb n z) in *.
  assert (RB : r * B <= 1). { apply Rnot_lt_le. intros Q. assert (1 * 1 < (r * B) * (r * B)) by (apply Rmult_le_0_lt_compat; lra). lra. }
  assert (RB0 : 0 <= r * B) by (apply Rmult_le_pos; lra).
  assert (G : 1 - r * B <= 3 * (z * b)).
  { apply Rle_trans with (2 := L). assert ((r * B) * (r * B) <= 1 * (r * B)) by (apply Rmult_le_compat_r; lra). lra. }
  assert (I : / r <= 1.43). { apply Rle_trans with (/ 0.7); [apply Rinv_le_contravar; lra|lra]. }
  replace (/ r - B) with (/ r * (1 - r * B)) by (field; lra). assert (0 < / r) by (apply Rinv_0_lt_compat; lra).
  split; [apply Rmult_le_pos; lra|]. assert (0 <= z * b) by now apply Rmult_le_pos.
  apply Rle_trans with (1.43 * (3 * (z * b))); [apply Rmult_le_compat; lra|lra].
Qed.
(** What is left out is positive, and at most 4.3 times the last summand times [x * x]. *)
Lemma asin_series_bound n x : 0 <= x -> x * x <= 0.51 -> 0 <= asin x - Sb n x <= 4.3 * (x * x) * pb n x.
Proof.
  intros X H. assert (R : forall y, 0 <= y <= x -> y * y <= 0.51). { intros y Y. apply Rle_trans with (x * x); [apply Rmult_le_compat; lra|exact H]. }
  assert (X1 : x < 1). { apply Rnot_le_lt. intros Q. assert (1 * 1 <= x * x) by (apply Rmult_le_compat; lra). lra. }
  split.
  - apply Rge_le, Rge_minus, Rle_ge. apply (grows (Sb n) asin (fun y => BB n (y * y)) (fun y => / sqrt (1 - y * y)) x X).
    + rewrite asin_0. apply Req_le. clear. induction n as [|n IH]; [reflexivity|]. cbn [Sb]. rewrite IH. unfold pb, Rdiv. rewrite !Rmult_0_l. ring.
    + intros y _. apply Sb_lim.
    + intros y Y. apply asin_lim. lra.
    + intros y Y. pose proof (inv_root n y ltac:(lra) (R y Y)). lra.
  - apply (grows (fun y => asin y - Sb n y) (fun y => 4.3 * (y * y) * pb n y) (fun y => / sqrt (1 - y * y) - BB n (y * y)) (fun y => 4.3 * (2 * y) * pb n y + 4.3 * (y * y) * bb n (y * y)) x X).
    + rewrite asin_0. apply Req_le. rewrite !Rmult_0_r, Rmult_0_l. assert (E : Sb n 0 = 0); [|lra]. clear. induction n as [|n IH]; [reflexivity|]. cbn [Sb]. rewrite IH. unfold pb, Rdiv. rewrite !Rmult_0_l. ring.
    + intros y Y. apply lim_minus; [apply asin_lim; lra|apply Sb_lim].
    + intros y _. exact (lim_mult _ _ _ _ _ (lim_scal _ _ _ 4.3 (lim_sq y)) (pb_lim n y)).
    + intros y Y. pose proof (inv_root n y ltac:(lra) (R y Y)). pose proof (pb_nonneg n y ltac:(lra)). assert (0 <= 4.3 * (2 * y) * pb n y) by (apply Rmult_le_pos; lra). lra.
Qed.
