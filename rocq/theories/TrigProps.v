(** C107 and C108: the compile-time sine, cosine and tangent. *)
From Coq Require Import ZArith Bool List Reals Lra Lia String.
From Flocq Require Import Core BinarySingleNaN.
From Verif Require Import FpModel SqrtModel SqrtProps SqrtProofs4 ConstModel ConstTables ConstSpec ConstProofs ConstProofs2 ConstProps TrigModel TrigSpec TrigProofs2 TrigProofs5 TrigProofs6 TrigProofs7 TrigProofs8.
Local Open Scope R_scope.

(** The function meant *)
Definition true_value (cosine : bool) (x : R) : R := if cosine then cos x else sin x.
(** [r] is a result: finite, and within [error] of [v]. *)
Definition close {p e : Z} (r : option (binary_float p e)) (v error : R) : Prop :=
  exists y, r = Some y /\ is_finite y = true /\ Rabs (B2R y - v) <= error.

(* ------------------------------------------------------------------ the constants *)
(** The constants of core_constants.h which the functions use are right, in each type in which they compute: x87 long double ... *)
Theorem C107_constants (c : constants 64 16384) : taken_from 64 16384 (in_table 64 16384) c -> right_constants 64 16384 c.
Proof.
  apply table_right. intros name v x (lit & I & ->) _ F M. destruct (C104_long_double_partial name lit I) as (y & G & H). rewrite F in G. injection G as <-. now apply H.
Qed.
Print Assumptions C107_constants.
(** ... long double the same as double ... *)
Theorem C107_constants_double (c : constants 53 1024) : taken_from 53 1024 (in_table 53 1024) c -> right_constants 53 1024 c.
Proof.
  apply table_right. intros name v x (lit & I & ->) _ F M. destruct (C104_double_partial name lit I) as (y & G & H). rewrite F in G. injection G as <-. now apply H.
Qed.
Print Assumptions C107_constants_double.
(** ... and float128_t. *)
Theorem C107_constants_float128 (c : constants 113 16384) : taken_from 113 16384 in_table128 c -> right_constants 113 16384 c.
Proof.
  apply table_right. intros name v x (lit & I & ->) N F M. destruct (C104_float128_partial name lit I N) as (y & G & H). rewrite F in G. injection G as <-. now apply H.
Qed.
Print Assumptions C107_constants_float128.

(** The long double constants *)
Definition number (m : positive) (k : Z) (H : SpecFloat.bounded 64 16384 m k = true) : binary_float 64 16384 := B754_finite false m k H.
Definition ld_constants : constants 64 16384 := Constants 64 16384
  (number 14488038916154245685 (-62) eq_refl) (number 14488038916154245685 (-61) eq_refl)
  (number 11743562013128004906 (-65) eq_refl) (number 11743562013128004906 (-66) eq_refl)
  (number 14488038916154245685 (-63) eq_refl) (number 10866029187115684264 (-61) eq_refl)
  (number 14488038916154245685 (-64) eq_refl) (number 14488038916154245685 (-65) eq_refl)
  (number 13043817825332782212 (-63) eq_refl).
Definition ld_check (name : string) (m : positive) (k : Z) : bool :=
  match lookup name literals with
  | Some lit => match const_value 64 16384 lit with Some (m', k') => Z.eqb m' (Zpos m) && Z.eqb k' (- k) | None => false end
  | None => false
  end.
Lemma ld_taken name m k H : ld_check name m k = true -> taken 64 16384 (in_table 64 16384) name (number m k H).
Proof.
  unfold ld_check. intros Q. destruct (lookup name literals) as [lit|] eqn:L; [|discriminate]. destruct (const_value 64 16384 lit) as [[m' k']|] eqn:C; [|discriminate].
  apply andb_true_iff in Q. destruct Q as [Q1 Q2]. apply Z.eqb_eq in Q1, Q2. subst m' k'. split; [reflexivity|]. exists lit. split.
  - clear C. revert L. generalize literals. intros l. induction l as [|[n v] l IH]; intros L; [discriminate|]. cbn [lookup] in L. destruct (String.eqb n name) eqn:Q; [apply String.eqb_eq in Q; subst n; injection L as <-; now left|right; now apply IH].
  - destruct (const_value_ok 64 16384 lit _ _ ltac:(lia) C) as [-> _]. unfold dyadic. now rewrite Z.opp_involutive.
Qed.
Example C107_constants_ex : taken_from 64 16384 (in_table 64 16384) ld_constants.
Proof. constructor; apply ld_taken; vm_compute; reflexivity. Qed.
Lemma ld_right : right_constants 64 16384 ld_constants.
Proof. exact (C107_constants _ C107_constants_ex). Qed.

Section C107.
  Variable prec emax : Z.
  Context (Hp : Prec_gt_0 prec) (He : Prec_lt_emax prec emax).
  Notation sine_or_cosine := (trig prec emax Hp He).
  Notation u := (bpow radix2 (- prec)).

  (* ---------------------------------------------------------------- accuracy *)
  (** Within a turn: an absolute error of at most 47 * 2^-prec, for any format of 53 to 113 bits. Four calls are enough. (At the
      constant two_pi itself the sine is in [C107_wide_partial].) *)
  Theorem C107_turn (c : constants prec emax) (cosine : bool) (x : binary_float prec emax) :
    (53 <= prec <= 113)%Z -> (1024 <= emax)%Z -> right_constants prec emax c -> is_finite x = true ->
    0 <= B2R x <= B2R (two_pi c) -> cosine = true \/ B2R x < B2R (two_pi c) ->
    close (sine_or_cosine c 4 cosine x) (true_value cosine (B2R x)) (47 * u).
  Proof. intros A B C F H1 H2. pose proof (turn_trig prec emax Hp He A B c C 0 cosine x F H1 H2) as G. now destruct cosine. Qed.

  (** Up to 2^40 on both sides: the rounding of two_pi and of the reduction comes on top. Beyond, the theorem says nothing. *)
  Theorem C107_wide_partial (c : constants prec emax) (cosine : bool) (x : binary_float prec emax) :
    (53 <= prec <= 113)%Z -> (1024 <= emax)%Z -> right_constants prec emax c -> is_finite x = true -> Rabs (B2R x) <= bpow radix2 40 ->
    close (sine_or_cosine c 4 cosine x) (true_value cosine (B2R x)) ((36100 + 3 * Rabs (B2R x)) * u).
  Proof. intros A B C F H. pose proof (wide_trig prec emax Hp He A B c C 0 cosine x F H) as G. now destruct cosine. Qed.

  (** The sine of a small positive number has a small relative error, even for the smallest numbers. *)
  Theorem C107_small (c : constants prec emax) (x : binary_float prec emax) :
    (53 <= prec <= 113)%Z -> (1024 <= emax)%Z -> right_constants prec emax c -> is_finite x = true -> 0 <= B2R x <= B2R (pi_over_four c) ->
    close (sine_or_cosine c 1 false x) (sin (B2R x)) (34 * u * B2R x).
  Proof. intros A B C F H. exact (small_sin prec emax Hp He A B c C 0 x F H). Qed.

  (** More calls change nothing: what is found at some depth is found at every greater depth. *)
  Theorem C107_depth (c : constants prec emax) n m cosine x y : (n <= m)%nat -> sine_or_cosine c n cosine x = Some y -> sine_or_cosine c m cosine x = Some y.
  Proof. apply trig_depth. Qed.

  (** Zeros keep their sign under the sine, NaN stays NaN, and infinity is not a constant expression. *)
  Theorem C107_special (c : constants prec emax) : (53 <= prec <= 113)%Z -> (1024 <= emax)%Z -> right_constants prec emax c ->
    (forall s n, sine_or_cosine c (S n) false (B754_zero s) = Some (B754_zero s) /\ sine_or_cosine c (S n) true (B754_zero s) = Some Bone) /\
    (forall cosine n, sine_or_cosine c (S n) cosine B754_nan = Some B754_nan) /\
    (forall cosine s n, sine_or_cosine c n cosine (B754_infinity s) = None).
  Proof.
    intros A B C. destruct (c_facts prec emax Hp A B c C) as [(_ & F2 & _) (H2 & _) _ (N1 & _)]. pose proof PI_bounds as Bp.
    assert (T : 0 < B2R (two_pi c)) by lra. split; [intros s n; split; [reflexivity|now apply zero_cos]|]. split; [intros [] n; [apply nan_cos|reflexivity]|].
    destruct (one_over_two_pi_right _ _ _ C) as [F V]. intros cosine s n. apply infinite; [exact F2|exact F|]. rewrite V.
    assert (Q : 0.1 <= 1 / (2 * PI) <= 10). { unfold Rdiv. rewrite Rmult_1_l. split; [apply Rle_trans with (/ 7); [lra|apply Rinv_le; lra]|apply Rle_trans with (/ 1); [apply Rinv_le; lra|lra]]. }
    pose proof (rnd_rel prec emax Hp A B _ Q) as R. apply Rabs_le_inv in R. pose proof (u_tiny prec A) as U. pose proof (u_pos prec) as U0.
    assert (u * (1 / (2 * PI)) <= 0.001 * 10) by (apply Rmult_le_compat; lra). lra.
  Qed.
End C107.
Print Assumptions C107_turn.
Print Assumptions C107_wide_partial.
Print Assumptions C107_small.
Print Assumptions C107_depth.
Print Assumptions C107_special.

Section Narrow.
  Variable p e P E : Z.
  Context (Hp : Prec_gt_0 p) (He : Prec_lt_emax p e) (HP : Prec_gt_0 P) (HE : Prec_lt_emax P E).

  (** The types narrower than long double, within a turn: little more than half a unit in the last place of 1. The formats may be
      half, float or double, with a long double of at least 7 bits more. *)
  Theorem C107_narrow (c : constants P E) (cosine : bool) (x : binary_float p e) :
    (53 <= P <= 113)%Z -> (1024 <= E)%Z -> (3 <= p)%Z -> (p + 7 <= P)%Z -> (p + 3 <= e <= E)%Z -> right_constants P E c -> is_finite x = true -> 0 <= B2R x < B2R (two_pi c) ->
    close (trig_narrow p e P E _ _ _ _ c 4 cosine x) (true_value cosine (B2R x)) (bpow radix2 (- p) / 2 + 47 * bpow radix2 (- P)).
  Proof.
    intros A B p3 pP eE C F H. destruct (widen p e P E HP HE ltac:(lia) eE x F) as [Fw Vw].
    pose proof (turn_trig P E HP HE A B c C 0 cosine (fp_cast p e P E _ _ x) Fw ltac:(rewrite Vw; lra) ltac:(rewrite Vw; lra)) as G. rewrite Vw in G.
    pose proof (bpow_gt_0 radix2 (- P)) as U0. pose proof (u_tiny P A) as Ut.
    assert (K : 128 * bpow radix2 (- P) <= bpow radix2 (- p)) by (change 128 with (bpow radix2 7); rewrite <- bpow_plus; apply bpow_le; lia).
    apply (narrow_good p e P E Hp He ltac:(lia) eE) in G; [|destruct cosine; [apply Rabs_le, COS_bound|apply Rabs_le, SIN_bound]|lra].
    rewrite Rmax_left in G by lra. now destruct cosine.
  Qed.
  Theorem C107_narrow_wide_partial (c : constants P E) (cosine : bool) (x : binary_float p e) :
    (53 <= P <= 113)%Z -> (1024 <= E)%Z -> (3 <= p <= P)%Z -> (p + 3 <= e <= E)%Z -> right_constants P E c -> is_finite x = true -> Rabs (B2R x) <= bpow radix2 40 ->
    close (trig_narrow p e P E _ _ _ _ c 4 cosine x) (true_value cosine (B2R x)) (bpow radix2 (- p) / 2 + 2 * (36100 + 3 * Rabs (B2R x)) * bpow radix2 (- P)).
  Proof.
    intros A B pP eE C F H. destruct (widen p e P E HP HE pP eE x F) as [Fw Vw].
    pose proof (wide_trig P E HP HE A B c C 0 cosine (fp_cast p e P E _ _ x) Fw ltac:(rewrite Vw; exact H)) as G. rewrite Vw in G.
    pose proof (bpow_gt_0 radix2 (- P)) as U0. pose proof (u_tiny P A) as Ut. pose proof (bpow_gt_0 radix2 (- p)) as u0. pose proof (Rabs_pos (B2R x)) as X0.
    assert (S : (36100 + 3 * Rabs (B2R x)) * bpow radix2 (- P) <= 1).
    { apply Rle_trans with (bpow radix2 42 * bpow radix2 (-53)); [|rewrite <- bpow_plus; apply Rle_trans with (bpow radix2 0); [apply bpow_le; lia|cbn; lra]].
      apply Rmult_le_compat; [lra|lra| |apply bpow_le; lia]. change (bpow radix2 42) with (bpow radix2 (2 + 40)). rewrite bpow_plus. change (bpow radix2 2) with 4.
      assert (36100 <= bpow radix2 40) by (apply Rle_trans with (bpow radix2 16); [cbn; lra|apply bpow_le; lia]). lra. }
    apply (narrow_good p e P E Hp He pP eE) in G; [|destruct cosine; [apply Rabs_le, COS_bound|apply Rabs_le, SIN_bound]|exact S].
    replace (fn cosine (B2R x)) with (true_value cosine (B2R x)) in G by (now destruct cosine). destruct G as (y & Ey & Fy & By). exists y. split; [exact Ey|]. split; [exact Fy|]. apply Rle_trans with (1 := By).
    assert (0 <= (36100 + 3 * Rabs (B2R x)) * bpow radix2 (- P)) by (apply Rmult_le_pos; lra).
    assert (M : Rmax (bpow radix2 (- p) / 2) ((36100 + 3 * Rabs (B2R x)) * bpow radix2 (- P)) <= bpow radix2 (- p) / 2 + (36100 + 3 * Rabs (B2R x)) * bpow radix2 (- P)) by (apply Rmax_lub; lra). lra.
  Qed.
End Narrow.
Print Assumptions C107_narrow.
Print Assumptions C107_narrow_wide_partial.

(* ------------------------------------------------------------------ examples *)
Definition ld (s : bool) (m : positive) (k : Z) : binary_float 64 16384 := binary_normalize 64 16384 p64 e16384 mode_NE (cond_Zopp s (Zpos m)) k s.
Definition ld_sin n x := trig 64 16384 p64 e16384 ld_constants n false x.
Definition ld_cos n x := trig 64 16384 p64 e16384 ld_constants n true x.
Definition half_ : binary_float 64 16384 := number 9223372036854775808 (-64) eq_refl.
Example C107_ex1 : is_finite half_ = true /\ B2R half_ = / 2 /\ 0 <= / 2 <= B2R (pi_over_four ld_constants) /\ 0 <= / 2 < B2R (two_pi ld_constants).
Proof. split; [reflexivity|]. unfold half_, ld_constants, number, pi_over_four, two_pi. cbn [B2R]. unfold F2R. cbn. lra. Qed.
(** The sine of the float 1/2 *)
Definition float_half : binary_float 24 128 := binary_normalize 24 128 p24 e128 mode_NE 1 (-1) false.
Example C107_ex3 : is_finite float_half = true /\
  close (trig_narrow 24 128 64 16384 p24 e128 p64 e16384 ld_constants 4 false float_half) (sin (/ 2)) (bpow radix2 (-24) / 2 + 47 * bpow radix2 (-64)).
Proof.
  assert (F : is_finite float_half = true) by (vm_compute; reflexivity). split; [exact F|].
  assert (V : B2R float_half = / 2) by (rewrite <- SF2R_B2SF; replace (B2SF float_half) with (SpecFloat.S754_finite false 8388608 (-24)) by (vm_compute; reflexivity); cbn [SF2R]; unfold F2R; cbn; lra).
  rewrite <- V. apply (C107_narrow 24 128 64 16384 p24 e128 p64 e16384 ld_constants false float_half); try lia; [exact ld_right|exact F|]. rewrite V. pose proof C107_ex1. lra.
Qed.
(** The cosine of 5, found at depth 3: 0.28366... *)
Example C107_ex2 : option_map B2SF (ld_cos 3 (ld false 5 0)) = Some (SpecFloat.S754_finite false 10465287477258537628 (-65)).
Proof. vm_compute. reflexivity. Qed.

Definition minus_tiny : binary_float 64 16384 := Bopp (number 9223372036854775808 (-163) eq_refl).
Lemma minus_tiny_value : B2R minus_tiny = - bpow radix2 (-100).
Proof.
  unfold minus_tiny, number. cbn [Bopp B2R negb]. unfold F2R. cbn [Fnum Fexp cond_Zopp Z.opp]. change (-163)%Z with (-63 + -100)%Z. rewrite bpow_plus.
  assert (K : IZR (Z.neg 9223372036854775808) * bpow radix2 (-63) = -1) by (cbn; lra). rewrite <- Rmult_assoc. rewrite K. ring.
Qed.
Lemma sin_minus_tiny : option_map B2SF (ld_sin 4 minus_tiny) = Some (SpecFloat.S754_finite true 11044930307003774397 (-122)).
Proof. vm_compute. reflexivity. Qed.
Lemma some_value {p e : Z} (r : option (binary_float p e)) v : option_map B2SF r = Some v -> exists y, r = Some y /\ B2SF y = v.
Proof. destruct r as [y|]; [|discriminate]. intros H. injection H as H. now exists y. Qed.
(** The sine is not odd, and the relative error is not small for small negative numbers: the sine of -2^-100 is less than -2^-59. *)
Theorem C107_negative_refuted : exists c : constants 64 16384, right_constants 64 16384 c /\
  exists x y : binary_float 64 16384, B2R x = - bpow radix2 (-100) /\ trig 64 16384 p64 e16384 c 4 false x = Some y /\ B2R y < - bpow radix2 (-59).
Proof.
  exists ld_constants. split; [exact ld_right|]. destruct (some_value _ _ sin_minus_tiny) as (y & T & S). exists minus_tiny, y. split; [exact minus_tiny_value|]. split; [exact T|].
  rewrite <- (SF2R_B2SF 64 16384 y), S. cbn [SF2R]. unfold F2R. cbn [Fnum Fexp cond_Zopp Z.opp]. change (-122)%Z with (-63 + -59)%Z. rewrite bpow_plus.
  assert (0 < bpow radix2 (-59)) as b0 by apply bpow_gt_0. set (b59 := bpow radix2 (-59)) in *.
  assert (K : IZR (Z.neg 11044930307003774397) * bpow radix2 (-63) < -1) by (cbn; lra). set (q := IZR (Z.neg 11044930307003774397)) in *. set (w := bpow radix2 (-63)) in *.
  replace (q * (w * b59)) with (q * w * b59) by ring. apply Rlt_le_trans with (-1 * b59); [now apply Rmult_lt_compat_r|lra].
Qed.
Print Assumptions C107_negative_refuted.

(* ------------------------------------------------------------------ C108: the tangent *)
(** [r] is a result: finite, and the tangent of an angle no further from [x] than [shift], but for a relative error. *)
Definition tangent_of {p e : Z} (r : option (binary_float p e)) (x shift error : R) : Prop :=
  exists y, r = Some y /\ is_finite y = true /\ exists angle d, Rabs (angle - x) <= shift /\ Rabs d <= error /\ B2R y = tan angle * (1 + d).

Section C108.
  Variable prec emax : Z.
  Context (Hp : Prec_gt_0 prec) (He : Prec_lt_emax prec emax).
  Notation tangent_ := (tangent prec emax Hp He).
  Notation u := (bpow radix2 (- prec)).
  (** From 2^-900 up to pi, except at the constant pi_over_two: the tangent of an angle off by at most 5.5 * 2^-prec, with a relative error of at
      most 120 * 2^-prec. Missing: smaller, negative and greater arguments. *)
  Theorem C108_half_turn_partial (c : constants prec emax) (x : binary_float prec emax) :
    (53 <= prec <= 113)%Z -> (1024 <= emax)%Z -> right_constants prec emax c -> is_finite x = true ->
    bpow radix2 (-900) <= B2R x <= B2R (pi c) -> B2R x <> B2R (pi_over_two c) ->
    tangent_of (tangent_ c 5 x) (B2R x) (5.5 * u) (120 * u).
  Proof.
    intros A B C F H N. destruct (half_turn prec emax Hp He A B c C 0 x F H N) as (dx & D & y & Ey & Fy & (d & Hd & Ed) & _).
    exists y. split; [exact Ey|]. split; [exact Fy|]. exists (B2R x + dx), d. split; [now replace (B2R x + dx - B2R x) with dx by ring|]. now split.
  Qed.
  (** Without the angle: up to pi/8 the relative error is at most 80 * 2^-prec, except at the constant pi_over_eight. *)
  Theorem C108_small_partial (c : constants prec emax) (x : binary_float prec emax) :
    (53 <= prec <= 113)%Z -> (1024 <= emax)%Z -> right_constants prec emax c -> is_finite x = true ->
    bpow radix2 (-900) <= B2R x < B2R (pi_over_eight c) -> tangent_of (tangent_ c 2 x) (B2R x) 0 (80 * u).
  Proof.
    intros A B C F H. pose proof (eighth prec emax Hp He A B c C 0 x F ltac:(lra)) as Q. rewrite Req_bool_false in Q by lra. destruct Q as (y & Ey & Fy & (d & Hd & Ed) & _).
    exists y. split; [exact Ey|]. split; [exact Fy|]. exists (B2R x), d. split; [rewrite Rminus_diag_eq, Rabs_R0 by reflexivity; lra|]. now split.
  Qed.
  Theorem C108_depth (c : constants prec emax) n m x y : (n <= m)%nat -> tangent_ c n x = Some y -> tangent_ c m x = Some y.
  Proof. apply tangent_depth. Qed.
  Theorem C108_special (c : constants prec emax) : (53 <= prec <= 113)%Z -> (1024 <= emax)%Z -> right_constants prec emax c ->
    (forall s n, tangent_ c (S n) (B754_zero s) = Some (B754_zero s)) /\ (forall n, tangent_ c (S n) B754_nan = Some B754_nan) /\
    (forall s n, tangent_ c n (B754_infinity s) = None).
  Proof.
    intros A B C. split; [reflexivity|]. split; [reflexivity|]. pose proof PI_bounds as Bp.
    destruct (pi_right _ _ _ C) as [F1 _]. destruct (one_over_pi_right _ _ _ C) as [F V]. intros s n. apply infinite_tan; [exact F1|exact F|]. rewrite V.
    assert (Q : 0.1 <= 1 / PI <= 10). { unfold Rdiv. rewrite Rmult_1_l. split; [apply Rle_trans with (/ 7); [lra|apply Rinv_le; lra]|apply Rle_trans with (/ 1); [apply Rinv_le; lra|lra]]. }
    pose proof (rnd_rel prec emax Hp A B _ Q) as R. apply Rabs_le_inv in R. pose proof (u_tiny prec A) as U. pose proof (u_pos prec) as U0.
    assert (u * (1 / PI) <= 0.001 * 10) by (apply Rmult_le_compat; lra). lra.
  Qed.
  (** The tangent of the constant pi_over_two (which is finite: the constant is not exactly pi/2) is not a constant expression: the cosine
      found is zero, and the division stops the evaluation. *)
  Theorem C108_right_angle_refuted (c : constants prec emax) : (53 <= prec <= 113)%Z -> (1024 <= emax)%Z -> right_constants prec emax c ->
    forall n, tangent_ c n (pi_over_two c) = None.
  Proof. intros A B C n. apply (tangent_h prec emax Hp He A B c C); [apply C|reflexivity]. Qed.
End C108.
Print Assumptions C108_half_turn_partial.
Print Assumptions C108_small_partial.
Print Assumptions C108_depth.
Print Assumptions C108_special.
Print Assumptions C108_right_angle_refuted.

(** double: the result is rounded once more. *)
Theorem C108_double_partial (c : constants 64 16384) (x : binary_float 53 1024) : right_constants 64 16384 c -> is_finite x = true ->
  bpow radix2 (-900) <= B2R x <= B2R (pi c) ->
  tangent_of (tangent_narrow 53 1024 64 16384 p53 e1024 p64 e16384 c 5 x) (B2R x) (5.5 * bpow radix2 (-64)) (1.07 * bpow radix2 (-53)).
Proof.
  intros C F H. destruct (widen 53 1024 64 16384 p64 e16384 ltac:(lia) ltac:(lia) x F) as [Fw Vw].
  assert (N : B2R x <> B2R (pi_over_two c)).
  { (* pi_over_two has more than 53 bits *)
    destruct (pi_over_two_right _ _ _ C) as [_ V]. destruct (pi_over_two_right _ _ _ ld_right) as [_ W]. rewrite V, <- W. cbn [pi_over_two ld_constants number B2R]. intros X.
    pose proof (generic_format_B2R 53 1024 x) as G. apply FLT_format_generic in G; [|exact p53]. destruct G as [[m ex] G1 G2 _]. cbn [Fnum Fexp] in G2. rewrite X in G1. clear - G1 G2.
    unfold F2R in G1. cbn [Fnum Fexp cond_Zopp] in G1. destruct (Z_le_gt_dec ex (-63)) as [L|G].
    - assert (Q : (14488038916154245685 * 2 ^ (-63 - ex) = m)%Z).
      { apply eq_IZR. rewrite mult_IZR. change 2%Z with (radix_val radix2). rewrite IZR_Zpower by lia. replace (-63 - ex)%Z with (-63 + - ex)%Z by ring. rewrite bpow_plus, <- Rmult_assoc, G1, Rmult_assoc, <- bpow_plus.
        replace (ex + - ex)%Z with 0%Z by ring. cbn. ring. }
      assert (0 < 2 ^ (-63 - ex))%Z by (apply Z.pow_pos_nonneg; lia). change (Zpower radix2 53) with 9007199254740992%Z in G2. lia.
    - assert (Q : (m * 2 ^ (ex + 63) = 14488038916154245685)%Z).
      { apply eq_IZR. rewrite mult_IZR. change 2%Z with (radix_val radix2). rewrite IZR_Zpower by lia. rewrite bpow_plus, <- Rmult_assoc, <- G1, Rmult_assoc, <- bpow_plus. cbn. ring. }
      replace (ex + 63)%Z with (1 + (ex + 62))%Z in Q by ring. rewrite Z.pow_add_r in Q by lia. change (2 ^ 1)%Z with 2%Z in Q. set (k := (2 ^ (ex + 62))%Z) in Q. assert (Z.even (m * (2 * k)) = true) by (rewrite !Z.even_mul; cbn; now rewrite orb_true_r). rewrite Q in H. discriminate. }
  destruct (half_turn 64 16384 p64 e16384 ltac:(lia) ltac:(lia) c C 0 (fp_cast 53 1024 64 16384 _ _ x) Fw ltac:(rewrite Vw; exact H) ltac:(rewrite Vw; exact N)) as (dx & D & Q).
  rewrite Vw in Q. apply (narrow_fine 53 1024 64 16384 p53 e1024) in Q; [|lia|lia|lia|lia|]. 2:{ cbn; lra. }
  destruct Q as (y & Ey & Fy & d & Hd & Ed). exists y. split; [exact Ey|]. split; [exact Fy|]. exists (B2R x + dx), d.
  split; [replace (B2R x + dx - B2R x) with dx by ring; exact D|]. split; [|exact Ed]. apply Rle_trans with (1 := Hd). cbn. lra.
Qed.
Print Assumptions C108_double_partial.

Example C108_ex : bpow radix2 (-900) <= / 2 <= B2R (pi ld_constants) /\ / 2 <> B2R (pi_over_two ld_constants).
Proof. split; [split; [apply Rle_trans with (bpow radix2 (-1)); [apply bpow_le; lia|cbn; lra]|]|]; unfold ld_constants, number, pi, pi_over_two; cbn [B2R]; unfold F2R; cbn; lra. Qed.

Lemma tan_minus_tiny : option_map B2SF (tangent 64 16384 p64 e16384 ld_constants 1 minus_tiny) = Some (SpecFloat.S754_zero false).
Proof. vm_compute. reflexivity. Qed.
(** The tangent of a small negative number may be zero: nothing is left of -2^-100 after adding pi. *)
Theorem C108_negative_refuted : exists c : constants 64 16384, right_constants 64 16384 c /\
  exists x : binary_float 64 16384, B2R x < 0 /\ forall n, tangent 64 16384 p64 e16384 c (S n) x = Some (zero 64 16384).
Proof.
  exists ld_constants. split; [exact ld_right|]. destruct (some_value _ _ tan_minus_tiny) as (y & T & V). exists minus_tiny.
  split; [rewrite minus_tiny_value; pose proof (bpow_gt_0 radix2 (-100)); lra|]. intros n.
  rewrite (tangent_depth 64 16384 p64 e16384 ld_constants 1 (S n) _ y ltac:(lia) T). f_equal. destruct y as [[]|s| |]; try discriminate V. reflexivity.
Qed.
Print Assumptions C108_negative_refuted.
