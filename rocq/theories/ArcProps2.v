(** C115, C116: the compile-time arc sine and arc cosine. *)
From Coq Require Import ZArith Bool List Reals Lra Lia.
From Flocq Require Import Core BinarySingleNaN.
From Verif Require Import FpModel SqrtModel SqrtProps SqrtProofs4 TrigSpec TrigProofs2 TrigProofs3 TrigProofs5 TrigProofs8 TrigProps ArcModel ArcSpec ArcProofs ArcProofs4 ArcProofs5 ArcProofs7 ArcProofs8 ArcProofs9 ArcProofs10.
Local Open Scope R_scope.

(** How far the arc sine may be off near plus or minus one, where it goes by way of the square root of 1 - x^2: about the three quarters
    power of the unit of rounding 2^-prec. *)
Definition near_one (prec : Z) : R := 0.65 * sqrt (bpow radix2 (- prec) * sqrt (bpow radix2 (- prec))).
Lemma near_one_small prec : (53 <= prec)%Z -> near_one prec + 107 * bpow radix2 (- prec) < 0.001.
Proof.
  intros P. unfold near_one. assert (U : bpow radix2 (- prec) <= bpow radix2 (-53)) by (apply bpow_le; lia). pose proof (bpow_gt_0 radix2 (- prec)) as U0. change (bpow radix2 (-53)) with (/ 9007199254740992) in U. revert U U0. generalize (bpow radix2 (- prec)). intros u U U0.
  assert (S : sqrt u <= sqrt (0.0001 * 0.0001)) by (apply sqrt_le_1_alt; lra). rewrite sqrt_square in S by lra. pose proof (sqrt_pos u).
  assert (u * sqrt u <= 0.0001 * 0.0001) by (apply Rmult_le_compat; lra). assert (Q : sqrt (u * sqrt u) <= sqrt (0.0001 * 0.0001)) by (now apply sqrt_le_1_alt). rewrite sqrt_square in Q by lra. lra.
Qed.
Lemma asin_size x : Rabs (asin x) <= PI / 2.
Proof. pose proof (asin_bound x) as B. apply Rabs_le. lra. Qed.
Lemma acos_size x : Rabs (acos x) <= PI.
Proof. pose proof (acos_bound x) as B. rewrite Rabs_pos_eq; lra. Qed.

(* ------------------------------------------------------------------ C115: the arc sine *)
(** Every argument from -1 to 1 has a result after at most two calls. Up to 1/sqrt(2) in magnitude the relative error is at most 122 units
    of rounding, ... *)
Theorem C115_small_float128 (c : arc_constants 113 16384) (x : binary_float 113 16384) : right_arc_constants 113 16384 c -> is_finite x = true -> Rabs (B2R x) <= 1 / sqrt 2 ->
  close (asin_naive 113 16384 p113 e113 c 2 x) (asin (B2R x)) (122 * bpow radix2 (- 113) * Rabs (asin (B2R x))).
Proof. intros C. exact (arcsin_small 113 16384 p113 e113 ltac:(lia) ltac:(lia) c C (legs113 c C) x). Qed.
Print Assumptions C115_small_float128.
Theorem C115_small_long_double (c : arc_constants 64 16384) (x : binary_float 64 16384) : right_arc_constants 64 16384 c -> is_finite x = true -> Rabs (B2R x) <= 1 / sqrt 2 ->
  close (asin_naive 64 16384 p64 e16384 c 2 x) (asin (B2R x)) (122 * bpow radix2 (- 64) * Rabs (asin (B2R x))).
Proof. intros C. exact (arcsin_small 64 16384 p64 e16384 ltac:(lia) ltac:(lia) c C (legs64 c C) x). Qed.
Print Assumptions C115_small_long_double.
Theorem C115_small_long_double_53 (c : arc_constants 53 1024) (x : binary_float 53 1024) : right_arc_constants 53 1024 c -> is_finite x = true -> Rabs (B2R x) <= 1 / sqrt 2 ->
  close (asin_naive 53 1024 p53 e1024 c 2 x) (asin (B2R x)) (122 * bpow radix2 (- 53) * Rabs (asin (B2R x))).
Proof. intros C. exact (arcsin_small 53 1024 p53 e1024 ltac:(lia) ltac:(lia) c C (legs53 c C) x). Qed.
Print Assumptions C115_small_long_double_53.
(** ... and beyond, it is [near_one] and 102 units of rounding at most. *)
Theorem C115_float128 (c : arc_constants 113 16384) (x : binary_float 113 16384) : right_arc_constants 113 16384 c -> is_finite x = true -> Rabs (B2R x) <= 1 ->
  close (asin_naive 113 16384 p113 e113 c 2 x) (asin (B2R x)) (near_one 113 + 102 * bpow radix2 (- 113)).
Proof. intros C. exact (arcsin_all 113 16384 p113 e113 ltac:(lia) ltac:(lia) c C (legs113 c C) x). Qed.
Print Assumptions C115_float128.
Theorem C115_long_double (c : arc_constants 64 16384) (x : binary_float 64 16384) : right_arc_constants 64 16384 c -> is_finite x = true -> Rabs (B2R x) <= 1 ->
  close (asin_naive 64 16384 p64 e16384 c 2 x) (asin (B2R x)) (near_one 64 + 102 * bpow radix2 (- 64)).
Proof. intros C. exact (arcsin_all 64 16384 p64 e16384 ltac:(lia) ltac:(lia) c C (legs64 c C) x). Qed.
Print Assumptions C115_long_double.
Theorem C115_long_double_53 (c : arc_constants 53 1024) (x : binary_float 53 1024) : right_arc_constants 53 1024 c -> is_finite x = true -> Rabs (B2R x) <= 1 ->
  close (asin_naive 53 1024 p53 e1024 c 2 x) (asin (B2R x)) (near_one 53 + 102 * bpow radix2 (- 53)).
Proof. intros C. exact (arcsin_all 53 1024 p53 e1024 ltac:(lia) ltac:(lia) c C (legs53 c C) x). Qed.
Print Assumptions C115_long_double_53.
(** The narrower types go by way of long double. Up to 1/sqrt(2) the result is little more than half a unit in the last place off, even among
    the subnormal numbers ... *)
Theorem C115_small_narrow (p e : Z) (Hp : Prec_gt_0 p) (He : Prec_lt_emax p e) (c : arc_constants 64 16384) (x : binary_float p e) :
  (3 <= p <= 53)%Z -> (p + 3 <= e <= 16384)%Z -> right_arc_constants 64 16384 c -> is_finite x = true -> Rabs (B2R x) <= 1 / sqrt 2 ->
  close (asin_narrow p e 64 16384 Hp He p64 e16384 c 2 x) (asin (B2R x)) ((bpow radix2 (- p) + 260 * bpow radix2 (- 64)) * Rabs (asin (B2R x))).
Proof.
  intros P E C F H. destruct (widen p e 64 16384 p64 e16384 ltac:(lia) E x F) as [Fw Vw].
  apply (narrow_asin_good p e 64 16384 Hp He p64 e16384 ltac:(lia) ltac:(lia) ltac:(lia) E c x 2 H). rewrite <- Vw.
  apply (arcsin_small 64 16384 p64 e16384 ltac:(lia) ltac:(lia) c C (legs64 c C) _ Fw). now rewrite Vw.
Qed.
Print Assumptions C115_small_narrow.
Theorem C115_small_narrow_113 (p e : Z) (Hp : Prec_gt_0 p) (He : Prec_lt_emax p e) (c : arc_constants 113 16384) (x : binary_float p e) :
  (3 <= p <= 113)%Z -> (p + 3 <= e <= 16384)%Z -> right_arc_constants 113 16384 c -> is_finite x = true -> Rabs (B2R x) <= 1 / sqrt 2 ->
  close (asin_narrow p e 113 16384 Hp He p113 e113 c 2 x) (asin (B2R x)) ((bpow radix2 (- p) + 260 * bpow radix2 (- 113)) * Rabs (asin (B2R x))).
Proof.
  intros P E C F H. destruct (widen p e 113 16384 p113 e113 ltac:(lia) E x F) as [Fw Vw].
  apply (narrow_asin_good p e 113 16384 Hp He p113 e113 ltac:(lia) ltac:(lia) ltac:(lia) E c x 2 H). rewrite <- Vw.
  apply (arcsin_small 113 16384 p113 e113 ltac:(lia) ltac:(lia) c C (legs113 c C) _ Fw). now rewrite Vw.
Qed.
Print Assumptions C115_small_narrow_113.
Theorem C115_small_narrow_53 (p e : Z) (Hp : Prec_gt_0 p) (He : Prec_lt_emax p e) (c : arc_constants 53 1024) (x : binary_float p e) :
  (3 <= p <= 53)%Z -> (p + 3 <= e <= 1024)%Z -> right_arc_constants 53 1024 c -> is_finite x = true -> Rabs (B2R x) <= 1 / sqrt 2 ->
  close (asin_narrow p e 53 1024 Hp He p53 e1024 c 2 x) (asin (B2R x)) ((bpow radix2 (- p) + 260 * bpow radix2 (- 53)) * Rabs (asin (B2R x))).
Proof.
  intros P E C F H. destruct (widen p e 53 1024 p53 e1024 ltac:(lia) E x F) as [Fw Vw].
  apply (narrow_asin_good p e 53 1024 Hp He p53 e1024 ltac:(lia) ltac:(lia) ltac:(lia) E c x 2 H). rewrite <- Vw.
  apply (arcsin_small 53 1024 p53 e1024 ltac:(lia) ltac:(lia) c C (legs53 c C) _ Fw). now rewrite Vw.
Qed.
Print Assumptions C115_small_narrow_53.
(** ... and everywhere it is within half of a unit 2^(1-p) and the error of long double. *)
Theorem C115_narrow (p e : Z) (Hp : Prec_gt_0 p) (He : Prec_lt_emax p e) (c : arc_constants 64 16384) (x : binary_float p e) :
  (3 <= p <= 53)%Z -> (p + 3 <= e <= 16384)%Z -> right_arc_constants 64 16384 c -> is_finite x = true -> Rabs (B2R x) <= 1 ->
  close (asin_narrow p e 64 16384 Hp He p64 e16384 c 2 x) (asin (B2R x)) (bpow radix2 (- p) + (near_one 64 + 102 * bpow radix2 (- 64))).
Proof.
  intros P E C F H. destruct (widen p e 64 16384 p64 e16384 ltac:(lia) E x F) as [Fw Vw]. replace (- p)%Z with (1 - p - 1)%Z by lia.
  apply (narrow_good_abs p e 64 16384 Hp He p64 e16384 ltac:(lia) ltac:(lia) ltac:(lia) E 1); [lia| |].
  - rewrite <- Vw. apply (C115_long_double c _ C Fw). now rewrite Vw.
  - pose proof (near_one_small 64 ltac:(lia)) as N. change (- (64))%Z with (- 64)%Z in N. pose proof (asin_size (B2R x)). pose proof pi_digits. pose proof (bpow_gt_0 radix2 (- 64)). change (bpow radix2 1) with 2. lra.
Qed.
Print Assumptions C115_narrow.
Theorem C115_narrow_113 (p e : Z) (Hp : Prec_gt_0 p) (He : Prec_lt_emax p e) (c : arc_constants 113 16384) (x : binary_float p e) :
  (3 <= p <= 113)%Z -> (p + 3 <= e <= 16384)%Z -> right_arc_constants 113 16384 c -> is_finite x = true -> Rabs (B2R x) <= 1 ->
  close (asin_narrow p e 113 16384 Hp He p113 e113 c 2 x) (asin (B2R x)) (bpow radix2 (- p) + (near_one 113 + 102 * bpow radix2 (- 113))).
Proof.
  intros P E C F H. destruct (widen p e 113 16384 p113 e113 ltac:(lia) E x F) as [Fw Vw]. replace (- p)%Z with (1 - p - 1)%Z by lia.
  apply (narrow_good_abs p e 113 16384 Hp He p113 e113 ltac:(lia) ltac:(lia) ltac:(lia) E 1); [lia| |].
  - rewrite <- Vw. apply (C115_float128 c _ C Fw). now rewrite Vw.
  - pose proof (near_one_small 113 ltac:(lia)) as N. change (- (113))%Z with (- 113)%Z in N. pose proof (asin_size (B2R x)). pose proof pi_digits. pose proof (bpow_gt_0 radix2 (- 113)). change (bpow radix2 1) with 2. lra.
Qed.
Print Assumptions C115_narrow_113.
Theorem C115_narrow_53 (p e : Z) (Hp : Prec_gt_0 p) (He : Prec_lt_emax p e) (c : arc_constants 53 1024) (x : binary_float p e) :
  (3 <= p <= 53)%Z -> (p + 3 <= e <= 1024)%Z -> right_arc_constants 53 1024 c -> is_finite x = true -> Rabs (B2R x) <= 1 ->
  close (asin_narrow p e 53 1024 Hp He p53 e1024 c 2 x) (asin (B2R x)) (bpow radix2 (- p) + (near_one 53 + 102 * bpow radix2 (- 53))).
Proof.
  intros P E C F H. destruct (widen p e 53 1024 p53 e1024 ltac:(lia) E x F) as [Fw Vw]. replace (- p)%Z with (1 - p - 1)%Z by lia.
  apply (narrow_good_abs p e 53 1024 Hp He p53 e1024 ltac:(lia) ltac:(lia) ltac:(lia) E 1); [lia| |].
  - rewrite <- Vw. apply (C115_long_double_53 c _ C Fw). now rewrite Vw.
  - pose proof (near_one_small 53 ltac:(lia)) as N. change (- (53))%Z with (- 53)%Z in N. pose proof (asin_size (B2R x)). pose proof pi_digits. pose proof (bpow_gt_0 radix2 (- 53)). change (bpow radix2 1) with 2. lra.
Qed.
Print Assumptions C115_narrow_53.

(** Near one the claim that the result is the double nearest to the arc sine, or close to it, fails: it is more than three units in the
    last place off where long double is x87 long double, ... *)
Theorem C115_double_refuted : exists x y : binary_float 53 1024, is_finite x = true /\ 0 < B2R x < 1 /\
  asin_narrow 53 1024 64 16384 p53 e1024 p64 e16384 arc64 2 x = Some y /\ 3 * bpow radix2 (-52) < Rabs (B2R y - asin (B2R x)).
Proof.
  exists near1, got1. split; [reflexivity|]. split; [rewrite x1; lra|]. split; [exact (result_ok _ _ run1)|]. pose proof far1 as F. pose proof (bpow_gt_0 radix2 (-52)). rewrite Rabs_pos_eq; lra.
Qed.
Print Assumptions C115_double_refuted.
(** ... and more than a thousand where long double is a double. *)
Theorem C115_double_53_refuted : exists x y : binary_float 53 1024, is_finite x = true /\ 0 < B2R x < 1 /\
  asin_naive 53 1024 p53 e1024 arc53 2 x = Some y /\ 1000 * bpow radix2 (-52) < Rabs (B2R y - asin (B2R x)).
Proof.
  exists near2, got2. split; [reflexivity|]. split; [rewrite x2; lra|]. split; [exact (result_ok _ _ run2)|]. pose proof far2 as F. pose proof (bpow_gt_0 radix2 (-52)). rewrite Rabs_pos_eq; lra.
Qed.
Print Assumptions C115_double_53_refuted.
(** The arc sines of the doubles 1/2 and -3/4 *)
Definition dbl_asin (m e : Z) := option_map B2SF (asin_narrow 53 1024 64 16384 p53 e1024 p64 e16384 arc64 2 (binary_normalize 53 1024 p53 e1024 mode_NE m e false)).
Example C115_narrow_ex : dbl_asin 1 (-1) = Some (SpecFloat.S754_finite false 4716158501352294 (-53)) /\ dbl_asin (-3) (-2) = Some (SpecFloat.S754_finite true 7638664125776092 (-53)).
Proof. split; vm_compute; reflexivity. Qed.
Example C115_small_ex : Rabs (1 / 2) <= 1 / sqrt 2.
Proof. destruct r_facts as [B _]. rewrite Rabs_pos_eq; lra. Qed.

Lemma infinity_outside prec emax (y : binary_float prec emax) : is_finite y = true -> Bltb (B754_infinity true) y = true /\ Bltb y (B754_infinity false) = true.
Proof. destruct y as [s|s| |s m e b]; try discriminate; intros _; split; destruct s; reflexivity. Qed.
Lemma nan_compares prec emax (y : binary_float prec emax) : Bltb B754_nan y = false /\ Bltb y B754_nan = false /\ Beqb B754_nan y = false.
Proof. destruct y as [s|s| |s m e b]; try destruct s; repeat split. Qed.
Section C115.
  Variable prec emax : Z.
  Context (Hp : Prec_gt_0 prec) (He : Prec_lt_emax prec emax).
  Variable c : arc_constants prec emax.
  Notation arcsin := (asin_naive prec emax Hp He c).
  Notation arccos := (acos_naive prec emax Hp He c).

  (** More calls change nothing. *)
  Theorem C115_depth n m x y : (n <= m)%nat -> arcsin n x = Some y -> arcsin m x = Some y.
  Proof using All.
    assert (More : forall n x y, arcsin n x = Some y -> arcsin (S n) x = Some y).
    { clear. intros n. induction n as [|n IH]; intros x y; [discriminate|]. intros H. remember (S n) as m eqn:Em. cbn [asin_naive]. rewrite Em in H. cbn [asin_naive] in H. subst m.
      repeat match type of H with (if ?b then _ else _) = _ => destruct b; [solve [exact H | destruct (asin_flip prec emax Hp He x) as [v|]; [|discriminate H]; cbn [bind] in *; destruct (arcsin n v) as [w|] eqn:W; [|discriminate H]; rewrite (IH _ _ W); exact H]|] end. exact H. }
    intros H E. induction H as [|m H IH]; [exact E|]. now apply More.
  Qed.
  (** Zeros keep their sign, NaN stays NaN, plus and minus one have the constants; what is outside, the infinities among it, does not compile. *)
  Theorem C115_special n :
    (forall s, arcsin (S n) (B754_zero s) = Some (B754_zero s)) /\ arcsin (S n) B754_nan = Some B754_nan /\
    (forall x, is_finite x = true -> B2R x = 1 -> arcsin (S n) x = Some (arc_pi_over_two c)) /\
    (forall x, is_finite x = true -> B2R x = -1 -> arcsin (S n) x = Some (Bopp (arc_pi_over_two c))).
  Proof using All.
    destruct (one_ok prec emax Hp He) as [Fo Vo]. assert (Fn : is_finite (Bopp (@Bone prec emax Hp He)) = true) by (now rewrite is_finite_Bopp).
    split; [reflexivity|]. split; [reflexivity|]. split; intros x F V; cbn [asin_naive]; rewrite !Beqb_correct, !Bltb_correct by (assumption || reflexivity); rewrite B2R_Bopp, V, Vo; cbn [B2R zero].
    - rewrite (Req_bool_false 1 0), (Req_bool_true 1 1), !Rlt_bool_false, (Req_bool_false 1 (- (1))) by lra. reflexivity.
    - rewrite (Req_bool_false (-1) 0), (Req_bool_true (-1) (-1)), !Rlt_bool_false, (Req_bool_true (-1) (- (1))) by lra. reflexivity.
  Qed.
  Theorem C115_outside n x : is_nan x = false -> (is_finite x = true -> 1 < Rabs (B2R x)) -> arcsin n x = None.
  Proof using All.
    intros N H. destruct n as [|n]; [reflexivity|]. destruct (one_ok prec emax Hp He) as [Fo Vo]. assert (Fn : is_finite (Bopp (@Bone prec emax Hp He)) = true) by (now rewrite is_finite_Bopp). cbn [asin_naive].
    destruct (is_finite x) eqn:F.
    - rewrite !Beqb_correct, !Bltb_correct by (assumption || reflexivity). rewrite B2R_Bopp, Vo. cbn [B2R zero]. specialize (H eq_refl). rewrite (Req_bool_true (B2R x) (B2R x)) by reflexivity.
      destruct (Rle_or_lt 0 (B2R x)) as [P|P]; [rewrite Rabs_pos_eq in H by exact P|rewrite Rabs_left in H by exact P]; rewrite (Req_bool_false (B2R x) 0) by lra.
      + rewrite (Rlt_bool_true 1) by lra. now rewrite orb_true_r.
      + rewrite (Rlt_bool_true (B2R x)) by lra. reflexivity.
    - destruct x as [s|s| |s m e b]; try discriminate. destruct (infinity_outside prec emax (Bopp Bone) Fn) as [L _]. destruct (infinity_outside prec emax Bone Fo) as [_ G]. destruct s; [rewrite L; reflexivity|]. rewrite G, orb_true_r. reflexivity.
  Qed.
  Theorem C116_depth n m x y : (n <= m)%nat -> arccos n x = Some y -> arccos m x = Some y.
  Proof using All.
    intros L. unfold acos_naive. destruct (_ || _); [discriminate|]. destruct (Beqb x (Bopp Bone)); [auto|]. destruct (Beqb x Bone); [auto|]. destruct (arcsin n x) as [w|] eqn:W; [|discriminate]. now rewrite (C115_depth n m x w L W).
  Qed.
  (** The arc cosine of one is zero, that of minus one is pi, that of NaN is NaN; what is outside does not compile. *)
  Theorem C116_special n :
    arccos (S n) B754_nan = Some B754_nan /\ (forall x, is_finite x = true -> B2R x = 1 -> arccos n x = Some (B754_zero false)) /\ (forall x, is_finite x = true -> B2R x = -1 -> arccos n x = Some (arc_pi c)).
  Proof using All.
    destruct (one_ok prec emax Hp He) as [Fo Vo]. assert (Fn : is_finite (Bopp (@Bone prec emax Hp He)) = true) by (now rewrite is_finite_Bopp).
    split. { unfold acos_naive. destruct (nan_compares prec emax (Bopp Bone)) as (-> & _ & ->). destruct (nan_compares prec emax Bone) as (_ & -> & ->). cbn [orb]. change (asin_naive prec emax Hp He c (S n) B754_nan) with (Some (B754_nan : binary_float prec emax)). cbn [option_map]. f_equal. now destruct (arc_pi_over_two c) as [[]|[]| |[] ? ? ?]. }
    split; intros x F V; unfold acos_naive; rewrite !Beqb_correct, !Bltb_correct by (assumption || reflexivity); rewrite B2R_Bopp, V, Vo.
    - rewrite (Req_bool_true 1 1), !Rlt_bool_false, (Req_bool_false 1 (- (1))) by lra. reflexivity.
    - rewrite !Rlt_bool_false, (Req_bool_true (-1) (- (1))) by lra. reflexivity.
  Qed.
  Theorem C116_outside n x : is_nan x = false -> (is_finite x = true -> 1 < Rabs (B2R x)) -> arccos n x = None.
  Proof using All.
    intros N H. destruct (one_ok prec emax Hp He) as [Fo Vo]. assert (Fn : is_finite (Bopp (@Bone prec emax Hp He)) = true) by (now rewrite is_finite_Bopp). unfold acos_naive.
    destruct (is_finite x) eqn:F.
    - rewrite !Bltb_correct by (assumption || reflexivity). rewrite B2R_Bopp, Vo. specialize (H eq_refl).
      destruct (Rle_or_lt 0 (B2R x)) as [P|P]; [rewrite Rabs_pos_eq in H by exact P|rewrite Rabs_left in H by exact P].
      + rewrite (Rlt_bool_true 1) by lra. now rewrite orb_true_r.
      + rewrite (Rlt_bool_true (B2R x)) by lra. reflexivity.
    - destruct x as [s|s| |s m e b]; try discriminate. destruct (infinity_outside prec emax (Bopp Bone) Fn) as [L _]. destruct (infinity_outside prec emax Bone Fo) as [_ G]. destruct s; [rewrite L; reflexivity|]. rewrite G, orb_true_r. reflexivity.
  Qed.
End C115.
Print Assumptions C115_depth.
Print Assumptions C115_special.
Print Assumptions C115_outside.
Print Assumptions C116_depth.
Print Assumptions C116_special.
Print Assumptions C116_outside.
Example C115_outside_ex : is_nan (B754_infinity true : binary_float 53 1024) = false /\ is_nan got1 = false /\ (is_finite got1 = true -> 1 < Rabs (B2R got1)).
Proof. split; [reflexivity|]. split; [reflexivity|]. intros _. rewrite y1, Rabs_pos_eq; lra. Qed.

(* ------------------------------------------------------------------ C116: the arc cosine *)
(** Every argument from -1 to 1 has a result, and it is [near_one] and 107 units of rounding off at most. *)
Theorem C116_float128 (c : arc_constants 113 16384) (x : binary_float 113 16384) : right_arc_constants 113 16384 c -> is_finite x = true -> Rabs (B2R x) <= 1 ->
  close (acos_naive 113 16384 p113 e113 c 2 x) (acos (B2R x)) (near_one 113 + 107 * bpow radix2 (- 113)).
Proof. intros C. exact (arccos_all 113 16384 p113 e113 ltac:(lia) ltac:(lia) c C (legs113 c C) x). Qed.
Print Assumptions C116_float128.
Theorem C116_long_double (c : arc_constants 64 16384) (x : binary_float 64 16384) : right_arc_constants 64 16384 c -> is_finite x = true -> Rabs (B2R x) <= 1 ->
  close (acos_naive 64 16384 p64 e16384 c 2 x) (acos (B2R x)) (near_one 64 + 107 * bpow radix2 (- 64)).
Proof. intros C. exact (arccos_all 64 16384 p64 e16384 ltac:(lia) ltac:(lia) c C (legs64 c C) x). Qed.
Print Assumptions C116_long_double.
Theorem C116_long_double_53 (c : arc_constants 53 1024) (x : binary_float 53 1024) : right_arc_constants 53 1024 c -> is_finite x = true -> Rabs (B2R x) <= 1 ->
  close (acos_naive 53 1024 p53 e1024 c 2 x) (acos (B2R x)) (near_one 53 + 107 * bpow radix2 (- 53)).
Proof. intros C. exact (arccos_all 53 1024 p53 e1024 ltac:(lia) ltac:(lia) c C (legs53 c C) x). Qed.
Print Assumptions C116_long_double_53.
(** The narrower types, by way of long double: half a unit 2^(2-p) more. *)
Theorem C116_narrow (p e : Z) (Hp : Prec_gt_0 p) (He : Prec_lt_emax p e) (c : arc_constants 64 16384) (x : binary_float p e) :
  (3 <= p <= 53)%Z -> (p + 3 <= e <= 16384)%Z -> right_arc_constants 64 16384 c -> is_finite x = true -> Rabs (B2R x) <= 1 ->
  close (acos_narrow p e 64 16384 Hp He p64 e16384 c 2 x) (acos (B2R x)) (bpow radix2 (1 - p) + (near_one 64 + 107 * bpow radix2 (- 64))).
Proof.
  intros P E C F H. destruct (widen p e 64 16384 p64 e16384 ltac:(lia) E x F) as [Fw Vw]. replace (1 - p)%Z with (2 - p - 1)%Z by lia.
  apply (narrow_good_abs p e 64 16384 Hp He p64 e16384 ltac:(lia) ltac:(lia) ltac:(lia) E 2); [lia| |].
  - rewrite <- Vw. apply (C116_long_double c _ C Fw). now rewrite Vw.
  - pose proof (near_one_small 64 ltac:(lia)) as N. change (- (64))%Z with (- 64)%Z in N. pose proof (acos_size (B2R x)). pose proof pi_digits. pose proof (bpow_gt_0 radix2 (- 64)). change (bpow radix2 2) with 4. lra.
Qed.
Print Assumptions C116_narrow.
Theorem C116_narrow_113 (p e : Z) (Hp : Prec_gt_0 p) (He : Prec_lt_emax p e) (c : arc_constants 113 16384) (x : binary_float p e) :
  (3 <= p <= 113)%Z -> (p + 3 <= e <= 16384)%Z -> right_arc_constants 113 16384 c -> is_finite x = true -> Rabs (B2R x) <= 1 ->
  close (acos_narrow p e 113 16384 Hp He p113 e113 c 2 x) (acos (B2R x)) (bpow radix2 (1 - p) + (near_one 113 + 107 * bpow radix2 (- 113))).
Proof.
  intros P E C F H. destruct (widen p e 113 16384 p113 e113 ltac:(lia) E x F) as [Fw Vw]. replace (1 - p)%Z with (2 - p - 1)%Z by lia.
  apply (narrow_good_abs p e 113 16384 Hp He p113 e113 ltac:(lia) ltac:(lia) ltac:(lia) E 2); [lia| |].
  - rewrite <- Vw. apply (C116_float128 c _ C Fw). now rewrite Vw.
  - pose proof (near_one_small 113 ltac:(lia)) as N. change (- (113))%Z with (- 113)%Z in N. pose proof (acos_size (B2R x)). pose proof pi_digits. pose proof (bpow_gt_0 radix2 (- 113)). change (bpow radix2 2) with 4. lra.
Qed.
Print Assumptions C116_narrow_113.
Theorem C116_narrow_53 (p e : Z) (Hp : Prec_gt_0 p) (He : Prec_lt_emax p e) (c : arc_constants 53 1024) (x : binary_float p e) :
  (3 <= p <= 53)%Z -> (p + 3 <= e <= 1024)%Z -> right_arc_constants 53 1024 c -> is_finite x = true -> Rabs (B2R x) <= 1 ->
  close (acos_narrow p e 53 1024 Hp He p53 e1024 c 2 x) (acos (B2R x)) (bpow radix2 (1 - p) + (near_one 53 + 107 * bpow radix2 (- 53))).
Proof.
  intros P E C F H. destruct (widen p e 53 1024 p53 e1024 ltac:(lia) E x F) as [Fw Vw]. replace (1 - p)%Z with (2 - p - 1)%Z by lia.
  apply (narrow_good_abs p e 53 1024 Hp He p53 e1024 ltac:(lia) ltac:(lia) ltac:(lia) E 2); [lia| |].
  - rewrite <- Vw. apply (C116_long_double_53 c _ C Fw). now rewrite Vw.
  - pose proof (near_one_small 53 ltac:(lia)) as N. change (- (53))%Z with (- 53)%Z in N. pose proof (acos_size (B2R x)). pose proof pi_digits. pose proof (bpow_gt_0 radix2 (- 53)). change (bpow radix2 2) with 4. lra.
Qed.
Print Assumptions C116_narrow_53.

(** Relative to the arc cosine the error is no small number of units in the last place: for the double 1 - 2^-52 it is more than 20000 units
    of 2^-53 where long double is x87 long double, ... *)
Theorem C116_relative_refuted : exists x y : binary_float 53 1024, is_finite x = true /\ 0 < B2R x < 1 /\
  acos_narrow 53 1024 64 16384 p53 e1024 p64 e16384 arc64 2 x = Some y /\ 20000 * bpow radix2 (-53) * acos (B2R x) < Rabs (B2R y - acos (B2R x)).
Proof.
  exists near3, got3. split; [reflexivity|]. split; [rewrite x3; lra|]. split; [exact (result_ok _ _ run3)|]. pose proof far3 as F. rewrite Rabs_minus_sym. apply Rlt_le_trans with (1 := F). apply Rle_abs.
Qed.
Print Assumptions C116_relative_refuted.
(** ... and more than 30 million where long double is a double. *)
Theorem C116_relative_53_refuted : exists x y : binary_float 53 1024, is_finite x = true /\ 0 < B2R x < 1 /\
  acos_naive 53 1024 p53 e1024 arc53 2 x = Some y /\ 30000000 * bpow radix2 (-53) * acos (B2R x) < Rabs (B2R y - acos (B2R x)).
Proof.
  exists near3, got4. split; [reflexivity|]. split; [rewrite x3; lra|]. split; [exact (result_ok _ _ run4)|]. pose proof far4 as F. apply Rlt_le_trans with (1 := F). apply Rle_abs.
Qed.
Print Assumptions C116_relative_53_refuted.
(** The arc cosine of the double -1/2 *)
Definition dbl_acos (m e : Z) := option_map B2SF (acos_narrow 53 1024 64 16384 p53 e1024 p64 e16384 arc64 2 (binary_normalize 53 1024 p53 e1024 mode_NE m e false)).
Example C116_narrow_ex : dbl_acos (-1) (-1) = Some (SpecFloat.S754_finite false 4716158501352294 (-51)).
Proof. vm_compute. reflexivity. Qed.
