(** C114: the compile-time arc tangent. *)
From Coq Require Import ZArith Bool List Reals Lra Lia String.
From Flocq Require Import Core BinarySingleNaN.
From Verif Require Import FpModel SqrtModel SqrtProps SqrtProofs4 ConstModel ConstTables ConstSpec ConstProps TrigSpec TrigProofs2 TrigProofs5 TrigProps ArcModel ArcSpec ArcProofs ArcProofs2 ArcProofs3 ArcProofs4 ArcProofs5 ArcProofs6.
Local Open Scope R_scope.

(* ------------------------------------------------------------------ the constants *)
(** The constants of core_constants.h which the functions use are right, in each type in which they compute: x87 long double ... *)
Theorem C114_constants (c : arc_constants 64 16384) : arc_taken_from 64 16384 (in_table 64 16384) c -> right_arc_constants 64 16384 c.
Proof. exact (arc_right64 c). Qed.
Print Assumptions C114_constants.
(** ... long double the same as double ... *)
Theorem C114_constants_double (c : arc_constants 53 1024) : arc_taken_from 53 1024 (in_table 53 1024) c -> right_arc_constants 53 1024 c.
Proof. exact (arc_right53 c). Qed.
Print Assumptions C114_constants_double.
(** ... and float128_t. *)
Theorem C114_constants_float128 (c : arc_constants 113 16384) : arc_taken_from 113 16384 in_table128 c -> right_arc_constants 113 16384 c.
Proof. exact (arc_right113 c). Qed.
Print Assumptions C114_constants_float128.
Example C114_constants_ex : arc_taken_from 64 16384 (in_table 64 16384) arc64 /\ arc_taken_from 53 1024 (in_table 53 1024) arc53 /\ arc_taken_from 113 16384 in_table128 arc113.
Proof. exact (conj arc64_taken (conj arc53_taken arc113_taken)). Qed.

(* ------------------------------------------------------------------ C114: the arc tangent *)
(** float128_t: every finite argument has a result, after at most five calls, with a relative error of at most 64 * 2^-113. *)
Theorem C114_float128 (c : arc_constants 113 16384) (x : binary_float 113 16384) : right_arc_constants 113 16384 c -> is_finite x = true ->
  close (atan_naive 113 16384 p113 e113 c 5 x) (atan (B2R x)) (64 * bpow radix2 (-113) * Rabs (atan (B2R x))).
Proof. intros C F. exact (atan_settled 113 16384 p113 e113 ltac:(lia) ltac:(lia) c C 0 x F (settled113 c x C F)). Qed.
Print Assumptions C114_float128.
(** The same where long double is a double. *)
Theorem C114_long_double_53 (c : arc_constants 53 1024) (x : binary_float 53 1024) : right_arc_constants 53 1024 c -> is_finite x = true ->
  close (atan_naive 53 1024 p53 e1024 c 5 x) (atan (B2R x)) (64 * bpow radix2 (-53) * Rabs (atan (B2R x))).
Proof. intros C F. exact (atan_settled 53 1024 p53 e1024 ltac:(lia) ltac:(lia) c C 0 x F (settled53 c x C F)). Qed.
Print Assumptions C114_long_double_53.

Lemma lost_lost (x : binary_float 64 16384) : is_finite x = true -> lost_arctan (B2R x) <-> lost (Babs x).
Proof.
  intros F. unfold lost_arctan, lost. split.
  - intros (m & k & I & E). assert (Fa : is_finite (Babs x) = true) by (now rewrite is_finite_Babs). rewrite <- B2R_Babs in E.
    assert (G : forall m k H, Babs x = @num 64 16384 m k H \/ B2R (Babs x) <> IZR (Zpos m) * bpow radix2 k).
    { intros m' k' H. destruct (Req_dec (B2R (Babs x)) (IZR (Zpos m') * bpow radix2 k')) as [Q|Q]; [left|now right]. symmetry. apply strict_inj; [reflexivity|exact Fa|apply Rgt_not_eq, num_pos|now rewrite num_value, Q]. }
    destruct I as [I|[I|[I|[I|[I|[I|[]]]]]]]; injection I as <- <-; match type of E with _ = IZR (Zpos ?m) * bpow radix2 ?k => destruct (G m k eq_refl) as [Q|Q]; [unfold num in Q; tauto|contradiction] end.
  - intros H. rewrite <- B2R_Babs. unfold endless. destruct H as [->|[->|[->|[->|[->| ->]]]]]; (eexists; eexists; split; [|apply num_value]; cbn [In]; tauto).
Qed.
(** x87 long double: the same, but for twelve arguments ... *)
Theorem C114_long_double (c : arc_constants 64 16384) (x : binary_float 64 16384) : right_arc_constants 64 16384 c -> is_finite x = true -> ~ lost_arctan (B2R x) ->
  close (atan_naive 64 16384 p64 e16384 c 5 x) (atan (B2R x)) (64 * bpow radix2 (-64) * Rabs (atan (B2R x))).
Proof.
  intros C F N. rewrite (lost_lost x F) in N. exact (atan_settled 64 16384 p64 e16384 ltac:(lia) ltac:(lia) c C 0 x F (found c C x F N)).
Qed.
Print Assumptions C114_long_double.
(** ... for which the function calls itself for ever: the call is not a constant expression. *)
Theorem C114_endless_refuted (c : arc_constants 64 16384) (x : binary_float 64 16384) : right_arc_constants 64 16384 c -> is_finite x = true -> lost_arctan (B2R x) ->
  forall depth, atan_naive 64 16384 p64 e16384 c depth x = None.
Proof. intros C F L. rewrite (lost_lost x F) in L. exact (lost_never c C x L). Qed.
Print Assumptions C114_endless_refuted.
Example C114_endless_ex : exists x : binary_float 64 16384, is_finite x = true /\ B2R x = 1 - bpow radix2 (-64) /\ lost_arctan (B2R x).
Proof.
  exists h1. split; [reflexivity|]. split; [unfold h1; rewrite num_value; cbn; lra|]. apply lost_lost; [reflexivity|]. now left.
Qed.
Example C114_long_double_ex : exists x : binary_float 64 16384, is_finite x = true /\ B2R x = 2 /\ ~ lost_arctan (B2R x).
Proof.
  exists (@num 64 16384 9223372036854775808 (-62) eq_refl). split; [reflexivity|]. split; [rewrite num_value; cbn; lra|]. rewrite lost_lost by reflexivity. unfold lost. intros H.
  destruct H as [H|[H|[H|[H|[H|H]]]]]; discriminate H.
Qed.

(** The narrower types go by way of long double: no argument is lost, and the result is little more than half a unit in the last place of
    the narrow type off, even among the subnormal numbers. Half, float and double, with x87 long double ... *)
Theorem C114_narrow (p e : Z) (Hp : Prec_gt_0 p) (He : Prec_lt_emax p e) (c : arc_constants 64 16384) (x : binary_float p e) :
  (3 <= p <= 53)%Z -> (p + 3 <= e <= 16384)%Z -> right_arc_constants 64 16384 c -> is_finite x = true ->
  close (atan_narrow p e 64 16384 Hp He p64 e16384 c 5 x) (atan (B2R x)) ((bpow radix2 (- p) + 136 * bpow radix2 (-64)) * Rabs (atan (B2R x))).
Proof.
  intros P E C F. destruct (widen p e 64 16384 p64 e16384 ltac:(lia) E x F) as [Fw Vw].
  apply (narrow_atan_good p e 64 16384 Hp He p64 e16384 ltac:(lia) ltac:(lia) ltac:(lia) E c x 5 F). rewrite <- Vw.
  exact (atan_settled 64 16384 p64 e16384 ltac:(lia) ltac:(lia) c C 0 _ Fw (found c C _ Fw (short_found p e Hp He x P E F))).
Qed.
Print Assumptions C114_narrow.
(** ... where long double is float128_t ... *)
Theorem C114_narrow_113 (p e : Z) (Hp : Prec_gt_0 p) (He : Prec_lt_emax p e) (c : arc_constants 113 16384) (x : binary_float p e) :
  (3 <= p <= 113)%Z -> (p + 3 <= e <= 16384)%Z -> right_arc_constants 113 16384 c -> is_finite x = true ->
  close (atan_narrow p e 113 16384 Hp He p113 e113 c 5 x) (atan (B2R x)) ((bpow radix2 (- p) + 136 * bpow radix2 (-113)) * Rabs (atan (B2R x))).
Proof.
  intros P E C F. destruct (widen p e 113 16384 p113 e113 ltac:(lia) E x F) as [Fw Vw].
  apply (narrow_atan_good p e 113 16384 Hp He p113 e113 ltac:(lia) ltac:(lia) ltac:(lia) E c x 5 F). rewrite <- Vw.
  exact (atan_settled 113 16384 p113 e113 ltac:(lia) ltac:(lia) c C 0 _ Fw (settled113 c _ C Fw)).
Qed.
Print Assumptions C114_narrow_113.
(** ... and where it is a double. *)
Theorem C114_narrow_53 (p e : Z) (Hp : Prec_gt_0 p) (He : Prec_lt_emax p e) (c : arc_constants 53 1024) (x : binary_float p e) :
  (3 <= p <= 53)%Z -> (p + 3 <= e <= 1024)%Z -> right_arc_constants 53 1024 c -> is_finite x = true ->
  close (atan_narrow p e 53 1024 Hp He p53 e1024 c 5 x) (atan (B2R x)) ((bpow radix2 (- p) + 136 * bpow radix2 (-53)) * Rabs (atan (B2R x))).
Proof.
  intros P E C F. destruct (widen p e 53 1024 p53 e1024 ltac:(lia) E x F) as [Fw Vw].
  apply (narrow_atan_good p e 53 1024 Hp He p53 e1024 ltac:(lia) ltac:(lia) ltac:(lia) E c x 5 F). rewrite <- Vw.
  exact (atan_settled 53 1024 p53 e1024 ltac:(lia) ltac:(lia) c C 0 _ Fw (settled53 c _ C Fw)).
Qed.
Print Assumptions C114_narrow_53.
(** The arc tangent of the doubles 1 and 10^6 *)
Definition dbl_atan (m e : Z) := option_map B2SF (atan_narrow 53 1024 64 16384 p53 e1024 p64 e16384 arc64 5 (binary_normalize 53 1024 p53 e1024 mode_NE m e false)).
Example C114_narrow_ex : dbl_atan 1 0 = Some (SpecFloat.S754_finite false 7074237752028440 (-53)) /\ dbl_atan 1000000 0 = Some (SpecFloat.S754_finite false 7074233248428813 (-52)).
Proof. split; vm_compute; reflexivity. Qed.

Section C114.
  Variable prec emax : Z.
  Context (Hp : Prec_gt_0 prec) (He : Prec_lt_emax prec emax).
  Variable c : arc_constants prec emax.
  Notation arctan := (atan_naive prec emax Hp He c).

  (** More calls change nothing. *)
  Theorem C114_depth n m x y : (n <= m)%nat -> arctan n x = Some y -> arctan m x = Some y.
  Proof.
    assert (More : forall n x y, arctan n x = Some y -> arctan (S n) x = Some y).
    { clear. intros n. induction n as [|n IH]; intros x y; [discriminate|]. intros H. remember (S n) as m eqn:Em. cbn [atan_naive]. rewrite Em in H. cbn [atan_naive] in H. subst m.
      repeat match type of H with (if ?b then _ else _) = _ => destruct b; [solve [exact H | destruct (arctan n _) as [w|] eqn:W; [|discriminate]; rewrite (IH _ _ W); exact H]|] end. exact H. }
    intros H E. induction H as [|m H IH]; [exact E|]. now apply More.
  Qed.
  (** Zeros keep their sign, NaN stays NaN, the infinities have the limits, and the function is odd. *)
  Theorem C114_special n :
    (forall s, arctan (S n) (B754_zero s) = Some (B754_zero s)) /\ arctan (S n) B754_nan = Some B754_nan /\
    arctan (S n) (B754_infinity false) = Some (arc_pi_over_two c) /\ arctan (S n) (B754_infinity true) = Some (Bopp (arc_pi_over_two c)).
  Proof. repeat split. Qed.
  Theorem C114_odd n x : is_finite x = true -> 0 < B2R x -> arctan (S n) (Bopp x) = option_map (fun r => Bopp r) (arctan n x).
  Proof.
    intros F H. cbn [atan_naive]. destruct (one_ok prec emax Hp He) as [Fo Vo]. assert (Fn : is_finite (Bopp x) = true) by (now rewrite is_finite_Bopp). rewrite !Beqb_correct, !Bltb_correct by (assumption || reflexivity).
    assert (I : forall b, Beqb (Bopp x) (B754_infinity b) = false) by (intros b; destruct x; try discriminate; now destruct b). rewrite !I.
    rewrite (Beqb_correct _ _ (Bopp x) Bone) by assumption. rewrite B2R_Bopp, Vo. cbn [B2R zero]. rewrite (Req_bool_true (- B2R x) (- B2R x)) by reflexivity. rewrite (Req_bool_false (- B2R x) 0), (Req_bool_false (- B2R x) 1), Rlt_bool_true by lra. cbn [orb negb]. now rewrite Bopp_involutive.
  Qed.
End C114.
Print Assumptions C114_depth.
Print Assumptions C114_special.
Print Assumptions C114_odd.
