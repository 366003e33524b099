(** C165: the compile-time atan2. *)
From Coq Require Import ZArith Bool List Reals Lra Lia String.
From Flocq Require Import Core BinarySingleNaN.
From Verif Require Import FpModel SqrtModel SqrtProps SqrtProofs4 ConstModel ConstTables ConstSpec ConstProps TrigSpec TrigProofs2 TrigProofs5 TrigProps ArcModel ArcSpec ArcProofs ArcProofs2 ArcProofs3 ArcProofs4 ArcProofs5 ArcProofs6 ArcProps QuadModel QuadSpec QuadProofs QuadProofs2.
Local Open Scope R_scope.
#[local] Existing Instances p64 e16384.

(* ------------------------------------------------------------------ the angle *)
(** There is exactly one angle for each point but the origin, so that the theorems below say which number comes out. *)
Theorem C165_angle x y : (x <> 0 \/ y <> 0) -> exists! t, angle_of x y t.
Proof.
  intros N. assert (E : exists t, angle_of x y t).
  { destruct (Rtotal_order x 0) as [X|[X|X]].
    - eexists. exact (angle_left x y X).
    - subst x. destruct (Rtotal_order y 0) as [Y|[Y|Y]]; [eexists; exact (angle_down y Y)|exfalso; destruct N; lra|eexists; exact (angle_up y Y)].
    - eexists. exact (angle_right x y X). }
  destruct E as [t H]. exists t. split; [exact H|]. intros t' H'. exact (angle_unique x y t t' H H').
Qed.
Print Assumptions C165_angle.
Example C165_angle_ex : angle_of (-1) 0 PI /\ ~ angle_of (-1) 0 (- PI).
Proof. pose proof PI_RGT_0. split; [split; [lra|]; exists 1; rewrite cos_PI, sin_PI; repeat split; lra|intros [H' _]; lra]. Qed.
(** float128_t: every finite point but the origin has a result, within 112 * 2^-113 of the angle. *)
Theorem C165_float128 (c : arc_constants 113 16384) (y x : binary_float 113 16384) t : right_arc_constants 113 16384 c -> is_finite x = true -> is_finite y = true ->
  (B2R x <> 0 \/ B2R y <> 0) -> angle_of (B2R x) (B2R y) t -> close (atan2_naive 113 16384 p113 e113 c 5 y x) t (112 * bpow radix2 (-113)).
Proof.
  intros C Fx Fy N A. apply (atan2_ok 113 16384 p113 e113 ltac:(lia) ltac:(lia) c C y x t Fx Fy N); [|exact A]. intros _ F. exact (C114_float128 c _ C F).
Qed.
Print Assumptions C165_float128.
(** The same where long double is a double. *)
Theorem C165_long_double_53 (c : arc_constants 53 1024) (y x : binary_float 53 1024) t : right_arc_constants 53 1024 c -> is_finite x = true -> is_finite y = true ->
  (B2R x <> 0 \/ B2R y <> 0) -> angle_of (B2R x) (B2R y) t -> close (atan2_naive 53 1024 p53 e1024 c 5 y x) t (112 * bpow radix2 (-53)).
Proof.
  intros C Fx Fy N A. apply (atan2_ok 53 1024 p53 e1024 ltac:(lia) ltac:(lia) c C y x t Fx Fy N); [|exact A]. intros _ F. exact (C114_long_double_53 c _ C F).
Qed.
Print Assumptions C165_long_double_53.
(** x87 long double: unless the rounded quotient is one of the numbers without an arc tangent. *)
Theorem C165_long_double (c : arc_constants 64 16384) (y x : binary_float 64 16384) t : right_arc_constants 64 16384 c -> is_finite x = true -> is_finite y = true ->
  (B2R x <> 0 \/ B2R y <> 0) -> ~ lost_arctan (rounded64 (B2R y / B2R x)) -> angle_of (B2R x) (B2R y) t -> close (atan2_naive 64 16384 p64 e16384 c 5 y x) t (112 * bpow radix2 (-64)).
Proof.
  intros C Fx Fy N L A. apply (atan2_ok 64 16384 p64 e16384 ltac:(lia) ltac:(lia) c C y x t Fx Fy N); [|exact A]. intros Nx F. apply (C114_long_double c _ C F).
  pose proof (Bdiv_correct 64 16384 p64 e16384 mode_NE y x Nx) as D. cbv zeta in D. destruct (Rlt_bool _ _).
  - destruct D as (V & _ & _). rewrite V. exact L.
  - exfalso. destruct (Bdiv mode_NE y x) as [z|z| |z m e b]; cbn in D, F; discriminate.
Qed.
Print Assumptions C165_long_double.
(** Those are lost: the recursion has no end, the call is no constant expression. *)
Lemma quotient_finite (y x : binary_float 64 16384) : is_finite x = true -> is_finite y = true -> B2R x <> 0 -> lost_arctan (rounded64 (B2R y / B2R x)) ->
  is_finite (Bdiv mode_NE y x) = true /\ B2R (Bdiv mode_NE y x) = rounded64 (B2R y / B2R x).
Proof.
  intros Fx Fy Nx L. pose proof (Bdiv_correct 64 16384 p64 e16384 mode_NE y x Nx) as D. cbv zeta in D. rewrite Rlt_bool_true in D; [destruct D as (V & F & _); split; [now rewrite F|exact V]|].
  change (Rabs (rounded64 (B2R y / B2R x)) < bpow radix2 16384). destruct L as (m & k & I & ->). apply Rlt_trans with (bpow radix2 70); [|apply bpow_lt; reflexivity]. cbn [In endless] in I.
  repeat (destruct I as [I|I]; [injection I as <- <-; cbn; lra|]). destruct I.
Qed.
Lemma lost_none (c : arc_constants 64 16384) (y x : binary_float 64 16384) : right_arc_constants 64 16384 c -> Beqb x (zero 64 16384) = false -> is_nan x = false -> is_nan y = false ->
  is_finite (Bdiv mode_NE y x) = true -> lost_arctan (B2R (Bdiv mode_NE y x)) -> forall depth, atan2_naive 64 16384 p64 e16384 c depth y x = None.
Proof.
  intros C N Nx Ny F L depth. pose proof (C114_endless_refuted c _ C F L depth) as E. unfold atan2_naive. rewrite E, N. cbn [option_map andb].
  assert (R : forall z : binary_float 64 16384, is_nan z = false -> Beqb z z = true) by (intros [s|s| |s m e b] H; try discriminate; [reflexivity|destruct s; reflexivity|rewrite Beqb_correct by reflexivity; now apply Req_bool_true]).
  rewrite (R x Nx), (R y Ny). cbn [negb]. repeat match goal with |- (if ?g then _ else _) = _ => destruct g end; reflexivity.
Qed.
Theorem C165_endless_refuted (c : arc_constants 64 16384) (y x : binary_float 64 16384) : right_arc_constants 64 16384 c -> is_finite x = true -> is_finite y = true -> B2R x <> 0 ->
  lost_arctan (rounded64 (B2R y / B2R x)) -> forall depth, atan2_naive 64 16384 p64 e16384 c depth y x = None.
Proof.
  intros C Fx Fy Nx L. destruct (quotient_finite y x Fx Fy Nx L) as [F V]. rewrite <- V in L. apply lost_none; try assumption; [|now destruct x|now destruct y].
  rewrite Beqb_correct by (assumption || reflexivity). now apply Req_bool_false.
Qed.
Print Assumptions C165_endless_refuted.

(* ------------------------------------------------------------------ the narrower types *)
(** Half and float, by way of x87 long double: no point is lost, and the result is at most half a unit in the last place of the largest results and a little more off. *)
Theorem C165_float (p e : Z) (Hp : Prec_gt_0 p) (He : Prec_lt_emax p e) (c : arc_constants 64 16384) (y x : binary_float p e) t :
  (3 <= p <= 24)%Z -> (p + 3 <= e <= 16384)%Z -> right_arc_constants 64 16384 c -> is_finite x = true -> is_finite y = true -> (B2R x <> 0 \/ B2R y <> 0) -> angle_of (B2R x) (B2R y) t ->
  close (atan2_narrow p e 64 16384 Hp He p64 e16384 c 5 y x) t (2 * bpow radix2 (- p) + 112 * bpow radix2 (-64)).
Proof.
  intros P E C Fx Fy N A. destruct (widen p e 64 16384 p64 e16384 ltac:(lia) E x Fx) as [Gx Vx]. destruct (widen p e 64 16384 p64 e16384 ltac:(lia) E y Fy) as [Gy Vy]. pose proof PI_bounds as PB.
  apply narrow_near; [lia|exact E| |apply Rabs_le; destruct A as [A _]; lra|cbn; lra]. rewrite <- Vx, <- Vy in A, N. destruct (Req_dec (B2R x) 0) as [Z|Z].
  - apply (atan2_ok 64 16384 p64 e16384 ltac:(lia) ltac:(lia) c C _ _ t Gx Gy N); [|exact A]. intros H. exfalso. apply H. now rewrite Vx.
  - apply (C165_long_double c _ _ t C Gx Gy N); [|exact A]. rewrite Vx, Vy. apply (never_lost p e); (lia || assumption).
Qed.
Print Assumptions C165_float.
(** Double: where the quotient of the two, rounded to x87 long double, is not lost. *)
Theorem C165_double_partial (p e : Z) (Hp : Prec_gt_0 p) (He : Prec_lt_emax p e) (c : arc_constants 64 16384) (y x : binary_float p e) t :
  (3 <= p <= 64)%Z -> (p + 3 <= e <= 16384)%Z -> right_arc_constants 64 16384 c -> is_finite x = true -> is_finite y = true -> (B2R x <> 0 \/ B2R y <> 0) ->
  ~ lost_arctan (rounded64 (B2R y / B2R x)) -> angle_of (B2R x) (B2R y) t ->
  close (atan2_narrow p e 64 16384 Hp He p64 e16384 c 5 y x) t (2 * bpow radix2 (- p) + 112 * bpow radix2 (-64)).
Proof.
  intros P E C Fx Fy N L A. destruct (widen p e 64 16384 p64 e16384 ltac:(lia) E x Fx) as [Gx Vx]. destruct (widen p e 64 16384 p64 e16384 ltac:(lia) E y Fy) as [Gy Vy]. pose proof PI_bounds as PB.
  apply narrow_near; [lia|exact E| |apply Rabs_le; destruct A as [A _]; lra|cbn; lra]. rewrite <- Vx, <- Vy in A, N, L. exact (C165_long_double c _ _ t C Gx Gy N L A).
Qed.
Print Assumptions C165_double_partial.
(** There are doubles of which it is lost. *)
Definition dbl (m e : Z) : binary_float 53 1024 := binary_normalize 53 1024 p53 e1024 mode_NE m e false.
Theorem C165_double_refuted (c : arc_constants 64 16384) : right_arc_constants 64 16384 c -> forall depth,
  atan2_narrow 53 1024 64 16384 p53 e1024 p64 e16384 c depth (dbl 2642885282 0) (dbl 9863382151 0) = None.
Proof.
  intros C depth. unfold atan2_narrow.
  assert (S : B2SF (Bdiv mode_NE (fp_cast 53 1024 64 16384 p64 e16384 (dbl 2642885282 0)) (fp_cast 53 1024 64 16384 p64 e16384 (dbl 9863382151 0))) = SpecFloat.S754_finite false 9885580355068146058 (-65)) by (vm_compute; reflexivity).
  rewrite lost_none; [reflexivity|exact C|vm_compute; reflexivity..| |].
  - rewrite <- is_finite_SF_B2SF, S. reflexivity.
  - rewrite <- SF2R_B2SF, S. exists 9885580355068146058%Z, (-65)%Z. split; [cbn; tauto|]. unfold SF2R, F2R. cbn [cond_Zopp Fnum Fexp]. apply Rabs_pos_eq. apply Rmult_le_pos; [lra|apply bpow_ge_0].
Qed.
Print Assumptions C165_double_refuted.
(** Where long double is float128_t or a double, nothing is lost. *)
Theorem C165_narrow_113 (p e : Z) (Hp : Prec_gt_0 p) (He : Prec_lt_emax p e) (c : arc_constants 113 16384) (y x : binary_float p e) t :
  (3 <= p <= 113)%Z -> (p + 3 <= e <= 16384)%Z -> right_arc_constants 113 16384 c -> is_finite x = true -> is_finite y = true -> (B2R x <> 0 \/ B2R y <> 0) -> angle_of (B2R x) (B2R y) t ->
  close (atan2_narrow p e 113 16384 Hp He p113 e113 c 5 y x) t (2 * bpow radix2 (- p) + 112 * bpow radix2 (-113)).
Proof.
  intros P E C Fx Fy N A. destruct (widen p e 113 16384 p113 e113 ltac:(lia) E x Fx) as [Gx Vx]. destruct (widen p e 113 16384 p113 e113 ltac:(lia) E y Fy) as [Gy Vy]. pose proof PI_bounds as PB.
  apply narrow_near; [lia|exact E| |apply Rabs_le; destruct A as [A _]; lra|cbn; lra]. rewrite <- Vx, <- Vy in A, N. exact (C165_float128 c _ _ t C Gx Gy N A).
Qed.
Print Assumptions C165_narrow_113.
Theorem C165_narrow_53 (p e : Z) (Hp : Prec_gt_0 p) (He : Prec_lt_emax p e) (c : arc_constants 53 1024) (y x : binary_float p e) t :
  (3 <= p <= 53)%Z -> (p + 3 <= e <= 1024)%Z -> right_arc_constants 53 1024 c -> is_finite x = true -> is_finite y = true -> (B2R x <> 0 \/ B2R y <> 0) -> angle_of (B2R x) (B2R y) t ->
  close (atan2_narrow p e 53 1024 Hp He p53 e1024 c 5 y x) t (2 * bpow radix2 (- p) + 112 * bpow radix2 (-53)).
Proof.
  intros P E C Fx Fy N A. destruct (widen p e 53 1024 p53 e1024 ltac:(lia) E x Fx) as [Gx Vx]. destruct (widen p e 53 1024 p53 e1024 ltac:(lia) E y Fy) as [Gy Vy]. pose proof PI_bounds as PB.
  apply narrow_near; [lia|exact E| |apply Rabs_le; destruct A as [A _]; lra|cbn; lra]. rewrite <- Vx, <- Vy in A, N. exact (C165_long_double_53 c _ _ t C Gx Gy N A).
Qed.
Print Assumptions C165_narrow_53.
(** The doubles at (-3, 3) and at (3, -4): three quarters of pi, and minus the arc tangent of 4/3. *)
Definition dbl_atan2 (y x : Z) := option_map B2SF (atan2_narrow 53 1024 64 16384 p53 e1024 p64 e16384 arc64 5 (dbl y 0) (dbl x 0)).
Example C165_double_ex : dbl_atan2 3 (-3) = Some (SpecFloat.S754_finite false 5305678314021330 (-51)) /\ dbl_atan2 (-4) 3 = Some (SpecFloat.S754_finite true 8352332796509007 (-53)).
Proof. split; vm_compute; reflexivity. Qed.

(* ------------------------------------------------------------------ zeros, infinities, NaN *)
Section C165.
  Variable prec emax : Z.
  Context (Hp : Prec_gt_0 prec) (He : Prec_lt_emax prec emax).
  Variable c : arc_constants prec emax.
  Notation angle := (atan2_naive prec emax Hp He c).
  Notation u := (bpow radix2 (- prec)).

  (** One infinite coordinate: the limits. *)
  Theorem C165_infinite (x : binary_float prec emax) s n : (53 <= prec <= 113)%Z -> (1024 <= emax)%Z -> right_arc_constants prec emax c -> is_finite x = true ->
    close (angle (S n) (B754_infinity s) x) (if s then - (PI / 2) else PI / 2) (12 * u) /\
    close (angle (S n) x (B754_infinity s)) (if s then (if Rle_dec 0 (B2R x) then PI else - PI) else 0) (12 * u).
  Proof. intros P E C F. split; [exact (infinite_y prec emax Hp He P E c C x s n F)|exact (infinite_x prec emax Hp He P E c C x s n F)]. Qed.
  (** NaN stays NaN. *)
  Theorem C165_nan (x : binary_float prec emax) n : angle n B754_nan x = Some B754_nan /\ angle n x B754_nan = Some B754_nan.
  Proof. split; [|reflexivity]. destruct x as [s|[|]| |s m e b]; try reflexivity. unfold atan2_naive. rewrite Beqb_correct by reflexivity. rewrite Req_bool_true by reflexivity. reflexivity. Qed.
  (** The origin has no angle at all, whatever the signs of the zeros: the exception stops the compilation. The run-time function returns a zero or pi. *)
  Theorem C165_origin_refuted s t n : angle n (B754_zero s) (B754_zero t) = None.
  Proof. reflexivity. Qed.
  (** Two infinities have NaN as their angle. The run-time function returns an odd multiple of pi / 4. *)
  Theorem C165_infinities_refuted s t n : angle (S n) (B754_infinity s) (B754_infinity t) = Some B754_nan.
  Proof. destruct s, t; reflexivity. Qed.
  (** Below the negative half of the x axis, by a negative zero: the angle is pi, as for a positive zero. The run-time function returns - pi. *)
  Theorem C165_negative_zero_refuted (x : binary_float prec emax) s n : (53 <= prec <= 113)%Z -> (1024 <= emax)%Z -> right_arc_constants prec emax c -> is_finite x = true -> B2R x < 0 ->
    close (angle (S n) (B754_zero s) x) PI (12 * u).
  Proof.
    intros P E C F L. pose proof (u_pos prec) as U. destruct (plus_pi prec emax Hp He P E c C (B754_zero (xorb s true)) 0 eq_refl ltac:(cbn [B2R]; rewrite Rminus_0_r, Rabs_R0; lra) ltac:(rewrite Rabs_R0; lra)) as [G _]. rewrite Rplus_0_l in G.
    destruct x as [z|z| |z m e b]; try discriminate; [cbn in L; lra|]. destruct z; [|exfalso; assert (0 <= B2R (B754_finite false m e b)) by (apply F2R_ge_0; cbn; lia); lra].
    unfold atan2_naive. rewrite Beqb_correct, Req_bool_true by reflexivity. eexists. split; [reflexivity|exact G].
  Qed.
End C165.
Print Assumptions C165_infinite.
Print Assumptions C165_nan.
Print Assumptions C165_origin_refuted.
Print Assumptions C165_infinities_refuted.
Print Assumptions C165_negative_zero_refuted.
Example C165_zero_ex : option_map B2SF (atan2_naive 64 16384 p64 e16384 arc64 5 (B754_zero true) (Bopp Bone)) = Some (SpecFloat.S754_finite false 14488038916154245685 (-62)) /\
  right_arc_constants 64 16384 arc64.
Proof. split; [vm_compute; reflexivity|exact (C114_constants arc64 arc64_taken)]. Qed.
