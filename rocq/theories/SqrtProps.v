(** C103: the compile-time square root. *)
From Coq Require Import ZArith Bool List Reals Lra Lia.
From Flocq Require Import Core BinarySingleNaN.
From Verif Require Import FpModel SqrtModel SqrtProofs SqrtProofs2 SqrtProofs3 SqrtProofs4.
Local Open Scope R_scope.

(* ------------------------------------------------------------------ formats *)
Definition p24 : Prec_gt_0 24 := eq_refl.
Definition e128 : Prec_lt_emax 24 128 := eq_refl.
Definition p53 : Prec_gt_0 53 := eq_refl.
Definition e1024 : Prec_lt_emax 53 1024 := eq_refl.
Definition p64 : Prec_gt_0 64 := eq_refl.
Definition e16384 : Prec_lt_emax 64 16384 := eq_refl.

(** The square root of a long double (or float128) between 2^-160 and 2^160: within one unit in the last place, for every format
    from 20 to 150 bits. *)
Theorem C103_long_double_partial prec emax (Hp : Prec_gt_0 prec) (He : Prec_lt_emax prec emax) : (20 <= prec <= 150)%Z -> (1024 <= emax)%Z ->
  forall x : binary_float prec emax, is_finite x = true -> bpow radix2 (-160) <= B2R x <= bpow radix2 160 ->
  exists r, sqrt_naive prec emax _ _ x = Some r /\ is_finite r = true /\ Rabs (B2R r - sqrt (B2R x)) <= 2 * bpow radix2 (- prec) * sqrt (B2R x).
Proof. intros A B x F R. exact (sqrt_naive_ok prec emax Hp He A B x F R). Qed.
Print Assumptions C103_long_double_partial.

(** float: correctly rounded, for every positive number, whether long double is the x87 format, binary64 or binary128. *)
Theorem C103_float P E (HP : Prec_gt_0 P) (HE : Prec_lt_emax P E) : (53 <= P <= 150)%Z -> (1024 <= E)%Z ->
  forall x : binary_float 24 128, is_finite x = true -> 0 < B2R x ->
  exists r, sqrt_narrow 24 128 P E p24 e128 HP HE x = Some r /\ is_finite r = true /\ B2R r = round radix2 (FLT_exp (-149) 24) ZnearestE (sqrt (B2R x)).
Proof.
  intros A B x F R. refine (narrow_correct 24 128 P E p24 e128 HP HE _ B _ _ x _ F _); try lia. split.
  - apply Rle_trans with (bpow radix2 (-149)); [apply bpow_le; lia|]. exact (x_min 24 (-149) p24 (B2R x) (generic_format_B2R 24 128 x) R).
  - pose proof (abs_B2R_lt_emax 24 128 x) as K. rewrite Rabs_pos_eq in K by lra. apply Rlt_le, Rlt_le_trans with (1 := K). apply bpow_le. lia.
Qed.
Print Assumptions C103_float.
(** _Float16 likewise. *)
Theorem C103_half P E (HP : Prec_gt_0 P) (HE : Prec_lt_emax P E) (Hp : Prec_gt_0 11) (He : Prec_lt_emax 11 16) : (53 <= P <= 150)%Z -> (1024 <= E)%Z ->
  forall x : binary_float 11 16, is_finite x = true -> 0 < B2R x ->
  exists r, sqrt_narrow 11 16 P E _ _ HP HE x = Some r /\ is_finite r = true /\ B2R r = round radix2 (FLT_exp (-24) 11) ZnearestE (sqrt (B2R x)).
Proof.
  intros A B x F R. refine (narrow_correct 11 16 P E Hp He HP HE _ B _ _ x _ F _); try lia. split.
  - apply Rle_trans with (bpow radix2 (-24)); [apply bpow_le; lia|]. exact (x_min 11 (-24) Hp (B2R x) (generic_format_B2R 11 16 x) R).
  - pose proof (abs_B2R_lt_emax 11 16 x) as K. rewrite Rabs_pos_eq in K by lra. apply Rlt_le, Rlt_le_trans with (1 := K). apply bpow_le. lia.
Qed.
Print Assumptions C103_half.

(** double, by way of a wider or equal long double: the error of one rounding and a little more; exact when the root is a double. *)
Theorem C103_double_partial P E (HP : Prec_gt_0 P) (HE : Prec_lt_emax P E) : (53 <= P <= 150)%Z -> (1024 <= E)%Z ->
  forall x : binary_float 53 1024, is_finite x = true -> bpow radix2 (-160) <= B2R x <= bpow radix2 160 ->
  exists r, sqrt_narrow 53 1024 P E p53 e1024 HP HE x = Some r /\ is_finite r = true /\
    Rabs (B2R r - sqrt (B2R x)) <= (bpow radix2 (-53) + 3 * bpow radix2 (- P)) * sqrt (B2R x).
Proof. intros A B x F R. refine (narrow_error 53 1024 P E p53 e1024 HP HE _ B _ _ x F R); lia. Qed.
Print Assumptions C103_double_partial.
Theorem C103_exact_roots_partial P E (HP : Prec_gt_0 P) (HE : Prec_lt_emax P E) : (56 <= P <= 150)%Z -> (1024 <= E)%Z ->
  forall x y : binary_float 53 1024, is_finite x = true -> bpow radix2 (-160) <= B2R x <= bpow radix2 160 -> 0 < B2R y -> B2R y * B2R y = B2R x ->
  exists r, sqrt_narrow 53 1024 P E p53 e1024 HP HE x = Some r /\ is_finite r = true /\ B2R r = B2R y.
Proof. intros A B x y F R Py Hy. refine (narrow_exact 53 1024 P E p53 e1024 HP HE _ B _ _ x y _ F R Py Hy); lia. Qed.
Print Assumptions C103_exact_roots_partial.
(** Integers: the root of a square is exact although a large square is rounded on conversion to double. *)
Theorem C103_integer_squares P E (HP : Prec_gt_0 P) (HE : Prec_lt_emax P E) : (64 <= P <= 150)%Z -> (1024 <= E)%Z -> forall k, (1 <= k < 2 ^ 53)%Z ->
  exists r, sqrt_integer 53 1024 P E p53 e1024 HP HE (k * k) = Some r /\ is_finite r = true /\ B2R r = IZR k.
Proof. intros A B k K. refine (integer_square 53 1024 P E p53 e1024 HP HE _ B _ _ k _ _ _ K _); lia. Qed.
Print Assumptions C103_integer_squares.

(** Zeros and NaN are returned, negative numbers are refused. *)
Theorem C103_special prec emax (Hp : Prec_gt_0 prec) (He : Prec_lt_emax prec emax) : forall x : binary_float prec emax,
  (is_nan x = true \/ (is_finite x = true /\ B2R x = 0) -> sqrt_naive prec emax _ _ x = Some x) /\
  (Bltb x (B754_zero false) = true -> sqrt_naive prec emax _ _ x = None).
Proof.
  intros x. unfold sqrt_naive, zero. split.
  - intros [N|[F Z]]; [destruct x; try discriminate N; reflexivity|]. rewrite Beqb_correct by (exact F || reflexivity). rewrite Req_bool_true by exact Z. reflexivity.
  - intros L. rewrite Beqb_refl, L. assert (Z : Beqb x (B754_zero false) = false) by (destruct x as [[]|[]| |[] m e H]; try discriminate L; reflexivity).
    assert (N : is_nan x = false) by (destruct x; try discriminate L; reflexivity). rewrite Z, N. reflexivity.
Qed.
Print Assumptions C103_special.

(** Far from one, a hundred steps are not enough: the root of 2^600 (a double) comes out above 2^400; and the root of infinity is not a
    number. *)
Definition ld (m e : Z) : binary_float 64 16384 := binary_normalize 64 16384 p64 e16384 mode_NE m e false.
Definition dbl (m e : Z) : binary_float 53 1024 := binary_normalize 53 1024 p53 e1024 mode_NE m e false.
Theorem C103_far_refuted : exists x : binary_float 53 1024, is_finite x = true /\ Beqb x (dbl 1 600) = true /\
  match sqrt_narrow 53 1024 64 16384 p53 e1024 p64 e16384 x with Some r => Bltb (dbl 1 400) r | None => false end = true.
Proof. exists (dbl 1 600). vm_compute. repeat split. Qed.
Print Assumptions C103_far_refuted.
Theorem C103_infinity_refuted : exists r, sqrt_naive 64 16384 p64 e16384 (B754_infinity false) = Some r /\ is_nan r = true.
Proof. exists B754_nan. split; vm_compute; reflexivity. Qed.
Print Assumptions C103_infinity_refuted.

(** The root of 2 as a float, of 9/4 as a double, and the integer square 4294967295^2, which is not a double. *)
Definition flt (m e : Z) : binary_float 24 128 := binary_normalize 24 128 p24 e128 mode_NE m e false.
Example C103_witness : option_map B2SF (sqrt_narrow 24 128 64 16384 p24 e128 p64 e16384 (flt 2 0)) = Some (B2SF (flt 0xB504F3 (-23))) /\
  option_map B2SF (sqrt_narrow 53 1024 64 16384 p53 e1024 p64 e16384 (dbl 9 (-2))) = Some (B2SF (dbl 3 (-1))) /\
  option_map B2SF (sqrt_integer 53 1024 64 16384 p53 e1024 p64 e16384 (4294967295 * 4294967295)) = Some (B2SF (dbl 4294967295 0)) /\
  option_map B2SF (sqrt_narrow 24 128 64 16384 p24 e128 p64 e16384 (flt 1 (-149))) = Some (B2SF (flt 0xB504F3 (-98))).
Proof. vm_compute. repeat split. Qed.
