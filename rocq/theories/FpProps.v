(** Properties of the floating-point functions of math.h and of the compensated sum. The statements are about any binary IEEE format:
    [prec] bits of significand, exponents below [emax]. *)
From Coq Require Import ZArith Bool List Reals Lra Lia.
From Flocq Require Import Core BinarySingleNaN.
From Flocq Require Binary Bits.
From Verif Require Import FpModel FpProofs FpProofs2.
Import ListNotations.
Local Open Scope R_scope.

(* ------------------------------------------------------------------ C96: infinity_or_nan *)
(** For every bit pattern: true exactly when the IEEE number it encodes is not finite. *)
Theorem C96_float bits : infinity_or_nan mask32 bits = negb (Binary.is_finite 24 128 (Bits.b32_of_bits bits)).
Proof.
  change mask32 with (Z.shiftl (Z.ones 8) 23). rewrite bits_all by lia. unfold Bits.b32_of_bits, Bits.binary_float_of_bits. rewrite Binary.is_finite_FF2B.
  rewrite decode_finite by lia. rewrite negb_involutive. reflexivity.
Qed.
Print Assumptions C96_float.
Theorem C96_double bits : infinity_or_nan mask64 bits = negb (Binary.is_finite 53 1024 (Bits.b64_of_bits bits)).
Proof.
  change mask64 with (Z.shiftl (Z.ones 11) 52). rewrite bits_all by lia. unfold Bits.b64_of_bits, Bits.binary_float_of_bits. rewrite Binary.is_finite_FF2B.
  rewrite decode_finite by lia. rewrite negb_involutive. reflexivity.
Qed.
Print Assumptions C96_double.
(** 16 bits (a significand of 11) and 128 bits (of 113). *)
Theorem C96_half bits : infinity_or_nan mask16 bits = negb (Binary.is_finite_FF (Bits.binary_float_of_bits_aux 10 5 bits)).
Proof. change mask16 with (Z.shiftl (Z.ones 5) 10). rewrite bits_all, decode_finite by lia. rewrite negb_involutive. reflexivity. Qed.
Print Assumptions C96_half.
Theorem C96_quad bits : infinity_or_nan mask128 bits = negb (Binary.is_finite_FF (Bits.binary_float_of_bits_aux 112 15 bits)).
Proof. change mask128 with (Z.shiftl (Z.ones 15) 112). rewrite bits_all, decode_finite by lia. rewrite negb_involutive. reflexivity. Qed.
Print Assumptions C96_quad.
(** The x87 format: 64 bits of significand, the first of which is set in every valid number with a non-zero exponent field; the number is
    infinite or NaN when the exponent field is the largest. *)
Theorem C96_x87 bits : let e := ((bits / 2 ^ 64) mod 2 ^ 15)%Z in let leading := ((bits / 2 ^ 63) mod 2)%Z in
  (e <> 0%Z -> leading = 1%Z) -> infinity_or_nan_x87 bits = (e =? 2 ^ 15 - 1)%Z.
Proof.
  cbv zeta. rewrite x87_bits. change (2 ^ 64)%Z with (2 ^ 63 * 2)%Z. rewrite <- Z.div_div by lia. generalize (bits / 2 ^ 63)%Z. intros y H.
  change (2 ^ 15)%Z with 32768%Z in *. change (2 ^ 16)%Z with 65536%Z.
  destruct (Z.eqb_spec ((y / 2) mod 32768) (32768 - 1)) as [E|E], (Z.eqb_spec (y mod 65536) (65536 - 1)) as [F|F]; try reflexivity; exfalso;
    [apply F; assert (L : (y mod 2 = 1)%Z) by (apply H; lia)|apply E]; Z.div_mod_to_equations; lia.
Qed.
Print Assumptions C96_x87.
Example C96_example : infinity_or_nan mask32 0x7F800001 = true /\ infinity_or_nan mask32 0x7F7FFFFF = false /\ infinity_or_nan mask64 0xFFF0000000000000 = true /\
  infinity_or_nan_x87 0xFFFF8000000000000000 = true /\ infinity_or_nan_x87 0x7FFEFFFFFFFFFFFFFFFF = false.
Proof. repeat split. Qed.

Section AnyFormat.
  Variables prec emax : Z.
  Hypothesis prec_2 : (1 < prec)%Z.
  Hypothesis prec_emax : (prec < emax)%Z.
  Local Instance prec_pos : Prec_gt_0 prec. Proof using prec_2. unfold Prec_gt_0. lia. Qed.
  Local Instance prec_lt : Prec_lt_emax prec emax := prec_emax.
  Notation float := (binary_float prec emax).
  Notation u := (bpow radix2 (- prec)).

  (* ---------------------------------------------------------------- C97: floor and ceil *)
  (** Exactly when the number is in the range of intmax_t the compile-time floor is defined, and then it is the floor. *)
  Theorem C97_floor (x : float) : is_finite x = true -> IZR (- 2 ^ 63) <= B2R x < IZR (2 ^ 63) ->
    exists y, floor_naive prec emax _ _ x = Some y /\ is_finite y = true /\ B2R y = IZR (Zfloor (B2R x)).
  Proof using. exact (floor_ok prec emax _ _ x). Qed.
  Theorem C97_floor_undefined (x : float) : is_finite x = true -> B2R x < IZR (- 2 ^ 63) \/ IZR (2 ^ 63) <= B2R x -> floor_naive prec emax _ _ x = None.
  Proof using. exact (floor_ub prec emax _ _ x). Qed.
  (** The same for ceil; numbers above the largest intmax_t exist below 2^63 when the type has more than 63 bits. *)
  Theorem C97_ceil (x : float) : is_finite x = true -> IZR (- 2 ^ 63) - 1 < B2R x <= IZR (2 ^ 63 - 1) ->
    exists y, ceil_naive prec emax _ _ x = Some y /\ is_finite y = true /\ B2R y = IZR (Zceil (B2R x)).
  Proof using. exact (ceil_ok prec emax _ _ x). Qed.
  Theorem C97_ceil_undefined (x : float) : is_finite x = true -> B2R x <= IZR (- 2 ^ 63) - 1 \/ IZR (2 ^ 63 - 1) < B2R x -> ceil_naive prec emax _ _ x = None.
  Proof using. exact (ceil_ub prec emax _ _ x). Qed.
  (** NaN comes back as NaN, a zero with its sign; infinities are undefined. *)
  Theorem C97_special s : floor_naive prec emax _ _ B754_nan = Some B754_nan /\ ceil_naive prec emax _ _ B754_nan = Some B754_nan /\
    floor_naive prec emax _ _ (B754_zero s) = Some (B754_zero s) /\ ceil_naive prec emax _ _ (B754_zero s) = Some (B754_zero s) /\
    floor_naive prec emax _ _ (B754_infinity s) = None /\ ceil_naive prec emax _ _ (B754_infinity s) = None.
  Proof using. destruct s; repeat split. Qed.

  (* ---------------------------------------------------------------- C98: approx_equal *)
  (** If it says yes, the numbers are finite and differ by less than epsilon, exactly, without rounding. *)
  Theorem C98_sound (a b eps : float) : is_finite eps = true -> approx_equal prec emax _ _ a b eps = true ->
    is_finite a = true /\ is_finite b = true /\ Rabs (B2R b - B2R a) < B2R eps.
  Proof using. exact (approx_equal_sound prec emax _ _ a b eps). Qed.
  (** If they differ by at most some number of the format less than epsilon, it says yes. *)
  Theorem C98_complete (a b eps y : float) : is_finite a = true -> is_finite b = true -> is_finite eps = true -> is_finite y = true ->
    Rabs (B2R b - B2R a) <= B2R y -> B2R y < B2R eps -> approx_equal prec emax _ _ a b eps = true.
  Proof using. exact (approx_equal_complete prec emax _ _ a b eps y). Qed.
  (** It is symmetric, for all operands. *)
  Theorem C98_symmetric (a b eps : float) : approx_equal prec emax _ _ a b eps = approx_equal prec emax _ _ b a eps.
  Proof using. exact (approx_equal_sym prec emax _ _ a b eps). Qed.
  (** A finite number is approximately equal to itself for every positive epsilon, and not for epsilon zero. *)
  Theorem C98_reflexive (a eps : float) : is_finite a = true -> is_finite eps = true ->
    approx_equal prec emax _ _ a a eps = Rlt_bool 0 (B2R eps).
  Proof using.
    intros Fa Fe. destruct (Rlt_bool_spec 0 (B2R eps)) as [H|H].
    - apply (C98_complete a a eps (zero prec emax)); auto. cbn. rewrite Rminus_diag_eq, Rabs_R0 by reflexivity. apply Rle_refl.
    - destruct (approx_equal prec emax _ _ a a eps) eqn:E; [|reflexivity]. apply C98_sound in E; [|exact Fe]. destruct E as (_ & _ & E).
      rewrite Rminus_diag_eq, Rabs_R0 in E by reflexivity. lra.
  Qed.
  (** approx_zero compares the magnitude with epsilon. *)
  Theorem C98_zero (x eps : float) : is_finite x = true -> is_finite eps = true ->
    approx_zero prec emax _ _ x eps = Rlt_bool (Rabs (B2R x)) (B2R eps).
  Proof using.
    intros Fx Fe. unfold approx_zero. destruct (Rlt_bool_spec (Rabs (B2R x)) (B2R eps)) as [H|H].
    - apply (C98_complete x (zero prec emax) eps (Babs x)); auto; rewrite ?is_finite_Babs, ?B2R_Babs; auto. cbn. rewrite Rminus_0_l, Rabs_Ropp. apply Rle_refl.
    - destruct (approx_equal prec emax _ _ x (zero prec emax) eps) eqn:E; [|reflexivity]. apply C98_sound in E; [|exact Fe]. destruct E as (_ & _ & E).
      cbn in E. rewrite Rminus_0_l, Rabs_Ropp in E. lra.
  Qed.

  (* ---------------------------------------------------------------- C99: lerp *)
  (** At alpha 0 and 1 the result is exactly the start and the finish, however products are fused. *)
  Theorem C99_endpoints_partial k (start finish alpha : float) : is_finite start = true -> is_finite finish = true -> is_finite alpha = true ->
    B2R alpha = 0 \/ B2R alpha = 1 ->
    let r := lerp prec emax _ _ k start finish alpha in is_finite r = true /\ B2R r = (if Req_bool (B2R alpha) 0 then B2R start else B2R finish).
  Proof using. exact (lerp_end prec emax _ _ k start finish alpha). Qed.

  (* ---------------------------------------------------------------- C100: compensated sum *)
  (** When the sum the accumulator reports is finite, all samples were, and with [S] their exact sum, [A] the sum of their magnitudes and
      [n] the number of samples after the first, the error is at most [u |S| + n^2 u^2 (1 + u)^(n+1) A]: the rounding of the exact result
      and a term of the second order. (Plain summation has [n u A].) *)
  Theorem C100_error (first : float) (rest : list float) : is_finite (kahan_sum prec emax _ _ first rest) = true ->
    Forall (fun x => is_finite x = true) (first :: rest) /\
    let S := rsum (map (fun x : float => B2R x) (first :: rest)) in let A := rsum (map (fun x : float => Rabs (B2R x)) (first :: rest)) in
    let n := INR (length rest) in
    Rabs (B2R (kahan_sum prec emax _ _ first rest) - S) <= u * Rabs S + n * n * (u * u) * (1 + u) ^ (length rest + 1) * A.
  Proof using. exact (kahan_ok prec emax _ _ prec_2 first rest). Qed.
End AnyFormat.
Print Assumptions C97_floor.
Print Assumptions C97_floor_undefined.
Print Assumptions C97_ceil.
Print Assumptions C97_ceil_undefined.
Print Assumptions C97_special.
Print Assumptions C98_sound.
Print Assumptions C98_complete.
Print Assumptions C98_symmetric.
Print Assumptions C98_reflexive.
Print Assumptions C98_zero.
Print Assumptions C99_endpoints_partial.
Print Assumptions C100_error.

(* ------------------------------------------------------------------ float *)
Local Instance p24 : Prec_gt_0 24 := eq_refl.
Local Instance p24_128 : Prec_lt_emax 24 128 := eq_refl.
Local Instance p64 : Prec_gt_0 64 := eq_refl.
Local Instance p64_x : Prec_lt_emax 64 16384 := eq_refl.
Notation float32 := (binary_float 24 128).
(** [m * 2^e] *)
Definition f32 (m e : Z) : float32 := binary_normalize 24 128 _ _ mode_NE m e false.
Definition f80 (m e : Z) : binary_float 64 16384 := binary_normalize 64 16384 _ _ mode_NE m e false.

(** The value without the proof that it is in the format. *)
Notation sf := (option_map B2SF).

(** -5/2 rounds down to -3 and up to -2; a float of 2^63 has no floor; in the x87 format 2^63 - 1/2 has a floor but no ceiling. *)
Example C97_example : sf (floor_naive 24 128 _ _ (f32 (-5) (-1))) = Some (B2SF (f32 (-3) 0)) /\ sf (ceil_naive 24 128 _ _ (f32 (-5) (-1))) = Some (B2SF (f32 (-2) 0)) /\
  floor_naive 24 128 _ _ (f32 1 63) = None /\ sf (floor_naive 24 128 _ _ (f32 (-1) 63)) = Some (B2SF (f32 (-1) 63)) /\
  sf (floor_naive 64 16384 _ _ (f80 (2 ^ 64 - 1) (-1))) = Some (B2SF (f80 (2 ^ 63 - 1) 0)) /\ ceil_naive 64 16384 _ _ (f80 (2 ^ 64 - 1) (-1)) = None.
Proof. vm_compute. repeat split. Qed.
Example C98_example : approx_equal 24 128 _ _ (f32 1 0) (f32 (2 ^ 20 + 1) (-20)) (f32 1 (-19)) = true /\
  approx_equal 24 128 _ _ (f32 1 0) (f32 (2 ^ 20 + 1) (-20)) (f32 1 (-20)) = false /\ approx_equal 24 128 _ _ (B754_infinity false) (B754_infinity false) (f32 1 0) = false.
Proof. vm_compute. repeat split. Qed.
(** Interpolating between equal numbers need not give that number (3 and 3, at 1/10). *)
Theorem C99_between_refuted : exists start alpha : float32, is_finite start = true /\ Bltb (f32 0 0) alpha = true /\ Bltb alpha (f32 1 0) = true /\
  Beqb (lerp 24 128 _ _ NoFma start start alpha) start = false.
Proof. exists (f32 3 0), (f32 0xCCCCCD (-27)). vm_compute. repeat split. Qed.
Example C99_example : B2SF (lerp 24 128 _ _ FmaLeft (f32 3 0) (f32 7 0) (f32 1 (-1))) = B2SF (f32 5 0) /\ B2SF (lerp 24 128 _ _ NoFma (f32 3 0) (f32 7 0) (f32 1 0)) = B2SF (f32 7 0).
Proof. vm_compute. split; reflexivity. Qed.
(** 1 + 2^60 + 1 - 2^60 is 2 with the correction; the plain sum is 0. *)
Example C100_example : B2SF (kahan_sum 24 128 _ _ (f32 1 0) [f32 1 60; f32 1 0; f32 (-1) 60]) = B2SF (f32 2 0) /\
  B2SF (fold_left (fun a b : float32 => Bplus mode_NE a b) [f32 1 60; f32 1 0; f32 (-1) 60] (f32 1 0)) = B2SF (f32 0 0).
Proof. vm_compute. split; reflexivity. Qed.

(* ------------------------------------------------------------------ C101: normalize_angle *)
(** In exact arithmetic: in [0, 2 pi) and the same angle. *)
Theorem C101_exact_partial val : let r := normalize_angle_exact val in 0 <= r < 2 * PI /\ exists k, val = r + 2 * PI * IZR k.
Proof.
  cbv zeta. pose proof PI_RGT_0 as P. unfold normalize_angle_exact. destruct (Rlt_bool_spec val 0) as [H|H]; cbn [orb]; [|destruct (Rle_bool_spec (2 * PI) val) as [K|K]];
    try (split; [lra|exists 0%Z; lra]).
  all: set (q := Zfloor (val * / (2 * PI))); split; [|exists q; ring].
  all: assert (E : val = 2 * PI * (val * / (2 * PI))) by (field; lra); pose proof (Zfloor_lb (val * / (2 * PI))) as L; pose proof (Zfloor_ub (val * / (2 * PI))) as U; fold q in L, U.
  all: set (t := val * / (2 * PI)) in *; rewrite E; assert (0 <= 2 * PI * (t - IZR q)) by (apply Rmult_le_pos; lra); assert (0 < 2 * PI * (1 - (t - IZR q))) by (apply Rmult_lt_0_compat; lra); lra.
Qed.
Print Assumptions C101_exact_partial.
Theorem C101_signed_exact_partial val : let r := normalize_angle_signed_exact val in - PI <= r < PI /\ exists k, val = r + 2 * PI * IZR k.
Proof.
  cbv zeta. pose proof PI_RGT_0 as P. unfold normalize_angle_signed_exact. cbv zeta. destruct (Rlt_bool_spec val (- PI)) as [H|H]; cbn [orb]; [|destruct (Rle_bool_spec PI val) as [K|K]];
    try (split; [lra|exists 0%Z; lra]).
  all: set (v := val + PI); set (q := Zfloor (v * / (2 * PI))); split; [|exists q; unfold v; ring].
  all: assert (E : v = 2 * PI * (v * / (2 * PI))) by (field; lra); pose proof (Zfloor_lb (v * / (2 * PI))) as L; pose proof (Zfloor_ub (v * / (2 * PI))) as U; fold q in L, U.
  all: set (t := v * / (2 * PI)) in *; rewrite E; assert (0 <= 2 * PI * (t - IZR q)) by (apply Rmult_le_pos; lra); assert (0 < 2 * PI * (1 - (t - IZR q))) by (apply Rmult_lt_0_compat; lra); lra.
Qed.
Print Assumptions C101_signed_exact_partial.
(** In float the range is missed on both sides: a tiny negative angle gives exactly two_pi, 188.49556 gives more than two_pi, and
    219.91148 gives a negative number. *)
Definition two_pi32 : float32 := f32 0xC90FDB (-21).
Definition one_over_two_pi32 : float32 := f32 0xA2F983 (-26).
Definition angle32 := normalize_angle 24 128 _ _ two_pi32 one_over_two_pi32.
Theorem C101_range_refuted :
  sf (angle32 (f32 (-1) (-30))) = Some (B2SF two_pi32) /\
  (exists v, is_finite v = true /\ match angle32 v with Some r => Bltb two_pi32 r | None => false end = true) /\
  (exists v, is_finite v = true /\ match angle32 v with Some r => Bltb r (zero 24 128) | None => false end = true).
Proof.
  split; [vm_compute; reflexivity|]. split.
  - exists (f32 0xBC7EDD (-16)). split; vm_compute; reflexivity.
  - exists (f32 0xDBE957 (-16)). split; vm_compute; reflexivity.
Qed.
Print Assumptions C101_range_refuted.
