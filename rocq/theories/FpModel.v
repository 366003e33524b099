(** Model of floating-point functions of include/muu/math.h on IEEE numbers (Flocq), with rounding, signed zeros, infinities and NaN.

    A floating-point type is [binary_float prec emax]: float is (24, 128), double (53, 1024), the x87 long double (64, 16384), float128_t
    (113, 16384). The rounding mode is to nearest, ties to even, as at compile time and by default at run time. NaN payloads are not
    modelled. [None] is undefined behaviour. *)
From Coq Require Import ZArith Bool List Reals.
From Flocq Require Import Core BinarySingleNaN.
Local Open Scope Z_scope.

(** math.h:65-160, [infinity_or_nan_]: the object representation as a number, and the mask of the type. *)
Definition mask16 : Z := 0x7C00.
Definition mask32 : Z := 0x7F800000.
Definition mask64 : Z := 0x7FF0000000000000.
Definition mask128 : Z := 0x7FFF0000000000000000000000000000.
Definition infinity_or_nan (mask bits : Z) : bool := Z.land bits mask =? mask.
(** math.h:87-103: of the ten bytes of an x87 number the sign and exponent (bytes 9 and 8) and the top byte of the significand are
    packed into one number, most significant first. *)
Definition byte (bits : Z) (i : Z) : Z := (bits / 256 ^ i) mod 256.
Definition infinity_or_nan_x87 (bits : Z) : bool :=
  let mask := 0x7F * 65536 + 0xFF * 256 + 0x80 in
  Z.land (byte bits 9 * 65536 + byte bits 8 * 256 + byte bits 7) mask =? mask.

Section Fp.
  Variable prec emax : Z.
  Context (prec_gt_0_ : Prec_gt_0 prec).
  Context (prec_lt_emax_ : Prec_lt_emax prec emax).
  Notation float := (binary_float prec emax).
  Notation "x -. y" := (Bminus mode_NE x y) (at level 50, left associativity).
  Notation "x +. y" := (Bplus mode_NE x y) (at level 50, left associativity).
  Notation "x *. y" := (Bmult mode_NE x y) (at level 40, left associativity).
  Notation "x <. y" := (Bltb x y) (at level 70).
  Notation "x =. y" := (Beqb x y) (at level 70).

  Definition zero : float := B754_zero false.
  (** The conversion of an integer. *)
  Definition of_Z (n : Z) : float := binary_normalize prec emax _ _ mode_NE n 0 false.

  (** math.h:289-301. *)
  Definition abs (x : float) : float :=
    if x =. zero then zero else if x <. zero then Bopp x else x.

  (** math.h:451-507. *)
  Definition approx_equal (a b epsilon : float) : bool := abs (b -. a) <. epsilon.
  (** math.h:533-563. *)
  Definition approx_zero (x epsilon : float) : bool := approx_equal x zero epsilon.

  (** [static_cast<intmax_t>(x)]: towards zero; undefined for NaN, infinities and what does not fit. *)
  Definition in_intmax (n : Z) : bool := (- 2 ^ 63 <=? n)%Z && (n <? 2 ^ 63)%Z.
  Definition to_intmax (x : float) : option Z :=
    if is_finite x && in_intmax (Btrunc x) then Some (Btrunc x) else None.
  (** math.h:607-616. The result of the integer subtraction has to be an [intmax_t]. *)
  Definition floor_naive (x : float) : option float :=
    if (x =. zero) || negb (x =. x) then Some x
    else
      match to_intmax x with
      | None => None
      | Some n =>
          let r := (n - (if x <. of_Z n then 1 else 0))%Z in
          if in_intmax r then Some (of_Z r) else None
      end.
  (** math.h:741-750. *)
  Definition ceil_naive (x : float) : option float :=
    if (x =. zero) || negb (x =. x) then Some x
    else
      match to_intmax x with
      | None => None
      | Some n =>
          let r := (n + (if of_Z n <. x then 1 else 0))%Z in
          if in_intmax r then Some (of_Z r) else None
      end.

  (** math.h:2115-2146. In the block the compiler may fuse a product into the sum (MUU_FMA_BLOCK): either product, or none. *)
  Inductive fuse := NoFma | FmaLeft | FmaRight.
  Definition lerp (k : fuse) (start finish alpha : float) : float :=
    match k with
    | NoFma => start *. (Bone -. alpha) +. finish *. alpha
    | FmaLeft => Bfma mode_NE start (Bone -. alpha) (finish *. alpha)
    | FmaRight => Bfma mode_NE finish alpha (start *. (Bone -. alpha))
    end.

  (** math.h:2189-2197, [two_pi] and [one_over_two_pi] being the constants of the type. Not fused. *)
  Definition normalize_angle (two_pi one_over_two_pi val : float) : option float :=
    if (val <. zero) || Bleb two_pi val
    then match floor_naive (val *. one_over_two_pi) with Some q => Some (val -. two_pi *. q) | None => None end
    else Some val.
  (** math.h:2265-2276. *)
  Definition normalize_angle_signed (pi two_pi one_over_two_pi val : float) : option float :=
    if (val <. Bopp pi) || Bleb pi val
    then
      let val := val +. pi in
      match floor_naive (val *. one_over_two_pi) with Some q => Some (val -. two_pi *. q -. pi) | None => None end
    else Some val.

  (** accumulator.h:278-289, [kahan_add], on the pair of [sum_] and [correction_]. *)
  Definition kahan_add (s : float * float) (sample : float) : float * float :=
    let (sum, correction) := s in
    let t := sum +. sample in
    if Bleb (abs sample) (abs sum) then (t, correction +. ((sum -. t) +. sample))
    else (t, correction +. ((sample -. t) +. sum)).
  (** accumulator.h:270-274 (the correction has been zero since construction), 117-130, 324-327: the samples one after the other. *)
  Definition kahan_sum (sample : float) (samples : list float) : float :=
    let (sum, correction) := fold_left kahan_add samples (sample, zero) in sum +. correction.
End Fp.

(** The same two functions (math.h:2189-2197, 2265-2276) in exact arithmetic, with the exact circle constant. *)
Section Exact.
  Local Open Scope R_scope.
  Definition normalize_angle_exact (val : R) : R :=
    if Rlt_bool val 0 || Rle_bool (2 * PI) val then val - 2 * PI * IZR (Zfloor (val * / (2 * PI))) else val.
  Definition normalize_angle_signed_exact (val : R) : R :=
    if Rlt_bool val (- PI) || Rle_bool PI val then
      let val := val + PI in
      let val := val - 2 * PI * IZR (Zfloor (val * / (2 * PI))) in
      val - PI
    else val.
End Exact.
