(** Model of the operators and functions of the emulated half (half.h with MUU_HALF_EMULATED): every one of them widens its operands to float,
    computes with floats (IEEE numbers, Flocq, rounding to nearest even) and narrows the result. Halves are bit patterns, as in HalfModel.
    [None] stands for undefined behaviour. NaN payloads of floats are not modelled. *)
From Coq Require Import ZArith NArith Bool.
From Flocq Require Import Core BinarySingleNaN.
From Verif Require Import Words HalfModel FpModel.
Local Open Scope N_scope.

#[local] Instance float_prec : Prec_gt_0 24 := eq_refl.
#[local] Instance float_emax : Prec_lt_emax 24 128 := eq_refl.
Notation float32 := (binary_float 24 128).

(** [bit_cast<float>(uint32_t)] and [bit_cast<uint32_t>(float)] (half.h:1267, 1357), by the layout of IEEE 754 binary32. *)
Definition float_of_bits (x : N) : float32 :=
  let negative := N.testbit x 31 in
  let e := (x / 2 ^ 23) mod 2 ^ 8 in
  let m := x mod 2 ^ 23 in
  if e =? 255 then (if m =? 0 then B754_infinity negative else B754_nan)
  else
    let magnitude := Z.of_N (if e =? 0 then m else 2 ^ 23 + m) in
    binary_normalize 24 128 _ _ mode_NE (if negative then - magnitude else magnitude)%Z (Z.of_N (N.max e 1) - 150)%Z negative.
Definition sign_bit (negative : bool) : N := if negative then 2 ^ 31 else 0.
Definition bits_of_float (f : float32) : N :=
  match f with
  | B754_zero s => sign_bit s
  | B754_infinity s => sign_bit s + 255 * 2 ^ 23
  | B754_nan => 255 * 2 ^ 23 + 2 ^ 22
  | B754_finite s m e _ =>
      if N.pos m <? 2 ^ 23 then sign_bit s + N.pos m else sign_bit s + Z.to_N (e + 150) * 2 ^ 23 + (N.pos m - 2 ^ 23)
  end.

(** half.h:258-266 [operator float] and half.h:190-195 the constructor from float. *)
Definition widen (h : N) : option float32 := x <- u16_to_f32 h ;; Some (float_of_bits x).
Definition narrow (f : float32) : N := f32_to_u16 (bits_of_float f).

Definition binary {A : Type} (f : float32 -> float32 -> A) (a b : N) : option A := x <- widen a ;; y <- widen b ;; Some (f x y).
(** half.h:425-447; the assignments of half.h:487-525 store the same numbers. *)
Definition half_add : N -> N -> option N := binary (fun x y => narrow (Bplus mode_NE x y)).
Definition half_sub : N -> N -> option N := binary (fun x y => narrow (Bminus mode_NE x y)).
Definition half_mul : N -> N -> option N := binary (fun x y => narrow (Bmult mode_NE x y)).
Definition half_div : N -> N -> option N := binary (fun x y => narrow (Bdiv mode_NE x y)).
(** half.h:606-650: increments and decrements, the stored number. *)
Definition float_one : float32 := of_Z 24 128 _ _ 1.
Definition half_inc (a : N) : option N := x <- widen a ;; Some (narrow (Bplus mode_NE x float_one)).
Definition half_dec (a : N) : option N := x <- widen a ;; Some (narrow (Bminus mode_NE x float_one)).

(** half.h:306-364. *)
Definition half_eq : N -> N -> option bool := binary (fun x y => Beqb x y).
Definition half_ne : N -> N -> option bool := binary (fun x y => negb (Beqb x y)).
Definition half_lt : N -> N -> option bool := binary (fun x y => Bltb x y).
Definition half_le : N -> N -> option bool := binary (fun x y => Bleb x y).
Definition half_gt : N -> N -> option bool := binary (fun x y => Bltb y x).
Definition half_ge : N -> N -> option bool := binary (fun x y => Bleb y x).

(** half.h:381-392 and the macros' uses: a half and an integer of a built-in type, the half on the left or on the right. *)
Definition with_int {A : Type} (f : float32 -> float32 -> A) (a : N) (n : Z) : option A := x <- widen a ;; Some (f x (of_Z 24 128 _ _ n)).
Definition half_eq_int : N -> Z -> option bool := with_int (fun x y => Beqb x y).
Definition half_lt_int : N -> Z -> option bool := with_int (fun x y => Bltb x y).
Definition half_gt_int : N -> Z -> option bool := with_int (fun x y => Bltb y x).
Definition half_add_int : N -> Z -> option N := with_int (fun x y => narrow (Bplus mode_NE x y)).
Definition half_mul_int : N -> Z -> option N := with_int (fun x y => narrow (Bmult mode_NE x y)).
(** half.h:197-223, constructors from integers, and half.h:268-300, conversions to them: towards zero, undefined if the result does not fit. *)
Definition half_of_int (n : Z) : N := narrow (of_Z 24 128 _ _ n).
Definition half_to_intmax (a : N) : option Z := x <- widen a ;; to_intmax 24 128 x.

(** half.h:1111-1125 and math.h:607-616, 741-750, used for halves at compile time and at run time. *)
Definition half_floor (h : N) : option N :=
  x <- widen h ;;
  if Beqb x (zero 24 128) || negb (Beqb x x) then Some h
  else n <- to_intmax 24 128 x ;;
       less <- half_lt_int h n ;;
       Some (half_of_int (n - (if less then 1 else 0))).
Definition half_ceil (h : N) : option N :=
  x <- widen h ;;
  if Beqb x (zero 24 128) || negb (Beqb x x) then Some h
  else n <- to_intmax 24 128 x ;;
       greater <- half_gt_int h n ;;
       Some (half_of_int (n + (if greater then 1 else 0))).
(** half.h:1143-1147, at run time: the processor's square root, correctly rounded. *)
Definition half_sqrt (h : N) : option N := x <- widen h ;; Some (narrow (Bsqrt mode_NE x)).
(** half.h:1094-1108. *)
Definition half_approx_equal (a b epsilon : N) : option bool :=
  x <- widen a ;; y <- widen b ;; e <- widen epsilon ;; Some (approx_equal 24 128 _ _ x y e).
(** half.h:1212-1217, given the [atan2] of floats, which takes the ordinate first. *)
Definition half_atan2 (atan2 : float32 -> float32 -> float32) (y x : N) : option N :=
  b <- widen y ;; a <- widen x ;; Some (narrow (atan2 a b)).
