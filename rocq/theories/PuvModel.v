(** Model of include/muu/packed_unit_vector.h: unit vectors of two or three components packed into one unsigned integer.

    The scalar type is a parameter: [exact] is arithmetic without rounding, [ieee] the floating-point types (rounding to nearest,
    products and sums not fused, the square root correctly rounded). [None] is undefined behaviour: a conversion to an integer out of
    range, or a MUU_ASSUME that does not hold. Scalars that are integers or small floats are converted first (lines 62-66, 130-134);
    that conversion is not modelled. *)
From Coq Require Import Reals.
From Flocq Require Import Core BinarySingleNaN.
From Verif Require Import Words.
From Verif Require MathModel FpModel.

(** ** Arithmetic of the scalar type *)
Record arith := Arith {
  num : Type;
  add : num -> num -> num;
  sub : num -> num -> num;
  mul : num -> num -> num;
  div : num -> num -> num;
  opp : num -> num;
  root : num -> num;
  (** [x >= 0]. *)
  nonneg : num -> bool;
  (** Conversion of an unsigned integer. *)
  of_int : N -> num;
  (** The literal 0.5. *)
  half : num;
  (** Conversion to an unsigned integer of the given width, towards zero. *)
  to_int : N -> num -> option N
}.

Definition fit (w : N) (z : Z) : option N := if ((0 <=? z) && (z <? 2 ^ Z.of_N w))%Z then Some (Z.to_N z) else None.

Definition exact : arith :=
  {| num := R; add := Rplus; sub := Rminus; mul := Rmult; div := Rdiv; opp := Ropp; root := sqrt;
     nonneg := fun x => Rle_bool 0 x; of_int := fun n => IZR (Z.of_N n); half := (/ 2)%R;
     to_int := fun w x => fit w (Ztrunc x) |}.

Section Ieee.
  Variable prec emax : Z.
  Context (prec_gt_0_ : Prec_gt_0 prec).
  Context (prec_lt_emax_ : Prec_lt_emax prec emax).
  Definition ieee : arith :=
    {| num := binary_float prec emax; add := Bplus mode_NE; sub := Bminus mode_NE; mul := Bmult mode_NE; div := Bdiv mode_NE;
       opp := Bopp; root := Bsqrt mode_NE;
       nonneg := fun x => Bleb (B754_zero false) x;
       of_int := fun n => FpModel.of_Z prec emax _ _ (Z.of_N n);
       half := binary_normalize prec emax _ _ mode_NE 1 (-1) false;
       to_int := fun w x => if is_finite x then fit w (Btrunc x) else None |}.
End Ieee.

(** ** The layout, lines 23-56: [w] is the width of the integer, [d] the number of components *)
Section Layout.
  Variable w d : N.
  (** Line 28: the integer type, or [unsigned] if that is wider. *)
  Definition arith_bits : N := promoted w.
  Definition value_bits : N := w - d.
  Definition stored_dims : N := d - 1.
  Definition part (i : N) : N :=
    match MathModel.evenly_distribute arith_bits value_bits stored_dims i with Some n => n | None => 0 end.
  Definition x_bits : N := part 0.
  Definition y_bits : N := if 3 <=? d then part 1 else 0.
  Definition x_range : N := N.shiftl 1 x_bits - 1.
  Definition y_range : N := N.shiftl 1 y_bits - 1.
  Definition x_mask : N := N.shiftl x_range y_bits.
  Definition y_mask : N := y_range.
  Definition x_sign_bit : N := N.shiftl 1 (w - 1).
  Definition y_sign_bit : N := N.shiftl 1 (w - 2).
  Definition z_sign_bit : N := N.shiftl 1 (w - 3).
End Layout.

(** ** Packing and unpacking, over any arithmetic *)
Section Pack.
  Variable A : arith.
  Notation T := (num A).
  Notation "x +. y" := (add A x y) (at level 50, left associativity).
  Notation "x -. y" := (sub A x y) (at level 50, left associativity).
  Notation "x *. y" := (mul A x y) (at level 40, left associativity).
  Notation "x /. y" := (div A x y) (at level 40, left associativity).
  Definition one : T := of_int A 1.
  Variable w : N.

  (** Lines 75-78: the sign bit of a component, and the component made positive. *)
  Definition take_sign (x : T) (bit : N) : N * T := if nonneg A x then (0, x) else (bit, opp A x).
  (** Lines 92-93 and 98-99: the scaled component, at most [x_range]. *)
  Definition quantize (d : N) (x : T) : option N :=
    i <- to_int A (arith_bits w) (x *. of_int A (x_range w d - 1) +. half A) ;;
    if i <=? x_range w d then Some i else None.

  (** Lines 58-122 for two components; 247-255, the conversion to the integer type. *)
  Definition pack2 (x y : T) : option N :=
    let (bx, x) := take_sign x (x_sign_bit w) in
    let (by_, y) := take_sign y (y_sign_bit w) in
    let x := x /. (x +. y) in
    ix <- quantize 2 x ;;
    let b := N.lor (N.lor bx by_) ix in
    if b <? 2 ^ w then Some (trunc w b) else None.

  (** Lines 58-122 for three components. *)
  Definition pack3 (x y z : T) : option N :=
    let (bx, x) := take_sign x (x_sign_bit w) in
    let (by_, y) := take_sign y (y_sign_bit w) in
    let (bz, z) := take_sign z (z_sign_bit w) in
    let proj := one /. (x +. y +. z) in
    let x := x *. proj in
    let y := y *. proj in
    ix <- quantize 3 x ;;
    iy <- quantize 3 y ;;
    let (ix, iy) := if N.shiftl 1 (x_bits w 3) / 2 <=? iy then (x_range w 3 - ix, x_range w 3 - iy) else (ix, iy) in
    if (ix <=? x_range w 3) && (iy <=? y_range w 3) then
      let b := N.lor (N.lor (N.lor bx by_) bz) (N.lor (N.shiftl ix (y_bits w 3)) iy) in
      if b <? 2 ^ w then Some (trunc w b) else None
    else None.

  (** [!!(b & bit)]; lines 273-293, [x_negative], [y_negative], [z_negative]. *)
  Definition flag (b bit : N) : bool := negb (N.land b bit =? 0).
  Definition x_negative (b : N) : bool := flag b (x_sign_bit w).
  Definition y_negative (b : N) : bool := flag b (y_sign_bit w).
  Definition z_negative (b : N) : bool := flag b (z_sign_bit w).
  (** Lines 155-158 and 163-165: the factor 1 or -1. *)
  Definition sign (neg : bool) : T := if neg then opp A one else one.

  (** vector.h:2042-2045 with 1074-1089 and 1104-1115: [normalize]. *)
  Definition normalize2 (x y : T) : T * T :=
    let k := one /. root A (x *. x +. y *. y) in (x *. k, y *. k).
  Definition normalize3 (x y z : T) : T * T * T :=
    let k := one /. root A (x *. x +. y *. y +. z *. z) in (x *. k, y *. k, z *. k).

  (** Lines 124-168, 257-263. No subtraction wraps: both fields are at most [x_range]. *)
  Definition unpack2 (b : N) : T * T :=
    let x_range_div := one /. of_int A (x_range w 2) in
    let x := of_int A (N.land b (x_range w 2)) *. x_range_div in
    normalize2 (sign (x_negative b) *. x) (sign (y_negative b) *. (one -. x)).
  Definition unpack3 (b : N) : T * T * T :=
    let x_range_div := one /. of_int A (x_range w 3) in
    let ix := N.shiftr (N.land b (x_mask w 3)) (y_bits w 3) in
    let iy := N.land b (y_mask w 3) in
    let (ix, iy) :=
      if x_range w 3 <? trunc (arith_bits w) (ix + iy) then (x_range w 3 - ix, x_range w 3 - iy) else (ix, iy) in
    let x := of_int A ix *. x_range_div in
    let y := of_int A iy *. x_range_div in
    normalize3 (sign (x_negative b) *. x) (sign (y_negative b) *. y) (sign (z_negative b) *. (one -. x -. y)).
End Pack.
