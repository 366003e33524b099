(** Model of the compile-time arc tangent, arc sine and arc cosine (include/muu/math.h:1548-1568, 1677-1718, 1828-1868) on IEEE numbers, with
    rounding to nearest, ties to even. Nothing is fused: compilers do not contract constant expressions. Exceptions are enabled. *)
From Coq Require Import ZArith Bool List.
From Flocq Require Import Core BinarySingleNaN.
From Verif Require Import FpModel SqrtModel.
Local Open Scope Z_scope.

Section Arc.
  Variable prec emax : Z.
  Context (prec_gt_0_ : Prec_gt_0 prec).
  Context (prec_lt_emax_ : Prec_lt_emax prec emax).
  Notation float := (binary_float prec emax).
  Notation zero := (zero prec emax).
  Notation of_Z := (of_Z prec emax _ _).
  Notation "x -. y" := (Bminus mode_NE x y) (at level 50, left associativity).
  Notation "x +. y" := (Bplus mode_NE x y) (at level 50, left associativity).
  Notation "x *. y" := (Bmult mode_NE x y) (at level 40, left associativity).
  Notation "x /. y" := (Bdiv mode_NE x y) (at level 40, left associativity).
  Notation "x <. y" := (Bltb x y) (at level 70).
  Notation "x =. y" := (Beqb x y) (at level 70).

  (** [constants<T>]; [infinity] and [zero] are those of the format. *)
  Record arc_constants := ArcConstants {
    arc_pi : float; arc_pi_over_two : float; arc_pi_over_four : float; arc_pi_over_six : float; arc_sqrt_three : float;
    arc_one_over_sqrt_two : float }.
  Variable c : arc_constants.

  (** math.h:1859-1866; [n] is the number of iterations left, [i] the loop counter. *)
  Fixpoint atan_loop (n : nat) (i : Z) (x_sq prod sum : float) : float :=
    match n with
    | O => sum
    | S n =>
        let prod := prod *. ((of_Z 2 *. of_Z i *. x_sq) /. ((of_Z 2 *. of_Z i +. Bone) *. (x_sq +. Bone))) in
        let sum' := sum +. prod in
        if sum' =. sum then sum' else atan_loop n (i + 1) x_sq prod sum'
    end.
  (** math.h:1855-1867: [i] runs from 1 to max_constexpr_math_iterations (line 39). *)
  Definition atan_series (x : float) : float :=
    let x_sq := x *. x in
    let mult := x /. (Bone +. x_sq) in
    atan_loop 100 1 x_sq Bone Bone *. mult.
  (** math.h:1850-1852: the bound of the series, and the argument of the inner call. *)
  Definition atan_bound : float := of_Z 2 -. arc_sqrt_three c.
  Definition atan_shift (x : float) : float := ((arc_sqrt_three c *. x) -. Bone) /. (arc_sqrt_three c +. x).

  (** math.h:1830-1868. [None] if [fuel] calls are not enough. *)
  Fixpoint atan_naive (fuel : nat) (x : float) : option float :=
    match fuel with
    | O => None
    | S fuel =>
        if (x =. zero) || negb (x =. x) then Some x
        else if x =. B754_infinity false then Some (arc_pi_over_two c)
        else if x =. B754_infinity true then Some (Bopp (arc_pi_over_two c))
        else if x =. Bone then Some (arc_pi_over_four c)
        else if x <. zero then option_map (fun r => Bopp r) (atan_naive fuel (Bopp x))
        else if Bone <. x then option_map (fun r => arc_pi_over_two c -. r) (atan_naive fuel (Bone /. x))
        else if atan_bound <. x then option_map (fun r => arc_pi_over_six c +. r) (atan_naive fuel (atan_shift x))
        else Some (atan_series x)
    end.

  (** math.h:1709-1716; [n] is the number of iterations left, [i] the loop counter. *)
  Fixpoint asin_loop (n : nat) (i : Z) (x term sum : float) : float :=
    match n with
    | O => sum
    | S n =>
        let sum' := sum +. term *. of_Z i /. of_Z (i + 2) in
        let term := term *. (x *. x *. of_Z i /. of_Z (i + 3)) in
        if sum =. sum' then sum' else asin_loop n (i + 2) x term sum'
    end.
  (** math.h:1707-1717: [i] is 1, 3, ... below 200. *)
  Definition asin_series (x : float) : float := asin_loop 100 1 x (x *. x *. x /. of_Z 2) x.

  (** math.h:1702-1705, the argument of the inner call; [None] is the exception of the square root. *)
  Definition asin_flip (x : float) : option float := sqrt_naive prec emax _ _ (Bone -. x *. x).
  Definition bind (o : option float) (f : float -> option float) : option float := match o with Some x => f x | None => None end.

  (** math.h:1679-1718. [None] is the exception that stops the compilation, or [fuel] calls are not enough. *)
  Fixpoint asin_naive (fuel : nat) (x : float) : option float :=
    match fuel with
    | O => None
    | S fuel =>
        if (x =. zero) || negb (x =. x) then Some x
        else if (x <. Bopp Bone) || (Bone <. x) then None
        else if x =. Bopp Bone then Some (Bopp (arc_pi_over_two c))
        else if x =. Bone then Some (arc_pi_over_two c)
        else if arc_one_over_sqrt_two c <. x then option_map (fun r => arc_pi_over_two c -. r) (bind (asin_flip x) (asin_naive fuel))
        else if x <. Bopp (arc_one_over_sqrt_two c) then option_map (fun r => Bopp (arc_pi_over_two c) +. r) (bind (asin_flip x) (asin_naive fuel))
        else Some (asin_series x)
    end.

  (** math.h:1550-1568. *)
  Definition acos_naive (fuel : nat) (x : float) : option float :=
    if (x <. Bopp Bone) || (Bone <. x) then None
    else if x =. Bopp Bone then Some (arc_pi c)
    else if x =. Bone then Some zero
    else option_map (fun r => arc_pi_over_two c -. r) (asin_naive fuel x).
End Arc.
Arguments arc_pi {prec emax}. Arguments arc_pi_over_two {prec emax}. Arguments arc_pi_over_four {prec emax}. Arguments arc_pi_over_six {prec emax}.
Arguments arc_sqrt_three {prec emax}. Arguments arc_one_over_sqrt_two {prec emax}.

Section Narrow.
  (** [p], [e]: the type of the argument; [P], [E]: long double. *)
  Variable p e P E : Z.
  Context (Hp : Prec_gt_0 p) (He : Prec_lt_emax p e) (HP : Prec_gt_0 P) (HE : Prec_lt_emax P E).
  Variable c : arc_constants P E.

  (** math.h:1588-1607, 1738-1757 and 1887-1906, in a constant expression: by way of long double. *)
  Definition by_long_double (f : binary_float P E -> option (binary_float P E)) (x : binary_float p e) : option (binary_float p e) :=
    option_map (fp_cast P E p e _ _) (f (fp_cast p e P E _ _ x)).
  Definition atan_narrow (fuel : nat) := by_long_double (atan_naive P E _ _ c fuel).
  Definition asin_narrow (fuel : nat) := by_long_double (asin_naive P E _ _ c fuel).
  Definition acos_narrow (fuel : nat) := by_long_double (acos_naive P E _ _ c fuel).
End Narrow.
