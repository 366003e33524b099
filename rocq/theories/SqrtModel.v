(** Model of the compile-time square root (include/muu/math.h:863-1060) on IEEE numbers, with rounding to nearest, ties to even. *)
From Coq Require Import ZArith Bool List.
From Flocq Require Import Core BinarySingleNaN.
From Verif Require Import FpModel.
Local Open Scope Z_scope.

Section Sqrt.
  Variable prec emax : Z.
  Context (prec_gt_0_ : Prec_gt_0 prec).
  Context (prec_lt_emax_ : Prec_lt_emax prec emax).
  Notation float := (binary_float prec emax).
  Notation zero := (zero prec emax).

  (** math.h:909-911 with [constants::one_over_two]. A product of a sum cannot be fused. *)
  Definition one_over_two : float := binary_normalize prec emax _ _ mode_NE 1 (-1) false.
  Definition newton (x curr : float) : float := Bmult mode_NE one_over_two (Bplus mode_NE curr (Bdiv mode_NE x curr)).
  (** math.h:906-912; [n] is the number of iterations left. *)
  Fixpoint sqrt_loop (n : nat) (x curr prev : float) : float :=
    match n with
    | O => curr
    | S n => if negb (Beqb curr prev) then sqrt_loop n x (newton x curr) curr else curr
    end.
  (** math.h:39. *)
  Definition max_iterations : nat := 100.
  (** math.h:878-915 for a type at least as wide as long double; [None] is the exception that stops compilation (a NaN when exceptions
      are disabled). *)
  Definition sqrt_naive (x : float) : option float :=
    if Beqb x zero || negb (Beqb x x) then Some x
    else if Bltb x zero then None
    else if Beqb x Bone then Some Bone
    else Some (sqrt_loop max_iterations x x zero).
End Sqrt.

(** [static_cast] from one floating-point type to another. *)
Definition fp_cast (p e p' e' : Z) (H1 : Prec_gt_0 p') (H2 : Prec_lt_emax p' e') (x : binary_float p e) : binary_float p' e' :=
  match x with
  | B754_zero s => B754_zero s
  | B754_infinity s => B754_infinity s
  | B754_nan => B754_nan
  | B754_finite s m ex _ => binary_normalize p' e' _ _ mode_NE (cond_Zopp s (Zpos m)) ex s
  end.

Section Narrow.
  (** [p], [e]: the type of the argument; [P], [E]: long double. *)
  Variable p e P E : Z.
  Context (Hp : Prec_gt_0 p) (He : Prec_lt_emax p e) (HP : Prec_gt_0 P) (HE : Prec_lt_emax P E).

  (** math.h:882-885 and 999-1008: by way of long double. *)
  Definition sqrt_narrow (x : binary_float p e) : option (binary_float p e) :=
    option_map (fp_cast P E p e _ _) (sqrt_naive P E _ _ (fp_cast p e P E _ _ x)).
  (** math.h:953-958 and 1050-1056: integers are converted to double. *)
  Definition sqrt_integer (n : Z) : option (binary_float p e) := sqrt_narrow (of_Z p e _ _ n).
End Narrow.
