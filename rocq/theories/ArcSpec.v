(** What the constants used by the compile-time arc functions should be: the true numbers, rounded to the type. C104 shows that those of
    core_constants.h are, for every type in which these functions compute. *)
From Coq Require Import ZArith Reals List String.
From Flocq Require Import Core BinarySingleNaN.
From Verif Require Import ConstModel ConstTables TrigSpec ArcModel.
Local Open Scope string_scope.
Local Open Scope R_scope.

Record right_arc_constants (prec emax : Z) (c : arc_constants prec emax) : Prop := {
  arc_pi_right : right prec emax (arc_pi c) PI;
  arc_pi_over_two_right : right prec emax (arc_pi_over_two c) (PI / 2);
  arc_pi_over_four_right : right prec emax (arc_pi_over_four c) (PI / 4);
  arc_pi_over_six_right : right prec emax (arc_pi_over_six c) (PI / 6);
  arc_sqrt_three_right : right prec emax (arc_sqrt_three c) (sqrt 3);
  arc_one_over_sqrt_two_right : right prec emax (arc_one_over_sqrt_two c) (1 / sqrt 2) }.
(** The constants are those of a table. *)
Record arc_taken_from (prec emax : Z) (value : string -> R -> Prop) (c : arc_constants prec emax) : Prop := {
  arc_pi_taken : taken prec emax value "pi" (arc_pi c);
  arc_pi_over_two_taken : taken prec emax value "pi_over_two" (arc_pi_over_two c);
  arc_pi_over_four_taken : taken prec emax value "pi_over_four" (arc_pi_over_four c);
  arc_pi_over_six_taken : taken prec emax value "pi_over_six" (arc_pi_over_six c);
  arc_sqrt_three_taken : taken prec emax value "sqrt_three" (arc_sqrt_three c);
  arc_one_over_sqrt_two_taken : taken prec emax value "one_over_sqrt_two" (arc_one_over_sqrt_two c) }.

(** The magnitudes of the x87 long doubles whose arc tangent is never found, as pairs of a factor and a power of two: 1 - 2^-64, the two numbers
    above the bound 2 - sqrt(3), and three whose reciprocals round to one of these. *)
Definition endless : list (Z * Z) :=
  ((18446744073709551615, -64) :: (9885580355068146057, -65) :: (9885580355068146058, -65)
   :: (17211046529326033358, -62) :: (17211046529326033359, -62) :: (17211046529326033360, -62) :: nil)%Z.
Definition lost_arctan (x : R) : Prop := exists m k, In (m, k) endless /\ Rabs x = IZR m * bpow radix2 k.
