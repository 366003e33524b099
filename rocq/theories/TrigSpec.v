(** What the constants used by the compile-time sine, cosine and tangent should be: the true numbers, rounded to the type. C104 shows that
    those of core_constants.h are, for every type in which these functions compute. *)
From Coq Require Import ZArith Reals List String.
From Flocq Require Import Core BinarySingleNaN.
From Verif Require Import ConstModel ConstTables TrigModel.
Local Open Scope string_scope.
Local Open Scope R_scope.

Definition right (prec emax : Z) (x : binary_float prec emax) (v : R) : Prop :=
  is_finite x = true /\ B2R x = round radix2 (FLT_exp (3 - emax - prec) prec) ZnearestE v.
Record right_constants (prec emax : Z) (c : constants prec emax) : Prop := {
  pi_right : right prec emax (pi c) PI;
  two_pi_right : right prec emax (two_pi c) (2 * PI);
  one_over_pi_right : right prec emax (one_over_pi c) (1 / PI);
  one_over_two_pi_right : right prec emax (one_over_two_pi c) (1 / (2 * PI));
  pi_over_two_right : right prec emax (pi_over_two c) (PI / 2);
  three_pi_over_two_right : right prec emax (three_pi_over_two c) (3 * PI / 2);
  pi_over_four_right : right prec emax (pi_over_four c) (PI / 4);
  pi_over_eight_right : right prec emax (pi_over_eight c) (PI / 8);
  sqrt_two_right : right prec emax (sqrt_two c) (sqrt 2) }.

(** The constants are those of a table: [value name v] if the table says that the constant called [name] is [v]. *)
Definition taken (prec emax : Z) (value : string -> R -> Prop) (name : string) (x : binary_float prec emax) : Prop :=
  is_finite x = true /\ value name (B2R x).
Record taken_from (prec emax : Z) (value : string -> R -> Prop) (c : constants prec emax) : Prop := {
  pi_taken : taken prec emax value "pi" (pi c);
  two_pi_taken : taken prec emax value "two_pi" (two_pi c);
  one_over_pi_taken : taken prec emax value "one_over_pi" (one_over_pi c);
  one_over_two_pi_taken : taken prec emax value "one_over_two_pi" (one_over_two_pi c);
  pi_over_two_taken : taken prec emax value "pi_over_two" (pi_over_two c);
  three_pi_over_two_taken : taken prec emax value "three_pi_over_two" (three_pi_over_two c);
  pi_over_four_taken : taken prec emax value "pi_over_four" (pi_over_four c);
  pi_over_eight_taken : taken prec emax value "pi_over_eight" (pi_over_eight c);
  sqrt_two_taken : taken prec emax value "sqrt_two" (sqrt_two c) }.
(** core_constants.h as modelled in ConstModel.v *)
Definition in_table (prec emax : Z) (name : string) (v : R) : Prop := exists literal, In (name, literal) literals /\ v = constant prec emax literal.
Definition in_table128 (name : string) (v : R) : Prop := exists literal, In (name, literal) literals128 /\ v = constant128 literal.
