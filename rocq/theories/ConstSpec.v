(** What the names of the constants mean: the formula of each, as the comments of core_constants.h:177-290 give it (for the seven
    [n_over_phi] after the first the comment repeats "2 / phi"; the name is taken). *)
From Coq Require Import ZArith Reals String List.
Import ListNotations.
Local Open Scope string_scope.

Inductive expr := Num (n : Z) | Pi | E | Phi | Sqrt (x : expr) | Mul (x y : expr) | Div (x y : expr).

(** [e] is a parameter so that the same formulas can be read with another number in its place. *)
Fixpoint ev (e : R) (x : expr) : R :=
  (match x with
   | Num n => IZR n
   | Pi => PI
   | E => e
   | Phi => (1 + sqrt 5) / 2
   | Sqrt x => sqrt (ev e x)
   | Mul x y => ev e x * ev e y
   | Div x y => ev e x / ev e y
   end)%R.
Definition meaning (x : expr) : R := ev (exp 1) x.
Fixpoint mentions_e (x : expr) : bool :=
  match x with
  | E => true
  | Num _ | Pi | Phi => false
  | Sqrt x => mentions_e x
  | Mul x y | Div x y => mentions_e x || mentions_e y
  end.

Definition formulas : list (string * expr) := ([
  ("one_over_two", Div (Num 1) (Num 2));
  ("one_over_three", Div (Num 1) (Num 3));
  ("one_over_four", Div (Num 1) (Num 4));
  ("one_over_five", Div (Num 1) (Num 5));
  ("one_over_six", Div (Num 1) (Num 6));
  ("one_over_seven", Div (Num 1) (Num 7));
  ("one_over_eight", Div (Num 1) (Num 8));
  ("sqrt_two", Sqrt (Num 2));
  ("one_over_sqrt_two", Div (Num 1) (Sqrt (Num 2)));
  ("two_over_three", Div (Num 2) (Num 3));
  ("two_over_five", Div (Num 2) (Num 5));
  ("two_over_seven", Div (Num 2) (Num 7));
  ("sqrt_three", Sqrt (Num 3));
  ("one_over_sqrt_three", Div (Num 1) (Sqrt (Num 3)));
  ("three_over_two", Div (Num 3) (Num 2));
  ("three_over_four", Div (Num 3) (Num 4));
  ("three_over_five", Div (Num 3) (Num 5));
  ("three_over_seven", Div (Num 3) (Num 7));
  ("three_over_eight", Div (Num 3) (Num 8));
  ("sqrt_four", Sqrt (Num 4));
  ("four_over_three", Div (Num 4) (Num 3));
  ("four_over_five", Div (Num 4) (Num 5));
  ("four_over_seven", Div (Num 4) (Num 7));
  ("pi", Pi);
  ("one_over_pi", Div (Num 1) Pi);
  ("sqrt_pi", Sqrt Pi);
  ("one_over_sqrt_pi", Div (Num 1) (Sqrt Pi));
  ("pi_over_two", Div Pi (Num 2));
  ("pi_over_three", Div Pi (Num 3));
  ("pi_over_four", Div Pi (Num 4));
  ("pi_over_five", Div Pi (Num 5));
  ("pi_over_six", Div Pi (Num 6));
  ("pi_over_seven", Div Pi (Num 7));
  ("pi_over_eight", Div Pi (Num 8));
  ("two_over_pi", Div (Num 2) Pi);
  ("three_over_pi", Div (Num 3) Pi);
  ("four_over_pi", Div (Num 4) Pi);
  ("five_over_pi", Div (Num 5) Pi);
  ("six_over_pi", Div (Num 6) Pi);
  ("seven_over_pi", Div (Num 7) Pi);
  ("eight_over_pi", Div (Num 8) Pi);
  ("two_pi", Mul (Num 2) Pi);
  ("one_over_two_pi", Div (Num 1) (Mul (Num 2) Pi));
  ("sqrt_two_pi", Sqrt (Mul (Num 2) Pi));
  ("one_over_sqrt_two_pi", Div (Num 1) (Sqrt (Mul (Num 2) Pi)));
  ("two_pi_over_three", Div (Mul (Num 2) Pi) (Num 3));
  ("two_pi_over_five", Div (Mul (Num 2) Pi) (Num 5));
  ("two_pi_over_seven", Div (Mul (Num 2) Pi) (Num 7));
  ("three_over_two_pi", Div (Num 3) (Mul (Num 2) Pi));
  ("five_over_two_pi", Div (Num 5) (Mul (Num 2) Pi));
  ("seven_over_two_pi", Div (Num 7) (Mul (Num 2) Pi));
  ("three_pi", Mul (Num 3) Pi);
  ("one_over_three_pi", Div (Num 1) (Mul (Num 3) Pi));
  ("sqrt_three_pi", Sqrt (Mul (Num 3) Pi));
  ("one_over_sqrt_three_pi", Div (Num 1) (Sqrt (Mul (Num 3) Pi)));
  ("three_pi_over_two", Div (Mul (Num 3) Pi) (Num 2));
  ("three_pi_over_four", Div (Mul (Num 3) Pi) (Num 4));
  ("three_pi_over_five", Div (Mul (Num 3) Pi) (Num 5));
  ("three_pi_over_seven", Div (Mul (Num 3) Pi) (Num 7));
  ("three_pi_over_eight", Div (Mul (Num 3) Pi) (Num 8));
  ("two_over_three_pi", Div (Num 2) (Mul (Num 3) Pi));
  ("four_over_three_pi", Div (Num 4) (Mul (Num 3) Pi));
  ("five_over_three_pi", Div (Num 5) (Mul (Num 3) Pi));
  ("seven_over_three_pi", Div (Num 7) (Mul (Num 3) Pi));
  ("eight_over_three_pi", Div (Num 8) (Mul (Num 3) Pi));
  ("e", E);
  ("one_over_e", Div (Num 1) E);
  ("sqrt_e", Sqrt E);
  ("one_over_sqrt_e", Div (Num 1) (Sqrt E));
  ("e_over_two", Div E (Num 2));
  ("e_over_three", Div E (Num 3));
  ("e_over_four", Div E (Num 4));
  ("e_over_five", Div E (Num 5));
  ("e_over_six", Div E (Num 6));
  ("e_over_seven", Div E (Num 7));
  ("e_over_eight", Div E (Num 8));
  ("two_over_e", Div (Num 2) E);
  ("three_over_e", Div (Num 3) E);
  ("four_over_e", Div (Num 4) E);
  ("five_over_e", Div (Num 5) E);
  ("six_over_e", Div (Num 6) E);
  ("seven_over_e", Div (Num 7) E);
  ("eight_over_e", Div (Num 8) E);
  ("phi", Phi);
  ("one_over_phi", Div (Num 1) Phi);
  ("sqrt_phi", Sqrt Phi);
  ("one_over_sqrt_phi", Div (Num 1) (Sqrt Phi));
  ("phi_over_two", Div Phi (Num 2));
  ("phi_over_three", Div Phi (Num 3));
  ("phi_over_four", Div Phi (Num 4));
  ("phi_over_five", Div Phi (Num 5));
  ("phi_over_six", Div Phi (Num 6));
  ("phi_over_seven", Div Phi (Num 7));
  ("phi_over_eight", Div Phi (Num 8));
  ("two_over_phi", Div (Num 2) Phi);
  ("three_over_phi", Div (Num 3) Phi);
  ("four_over_phi", Div (Num 4) Phi);
  ("five_over_phi", Div (Num 5) Phi);
  ("six_over_phi", Div (Num 6) Phi);
  ("seven_over_phi", Div (Num 7) Phi);
  ("eight_over_phi", Div (Num 8) Phi);
  ("one_over_ten", Div (Num 1) (Num 10));
  ("one_over_one_hundred", Div (Num 1) (Num 100));
  ("one_over_one_thousand", Div (Num 1) (Num 1000));
  ("degrees_to_radians", Div Pi (Num 180));
  ("radians_to_degrees", Div (Num 180) Pi)])%Z.
Fixpoint lookup {A} (name : string) (l : list (string * A)) : option A :=
  match l with [] => None | (n, x) :: r => if String.eqb n name then Some x else lookup name r end.
Definition formula (name : string) : option expr := lookup name formulas.
