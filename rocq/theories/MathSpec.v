(** Specifications for the integer functions of math.h. *)
From Verif Require Import Words CoreModel MathModel.
Local Open Scope Z_scope.

(** [g] is the greatest common divisor of the numbers in [l]: what divides all of them divides [g], and vice versa. *)
Definition is_gcd (l : list Z) (g : Z) : Prop := 0 <= g /\ forall d, (d | g) <-> Forall (fun x => (d | x)) l.
(** [m] is their least common multiple. *)
Definition is_lcm (l : list Z) (m : Z) : Prop := 0 <= m /\ forall k, (m | k) <-> Forall (fun x => (x | k)) l.

(** An argument: of a built-in type, within its range, and its absolute value too. *)
Definition good (v : tv) : Prop := std_ity (ty v) /\ in_ity (ty v) (val v) /\ in_ity (ty v) (Z.abs (val v)).

Definition sum (l : list N) : N := fold_right N.add 0%N l.
(** The numbers below [n]. *)
Definition below (n : N) : list N := map N.of_nat (seq 0 (N.to_nat n)).
