(** Model of the compile-time atan2 (include/muu/math.h:1976-2003 and 2025-2046) on IEEE numbers, as in ArcModel. Exceptions are enabled. *)
From Coq Require Import ZArith Bool.
From Flocq Require Import Core BinarySingleNaN.
From Verif Require Import FpModel SqrtModel ArcModel.

Section Quad.
  Variable prec emax : Z.
  Context (prec_gt_0_ : Prec_gt_0 prec).
  Context (prec_lt_emax_ : Prec_lt_emax prec emax).
  Notation float := (binary_float prec emax).
  Notation zero := (zero prec emax).
  Variable c : arc_constants prec emax.

  (** math.h:1977-1999. [None] is the exception that stops the compilation, or [fuel] calls of the arc tangent are not enough. *)
  Definition atan2_naive (fuel : nat) (y x : float) : option float :=
    if negb (Beqb x x) then Some x
    else if negb (Beqb y y) then Some y
    else if Bltb zero x then atan_naive prec emax _ _ c fuel (Bdiv mode_NE y x)
    else if Bltb x zero && Bleb zero y then option_map (fun r => Bplus mode_NE r (arc_pi c)) (atan_naive prec emax _ _ c fuel (Bdiv mode_NE y x))
    else if Bltb x zero && Bltb y zero then option_map (fun r => Bminus mode_NE r (arc_pi c)) (atan_naive prec emax _ _ c fuel (Bdiv mode_NE y x))
    else if Beqb x zero && Bltb zero y then Some (arc_pi_over_two c)
    else if Beqb x zero && Bltb y zero then Some (Bopp (arc_pi_over_two c))
    else None.
End Quad.

Section Narrow.
  (** [p], [e]: the type of the arguments; [P], [E]: long double. *)
  Variable p e P E : Z.
  Context (Hp : Prec_gt_0 p) (He : Prec_lt_emax p e) (HP : Prec_gt_0 P) (HE : Prec_lt_emax P E).
  Variable c : arc_constants P E.
  (** math.h:2025-2046, in a constant expression: by way of long double. *)
  Definition atan2_narrow (fuel : nat) (y x : binary_float p e) : option (binary_float p e) :=
    option_map (fp_cast P E p e _ _) (atan2_naive P E _ _ c fuel (fp_cast p e P E _ _ y) (fp_cast p e P E _ _ x)).
End Narrow.
