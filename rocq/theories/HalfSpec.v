(** IEEE 754 binary16 and binary32: what a bit pattern means.  A finite number is a sign and a magnitude; magnitudes are
    given in units of 2^-149, the smallest positive binary32 number, in which all of them are whole. *)
From Verif Require Import Words.
Local Open Scope N_scope.

Inductive fval : Type :=
| NaN
| Inf (negative : bool)
| Fin (negative : bool) (mag : N).

(** [p] fraction bits, [q] exponent bits; [scale] corrects the unit. *)
Definition value (p q scale bits : N) : fval :=
  let neg := bits / 2 ^ (p + q) =? 1 in
  let e := (bits / 2 ^ p) mod 2 ^ q in
  let m := bits mod 2 ^ p in
  if e =? 2 ^ q - 1 then (if m =? 0 then Inf neg else NaN)
  else Fin neg (2 ^ scale * (if e =? 0 then m else (2 ^ p + m) * 2 ^ (e - 1))).

Definition f32_value : N -> fval := value 23 8 0.
Definition f16_value : N -> fval := value 10 5 125.   (* 2^-24 = 2^125 * 2^-149 *)

(** One, in those units. *)
Definition one_unit : N := 2 ^ 149.

Definition subnormal16 (h : N) : Prop := (h / 2 ^ 10) mod 2 ^ 5 = 0 /\ h mod 2 ^ 10 <> 0.

Definition negate (v : fval) : fval := match v with NaN => NaN | Inf s => Inf (negb s) | Fin s m => Fin (negb s) m end.
Definition magnitude (v : fval) : fval := match v with NaN => NaN | Inf _ => Inf false | Fin _ m => Fin false m end.
