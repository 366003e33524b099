(** What halves are as numbers, and what it means for a half to be a result. *)
From Coq Require Import ZArith NArith Reals.
From Verif Require Import Words HalfSpec.
Local Open Scope R_scope.

(** Magnitudes are counted in units of 2^-149, as in HalfSpec. *)
Definition real_of (negative : bool) (magnitude : N) : R := (if negative then -1 else 1) * IZR (Z.of_N magnitude) / IZR (2 ^ 149).
(** The half [h] is finite and its value is [r]. *)
Definition half_is (h : N) (r : R) : Prop := (h < 2 ^ 16)%N /\ exists s m, f16_value h = Fin s m /\ r = real_of s m.
(** No half lies between [x] and the half [h], and if [x] is itself the value of a half, it is that of [h]. *)
Definition faithful (x : R) (h : N) : Prop :=
  exists r, half_is h r /\ forall k q, half_is k q -> (q <= x -> q <= r) /\ (x <= q -> r <= q).
(** In addition, [h] is not farther from zero than [x]: rounding is towards zero. *)
Definition truncated (x : R) (h : N) : Prop := faithful x h /\ forall r, half_is h r -> Rabs r <= Rabs x.

(** The order of values. *)
Definition signed (negative : bool) (magnitude : N) : Z := if negative then (- Z.of_N magnitude)%Z else Z.of_N magnitude.
Definition below (v w : fval) : Prop :=
  match v, w with
  | NaN, _ | _, NaN => False
  | Inf s, Inf t => s = true /\ t = false
  | Inf s, Fin _ _ => s = true
  | Fin _ _, Inf t => t = false
  | Fin s m, Fin t n => (signed s m < signed t n)%Z
  end.
Definition same (v w : fval) : Prop :=
  match v, w with
  | Inf s, Inf t => s = t
  | Fin s m, Fin t n => signed s m = signed t n
  | _, _ => False
  end.
(** An integer as such a value. *)
Definition whole (n : Z) : fval := Fin (n <? 0)%Z (Z.to_N (Z.abs n) * one_unit)%N.
