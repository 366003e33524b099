(** Model of the named floating-point constants: include/muu/impl/core_constants.h:171-406 and half.h:797-907.

    The numbers themselves are in ConstTables.v. A decimal literal means the nearest number of its type, ties to even (what GCC and Clang
    do). [T(...)] rounds the long double again, to [T]. Only the x87 long double is modelled. *)
From Coq Require Import ZArith Reals.
From Flocq Require Import Core.
From Verif Require Import HalfSpec.
Local Open Scope R_scope.

(** Rounding to nearest of the type with [prec] bits of significand and exponents up to [emax]. *)
Definition rnd (prec emax : Z) (x : R) : R := round radix2 (FLT_exp (3 - emax - prec) prec) ZnearestE x.

(** core_constants.h:177-290 for float, double and long double: [T(literal)]. *)
Definition constant (prec emax : Z) (literal : Z) : R := rnd prec emax (rnd 64 16384 (IZR literal / IZR (10 ^ 21))).
(** core_constants.h:300-405. *)
Definition constant128 (literal : Z) : R := rnd 113 16384 (IZR literal / IZR (10 ^ 36)).
(** half.h:800-906: the number with this bit pattern (none is negative, infinite or NaN). *)
Definition constant16 (bits : Z) : R :=
  match f16_value (Z.to_N bits) with Fin false m => IZR (Z.of_N m) / IZR (2 ^ 149) | _ => 0 end.
