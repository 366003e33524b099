(** What vectors of floating-point scalars are measured against: sums of products and lengths in the real numbers, and the two units of
    error of a floating-point format. *)
From Coq Require Import ZArith List Reals.
From Flocq Require Import Core BinarySingleNaN.
Local Open Scope R_scope.

(** The exact sum of the products, and the sum of their magnitudes. *)
Definition real_dot (l : list (R * R)) : R := fold_right (fun p s => fst p * snd p + s) 0 l.
Definition real_mag (l : list (R * R)) : R := fold_right (fun p s => Rabs (fst p * snd p) + s) 0 l.
(** The square of the Euclidean length. *)
Definition real_norm2 (v : list R) : R := fold_right (fun x s => x * x + s) 0 v.
(** Half the distance from one to the next number: the relative error of rounding to nearest. *)
Definition half_ulp_1 (prec : Z) : R := bpow radix2 (- prec).
(** Half the smallest positive number: the absolute error of rounding a number too small to be held with all digits. *)
Definition half_tiny (prec emax : Z) : R := bpow radix2 (2 - emax - prec).
(** The smallest number held with all its digits. *)
Definition min_normal (emax : Z) : R := bpow radix2 (2 - emax).
