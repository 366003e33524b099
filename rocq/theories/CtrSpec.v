(** Real sums of products of matrix elements, and the sums of their magnitudes. *)
From Coq Require Import List Reals Arith.
From Verif Require Import MatModel MatSpec.
Import ListNotations.
Local Open Scope R_scope.

(** f 0 + ... + f (n - 1) *)
Fixpoint rsum (n : nat) (f : nat -> R) : R := match n with O => 0 | S n => rsum n f + f n end.
(** The element in row [r] and column [c] of a matrix given by its columns. *)
Definition elem {K} (value : K -> R) (m : list (list K)) (r c : nat) : R :=
  match nth_error m c with Some col => match nth_error col r with Some x => value x | None => 0 end | None => 0 end.
Definition comp {K} (value : K -> R) (v : list K) (i : nat) : R := match nth_error v i with Some x => value x | None => 0 end.
(** The element of row [r] and column [c] itself, if there is one. *)
Definition entry {K} (m : list (list K)) (r c : nat) : option K := match nth_error m c with Some col => nth_error col r | None => None end.
(** The determinant as the signed sum of n! products, and the sum of their magnitudes. *)
Definition real_ops : ops R := {| zero := 0; one := 1; add := Rplus; mul := Rmult; sub := Rminus; neg := Ropp; div := Rdiv |}.
Definition real_det (n : nat) (e : nat -> nat -> R) : R := leibniz real_ops n e.
Definition magnitude_det (n : nat) (e : nat -> nat -> R) : R :=
  fold_right Rplus 0 (map (fun p => fold_right Rmult 1 (map (fun i => Rabs (e i (nth i p 0%nat))) (seq 0 n))) (arrangements (seq 0 n))).
(** How many roundings pile up in a determinant, and how many of the smallest errors, for entries of magnitude at most [B]. *)
Definition det_roundings (n : nat) : nat := match n with 2 => 2 | 3 => 5 | 4 => 9 | _ => 0 end%nat.
Definition det_underflow (n : nat) (B : R) : R := match n with 2%nat => 4 | 3%nat => 20 * B | 4%nat => 106 * B ^ 2 | _ => 0 end.
(** A matrix without row [i] and column [j]; the element of the adjugate, which is divided by the determinant to give the inverse. *)
Definition skip (i k : nat) : nat := if (k <? i)%nat then k else S k.
Definition without (i j : nat) (e : nat -> nat -> R) (r c : nat) : R := e (skip i r) (skip j c).
Definition adjugate (n : nat) (e : nat -> nat -> R) (r c : nat) : R :=
  (if Nat.even (r + c) then 1 else -1) * real_det (n - 1) (without c r e).
Definition magnitude_adjugate (n : nat) (e : nat -> nat -> R) (r c : nat) : R := magnitude_det (n - 1) (without c r e).
