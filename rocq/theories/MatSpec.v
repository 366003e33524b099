(** Matrices as functions from two indices, sums over an index, and the Leibniz determinant. *)
From Coq Require Import Ring Field.
From Verif Require Import Words MatModel.
Local Open Scope nat_scope.

(** [m] has [rows] rows and [cols] columns. *)
Definition dims {K} (rows cols : nat) (m : list (list K)) : Prop := length m = cols /\ forall col, In col m -> length col = rows.

Section MatSpec.
  Context {K : Type} (F : ops K).

  (** f 0 + ... + f (n-1) *)
  Fixpoint sum (n : nat) (f : nat -> K) : K := match n with O => zero F | S n => add F (sum n f) (f n) end.
  Fixpoint product (l : list K) : K := match l with [] => one F | x :: l => mul F x (product l) end.
  Fixpoint total (l : list K) : K := match l with [] => zero F | x :: l => add F x (total l) end.

  (** All arrangements of a list. *)
  Fixpoint insertions {A} (x : A) (l : list A) : list (list A) :=
    match l with [] => [[x]] | y :: r => (x :: y :: r) :: map (cons y) (insertions x r) end.
  Fixpoint arrangements {A} (l : list A) : list (list A) :=
    match l with [] => [[]] | x :: r => flat_map (insertions x) (arrangements r) end.
  (** The number of pairs that are out of order. *)
  Fixpoint inversions (l : list nat) : nat :=
    match l with [] => 0 | x :: r => length (filter (fun y => y <? x) r) + inversions r end.
  (** The sum, over all arrangements p of 0..n-1, of sign(p) * m(0, p 0) * ... * m(n-1, p (n-1)). *)
  Definition leibniz (n : nat) (e : nat -> nat -> K) : K :=
    total (map (fun p => let t := product (map (fun i => e i (nth i p 0)) (seq 0 n)) in
                         if Nat.even (inversions p) then t else neg F t) (arrangements (seq 0 n))).
End MatSpec.

(** Exact scalars: a commutative ring, and a field. *)
Definition exact_ring {K} (F : ops K) : Prop := ring_theory (zero F) (one F) (add F) (mul F) (sub F) (neg F) eq.
Definition exact_field {K} (F : ops K) : Prop := field_theory (zero F) (one F) (add F) (mul F) (sub F) (neg F) (div F) (fun x => div F (one F) x) eq.
