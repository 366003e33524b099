(** What an accumulator should know about the samples it was given. *)
From Verif Require Import Words CoreModel AccumModel.
Local Open Scope Z_scope.

Definition total (xs : list Z) : Z := fold_right Z.add 0 xs.
Definition least (m : Z) (xs : list Z) : Prop := In m xs /\ forall x, In x xs -> m <= x.
Definition greatest (m : Z) (xs : list Z) : Prop := In m xs /\ forall x, In x xs -> x <= m.

(** Every sum of the first few samples fits the signed sum type. *)
Definition sums_fit (t : ity) (xs : list Z) : Prop := forall k, in_ity t (total (firstn k xs)).

(** The accumulator describes these samples; an unsigned sum is known modulo the sum type. *)
Definition describes (t : ity) (a : accum) (xs : list Z) : Prop :=
  a_count a = Z.of_nat (length xs) /\ (xs <> [] -> least (a_min a) xs /\ greatest (a_max a) xs) /\
  (if isigned t then a_sum a = total xs else a_sum a = total xs mod 2 ^ ibits t).
