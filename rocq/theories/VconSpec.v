(** What building a vector has to do, said of the components alone. *)
From Coq Require Import List Arith.

(** [r] has [n] components: first those of [l], in order, then zeros. *)
Definition starts_with {S} (zero : S) (n : nat) (l r : list S) : Prop :=
  List.length l <= n /\ List.length r = n /\
  forall i, i < n -> nth_error r i = match nth_error l i with Some x => Some x | None => Some zero end.

(** [r] has [n] components, all equal to [x]. *)
Definition all_equal_to {S} (n : nat) (x : S) (r : list S) : Prop :=
  List.length r = n /\ forall y, In y r -> y = x.
