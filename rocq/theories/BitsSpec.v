(** Independent specifications for the bit utilities (no muu code here). *)
From Verif Require Import Words.

(** [k] leading bits of the [w]-bit word [x] have value [b], and no more than [k]. *)
Definition leading (b : bool) (w x k : N) : Prop :=
  k <= w /\
  (forall i, w - k <= i -> i < w -> N.testbit x i = b) /\
  (k < w -> N.testbit x (w - 1 - k) = negb b).

(** [k] trailing bits of the [w]-bit word [x] have value [b], and no more than [k]. *)
Definition trailing (b : bool) (w x k : N) : Prop :=
  k <= w /\
  (forall i, i < k -> N.testbit x i = b) /\
  (k < w -> N.testbit x k = negb b).

(** Number of set bits among bits [0 .. n-1]. *)
Fixpoint count_bits (n : nat) (x : N) : N :=
  match n with
  | O => 0
  | S m => (if N.testbit x (N.of_nat m) then 1 else 0) + count_bits m x
  end.

Definition power_of_two (p : N) : Prop := exists k, p = 2 ^ k.

(** Most significant argument first: the value of the concatenation of the arguments. *)
Fixpoint concat_value (args : list (N * N)) : N :=
  match args with
  | [] => 0
  | (_, v) :: rest => v * 2 ^ fold_right (fun a s => fst a + s) 0 rest + concat_value rest
  end.

Definition args_ok (args : list (N * N)) : Prop := Forall (fun a => snd a < 2 ^ fst a) args.
