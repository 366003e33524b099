(** What arithmetic on vectors of integers has to give, said with the integers of mathematics. *)
From Coq Require Import ZArith List.
From Verif Require Import CoreModel.
Import ListNotations.
Local Open Scope Z_scope.

(** The values of a type of [ibits t] bits, two's complement when signed. *)
Definition holds (t : ity) (x : Z) : Prop :=
  if isigned t then - 2 ^ (ibits t - 1) <= x < 2 ^ (ibits t - 1) else 0 <= x < 2 ^ ibits t.
(** The types there are. *)
Definition a_type (t : ity) : Prop := ibits t = 8 \/ ibits t = 16 \/ ibits t = 32 \/ ibits t = 64 \/ ibits t = 128.
(** [x] is the value of type [t] that agrees with [r] modulo 2 to the width. *)
Definition wrapped (t : ity) (r x : Z) : Prop := holds t x /\ exists k, x = r + k * 2 ^ ibits t.
(** C++ gives a meaning to an operation of [+ - * /] on two values of type [t] whose exact result is [r]: types narrower than
    int are computed in int; signed types must not overflow; unsigned ones wrap. *)
Definition computable (t : ity) (r : Z) : Prop :=
  if ibits t <? 32 then - 2 ^ 31 <= r < 2 ^ 31 else if isigned t then holds t r else True.

Definition is_vector (t : ity) (n : nat) (v : list Z) : Prop := List.length v = n /\ Forall (holds t) v.
Definition component (v : list Z) (i : nat) : Z := nth i v 0.

Definition total (l : list Z) : Z := fold_right Z.add 0 l.
Definition factors (l : list Z) : Z := fold_right Z.mul 1 l.
Fixpoint inner (v w : list Z) : Z :=
  match v, w with
  | x :: v', y :: w' => x * y + inner v' w'
  | _, _ => 0
  end.
