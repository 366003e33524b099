(** What the users of a [thread_pool_monitor] may rely on, said of the calls alone. *)
From Coq Require Import List ZArith.
From Verif Require Import MonModel.
Import ListNotations.

(** What has been added less what has been taken away, by the calls started. *)
Fixpoint balance (l : list action) : Z :=
  match l with
  | [] => 0
  | CallIncrement _ k :: l => Z.of_nat k + balance l
  | CallDecrement _ k :: l => - Z.of_nat k + balance l
  | _ :: l => balance l
  end%Z.
(** Steps of running calls alone: no call starts, nobody wakes up for no reason. *)
Definition steps_only (l : list action) : Prop := forall a, In a l -> exists i, a = Step i.
