(** What may happen to tasks and their objects, told from the events alone. *)
From Coq Require Import ZArith List Bool Arith.
From Verif Require Import TaskModel.
Import ListNotations.
Local Open Scope nat_scope.

(** Which objects are alive, and which task each of them is; what is known of each task. *)
Record ledger := { live : nat -> option nat; known : nat -> option (cty * bool) }.
Definition nothing : ledger := {| live := fun _ => None; known := fun _ => None |}.
Definition put {A : Type} (f : nat -> A) (n : nat) (x : A) : nat -> A := fun m => if m =? n then x else f m.
Definition note (g : ledger) (e : event) : ledger :=
  match e with
  | Enqueued who c r => {| live := live g; known := put (known g) who (Some (c, r)) |}
  | Built o who => {| live := put (live g) o (Some who); known := known g |}
  | Moved o o' => {| live := put (live g) o' (live g o); known := known g |}
  | Destroyed o => {| live := put (live g) o None; known := known g |}
  | Invoked _ _ _ _ | Discarded _ => g
  end.
Definition after (l : list event) : ledger := fold_left note l nothing.
(** An object is made where there is none, moved from or destroyed only while alive, and a call goes to an object that is this task and
    alive, to a function, to a new object of an empty class, or to the object of the caller if that was not a temporary; it gets the
    number of the worker that makes it exactly if it takes one. *)
Definition allowed (workers : nat) (g : ledger) (e : event) : Prop :=
  match e with
  | Enqueued who _ _ => known g who = None
  | Built o who => live g o = None /\ known g who <> None
  | Moved o o' => live g o <> None /\ live g o' = None
  | Destroyed o => live g o <> None
  | Invoked who w i s => w < workers /\ exists c r, known g who = Some (c, r) /\
      i = (if c_index c then Some w else None) /\
      match s with
      | Object o => live g o = Some who
      | Caller => r = false
      | Fresh => c_empty c = true
      | Static => c_shape c <> Class \/ c_stateless_lambda c = true
      end
  | Discarded who => known g who <> None
  end.
Definition sound (workers : nat) (l : list event) : Prop := forall a e b, l = a ++ e :: b -> allowed workers (after a) e.
(** How often a task was called, or thrown away by the destructor of the pool. *)
Definition calls (who : nat) (l : list event) : nat := length (filter (fun e => match e with Invoked w _ _ _ => w =? who | _ => false end) l).
Definition discards (who : nat) (l : list event) : nat := length (filter (fun e => match e with Discarded w => w =? who | _ => false end) l).
