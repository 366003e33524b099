(** Model of how [thread_pool::for_each] wraps a task for its batches: the wrapper's storage, its size, and the arguments of the calls. *)
From Coq Require Import List Bool Arith.
From Verif Require Import TaskModel.
Import ListNotations.
Local Open Scope nat_scope.

(** thread_pool.h:206-237 with the penalty of line 659: three pointers *)
Definition penalty : nat := 24.
Definition store_ok_with (pen : nat) (c : cty) (r : bool) : bool :=
  match c_shape c with
  | Class => (c_size c + pen <=? buffer_capacity) && (c_align c <=? alignment) && c_nothrow_destructible c &&
      (c_trivially_copyable c || ((c_from c r || (c_default c && c_set c r)) && (c_from c true || c_from c false || (c_default c && (c_set c true || c_set c false)))))
  | _ => false
  end.
(** thread_pool.h:396-485, 644-728: how the wrapper keeps the task *)
Definition wrap (c : cty) (r : bool) : option kind :=
  if manifestable c then Some KFresh
  else match c_shape c with
  | Function | FunctionPointer => Some KFunction
  | Class => if store_ok_with penalty c r then (if store_ok c true then Some KStored else None)
             else if c_stateless_lambda c then Some KFunction
             else if r then None else Some KCaller
  end.
(** thread_pool.h:644-698: the bytes of the wrapper; an empty one has one byte *)
Definition wrapper_size (k : kind) (c : cty) : nat := match k with KFresh => 1 | KFunction | KCaller => 8 | KStored => c_size c end.
Definition round_up8 (n : nat) : nat := (n + 7) / 8 * 8.
(** thread_pool.h:855-867, 1044-1056: the closure that is enqueued for a batch holds two iterators of [it] bytes, the number of the batch if it
    is used, and the wrapper. Alignments up to eight only; the order of the members makes no difference then. *)
Definition closure_size (it : nat) (index : bool) (k : kind) (c : cty) : nat := round_up8 (2 * it) + (if index then 8 else 0) + round_up8 (wrapper_size k c).
(** What a task can be called with, without exceptions: an element and a number, an element, nothing. *)
Record accepts := { a_two : bool; a_one : bool; a_none : bool }.
(** thread_pool.h:908-912, 1066-1071: the static_assert *)
Definition accepted (a : accepts) : bool := a_two a || a_one a || a_none a.
(** thread_pool.h:945-946, and 1086-1089, where the second test repeats the first *)
Definition arity_range (a : accepts) : nat := if a_two a then 2 else if a_one a then 1 else 0.
Definition arity_iterators (a : accepts) : nat := if a_two a then 2 else if a_two a then 1 else 0.
(** The arguments of a call: the element, the number of the batch *)
Inductive arguments := Two (x i : nat) | One (x : nat) | Zero.
(** thread_pool.h:172-192, 316-334, 374-391: [invoke] with one argument; [None] if nothing fits *)
Definition invoke_with (a : accepts) (i x : nat) : option arguments := if a_two a then Some (Two x i) else if a_one a then Some (One x) else if a_none a then Some Zero else None.
(** thread_pool.h:658-670, 684-697, 860-863, 1049-1052 *)
Definition call_batch (a : accepts) (arity i x : nat) : option arguments := if arity =? 2 then invoke_with a i x else invoke_with a 0 x.
(** Whether the call compiles: a task that is accepted, a copy for every batch but the last one if it is a temporary (699-728; [copyable]: it can be
    copied), a wrapper, and a closure that fits (it is a temporary itself, so it must be stored). Iterators that throw when copied are not modelled. *)
Definition for_each_compiles (it : nat) (a : accepts) (arity : nat) (c : cty) (copyable r : bool) : bool :=
  accepted a && (manifestable c || negb r || copyable) && match wrap c r with None => false | Some k => closure_size it (arity =? 2) k c <=? buffer_capacity end.
