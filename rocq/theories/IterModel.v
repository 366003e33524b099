(** Model of iterators.h and of [thread_pool::for_each] for iterators and collections. *)
From Verif Require Import Words CoreModel BatchModel.
Local Open Scope Z_scope.

(** Object types as far as arrays go: the size of anything else is given. *)
Inductive cxx := Other (size : Z) | Array (n : nat) (t : cxx).
Fixpoint sizeof (t : cxx) : Z := match t with Other s => s | Array n t => Z.of_nat n * sizeof t end.
(** iterators.h:38-56, first branch: a pointer to the first element of the array at [a] *)
Definition array_begin (a : Z) : Z := a.
(** iterators.h:75-93, first branch; adding [k] to a pointer adds [k] times the size of an element. *)
Definition array_end (a : Z) (t : cxx) : option Z :=
  match t with Other _ => None | Array n el => Some (a + sizeof (Array n el) / sizeof el * sizeof el) end.

(** What an iterator type offers: [<=], [<], a difference that is an integer, the tag of random access. *)
Record features := { f_le : bool; f_lt : bool; f_minus : bool; f_random : bool }.
(** Iterators into a sequence of [r_len] elements, the first at [r_base], [r_stride] apart. For iterators that are not pointers the
    numbers are places in an imagined row. *)
Record range := { r_base : Z; r_stride : Z; r_len : nat }.
Definition past_end (r : range) : Z := r_base r + r_stride r * Z.of_nat (r_len r).
(** std::distance without random access: counting steps; [None]: a step from the end. *)
Fixpoint steps (r : range) (fuel : nat) (b e : Z) : option Z :=
  if b =? e then Some 0 else match fuel with O => None | S fuel => match steps r fuel (b + r_stride r) e with Some n => Some (n + 1) | None => None end end.
Definition std_distance (f : features) (r : range) (b e : Z) : option Z :=
  if f_random f then Some ((e - b) / r_stride r) else steps r (Z.to_nat ((past_end r - b) / r_stride r)) b e.
(** iterators.h:98-115 *)
Definition iterator_distance (f : features) (r : range) (b e : Z) : option Z :=
  if f_minus f then Some ((e - b) / r_stride r) else std_distance f r b e.
(** thread_pool.h:1157-1183: the batches, counted from [b]; [None]: undefined behaviour *)
Definition for_each_iterators (sw workers : Z) (f : features) (r : range) (b e : Z) : option (list (Z * Z * Z)) :=
  if (if f_le f then e <=? b else (f_lt f && (e <? b)) || (b =? e)) then Some []
  else match iterator_distance f r b e with None => None | Some n => if n <=? 0 then Some [] else for_each_it sw workers n end.
(** thread_pool.h:1040-1053, 1085-1111: the elements a batch passes to the task *)
Definition run_elements (r : range) (b : Z) (batch : Z * Z * Z) : option (list Z) :=
  match run_batch_it batch with None => None | Some l => Some (map (fun i => b + r_stride r * i) l) end.
(** thread_pool.h:1216-1248 for arrays: pointers compare and subtract *)
Definition pointer_features : features := {| f_le := true; f_lt := true; f_minus := true; f_random := true |}.
Definition for_each_array (sw workers : Z) (a : Z) (n : nat) (t : cxx) : option (list (Z * Z * Z)) :=
  match array_end a (Array n t) with None => None | Some e => for_each_iterators sw workers pointer_features {| r_base := a; r_stride := sizeof t; r_len := n |} (array_begin a) e end.
