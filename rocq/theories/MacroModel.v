(** Model of [MUU_FOR_EACH] and [MUU_COUNT_VA_ARGS] (include/muu/impl/preprocessor_for_each.h).
    The arguments of a macro are a list; a call without arguments has one empty argument. Commas hidden in arguments, the limits of compilers
    and the old preprocessor of MSVC are not modelled. *)
From Coq Require Import List Arith.
Import ListNotations.
Local Open Scope nat_scope.

Section Tokens.
  Context {A : Type}.
  (** The arguments of the user, and what the macros add: the numbers, and the names of the macros [MUU_FOR_EACH_IMPL_n]. *)
  Inductive token := Arg (a : A) | Number (n : nat).
  (** C++ [cpp.replace]: [F()] is a call with one argument, of no tokens ([empty]). *)
  Definition arguments (empty : A) (l : list A) : list A := match l with [] => [empty] | _ => l end.
  (** 124, 123, ..., 0 (preprocessor_for_each.h:152-177, 201-206) *)
  Definition countdown : list token := map Number (rev (seq 0 125)).
  (** preprocessor_for_each.h:142-149, [MUU_FOR_EACH_IMPL_SELECT]: what follows the first 125 arguments *)
  Definition select (l : list token) : option token := nth_error l 125.
  (** preprocessor_for_each.h:190-197, [MUU_COUNT_VA_ARGS_IMPL]: what follows the first 124 arguments *)
  Definition count_impl (l : list token) : option token := nth_error l 124.
  (** preprocessor_for_each.h:199-206 *)
  Definition count_va_args (empty : A) (l : list A) : option token := count_impl (map Arg (arguments empty l) ++ countdown).
  (** preprocessor_for_each.h:14-138, [MUU_FOR_EACH_IMPL_n]: the first takes one argument only, the others split off the first one; [None] if the
      number of arguments is wrong. The result is the list of the arguments that [fn] is called with. *)
  Fixpoint for_each_impl (n : nat) (l : list A) : option (list A) :=
    match n, l with
    | 0, [x] => Some [x]
    | S n, x :: r => match for_each_impl n r with Some t => Some (x :: t) | None => None end
    | _, _ => None
    end.
  (** preprocessor_for_each.h:151-177; [None] if what is selected is an argument of the user, which is then no macro of the library *)
  Definition for_each (empty : A) (l : list A) : option (list A) :=
    match select (map Arg (arguments empty l) ++ countdown) with Some (Number n) => for_each_impl n (arguments empty l) | _ => None end.
End Tokens.
