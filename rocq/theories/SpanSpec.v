(** What spans and static arrays should do, in terms of lists. *)
From Verif Require Import Words SpanModel.

(** The span denotes this sublist of the array. *)
Definition views {A} (mem : list A) (s : span) (l : list A) : Prop :=
  s_size s = N.of_nat (length l) /\
  match s_ptr s with
  | None => l = []
  | Some (_, k) => exists a b, mem = a ++ l ++ b /\ k = Z.of_nat (length a)
  end /\
  match s_static s with None => True | Some e => e = s_size s end.

(** Lexicographic order. *)
Inductive lex {A} (lt : A -> A -> Prop) : list A -> list A -> Prop :=
| lex_nil y b : lex lt [] (y :: b)
| lex_head x y a b : lt x y -> lex lt (x :: a) (y :: b)
| lex_tail x a b : lex lt a b -> lex lt (x :: a) (x :: b).
