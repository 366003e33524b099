(** Model of include/muu/for_sequence.h (for_sequence, for_product), the literal operators of integer_literals.h and size_t_literals.h, and
    file_name_tail() of source_location.h. *)
From Coq Require Import ZArith List.
From Verif Require Import Words.
Import ListNotations.
Local Open Scope Z_scope.

(* ------------------------------------------------------------------ calls *)

(** What a call leaves behind: it returns, throws the exception [e], or ends the program because it throws though it promised not to. [S] is
    everything the calls can see and change, including the callable's own members. *)
Inductive outcome (S : Type) :=
| Returned (s : S)
| Threw (e : N) (s : S)
| Terminated (s : S).
Arguments Returned {S}. Arguments Threw {S}. Arguments Terminated {S}.

(** A callable with arguments of type [A] (one integral constant or two). It may behave differently as an lvalue ([true]) and as an rvalue,
    and have another overload, with another exception specification, for every constant. *)
Record callable (A S : Type) := { c_body : bool -> A -> S -> S * option N; c_noexcept : bool -> A -> bool }.
Arguments c_body {A S}. Arguments c_noexcept {A S}.

(** A function with the exception specification [b]. *)
Definition specified {S} (b : bool) (o : outcome S) : outcome S := match o with Threw _ s => if b then Terminated s else o | _ => o end.
Definition call {A S} (f : callable A S) (l : bool) (a : A) (s : S) : outcome S :=
  specified (c_noexcept f l a) (match c_body f l a s with (s', None) => Returned s' | (s', Some e) => Threw e s' end).
Definition and_then {S} (o : outcome S) (k : S -> outcome S) : outcome S := match o with Returned s => k s | _ => o end.

(** [std::make_integer_sequence<T, N>]. It does not exist for a negative [N]. *)
Definition make_sequence (n : Z) : option (list Z) := if n <? 0 then None else Some (map Z.of_nat (seq 0 (Z.to_nat n))).
(** A fold over the comma operator. *)
Fixpoint comma_fold {A S} (g : A -> S -> outcome S) (pack : list A) (s : S) : outcome S :=
  match pack with
  | [] => Returned s
  | a :: r => and_then (g a s) (comma_fold g r)
  end.

(** for_sequence.h:20-22. *)
Definition for_sequence_impl_noexcept {S} (f : callable Z S) (l : bool) (pack : list Z) : bool :=
  (Nat.eqb (length pack) 0) || forallb (fun i => c_noexcept f l i) pack.
(** for_sequence.h:24-45: both templates. *)
Definition for_sequence_impl {S} (f : callable Z S) (l : bool) (pack : list Z) (s : S) : outcome S :=
  specified (for_sequence_impl_noexcept f l pack) (comma_fold (fun i => call f l i) pack s).
(** for_sequence.h:47-49: the exception specification; [None] if it does not compile. *)
Definition for_sequence_noexcept {S} (n : Z) (f : callable Z S) (l : bool) : option bool :=
  option_map (for_sequence_impl_noexcept f l) (make_sequence n).
(** for_sequence.h:73-84. [None]: does not compile. *)
Definition for_sequence {S} (n : Z) (f : callable Z S) (l : bool) (s : S) : option (outcome S) :=
  match for_sequence_noexcept n f l with
  | None => None
  | Some b =>
      if n <? 0 then None
      else if 0 <? n then
        match make_sequence n with
        | Some pack => Some (specified b (for_sequence_impl f l pack s))
        | None => None
        end
      else Some (Returned s)
  end.

(** for_sequence.h:90-116. The lambdas run over the second pack inside the first and keep the conjunction. *)
Definition for_product_impl_noexcept {S} (f : callable (Z * Z) S) (l : bool) (p1 p2 : list Z) : bool :=
  if (Nat.eqb (length p1) 0) || (Nat.eqb (length p2) 0) then true
  else fold_left (fun v i => fold_left (fun v j => c_noexcept f l (i, j) && v) p2 v) p1 true.
(** for_sequence.h:118-136. *)
Definition for_product_impl {S} (f : callable (Z * Z) S) (l : bool) (p1 p2 : list Z) (s : S) : outcome S :=
  specified (for_product_impl_noexcept f l p1 p2) (comma_fold (fun i => comma_fold (fun j => call f l (i, j)) p2) p1 s).
(** for_sequence.h:138-142. *)
Definition for_product_noexcept {S} (n1 n2 : Z) (f : callable (Z * Z) S) (l : bool) : option bool :=
  match make_sequence n1, make_sequence n2 with
  | Some p1, Some p2 => Some (for_product_impl_noexcept f l p1 p2)
  | _, _ => None
  end.
(** for_sequence.h:173-188. *)
Definition for_product {S} (n1 n2 : Z) (f : callable (Z * Z) S) (l : bool) (s : S) : option (outcome S) :=
  match for_product_noexcept n1 n2 f l with
  | None => None
  | Some b =>
      if (n1 <? 0) || (n2 <? 0) then None
      else if (0 <? n1) && (0 <? n2) then
        match make_sequence n1, make_sequence n2 with
        | Some p1, Some p2 => Some (specified b (for_product_impl f l p1 p2 s))
        | _, _ => None
        end
      else Some (Returned s)
  end.

(* ------------------------------------------------------------------ literals *)

(** [static_cast] of an [unsigned long long] to an integer type of [w] bits. *)
Definition to_unsigned (w : Z) (n : Z) : Z := n mod 2 ^ w.
Definition to_signed (w : Z) (n : Z) : Z := let m := n mod 2 ^ w in if m <? 2 ^ (w - 1) then m else m - 2 ^ w.
(** integer_literals.h:19-130: [_u8], ..., [_i128]. *)
Definition int_literal (sign : bool) (w : Z) (n : Z) : Z := if sign then to_signed w n else to_unsigned w n.
(** size_t_literals.h:18-71; [w] is the width of [size_t]; the products are of [unsigned long long]. *)
Definition ull_mul (a b : Z) : Z := (a * b) mod 2 ^ 64.
Definition lit_sz (w n : Z) : Z := to_unsigned w n.
Definition lit_b (w n : Z) : Z := to_unsigned w n.
Definition lit_kb (w n : Z) : Z := to_unsigned w (ull_mul n 1024).
Definition lit_mb (w n : Z) : Z := to_unsigned w (ull_mul (ull_mul n 1024) 1024).
Definition lit_gb (w n : Z) : Z := to_unsigned w (ull_mul (ull_mul (ull_mul n 1024) 1024) 1024).

(* ------------------------------------------------------------------ source_location *)

(** source_location.h:25-39, the loop: [i] counts down and stops at the first slash it meets. A path is the characters before the terminator. *)
Definition is_slash (c : N) : bool := N.eqb c 92 || N.eqb c 47.
Fixpoint find_slash (path : list N) (i : nat) : option nat :=
  match i with
  | O => None
  | S k => if is_slash (nth k path 0%N) then Some k else find_slash path k
  end.
(** The offset of the result into the path. *)
Definition file_name_tail (path : list N) : nat := match find_slash path (length path) with Some k => S k | None => O end.
