(** The character predicates of the code unit types (include/muu/impl/unicode_char32_t.h, unicode_char16_t.h, unicode_char8_t.h).

    They are generated C++ functions of a few kinds of statements; this file gives those statements and their meaning, UniTables.v
    holds the functions themselves, translated one by one. [None] is undefined behaviour: a shift by the width or more, a table
    index out of range, MUU_ASSUME of something false, or reaching MUU_UNREACHABLE. *)
From Verif Require Import Words.
Local Open Scope N_scope.

(** Conditions on the code unit [c]. [w] is the width of the type that the code unit is cast to. *)
Inductive cond :=
| Yes | No
| Lt (n : N) | Le (n : N) | Gt (n : N) | Ge (n : N) | Eq (n : N)   (* c < n, c <= n, ... *)
| BlockIs (w k d n : N)          (* (static_cast<uintw>(c) - k) / d == n, also as a case label of a switch *)
| BlockIn (w k d mask : N)       (* (1 << ((static_cast<uintw>(c) - k) / d)) & mask *)
| MaskIs (m n : N)               (* (c & m) == n *)
| RemIs (w a m n : N)            (* (static_cast<uintw>(c) + a) % m == n *)
| TableBit (k k2 : N) (l : list N) (* table[(static_cast<uint64>(c) - k) / 64] & (1 << ((static_cast<uint64>(c) - k2) % 64)) *)
| Not (a : cond) | And (a b : cond) | Or (a b : cond).

Inductive stmt :=
| Return (c : cond)
| If (c : cond) (s t : stmt)     (* if (c) s; t -- where s always returns; a switch is a chain of these *)
| Assume (c : cond) (s : stmt)   (* MUU_ASSUME(c); s *)
| Unreachable                    (* MUU_UNREACHABLE *)
| Call (f s t : stmt).           (* call another predicate; go on with s if it holds and with t if not *)

(** Unsigned subtraction wraps round; division by zero is undefined. *)
Definition block (w k d c : N) : option N := if d =? 0 then None else Some (((c + 2 ^ w - k) mod 2 ^ w) / d).
Fixpoint word_at (l : list N) (i : N) : option N :=
  match l with [] => None | x :: r => if i =? 0 then Some x else word_at r (i - 1) end.
(** x & (1 << b), as a truth value. *)
Definition has_bit (w x b : N) : option bool := if b <? w then Some (negb (N.land x (N.shiftl 1 b) =? 0)) else None.

Fixpoint test (e : cond) (c : N) : option bool :=
  match e with
  | Yes => Some true
  | No => Some false
  | Lt n => Some (c <? n)
  | Le n => Some (c <=? n)
  | Gt n => Some (n <? c)
  | Ge n => Some (n <=? c)
  | Eq n => Some (c =? n)
  | BlockIs w k d n => i <- block w k d c ;; Some (i =? n)
  | BlockIn w k d mask => i <- block w k d c ;; has_bit w mask i
  | MaskIs m n => Some (N.land c m =? n)
  | RemIs w a m n => if m =? 0 then None else Some (((c + a) mod 2 ^ w) mod m =? n)
  | TableBit k k2 l => i <- block 64 k 64 c ;; x <- word_at l i ;; j <- block 64 k2 1 c ;; has_bit 64 x (j mod 64)
  | Not a => x <- test a c ;; Some (negb x)
  | And a b => match test a c with Some true => test b c | r => r end
  | Or a b => match test a c with Some false => test b c | r => r end
  end.

Fixpoint run (s : stmt) (c : N) : option bool :=
  match s with
  | Return e => test e c
  | If e s t => match test e c with Some true => run s c | Some false => run t c | None => None end
  | Assume e s => match test e c with Some true => run s c | _ => None end
  | Unreachable => None
  | Call f s t => match run f c with Some true => run s c | Some false => run t c | None => None end
  end.
