(** Shared vocabulary for machine words: unsigned integers are [N], a [w]-bit
    object holds a value below [2^w], and C++ arithmetic on it is reduced
    with [trunc w].  No code of muu is modelled in this file. *)
From Coq Require Export NArith ZArith List Bool Lia.
Export ListNotations.
Open Scope N_scope.

Definition trunc (w x : N) : N := x mod 2 ^ w.

(** The width in which the built-in operators compute on an unsigned [w]-bit
    operand: integral promotion to (at least) the 32-bit [int]. *)
Definition promoted (w : N) : N := N.max 32 w.

(** [lhs << k] / [lhs >> k] computed in a [pw]-bit type: undefined as soon as the
    shift count reaches the width of the (promoted) left operand
    ([expr.shift]/1). *)
Definition shl_checked (pw x k : N) : option N :=
  if k <? pw then Some (trunc pw (N.shiftl x k)) else None.
Definition shr_checked (pw x k : N) : option N :=
  if k <? pw then Some (N.shiftr x k) else None.

Definition option_bind {A B : Type} (o : option A) (f : A -> option B) : option B :=
  match o with Some a => f a | None => None end.
Notation "x <- e ;; f" := (option_bind e (fun x => f))
  (at level 61, e at next level, right associativity).

(** Little-endian byte string of the [n] low bytes of [x] (specification device). *)
Fixpoint le_bytes (n : nat) (x : N) : list N :=
  match n with
  | O => []
  | S m => (x mod 256) :: le_bytes m (x / 256)
  end.

Fixpoint of_le_bytes (l : list N) : N :=
  match l with
  | [] => 0
  | b :: r => b + 256 * of_le_bytes r
  end.

(** The five widths of unsigned integer muu supports. *)
Definition std_width (w : N) : Prop := w = 8 \/ w = 16 \/ w = 32 \/ w = 64 \/ w = 128.
