(** What fixed strings should do, in terms of lists of characters. *)
From Verif Require Import Words FstrModel.
Local Open Scope nat_scope.

(** [s] is the string [l], followed by its terminator. *)
Definition holds (s : fstr) (l : list Z) : Prop := f_len s = length l /\ f_chars s = l ++ [0%Z].

(** [l] cut to [n] characters or filled up with zeros. *)
Definition fit (n : nat) (l : list Z) : list Z := firstn n l ++ repeat 0%Z (n - length l).

(** An index in Python's sense: negative ones count from the end, and everything is limited to the string. *)
Definition py_index (n : nat) (i : Z) : nat :=
  Z.to_nat (Z.max 0 (Z.min (Z.of_nat n) (if (i <? 0)%Z then i + Z.of_nat n else i)))%Z.
Definition py_slice {A} (l : list A) (i j : Z) : list A :=
  firstn (py_index (length l) j - py_index (length l) i) (skipn (py_index (length l) i) l).
