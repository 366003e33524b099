(** Model of fixed_string.h. *)
From Verif Require Import Words CoreModel.
From Verif Require EarrModel.
Local Open Scope nat_scope.
Notation upd := EarrModel.upd.

(** fixed_string.h:46-98: the template parameter [Length] and the array [_chars_] of [Length + 1] characters. *)
Record fstr : Type := { f_len : nat; f_chars : list Z }.

(** Zero-initialised array. *)
Definition f_zero (L : nat) : fstr := {| f_len := L; f_chars := repeat 0%Z (L + 1) |}.

Fixpoint mapM {A B} (f : A -> option B) (l : list A) : option (list B) :=
  match l with [] => Some [] | a :: r => x <- f a ;; rest <- mapM f r ;; Some (x :: rest) end.

(** fixed_string.h:106-112: the braced initialiser [{ arr[Indices]... }]; the remaining elements are zero.
    [at_] is the element access of [Array]. *)
Definition f_indices (L n : nat) (at_ : nat -> option Z) : option fstr :=
  if n <=? L then l <- mapM at_ (seq 0 n) ;; Some {| f_len := L; f_chars := l ++ repeat 0%Z (L + 1 - n) |}
  else None.

(** fixed_string.h:281-297 [operator[]]: assumes [idx < Length]. *)
Definition f_get (s : fstr) (i : nat) : option Z := if i <? f_len s then nth_error (f_chars s) i else None.
Definition f_set (s : fstr) (i : nat) (c : Z) : option fstr :=
  if i <? f_len s then Some {| f_len := f_len s; f_chars := upd (f_chars s) i c |} else None.

(** fixed_string.h:145-157: from an array of [N] characters. *)
Definition f_from_array (L : nat) (arr : list Z) : option fstr :=
  if (length arr =? 0) || (L =? 0) then Some (f_zero L)
  else f_indices L (Nat.min L (length arr)) (nth_error arr).
(** fixed_string.h:122-128, 159-173: from a string view. *)
Definition f_from_view (L : nat) (str : list Z) : option fstr :=
  if L =? 0 then Some (f_zero L)
  else f_indices L L (fun i => if i <? length str then nth_error str i else Some 0%Z).
(** fixed_string.h:175-189: from a string of another length. *)
Definition f_from_fstr (L : nat) (str : fstr) : option fstr :=
  if f_len str =? L then Some str                                      (* copy constructor, 137 *)
  else if (f_len str =? 0) || (L =? 0) then Some (f_zero L)
  else f_indices L (Nat.min L (f_len str)) (f_get str).
(** fixed_string.h:114-120, 191-195: one character repeated. *)
Definition f_fill (L : nat) (c : Z) : option fstr := f_indices L L (fun _ => Some c).
(** fixed_string.h:197-211: from a pointer and a length; [str] is the memory at the pointer. *)
Definition f_from_ptr (L : nat) (str : list Z) (n : nat) : option fstr :=
  if (n =? 0) || (L =? 0) then Some (f_zero L) else f_indices L (Nat.min L n) (nth_error str).

(** fixed_string.h:343-367. *)
Definition f_empty (s : fstr) : bool := f_len s =? 0.
Definition f_size (s : fstr) : nat := f_len s.
(** fixed_string.h:215-277. *)
Definition f_front (s : fstr) : option Z := if f_len s =? 0 then None else nth_error (f_chars s) 0.
Definition f_back (s : fstr) : option Z := if f_len s =? 0 then None else nth_error (f_chars s) (f_len s - 1).
(** fixed_string.h:594-605: [view()]: pointer and length. *)
Definition f_view (s : fstr) : list Z := firstn (f_len s) (f_chars s).
(** [c_str()] read up to the first null character, as C functions do. *)
Fixpoint cstr (l : list Z) : option (list Z) :=
  match l with [] => None | c :: r => if (c =? 0)%Z then Some [] else t <- cstr r ;; Some (c :: t) end.

(** fixed_string.h:540-560: the loop [for (i = 0; i < Len; i++) result[Length + i] = rhs[i]]. *)
Fixpoint f_write (res rhs : fstr) (off i n : nat) : option fstr :=
  match n with
  | O => Some res
  | S n' => c <- f_get rhs i ;; res' <- f_set res (off + i) c ;; f_write res' rhs off (i + 1) n'
  end.
Definition f_concat (lhs rhs : fstr) : option fstr :=
  let La := f_len lhs in let Lb := f_len rhs in
  if (La =? 0) && (Lb =? 0) then Some (f_zero 0)
  else if Lb =? 0 then Some lhs
  else if La =? 0 then Some rhs
  else res <- f_from_fstr (La + Lb) lhs ;; f_write res rhs La 0 Lb.
(** fixed_string.h:562-570. *)
Definition f_snoc (lhs : fstr) (c : Z) : option fstr :=
  res <- f_from_fstr (f_len lhs + 1) lhs ;; f_set res (f_len lhs) c.
(** fixed_string.h:572-585: [result[i + 1] = rhs[i]]. *)
Definition f_cons (c : Z) (rhs : fstr) : option fstr :=
  res <- f_fill (f_len rhs + 1) c ;; f_write res rhs 1 0 (f_len rhs).

(** fixed_string.h:617-640 [clamp_index]: [T] is the type of the index, [sw] the width of [size_t]. For types narrower
    than [int], [-idx] is computed in [int], which cannot overflow; for others it can only overflow at the lowest value. *)
Definition f_clamp (sw : Z) (T : ity) (L : nat) (idx : Z) : nat :=
  if L =? 0 then 0
  else
    let U := {| isigned := false; ibits := sw |} in
    if isigned T && (idx <? 0)%Z then
      if (idx =? ity_min T)%Z then 0
      else let a := conv U (- idx) in if (Z.of_nat L <=? a)%Z then 0 else L - Z.to_nat a
    else Z.to_nat (clamp Z.ltb (conv U idx) 0%Z (Z.of_nat L)).

(** fixed_string.h:645-661 [substr_impl]. *)
Definition f_substr_impl (s : fstr) (start len : nat) : option fstr :=
  let L := f_len s in
  if (L =? 0) || (len =? 0) || (L <=? start) then Some (f_zero 0)
  else
    let stop := Nat.min (start + Nat.min L len) L in
    let n := stop - start in
    if n =? 0 then Some (f_zero 0)
    else if start =? 0 then f_from_fstr n s
    else f_from_ptr n (skipn start (f_chars s)) n.
(** fixed_string.h:663-671 [slice_impl]. *)
Definition f_slice_impl (s : fstr) (start stop : nat) : option fstr :=
  if stop <=? start then Some (f_zero 0) else f_substr_impl s start (stop - start).
(** fixed_string.h:684-692 [substr<Start, Len>()]; [None] for the default [Len], the largest [size_t]. *)
Definition f_substr (sw : Z) (T : ity) (s : fstr) (start : Z) (len : option nat) : option fstr :=
  f_substr_impl s (f_clamp sw T (f_len s) start) (match len with Some n => n | None => f_len s end).
(** fixed_string.h:702-713 [slice<Start, End>()]; the default [End] is the largest [size_t]. *)
Definition f_slice (sw : Z) (T1 T2 : ity) (s : fstr) (start stop : Z) : option fstr :=
  f_slice_impl s (f_clamp sw T1 (f_len s) start) (f_clamp sw T2 (f_len s) stop).
Definition f_slice_to_end (sw : Z) (T1 : ity) (s : fstr) (start : Z) : option fstr :=
  f_slice sw T1 {| isigned := false; ibits := sw |} s start (2 ^ sw - 1)%Z.

(** fixed_string.h:722-751 [operator==]; [same]: both operands are one object. *)
Fixpoint f_eq_loop (a b : fstr) (i n : nat) : option bool :=
  match n with
  | O => Some true
  | S n' => x <- f_get a i ;; y <- f_get b i ;; if (x =? y)%Z then f_eq_loop a b (i + 1) n' else Some false
  end.
Definition f_eq (same : bool) (a b : fstr) : option bool :=
  if (f_len a =? f_len b) && (0 <? f_len a) then
    if same then Some true else f_eq_loop a b 0 (f_len a)
  else Some (f_len a =? f_len b).
Definition f_ne (same : bool) (a b : fstr) : option bool := e <- f_eq same a b ;; Some (negb e).

(** [std::char_traits<C>::compare]: characters are ordered by [key] (the identity, except for [char], which compares
    as [unsigned char]); only the sign of the result is specified, and the model returns -1, 0 or 1. *)
Fixpoint tr_compare (key : Z -> Z) (a b : list Z) (n : nat) {struct n} : option Z :=
  match n with
  | O => Some 0%Z
  | S n' =>
      match a, b with
      | x :: a', y :: b' =>
          if (key x <? key y)%Z then Some (-1)%Z else if (key y <? key x)%Z then Some 1%Z else tr_compare key a' b' n'
      | _, _ => None
      end
  end.
(** fixed_string.h:753-795 [compare]; line 766 returns [true] for one object. *)
Definition f_compare (key : Z -> Z) (same : bool) (a b : fstr) : option Z :=
  let La := f_len a in let Lb := f_len b in
  if (0 <? La) && (0 <? Lb) then
    if La =? Lb then
      if same then Some 1%Z else tr_compare key (f_chars a) (f_chars b) La
    else
      r <- tr_compare key (f_chars a) (f_chars b) (Nat.min La Lb) ;;
      Some (if (r =? 0)%Z then (if La <? Lb then (-1)%Z else 1%Z) else r)
  else if La =? Lb then Some 0%Z else if La =? 0 then Some (-1)%Z else Some 1%Z.
(** fixed_string.h:805-835: the four order operators, before C++20 or between strings of different lengths. *)
Definition f_lt (key : Z -> Z) (same : bool) (a b : fstr) : option bool := r <- f_compare key same a b ;; Some (r <? 0)%Z.
Definition f_le (key : Z -> Z) (same : bool) (a b : fstr) : option bool := r <- f_compare key same a b ;; Some (r <=? 0)%Z.
Definition f_gt (key : Z -> Z) (same : bool) (a b : fstr) : option bool := r <- f_compare key same a b ;; Some (0 <? r)%Z.
Definition f_ge (key : Z -> Z) (same : bool) (a b : fstr) : option bool := r <- f_compare key same a b ;; Some (0 <=? r)%Z.
(** fixed_string.h:837-839: the defaulted three-way comparison, which C++20 overload resolution prefers for strings of one
    length since it is not a template: the arrays are compared element by element with the built-in order. *)
Definition f_three_way (a b : fstr) : option Z :=
  if f_len a =? f_len b then tr_compare (fun c => c) (f_chars a) (f_chars b) (f_len a + 1) else None.
(** [char] compared as [unsigned char]. *)
Definition key_char (c : Z) : Z := (c mod 256)%Z.
