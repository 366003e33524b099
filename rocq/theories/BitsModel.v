(** Model of muu's bit utilities.  [w] is the width of the unsigned type [T] in
    bits, values are [N] below [2^w].  [None] is undefined behaviour (shift out of
    range, violated [MUU_ASSUME], non-terminating scan). *)
From Verif Require Import Words.

(** Which implementation the dispatcher selects ([MUU_IF_CONSTEVAL], or a
    compiler without intrinsics; countl.h:143-155 and the same block elsewhere). *)
Inductive path := Naive | Intrinsic.

(* ---------------------------------------------------------------- countl.h *)

(** countl.h:32-38: [while(true) { if (bit & val) break; count++; bit >>= 1; }].
    Running out of fuel is non-termination. *)
Fixpoint clz_loop (fuel : nat) (bit val count : N) : option N :=
  match fuel with
  | O => None
  | S f => if N.land bit val =? 0 then clz_loop f (N.shiftr bit 1) val (count + 1) else Some count
  end.

(** countl.h:22-40 [countl_zero_naive]. [bit_type{1} << (w-1)] is within the
    (at least 32-bit) [bit_type]. *)
Definition countl_zero_naive (w val : N) : option N :=
  if val =? 0 then Some w
  else bit <- shl_checked (promoted w) 1 (w - 1) ;;
       clz_loop (N.to_nat w) bit val 0.

(** GCC/Clang builtins used by countl.h:57-63, with their documented contract:
    leading zeros of a [W]-bit argument, undefined for zero. *)
Definition builtin_clz (W val : N) : option N :=
  if val =? 0 then None else Some (W - 1 - N.log2 val).

(** countl.h:47-63 [countl_zero_intrinsic], GCC/Clang branch, w <= 64. *)
Definition countl_zero_intrinsic (w val : N) : option N :=
  if val =? 0 then Some w
  else if 32 <=? w then builtin_clz w val
  else c <- builtin_clz 32 val ;; Some (c - (32 - w)).

Definition countl_zero_le64 (p : path) (w val : N) : option N :=
  match p with Naive => countl_zero_naive w val | Intrinsic => countl_zero_intrinsic w val end.

(** countl.h:124-157 [countl_zero]; the 128-bit case is split at bit 64 (lines 131-138).
    Enum arguments (lines 128-129) are the same call on the underlying type. *)
Definition countl_zero (p : path) (w val : N) : option N :=
  if w =? 128 then
    high <- countl_zero_le64 p 64 (trunc 64 (N.shiftr val 64)) ;;
    if high <? 64 then Some high
    else low <- countl_zero_le64 p 64 (trunc 64 val) ;; Some (64 + low)
  else countl_zero_le64 p w val.

(** The bitwise complement [static_cast<T>(~val)]. *)
Definition compl (w val : N) : N := N.lxor val (N.ones w).

(** countl.h:171-179 [countl_one]. *)
Definition countl_one (p : path) (w val : N) : option N := countl_zero p w (compl w val).

(* ---------------------------------------------------------------- countr.h *)

(** countr.h:25-34: [bit <<= 1] in [bit_type] of [bw] bits. *)
Fixpoint ctz_loop (fuel : nat) (bw bit val count : N) : option N :=
  match fuel with
  | O => None
  | S f => if N.land bit val =? 0 then ctz_loop f bw (trunc bw (N.shiftl bit 1)) val (count + 1)
           else Some count
  end.

(** countr.h:21-36 [countr_zero_naive]: [MUU_ASSUME(val > 0)]. *)
Definition countr_zero_naive (w val : N) : option N :=
  if val =? 0 then None else ctz_loop (N.to_nat (promoted w)) (promoted w) 1 val 0.

(** GCC/Clang [__builtin_ctz*]: index of the least significant set bit, undefined at zero. *)
Fixpoint ctz_pos (p : positive) : N :=
  match p with xO q => 1 + ctz_pos q | _ => 0 end.
Definition builtin_ctz (val : N) : option N :=
  match val with N0 => None | Npos p => Some (ctz_pos p) end.

(** countr.h:42-53 [countr_zero_intrinsic], GCC/Clang branch. *)
Definition countr_zero_intrinsic (w val : N) : option N := builtin_ctz val.

(** countr.h:128-146, w <= 64. *)
Definition countr_zero_le64 (p : path) (w val : N) : option N :=
  if val =? 0 then Some w
  else match p with Naive => countr_zero_naive w val | Intrinsic => countr_zero_intrinsic w val end.

(** countr.h:113-147 [countr_zero], 128-bit split lines 118-125. *)
Definition countr_zero (p : path) (w val : N) : option N :=
  if w =? 128 then
    low <- countr_zero_le64 p 64 (trunc 64 val) ;;
    if low <? 64 then Some low
    else high <- countr_zero_le64 p 64 (trunc 64 (N.shiftr val 64)) ;; Some (64 + high)
  else countr_zero_le64 p w val.

(** countr.h:161-167 [countr_one]. *)
Definition countr_one (p : path) (w val : N) : option N := countr_zero p w (compl w val).

(* -------------------------------------------------------------- popcount.h *)

Record popcount_traits := { pt_m1 : N; pt_m2 : N; pt_m4 : N; pt_h01 : N; pt_rsh : N }.

(** popcount.h:20-73 [popcount_traits<w>]. The 128-bit constants are
    [bit_pack]s of two equal 64-bit halves (lines 67-70). *)
Definition popcount_traits_of (w : N) : option popcount_traits :=
  if w =? 8 then Some {| pt_m1 := 0x55; pt_m2 := 0x33; pt_m4 := 0x0f; pt_h01 := 0x01; pt_rsh := 0 |}
  else if w =? 16 then
    Some {| pt_m1 := 0x5555; pt_m2 := 0x3333; pt_m4 := 0x0f0f; pt_h01 := 0x0101; pt_rsh := 8 |}
  else if w =? 32 then
    Some {| pt_m1 := 0x55555555; pt_m2 := 0x33333333; pt_m4 := 0x0f0f0f0f; pt_h01 := 0x01010101; pt_rsh := 24 |}
  else if w =? 64 then
    Some {| pt_m1 := 0x5555555555555555; pt_m2 := 0x3333333333333333;
            pt_m4 := 0x0f0f0f0f0f0f0f0f; pt_h01 := 0x0101010101010101; pt_rsh := 56 |}
  else if w =? 128 then
    Some {| pt_m1 := N.lor (N.shiftl 0x5555555555555555 64) 0x5555555555555555;
            pt_m2 := N.lor (N.shiftl 0x3333333333333333 64) 0x3333333333333333;
            pt_m4 := N.lor (N.shiftl 0x0f0f0f0f0f0f0f0f 64) 0x0f0f0f0f0f0f0f0f;
            pt_h01 := N.lor (N.shiftl 0x0101010101010101 64) 0x0101010101010101; pt_rsh := 120 |}
  else None.

(** popcount.h:77-85 [popcount_naive]. Unsigned subtraction wraps modulo [2^w];
    [val - ((val >> 1) & m1)] never does, which is a proof obligation below. *)
Definition popcount_naive (w val : N) : option N :=
  if val =? 0 then None
  else pt <- popcount_traits_of w ;;
       let v1 := trunc w (val + 2 ^ w - N.land (N.shiftr val 1) (pt_m1 pt)) in
       let v2 := trunc w (N.land v1 (pt_m2 pt) + N.land (N.shiftr v1 2) (pt_m2 pt)) in
       Some (N.shiftr
               (trunc w (N.land (trunc (promoted w) (v2 + N.shiftr v2 4)) (pt_m4 pt) * pt_h01 pt))
               (pt_rsh pt)).

(** Documented contract of [__builtin_popcount*] on a value below [2^64]. *)
Fixpoint popcount_pos (p : positive) : N :=
  match p with xH => 1 | xO q => popcount_pos q | xI q => 1 + popcount_pos q end.
Definition builtin_popcount (val : N) : N :=
  match val with N0 => 0 | Npos p => popcount_pos p end.

(** popcount.h:91-109 [popcount_intrinsic], GCC/Clang branch: 128-bit values are two 64-bit halves. *)
Definition popcount_intrinsic (w val : N) : option N :=
  if val =? 0 then None
  else if w =? 128
       then Some (builtin_popcount (trunc 64 (N.shiftr val 64)) + builtin_popcount (trunc 64 val))
       else Some (builtin_popcount val).

(** popcount.h:170-193 [popcount]. *)
Definition popcount (p : path) (w val : N) : option N :=
  if val =? 0 then Some 0
  else match p with Naive => popcount_naive w val | Intrinsic => popcount_intrinsic w val end.

(** popcount.h:208-216 [has_single_bit], for an unsigned type of [w] bits. *)
Definition has_single_bit (w val : N) : bool :=
  negb (val =? 0) && (N.land val (trunc (promoted w) (val + 2 ^ promoted w - 1)) =? 0).

(* --------------------------------------------- bit_floor.h, bit_ceil.h, bit.h *)

(** bit_floor.h:32-44 [bit_floor]. *)
Definition bit_floor (p : path) (w val : N) : option N :=
  if val =? 0 then Some 0
  else c <- countl_zero p w val ;;
       r <- shl_checked (promoted w) 1 (w - 1 - c) ;; Some (trunc w r).

(** bit_ceil.h:32-45 [bit_ceil]: the left operand [T{1}] is promoted, the result is
    converted back to [T]. *)
Definition bit_ceil (p : path) (w val : N) : option N :=
  if val =? 0 then Some 1
  else c <- countl_zero p w (val - 1) ;;
       r <- shl_checked (promoted w) 1 (w - c) ;; Some (trunc w r).

(** bit.h:52-60 [bit_width]. *)
Definition bit_width (p : path) (w val : N) : option N :=
  c <- countl_zero p w val ;; Some (trunc w (w - c)).

(* ---------------------------------------------------------- byte_reverse.h *)

Definition byte_reverse_naive16 (val : N) : N :=                 (* byte_reverse.h:72-75 *)
  trunc 16 (N.lor (trunc 32 (N.shiftl val 8)) (trunc 32 (N.shiftr val 8))).

Definition byte_reverse_naive32 (val : N) : N :=                 (* byte_reverse.h:76-82 *)
  N.lor (N.lor (N.lor (trunc 32 (N.shiftl val 24))
                      (N.land (trunc 32 (N.shiftl val 8)) 0x00FF0000))
               (N.land (N.shiftr val 8) 0x0000FF00))
        (N.shiftr val 24).

Definition byte_reverse_naive64 (val : N) : N :=                 (* byte_reverse.h:83-93 *)
  N.lor (N.lor (N.lor (N.lor (N.lor (N.lor (N.lor
    (trunc 64 (N.shiftl val 56))
    (N.land (trunc 64 (N.shiftl val 40)) 0x00FF000000000000))
    (N.land (trunc 64 (N.shiftl val 24)) 0x0000FF0000000000))
    (N.land (trunc 64 (N.shiftl val 8)) 0x000000FF00000000))
    (N.land (N.shiftr val 8) 0x00000000FF000000))
    (N.land (N.shiftr val 24) 0x0000000000FF0000))
    (N.land (N.shiftr val 40) 0x000000000000FF00))
    (N.shiftr val 56).

Definition byte_reverse_naive128 (val : N) : N :=                (* byte_reverse.h:94-99 *)
  N.lor (trunc 128 (N.shiftl (byte_reverse_naive64 (trunc 64 val)) 64))
        (byte_reverse_naive64 (trunc 64 (N.shiftr val 64))).

(** byte_reverse.h:70-103 [byte_reverse_naive]; other sizes are rejected at compile
    time (line 102), here [None]. *)
Definition byte_reverse (w val : N) : option N :=
  if w =? 16 then Some (byte_reverse_naive16 val)
  else if w =? 32 then Some (byte_reverse_naive32 val)
  else if w =? 64 then Some (byte_reverse_naive64 val)
  else if w =? 128 then Some (byte_reverse_naive128 val)
  else None.

(* -------------------------------------------------------------- bit_fill.h *)

(** bit_fill.h:34-48 [bit_fill_right]. *)
Definition bit_fill_right (w count : N) : option N :=
  if count =? 0 then Some 0
  else if w <=? count then Some (N.ones w)
  else s <- shl_checked (promoted w) 1 count ;;
       Some (trunc w (trunc (promoted w) (s + 2 ^ promoted w - 1))).

(** bit_fill.h:68-82 [bit_fill_left]. *)
Definition bit_fill_left (w count : N) : option N :=
  if count =? 0 then Some 0
  else if w <=? count then Some (N.ones w)
  else r <- bit_fill_right w count ;;
       s <- shl_checked (promoted w) r (w - count) ;;
       Some (trunc w s).

(* -------------------------------------------------------------- bit_pack.h *)

(** An argument of [bit_pack]: its width in bits and its value (already converted to
    the unsigned type of the same size, bit_pack.h:60-66). *)
Definition arg := (N * N)%type.
Definition total_bits (args : list arg) : N := fold_right (fun a s => fst a + s) 0 args.

(** bit_pack.h:67-78: the recursion on the argument list inside return type of [rw] bits.
    C++ instantiates it with two or more arguments; the one-argument base case below is
    the [static_cast<return_type>(val2)] of line 77. *)
Fixpoint bit_pack (rw : N) (args : list arg) : option N :=
  match args with
  | [] => None
  | [(_, v)] => Some (trunc rw v)
  | (_, v) :: rest =>
      hi <- shl_checked (promoted rw) (trunc rw v) (total_bits rest) ;;
      lo <- bit_pack rw rest ;;
      Some (trunc rw (N.lor (trunc rw hi) lo))
  end.

(** bit_pack.h:48-50: [unsigned_integer<bit_ceil(total_size * CHAR_BIT)>] when no
    [Return] type is given. *)
Definition bit_pack_auto (p : path) (args : list arg) : option N :=
  rw <- bit_ceil p 64 (total_bits args) ;; bit_pack rw args.

(* ------------------------------------------------------------------- bit.h *)

(** bit.h:97-117 [byte_select<Index>(val)] on an unsigned value (signed and enum arguments
    are first converted, lines 103-106). *)
Definition byte_select_static (w index val : N) : option N :=
  if index <? w / 8 then
    if w =? 8 then Some (trunc 8 val)
    else mask <- shl_checked (promoted w) 0xFF (index * 8) ;;
         if index =? 0 then Some (trunc 8 (N.land mask val))
         else r <- shr_checked (promoted w) (N.land mask val) (index * 8) ;; Some (trunc 8 r)
  else None (* static_assert, lines 100-101 *).

(** bit.h:153-168 [byte_select(val, index)]: the guard on line 157 is [index > sizeof(T)]. *)
Definition byte_select (w val index : N) : option N :=
  if w / 8 <? index then Some 0
  else if w =? 8 then Some (trunc 8 val)
  else r <- shr_checked (promoted w) val (index * 8) ;;
       Some (trunc 8 (N.land (trunc w r) 0xFF)).

(** bit.h:204-225 [swizzle<ByteIndices...>(val)] for an unsigned [T]: one index is a plain
    [byte_select] converted to the return type, otherwise the selected bytes are packed. The return type has
    [rw] bits: [w] if as many indices as bytes, else the next power of two (lines 212-215). *)
Fixpoint select_all (w val : N) (indices : list N) : option (list arg) :=
  match indices with
  | [] => Some []
  | i :: r => b <- byte_select_static w i val ;; l <- select_all w val r ;; Some ((8, b) :: l)
  end.
Definition swizzle (p : path) (w val : N) (indices : list N) : option N :=
  args <- select_all w val indices ;;
  let n := 8 * N.of_nat (length indices) in
  rw <- (if n =? w then Some w else bit_ceil p 64 n) ;;
  bit_pack rw args.

(* ------------------------------------------------------- apply_alignment.h *)

(** apply_alignment.h:26-40 (template) and 77-93 (run time): computed in
    [decltype(T{} * size_t{})], i.e. in [uw = max(w, width of size_t)] bits, then converted
    to [T].  A zero or non-power-of-two alignment is rejected by [static_assert] /
    [MUU_ASSUME] (lines 28-29, 79-82). *)
Definition apply_alignment (sw w val alignment : N) : option N :=
  let uw := N.max w sw in
  if (alignment =? 0) || negb (N.land alignment (alignment - 1) =? 0) then None
  else
    let sum := trunc uw (trunc uw (val + alignment) + 2 ^ uw - 1) in
    let mask := N.lxor (trunc uw (alignment + 2 ^ uw - 1)) (N.ones uw) in
    Some (trunc w (N.land sum mask)).
