(** Model of hashing.h and src/hashing.cpp: hash_combiner, fnv1a and sha1. *)
From Verif Require Import Words BitsModel UtfModel.
Local Open Scope N_scope.

Definition add_wrap (w x y : N) : N := trunc w (x + y).

(* -------------------------------------------------------------- hash_combiner *)

(** hashing.h:38-72 [hash_combiner_traits]: offset, left shift, right shift.  The 128-bit offset is
    [bit_pack(0x9E3779B97F4A7C15_u64, 0xF39CC0605D396154_u64)]. *)
Definition combiner_traits (bits : N) : option (N * N * N) :=
  if bits =? 16 then Some (0x9E37, 3, 1)
  else if bits =? 32 then Some (0x9E3779B9, 6, 2)
  else if bits =? 64 then Some (0x9E3779B97F4A7C15, 12, 4)
  else if bits =? 128 then
    off <- bit_pack 128 [(64, 0x9E3779B97F4A7C15); (64, 0xF39CC0605D396154)] ;; Some (off, 24, 8)
  else None.

(** hashing.h:93-98 [hash_combiner::operator()].  For 16 bits the sum is computed in [int]: the operands are below
    2^16 and the left shift is by 3, so it cannot overflow, and the result is truncated by the assignment. *)
Definition combine (bits value new_hash : N) : option N :=
  t <- combiner_traits bits ;;
  let '(off, ls, rs) := t in
  Some (trunc bits (N.lxor value (new_hash + off + trunc (promoted bits) (N.shiftl value ls) + N.shiftr value rs))).

(* ---------------------------------------------------------------------- fnv1a *)

(** hashing.h:118-143 [fnv1a_traits]: prime and offset basis. *)
Definition fnv_traits (bits : N) : option (N * N) :=
  if bits =? 32 then Some (0x01000193, 0x811C9DC5)
  else if bits =? 64 then Some (0x00000100000001B3, 0xCBF29CE484222325)
  else if bits =? 128 then
    p <- bit_pack 128 [(64, 0x0000000001000000); (64, 0x000000000000013B)] ;;
    o <- bit_pack 128 [(64, 0x6C62272E07BB0142); (64, 0x62B821756295C58D)] ;; Some (p, o)
  else None.

(** hashing.h:195-200 [fnv1a::operator()(uint8_t)]. *)
Definition fnv_byte (bits prime value byte : N) : N := trunc bits (N.lxor value byte * prime).

(** hashing.h:210-216 [operator()(const void*, size_t)] and 177-181 [hash_string_view] for byte strings. *)
Definition fnv_bytes (bits prime value : N) (data : list N) : N := fold_left (fnv_byte bits prime) data value.

(** hashing.h:146-155 [add_to_hasher_as_utf8(hasher, cp)]. *)
Definition fnv_code_point (bits prime value cp : N) : N :=
  if cp =? 0 then fnv_byte bits prime value 0
  else fnv_bytes bits prime value (code_point_view (utf8_code_point cp)).

(** hashing.h:157-161 and 183-186: a string of 2- or 4-byte characters. *)
Definition fnv_wide (be : bool) (bits prime : N) (sz : N) (value : N) (str : list N) : option N :=
  utf_decode (fun h cp _ _ => (fnv_code_point bits prime h cp, true)) be false sz str false value.

(** The public calls. *)
Inductive fnv_op : Type :=
| FnvByte (b : N)                      (* operator()(uint8_t), operator()(std::byte) *)
| FnvData (l : list N)                 (* operator()(const void*, size_t), operator()(std::string_view) *)
| FnvWide (sz : N) (l : list N).       (* operator()(std::u16string_view) etc. *)

Definition fnv_step (be : bool) (bits prime : N) (op : fnv_op) (value : N) : option N :=
  match op with
  | FnvByte b => Some (fnv_byte bits prime value b)
  | FnvData l => Some (fnv_bytes bits prime value l)
  | FnvWide sz l => fnv_wide be bits prime sz value l
  end.
Fixpoint fnv_steps (be : bool) (bits prime : N) (ops : list fnv_op) (value : N) : option N :=
  match ops with [] => Some value | op :: r => v <- fnv_step be bits prime op value ;; fnv_steps be bits prime r v end.

(** hashing.h:169, 249-253: construct, feed, [value()]. *)
Definition fnv1a (be : bool) (bits : N) (ops : list fnv_op) : option N :=
  t <- fnv_traits bits ;;
  let '(prime, basis) := t in
  fnv_steps be bits prime ops basis.

(** hashing.h:256-262 [operator<<]: the bytes printed, most significant first. *)
Fixpoint fnv_print_bytes (bits value : N) (i : nat) : option (list N) :=
  match i with
  | O => Some []
  | S j => b <- byte_select bits value (N.of_nat j) ;; r <- fnv_print_bytes bits value j ;; Some (b :: r)
  end.

(* ----------------------------------------------------------------------- sha1 *)

Definition upd {A : Type} (l : list A) (i : nat) (x : A) : list A := firstn i l ++ x :: skipn (S i) l.

(** src/hashing.cpp:21-25 [rol]. *)
Definition rol (value bits : N) : N := N.lor (trunc 32 (N.shiftl value bits)) (N.shiftr value (32 - bits)).

(** src/hashing.cpp:27-31 [blk]. *)
Definition blk (bl : list N) (i : nat) : N :=
  rol (N.lxor (N.lxor (N.lxor (nth (Nat.land (i + 13) 15) bl 0) (nth (Nat.land (i + 8) 15) bl 0))
                      (nth (Nat.land (i + 2) 15) bl 0)) (nth i bl 0)) 1.

Inductive rkind : Type := R0 | R1 | R2 | R3 | R4.

(** The mixing functions and constants of src/hashing.cpp:33-95 [R0] .. [R4]. *)
Definition mix (k : rkind) (w x y : N) : N :=
  match k with
  | R0 | R1 => N.lxor (N.land w (N.lxor x y)) y
  | R2 | R4 => N.lxor (N.lxor w x) y
  | R3 => N.lor (N.land (N.lor w x) y) (N.land w x)
  end.
Definition rconst (k : rkind) : N :=
  match k with R0 | R1 => 0x5a827999 | R2 => 0x6ed9eba1 | R3 => 0x8f1bbcdc | R4 => 0xca62c1d6 end.

(** One call: which function, which of the five local variables [a] .. [e] (0 .. 4) it is given, the index. *)
Definition rcall := (rkind * (nat * nat * nat * nat * nat) * nat)%type.

(** src/hashing.cpp:33-95: the body common to [R0] .. [R4]; only [R0] leaves [bl] alone. *)
Definition rstep (st : list N * list N) (c : rcall) : list N * list N :=
  let '(regs, bl) := st in
  let '(k, (v, w, x, y, z), i) := c in
  let bl := match k with R0 => bl | _ => upd bl i (blk bl i) end in
  let reg j := nth j regs 0 in
  let sum := add_wrap 32 (add_wrap 32 (add_wrap 32 (mix k (reg w) (reg x) (reg y)) (nth i bl 0)) (rconst k)) (rol (reg v) 5) in
  let regs := upd regs z (add_wrap 32 (reg z) sum) in
  (upd regs w (rol (nth w regs 0) 30), bl).

(** src/hashing.cpp:114-193, the eighty calls in order (generated from the source text). *)
Definition calls : list rcall :=
  [
   (R0, (0, 1, 2, 3, 4), 0)%nat; (R0, (4, 0, 1, 2, 3), 1)%nat; (R0, (3, 4, 0, 1, 2), 2)%nat; (R0, (2, 3, 4, 0, 1), 3)%nat;
      (R0, (1, 2, 3, 4, 0), 4)%nat; (R0, (0, 1, 2, 3, 4), 5)%nat; (R0, (4, 0, 1, 2, 3), 6)%nat; (R0, (3, 4, 0, 1, 2), 7)%nat;
      (R0, (2, 3, 4, 0, 1), 8)%nat; (R0, (1, 2, 3, 4, 0), 9)%nat; (R0, (0, 1, 2, 3, 4), 10)%nat; (R0, (4, 0, 1, 2, 3), 11)%nat;
      (R0, (3, 4, 0, 1, 2), 12)%nat; (R0, (2, 3, 4, 0, 1), 13)%nat; (R0, (1, 2, 3, 4, 0), 14)%nat; (R0, (0, 1, 2, 3, 4), 15)%nat;
      (R1, (4, 0, 1, 2, 3), 0)%nat; (R1, (3, 4, 0, 1, 2), 1)%nat; (R1, (2, 3, 4, 0, 1), 2)%nat; (R1, (1, 2, 3, 4, 0), 3)%nat;
      (R2, (0, 1, 2, 3, 4), 4)%nat; (R2, (4, 0, 1, 2, 3), 5)%nat; (R2, (3, 4, 0, 1, 2), 6)%nat; (R2, (2, 3, 4, 0, 1), 7)%nat;
      (R2, (1, 2, 3, 4, 0), 8)%nat; (R2, (0, 1, 2, 3, 4), 9)%nat; (R2, (4, 0, 1, 2, 3), 10)%nat; (R2, (3, 4, 0, 1, 2), 11)%nat;
      (R2, (2, 3, 4, 0, 1), 12)%nat; (R2, (1, 2, 3, 4, 0), 13)%nat; (R2, (0, 1, 2, 3, 4), 14)%nat; (R2, (4, 0, 1, 2, 3), 15)%nat;
      (R2, (3, 4, 0, 1, 2), 0)%nat; (R2, (2, 3, 4, 0, 1), 1)%nat; (R2, (1, 2, 3, 4, 0), 2)%nat; (R2, (0, 1, 2, 3, 4), 3)%nat;
      (R2, (4, 0, 1, 2, 3), 4)%nat; (R2, (3, 4, 0, 1, 2), 5)%nat; (R2, (2, 3, 4, 0, 1), 6)%nat; (R2, (1, 2, 3, 4, 0), 7)%nat;
      (R3, (0, 1, 2, 3, 4), 8)%nat; (R3, (4, 0, 1, 2, 3), 9)%nat; (R3, (3, 4, 0, 1, 2), 10)%nat; (R3, (2, 3, 4, 0, 1), 11)%nat;
      (R3, (1, 2, 3, 4, 0), 12)%nat; (R3, (0, 1, 2, 3, 4), 13)%nat; (R3, (4, 0, 1, 2, 3), 14)%nat; (R3, (3, 4, 0, 1, 2), 15)%nat;
      (R3, (2, 3, 4, 0, 1), 0)%nat; (R3, (1, 2, 3, 4, 0), 1)%nat; (R3, (0, 1, 2, 3, 4), 2)%nat; (R3, (4, 0, 1, 2, 3), 3)%nat;
      (R3, (3, 4, 0, 1, 2), 4)%nat; (R3, (2, 3, 4, 0, 1), 5)%nat; (R3, (1, 2, 3, 4, 0), 6)%nat; (R3, (0, 1, 2, 3, 4), 7)%nat;
      (R3, (4, 0, 1, 2, 3), 8)%nat; (R3, (3, 4, 0, 1, 2), 9)%nat; (R3, (2, 3, 4, 0, 1), 10)%nat; (R3, (1, 2, 3, 4, 0), 11)%nat;
      (R4, (0, 1, 2, 3, 4), 12)%nat; (R4, (4, 0, 1, 2, 3), 13)%nat; (R4, (3, 4, 0, 1, 2), 14)%nat; (R4, (2, 3, 4, 0, 1), 15)%nat;
      (R4, (1, 2, 3, 4, 0), 0)%nat; (R4, (0, 1, 2, 3, 4), 1)%nat; (R4, (4, 0, 1, 2, 3), 2)%nat; (R4, (3, 4, 0, 1, 2), 3)%nat;
      (R4, (2, 3, 4, 0, 1), 4)%nat; (R4, (1, 2, 3, 4, 0), 5)%nat; (R4, (0, 1, 2, 3, 4), 6)%nat; (R4, (4, 0, 1, 2, 3), 7)%nat;
      (R4, (3, 4, 0, 1, 2), 8)%nat; (R4, (2, 3, 4, 0, 1), 9)%nat; (R4, (1, 2, 3, 4, 0), 10)%nat; (R4, (0, 1, 2, 3, 4), 11)%nat;
      (R4, (4, 0, 1, 2, 3), 12)%nat; (R4, (3, 4, 0, 1, 2), 13)%nat; (R4, (2, 3, 4, 0, 1), 14)%nat; (R4, (1, 2, 3, 4, 0), 15)%nat].

(** A 32-bit word from four consecutive bytes of memory. *)
Definition load32 (be : bool) (b : list N) : N := of_le_bytes (if be then rev b else b).
Fixpoint load_words (be : bool) (n : nat) (l : list N) : list N :=
  match n with O => [] | S m => load32 be (firstn 4 l) :: load_words be m (skipn 4 l) end.

Fixpoint reverse_words (l : list N) : option (list N) :=
  match l with [] => Some [] | x :: r => y <- byte_reverse 32 x ;; r' <- reverse_words r ;; Some (y :: r') end.

(** src/hashing.cpp:97-201 [process_block]; [be] is the byte order of the machine. *)
Definition process_block (be : bool) (block digest : list N) : option (list N) :=
  let raw := load_words be 16 block in
  bl <- (if be then Some raw else reverse_words raw) ;;
  let '(regs, _) := fold_left rstep calls (digest, bl) in
  Some (map (fun p => add_wrap 32 (fst p) (snd p)) (List.combine digest regs)).

(** hashing.h:309-316: the data members.  [sha_buf] has 64 entries of which the first [sha_len] are meaningful; the
    union is represented by the digest words and, after [finish], the bytes. *)
Record sha : Type := { sha_digest : list N; sha_hash : list N; sha_blocks : N; sha_len : N; sha_buf : list N; sha_finished : bool }.

(** src/hashing.cpp:205-207, the constructor; [current_block] is not initialised: [junk]. *)
Definition sha_init (junk : list N) : sha :=
  {| sha_digest := [0x67452301; 0xEFCDAB89; 0x98BADCFE; 0x10325476; 0xC3D2E1F0]; sha_hash := [];
     sha_blocks := 0; sha_len := 0; sha_buf := junk; sha_finished := false |}.

(** src/hashing.cpp:215-220 and 235-240: when the block is full, process it. *)
Definition sha_flush (be : bool) (s : sha) : option sha :=
  if sha_len s =? 64 then
    d <- process_block be (sha_buf s) (sha_digest s) ;;
    Some {| sha_digest := d; sha_hash := sha_hash s; sha_blocks := add_wrap 32 (sha_blocks s) 1; sha_len := 0;
            sha_buf := sha_buf s; sha_finished := sha_finished s |}
  else Some s.

Definition sha_write (s : sha) (bytes : list N) : sha :=
  let off := N.to_nat (sha_len s) in
  {| sha_digest := sha_digest s; sha_hash := sha_hash s; sha_blocks := sha_blocks s;
     sha_len := trunc 8 (sha_len s + N.of_nat (length bytes));
     sha_buf := firstn off (sha_buf s) ++ bytes ++ skipn (off + length bytes) (sha_buf s);
     sha_finished := sha_finished s |}.

(** src/hashing.cpp:209-221 [add(uint8_t)]; the assertions (lines 211-212) become [None]. *)
Definition sha_add1 (be : bool) (s : sha) (byte : N) : option sha :=
  if sha_finished s || negb (sha_len s <? 64) then None else sha_flush be (sha_write s [byte]).

(** src/hashing.cpp:223-241 [add(const uint8_t*, size_t)]; [bytes] are the [num] bytes, all zero for the null
    pointer; assertions of lines 225-228 included. *)
Definition sha_addn (be : bool) (s : sha) (bytes : list N) : option sha :=
  let num := N.of_nat (length bytes) in
  if sha_finished s || negb (sha_len s <? 64) || (num =? 0) || negb (num <=? 64 - sha_len s) then None
  else sha_flush be (sha_write s bytes).

(** src/hashing.cpp:243-248 [operator()(uint8_t)]. *)
Definition sha_byte (be : bool) (s : sha) (byte : N) : option sha :=
  if sha_finished s then Some s else sha_add1 be s byte.

(** src/hashing.cpp:262-267, the loop; [fuel] is at least the number of bytes left (each turn consumes one or more). *)
Fixpoint sha_loop (be : bool) (fuel : nat) (s : sha) (data : list N) : option sha :=
  match fuel with
  | O => Some s
  | S f =>
      match data with
      | [] => Some s
      | _ =>
          let delta := Nat.min 64 (length data) in
          s <- sha_addn be s (firstn delta data) ;;
          sha_loop be f s (skipn delta data)
      end
  end.

(** src/hashing.cpp:250-270 [operator()(const void*, size_t)]; an empty [data] stands for a null pointer or a zero
    size. *)
Definition sha_data (be : bool) (s : sha) (data : list N) : option sha :=
  match data with
  | [] => Some s
  | _ =>
      if sha_finished s then Some s
      else if sha_len s =? 0 then sha_loop be (length data) s data
      else
        let delta := Nat.min (N.to_nat (64 - sha_len s)) (length data) in
        s <- sha_addn be s (firstn delta data) ;;
        sha_loop be (length data) s (skipn delta data)
  end.

Definition zeros (n : N) : list N := repeat 0 (N.to_nat n).

(** src/hashing.cpp:293-304: each digest word in memory, after the byte reversal on little-endian machines. *)
Definition store32 (be : bool) (x : N) : list N := if be then rev (le_bytes 4 x) else le_bytes 4 x.
Fixpoint store_words (be : bool) (l : list N) : option (list N) :=
  match l with
  | [] => Some []
  | x :: r =>
      y <- (if be then Some x else byte_reverse 32 x) ;;
      rest <- store_words be r ;; Some (store32 be y ++ rest)
  end.

(** src/hashing.cpp:272-307 [finish]. *)
Definition sha_finish (be : bool) (s : sha) : option sha :=
  if sha_finished s then Some s
  else
    let bits := trunc 64 (trunc 64 (trunc 64 (sha_blocks s * 64) + sha_len s) * 8) in
    hashed <- (if be then Some bits else byte_reverse 64 bits) ;;
    s <- sha_add1 be s 0x80 ;;
    s <- (if 56 <? sha_len s then sha_addn be s (zeros (64 - sha_len s)) else Some s) ;;
    s <- (if sha_len s <? 56 then sha_addn be s (zeros (56 - sha_len s)) else Some s) ;;
    if negb (sha_len s =? 56) then None
    else
      s <- sha_addn be s (if be then rev (le_bytes 8 hashed) else le_bytes 8 hashed) ;;
      bytes <- store_words be (sha_digest s) ;;
      Some {| sha_digest := sha_digest s; sha_hash := bytes; sha_blocks := sha_blocks s; sha_len := sha_len s;
              sha_buf := sha_buf s; sha_finished := true |}.

(** hashing.h:146-161, 323-333: wide strings, one code point at a time. *)
Definition sha_code_point (be : bool) (s : sha) (cp : N) : option sha :=
  if cp =? 0 then sha_byte be s 0 else sha_data be s (code_point_view (utf8_code_point cp)).
Definition sha_wide (be : bool) (sz : N) (s : sha) (str : list N) : option sha :=
  r <- utf_decode (fun (o : option sha) cp _ _ => (option_bind o (fun s => sha_code_point be s cp), true)) be false sz str false (Some s) ;; r.

Inductive sha_op : Type :=
| ShaByte (b : N)
| ShaData (l : list N)
| ShaWide (sz : N) (l : list N)
| ShaFinish.

Definition sha_step (be : bool) (op : sha_op) (s : sha) : option sha :=
  match op with
  | ShaByte b => sha_byte be s b
  | ShaData l => sha_data be s l
  | ShaWide sz l => sha_wide be sz s l
  | ShaFinish => sha_finish be s
  end.
Fixpoint sha_steps (be : bool) (ops : list sha_op) (s : sha) : option sha :=
  match ops with [] => Some s | op :: r => s <- sha_step be op s ;; sha_steps be r s end.
