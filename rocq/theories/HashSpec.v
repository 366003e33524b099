(** The published definitions: FIPS 180-4 SHA-1 and FNV-1a, written independently of the library's code. *)
From Coq Require Import NArith List.
From Verif Require Import Words UtfSpec.
Import ListNotations.
Local Open Scope N_scope.

(* -------------------------------------------------------- FIPS 180-4, SHA-1 *)

(** Section 2.2.2, 3.2: operations on 32-bit words. *)
Definition ROTL (n x : N) : N := (x * 2 ^ n) mod 2 ^ 32 + x / 2 ^ (32 - n).
Definition NOT32 (x : N) : N := 2 ^ 32 - 1 - x.

(** Section 4.1.1. *)
Definition Ch (x y z : N) : N := N.lxor (N.land x y) (N.land (NOT32 x) z).
Definition Parity (x y z : N) : N := N.lxor (N.lxor x y) z.
Definition Maj (x y z : N) : N := N.lxor (N.lxor (N.land x y) (N.land x z)) (N.land y z).
Definition sha_f (t : nat) : N -> N -> N -> N :=
  if (t <? 20)%nat then Ch else if (t <? 40)%nat then Parity else if (t <? 60)%nat then Maj else Parity.

(** Section 4.2.1. *)
Definition sha_K (t : nat) : N :=
  if (t <? 20)%nat then 0x5a827999 else if (t <? 40)%nat then 0x6ed9eba1
  else if (t <? 60)%nat then 0x8f1bbcdc else 0xca62c1d6.

(** Section 6.1.2, step 1: the message schedule; [sched m n] is W_0 .. W_(15+n). *)
Fixpoint sched (m : list N) (n : nat) : list N :=
  match n with
  | O => m
  | S k =>
      let l := sched m k in let t := (16 + k)%nat in
      l ++ [ROTL 1 (N.lxor (N.lxor (N.lxor (nth (t - 3) l 0) (nth (t - 8) l 0)) (nth (t - 14) l 0)) (nth (t - 16) l 0))]
  end.
Definition sha_W (m : list N) (t : nat) : N := nth t (sched m 64) 0.

(** Step 3, for one t. *)
Definition vars := (N * N * N * N * N)%type.
Definition sha_round (m : list N) (r : vars) (t : nat) : vars :=
  let '(a, b, c, d, e) := r in
  ((ROTL 5 a + sha_f t b c d + e + sha_K t + sha_W m t) mod 2 ^ 32, a, ROTL 30 b, c, d).

(** Steps 2-4: the intermediate hash value. *)
Definition compress (h : vars) (m : list N) : vars :=
  let '(h0, h1, h2, h3, h4) := h in
  let '(a, b, c, d, e) := fold_left (sha_round m) (seq 0 80) h in
  ((a + h0) mod 2 ^ 32, (b + h1) mod 2 ^ 32, (c + h2) mod 2 ^ 32, (d + h3) mod 2 ^ 32, (e + h4) mod 2 ^ 32).

(** Section 5.3.1. *)
Definition sha_H0 : vars := (0x67452301, 0xefcdab89, 0x98badcfe, 0x10325476, 0xc3d2e1f0).

(** Big-endian numbers. *)
Definition be_value (l : list N) : N := fold_left (fun acc b => acc * 256 + b) l 0.
Fixpoint be_bytes (n : nat) (x : N) : list N :=
  match n with O => [] | S m => be_bytes m (x / 256) ++ [x mod 256] end.

(** Section 5.1.1: append the bit 1 and then the least number of zero bits that leaves room for the 64-bit length in
    the last 512-bit block; for whole bytes, 0x80 and [k] zero bytes with l + 1 + k = 56 modulo 64. *)
Definition pad_zeros (len : nat) : nat := ((119 - len mod 64) mod 64)%nat.
Definition pad (m : list N) : list N :=
  m ++ [0x80] ++ repeat 0 (pad_zeros (length m)) ++ be_bytes 8 (8 * N.of_nat (length m)).

(** Section 5.2.1, 6.1.1: blocks of sixteen big-endian words. *)
Fixpoint group (k n : nat) (l : list N) : list (list N) :=
  match n with O => [] | S m => firstn k l :: group k m (skipn k l) end.
Definition words (block : list N) : list N := map be_value (group 4 16 block).
Definition blocks (l : list N) : list (list N) := group 64 (length l / 64) l.

Definition digest_bytes (h : vars) : list N :=
  let '(a, b, c, d, e) := h in be_bytes 4 a ++ be_bytes 4 b ++ be_bytes 4 c ++ be_bytes 4 d ++ be_bytes 4 e.

Definition sha1_spec (m : list N) : list N :=
  digest_bytes (fold_left compress (map words (blocks (pad m))) sha_H0).

(* ------------------------------------------------------------------- FNV-1a *)

(** FNV prime and offset basis, as the FNV page and draft-eastlake-fnv give them. *)
Definition fnv_prime (bits : N) : N :=
  if bits =? 32 then 2 ^ 24 + 2 ^ 8 + 0x93
  else if bits =? 64 then 2 ^ 40 + 2 ^ 8 + 0xb3
  else 2 ^ 88 + 2 ^ 8 + 0x3b.
Definition fnv_basis (bits : N) : N :=
  if bits =? 32 then 2166136261
  else if bits =? 64 then 14695981039346656037
  else 144066263297769815596495629667062367629.
Definition fnv1a_spec (bits : N) (m : list N) : N :=
  fold_left (fun h b => (N.lxor h b * fnv_prime bits) mod 2 ^ bits) m (fnv_basis bits).

Definition bytes (l : list N) : Prop := Forall (fun b => b < 256) l.

(** Data comes in single bytes and in blobs. *)
Inductive feed : Type := OneByte (b : N) | Blob (l : list N).
Definition feed_bytes (f : feed) : list N := match f with OneByte b => [b] | Blob l => l end.

(** Two- or four-byte text [l] that the library reads as the scalar values [cps]: with a byte order mark in either
    order (the mark is not part of the text), or without one in the machine's order if it is recognised as such. *)
Inductive reads (be : bool) (sz : N) : list N -> list N -> Prop :=
| reads_nil : reads be sz [] []
| reads_mark cps : reads be sz (text sz (0xFEFF :: cps)) cps
| reads_swapped_mark cps : reads be sz (map (swapped sz) (text sz (0xFEFF :: cps))) cps
| reads_native cps : ~ has_bom sz (text sz cps) -> looks_native be sz (text sz cps) = true -> reads be sz (text sz cps) cps.

(** Every scalar value of the text is a single unit. *)
Definition single (sz : N) (cps : list N) : Prop := sz = 4 \/ (sz = 2 /\ Forall bmp cps).
