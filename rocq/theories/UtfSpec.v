(** What Unicode and RFC 3629 / RFC 2781 say, written with plain arithmetic and independently of the library's
    tables and bit tricks. *)
From Verif Require Import Words.
Local Open Scope N_scope.

(** A Unicode scalar value. *)
Definition scalar (cp : N) : Prop := cp < 0xD800 \/ (0xE000 <= cp /\ cp <= 0x10FFFF).
Definition bmp (cp : N) : Prop := cp < 0x10000.

(** RFC 3629, section 3. *)
Definition enc8 (cp : N) : list N :=
  if cp <? 0x80 then [cp]
  else if cp <? 0x800 then [0xC0 + cp / 64; 0x80 + cp mod 64]
  else if cp <? 0x10000 then [0xE0 + cp / 4096; 0x80 + cp / 64 mod 64; 0x80 + cp mod 64]
  else [0xF0 + cp / 262144; 0x80 + cp / 4096 mod 64; 0x80 + cp / 64 mod 64; 0x80 + cp mod 64].

(** RFC 2781, section 2.1. *)
Definition enc16 (cp : N) : list N :=
  if cp <? 0x10000 then [cp]
  else [0xD800 + (cp - 0x10000) / 1024; 0xDC00 + (cp - 0x10000) mod 1024].

Definition enc (sz cp : N) : list N := if sz =? 1 then enc8 cp else if sz =? 2 then enc16 cp else [cp].
Definition text (sz : N) (cps : list N) : list N := flat_map (enc sz) cps.

(** Unicode 15.0, Table 3-7: well-formed UTF-8 byte sequences. *)
Definition rng (b lo hi : N) : Prop := lo <= b /\ b <= hi.
Inductive wf_seq : list N -> Prop :=
| wf1 a : rng a 0x00 0x7F -> wf_seq [a]
| wf2 a b : rng a 0xC2 0xDF -> rng b 0x80 0xBF -> wf_seq [a; b]
| wf3a a b c : a = 0xE0 -> rng b 0xA0 0xBF -> rng c 0x80 0xBF -> wf_seq [a; b; c]
| wf3b a b c : rng a 0xE1 0xEC -> rng b 0x80 0xBF -> rng c 0x80 0xBF -> wf_seq [a; b; c]
| wf3c a b c : a = 0xED -> rng b 0x80 0x9F -> rng c 0x80 0xBF -> wf_seq [a; b; c]
| wf3d a b c : rng a 0xEE 0xEF -> rng b 0x80 0xBF -> rng c 0x80 0xBF -> wf_seq [a; b; c]
| wf4a a b c d : a = 0xF0 -> rng b 0x90 0xBF -> rng c 0x80 0xBF -> rng d 0x80 0xBF -> wf_seq [a; b; c; d]
| wf4b a b c d : rng a 0xF1 0xF3 -> rng b 0x80 0xBF -> rng c 0x80 0xBF -> rng d 0x80 0xBF -> wf_seq [a; b; c; d]
| wf4c a b c d : a = 0xF4 -> rng b 0x80 0x8F -> rng c 0x80 0xBF -> rng d 0x80 0xBF -> wf_seq [a; b; c; d].
Inductive wf_utf8 : list N -> Prop :=
| wf_nil : wf_utf8 []
| wf_app s l : wf_seq s -> wf_utf8 l -> wf_utf8 (s ++ l).

(** An event is one call of the callback: code point, index of its first code unit, number of code units. *)
Definition event := (N * nat * nat)%type.

(** The code points of a text with the positions of their encodings. *)
Fixpoint positions (sz : N) (i : nat) (cps : list N) : list event :=
  match cps with
  | [] => []
  | cp :: r => (cp, i, length (enc sz cp)) :: positions sz (i + length (enc sz cp)) r
  end.

(** Calling a callback for each event in turn until it says stop; the flag tells whether it did. *)
Fixpoint run {S : Type} (cb : S -> N -> nat -> nat -> S * bool) (s : S) (evs : list event) : S * bool :=
  match evs with
  | [] => (s, false)
  | (cp, i, n) :: r => let '(s', go) := cb s cp i n in if go : bool then run cb s' r else (s', true)
  end.

(** The events cover the index interval [i, j) without gap or overlap, each at least one unit long. *)
Inductive covers : nat -> list event -> nat -> Prop :=
| cov_nil i : covers i [] i
| cov_cons cp i n r j : (0 < n)%nat -> covers (i + n) r j -> covers i ((cp, i, n) :: r) j.

Definition units (sz : N) (l : list N) : Prop := Forall (fun u => u < 2 ^ (8 * sz)) l.
Definition starts_with_bom (cps : list N) : Prop := exists r, cps = 0xFEFF :: r.

(** A unit with its bytes in the opposite order. *)
Definition swapped (sz u : N) : N := of_le_bytes (rev (le_bytes (N.to_nat sz) u)).

(** Removing the longest prefix / suffix of elements satisfying [ws]. *)
Fixpoint drop_while (ws : N -> bool) (l : list N) : list N :=
  match l with [] => [] | c :: r => if ws c then drop_while ws r else l end.
Definition drop_end (ws : N -> bool) (l : list N) : list N := rev (drop_while ws (rev l)).

(** Every unit of a string is reported as a code point of its own, one unit long. *)
Fixpoint unit_events (i : nat) (l : list N) : list event :=
  match l with [] => [] | u :: r => (u, i, 1%nat) :: unit_events (S i) r end.

(** Among the first sixteen units, those whose lowest byte is zero and those whose highest byte is zero. *)
Definition low_zeros (str : list N) : nat := length (filter (fun u => u mod 256 =? 0) (firstn 16 str)).
Definition high_zeros (sz : N) (str : list N) : nat :=
  length (filter (fun u => u / 2 ^ (8 * (sz - 1)) mod 256 =? 0) (firstn 16 str)).

(** Does the string start with a byte order mark, in either byte order? *)
Definition has_bom (sz : N) (str : list N) : Prop :=
  exists r, str = 0xFEFF :: r \/ str = swapped sz 0xFEFF :: r.

(** Without a byte order mark, the text is taken to be in native order when, among its first sixteen units, more
    have a zero high byte than a zero low byte (the other way round on a big-endian machine). *)
Definition looks_native (be : bool) (sz : N) (str : list N) : bool :=
  if be then (high_zeros sz str <? low_zeros str)%nat else (low_zeros str <? high_zeros sz str)%nat.
