(** What a uuid and its text form are, independently of the library: RFC 4122 layout and the accepted grammar. *)
From Coq Require Import NArith ZArith List.
From Verif Require Import Words UtfSpec HashSpec.
Import ListNotations.
Local Open Scope N_scope.

Definition uuid_ok (id : list N) : Prop := bytes id /\ length id = 16%nat.

(** The value of a hexadecimal digit. *)
Definition hex_value (c : N) : option N :=
  if (0x30 <=? c) && (c <=? 0x39) then Some (c - 0x30)
  else if (0x41 <=? c) && (c <=? 0x46) then Some (c - 0x41 + 10)
  else if (0x61 <=? c) && (c <=? 0x66) then Some (c - 0x61 + 10)
  else None.

(** White space in ASCII: tab, line feed, vertical tab, form feed, carriage return, space. *)
Definition blank (c : N) : Prop := In c [0x09; 0x0A; 0x0B; 0x0C; 0x0D; 0x20].
Definition separator (c : N) : Prop := c = 0x2D \/ blank c.

(** Octets as pairs of hex digits, with separators between octets only. *)
Inductive octets_text : list N -> list N -> Prop :=
| ot_last h l a b : hex_value h = Some a -> hex_value l = Some b -> octets_text [16 * a + b] [h; l]
| ot_more h l a b seps os t : hex_value h = Some a -> hex_value l = Some b -> Forall separator seps -> octets_text os t ->
    octets_text ((16 * a + b) :: os) (h :: l :: seps ++ t).

(** The accepted texts: sixteen octets, surrounded by white space and optionally one pair of braces. *)
Inductive uuid_text (id : list N) : list N -> Prop :=
| ut_plain w1 t w2 : length id = 16%nat -> octets_text id t -> Forall blank w1 -> Forall blank w2 -> uuid_text id (w1 ++ t ++ w2)
| ut_braced w1 w2 t w3 w4 : length id = 16%nat -> octets_text id t ->
    Forall blank w1 -> Forall blank w2 -> Forall blank w3 -> Forall blank w4 ->
    uuid_text id (w1 ++ [0x7B] ++ w2 ++ t ++ w3 ++ [0x7D] ++ w4).

(** The canonical form 8-4-4-4-12; [up] chooses the case of the letters, digit by digit. *)
Definition hex_digit (up : bool) (v : N) : N := if v <? 10 then 0x30 + v else if up then 0x41 + (v - 10) else 0x61 + (v - 10).
Definition octet_text (up : nat -> bool) (i : nat) (b : N) : list N := [hex_digit (up (2 * i)%nat) (b / 16); hex_digit (up (2 * i + 1)%nat) (b mod 16)].
Definition canonical (up : nat -> bool) (id : list N) : list N :=
  let o i := octet_text up i (nth i id 0) in
  flat_map o [0; 1; 2; 3]%nat ++ [0x2D] ++ flat_map o [4; 5]%nat ++ [0x2D] ++ flat_map o [6; 7]%nat ++ [0x2D] ++
  flat_map o [8; 9]%nat ++ [0x2D] ++ flat_map o [10; 11; 12; 13; 14; 15]%nat.

(** RFC 4122, 4.1.2: the fields, most significant byte first. *)
Definition rfc_bytes (tl tm th ch cl nd : N) : list N :=
  be_bytes 4 tl ++ be_bytes 2 tm ++ be_bytes 2 th ++ [ch; cl] ++ be_bytes 6 nd.

(** RFC 4122, 4.1.3 and 4.1.1: version in the top four bits of octet 6; the variant RFC 4122 defines has the top two
    bits of octet 8 equal to 1 0. *)
Definition rfc_version (id : list N) : N := nth 6 id 0 / 16.
Definition rfc_variant (id : list N) : Prop := nth 8 id 0 / 64 = 2.

(** Lexicographic order of byte strings. *)
Inductive lex : list N -> list N -> Prop :=
| lex_here a b l l' : a < b -> lex (a :: l) (b :: l')
| lex_there a l l' : lex l l' -> lex (a :: l) (a :: l').

(** How a text of 16- or 32-bit units is read: the byte order mark, if any, is dropped, and the units are taken in the
    byte order it tells, or else in the one they look to be in. *)
Definition as_read (be : bool) (sz : N) (str : list N) : list N :=
  match str with
  | [] => []
  | u :: r =>
      if u =? swapped sz 0xFEFF then map (swapped sz) r
      else if u =? 0xFEFF then r
      else if looks_native be sz str then str else map (swapped sz) str
  end.

(** A proper prefix of the UTF-8 encoding of a non-ASCII code point. *)
Definition cut_short (l : list N) : Prop := l <> [] /\ exists ext, ext <> [] /\ wf_seq (l ++ ext).

(** The UTF-8 encoding of the byte order mark. *)
Definition bom : list N := [0xEF; 0xBB; 0xBF].

(** RFC 4122, 4.3 and 4.4: sixteen octets with the version number put in the top four bits of octet 6 and 1 0 in the
    top two bits of octet 8, everything else left alone. *)
Definition stamped (version : N) (l : list N) : list N :=
  firstn 6 l ++ [16 * version + nth 6 l 0 mod 16] ++ [nth 7 l 0] ++ [128 + nth 8 l 0 mod 64] ++ skipn 9 l.

(** The variant field, RFC 4122 4.1.1, as the library names the cases; the nil-like pattern 0 0 0 has its own name. *)
Inductive variant_name : Type := NoVariant | Ncs | Rfc | Microsoft | Future.
Definition variant_of (id : list N) : variant_name :=
  let b := nth 8 id 0 in
  if b <? 32 then NoVariant else if b <? 128 then Ncs else if b <? 192 then Rfc else if b <? 224 then Microsoft else Future.

(** The values of the hexadecimal digits of a text, in order; and the two digits of each octet. *)
Definition hex_values (l : list N) : list N := flat_map (fun c => match hex_value c with Some v => [v] | None => [] end) l.
Definition nibbles (id : list N) : list N := flat_map (fun o => [o / 16; o mod 16]) id.

(** Exchanging upper and lower case, character by character. *)
Definition same_letter (a b : N) : Prop := a = b \/ (exists k, k < 6 /\ ((a = 0x41 + k /\ b = 0x61 + k) \/ (a = 0x61 + k /\ b = 0x41 + k))).
