(** Model of the character predicates for [unsigned char], [char] and [wchar_t] (impl/unicode_unsigned_char.h, impl/unicode_char.h,
    impl/unicode_wchar_t.h); those for [char8_t], [char16_t] and [char32_t] are in UniTables.v. *)
From Verif Require Import Words UniModel UniTables.
From Coq Require Import ZArith.
Local Open Scope N_scope.

Inductive kind := CodePoint | Hyphen | Letter | Lowercase | Number | Uppercase | Whitespace.
(** The 33 functions of each header: is_ascii_x, is_non_ascii_x, is_not_x, is_x for each kind, and the five others. *)
Inductive pred := Ascii (k : kind) | NonAscii (k : kind) | IsNot (k : kind) | Is (k : kind) | Boundary | Mark | Decimal | Hexadecimal | Octal.

(** unicode_unsigned_char.h:34-109 *)
Definition ascii_uchar (k : kind) : stmt :=
  match k with
  | CodePoint => Return (Le 0x7F)
  | Hyphen => Return (Eq 0x2D)
  | Letter => Return (Or (And (Ge 0x41) (Le 0x5A)) (And (Ge 0x61) (Le 0x7A)))
  | Lowercase => Return (And (Ge 0x61) (Le 0x7A))
  | Number => Return (And (Ge 0x30) (Le 0x39))
  | Uppercase => Return (And (Ge 0x41) (Le 0x5A))
  | Whitespace => Return (Or (And (Ge 0x09) (Le 0x0D)) (Eq 0x20))
  end.
(** unicode_unsigned_char.h:118-200 *)
Definition non_ascii_uchar (k : kind) : stmt := Return No.
(** unicode_unsigned_char.h:209-284 *)
Definition not_uchar (k : kind) : stmt := Call (ascii_uchar k) (Return No) (Call (non_ascii_uchar k) (Return No) (Return Yes)).
(** unicode_unsigned_char.h:293-429 *)
Definition is_uchar (k : kind) : stmt :=
  match k with CodePoint => Return (Le 0x7F) | _ => Call (ascii_uchar k) (Return Yes) (non_ascii_uchar k) end.
(** All of them by name; unicode_unsigned_char.h:305-345, 402-405. *)
Definition on_uchar (p : pred) : stmt :=
  match p with
  | Ascii k => ascii_uchar k | NonAscii k => non_ascii_uchar k | IsNot k => not_uchar k | Is k => is_uchar k
  | Boundary => Return (Not (MaskIs 0xC0 0x80))
  | Mark => Return No
  | Decimal => Return (And (Ge 0x30) (Le 0x39))
  | Hexadecimal => Return (And (And (Ge 0x30) (Le 0x66)) (BlockIn 64 0x30 1 0x7E0000007E03FF))
  | Octal => Return (And (Ge 0x30) (Le 0x37))
  end.
(** [static_cast] of an integer to an unsigned type of [w] bits. *)
Definition unsigned_cast (w : Z) (c : Z) : N := Z.to_N (c mod 2 ^ w).
(** unicode_char.h:33-428: the non-ASCII ones and [is_combining_mark] have bodies of their own. *)
Definition on_char (p : pred) (c : Z) : option bool :=
  match p with NonAscii _ | Mark => Some false | _ => run (on_uchar p) (unsigned_cast 8 c) end.

(** The overloads for [char32_t] and [char16_t]. *)
Definition on_char32 (p : pred) : stmt :=
  match p with
  | Ascii CodePoint => is_ascii_code_point_32 | Ascii Hyphen => is_ascii_hyphen_32 | Ascii Letter => is_ascii_letter_32 | Ascii Lowercase => is_ascii_lowercase_32 | Ascii Number => is_ascii_number_32 | Ascii Uppercase => is_ascii_uppercase_32 | Ascii Whitespace => is_ascii_whitespace_32
  | NonAscii CodePoint => is_non_ascii_code_point_32 | NonAscii Hyphen => is_non_ascii_hyphen_32 | NonAscii Letter => is_non_ascii_letter_32 | NonAscii Lowercase => is_non_ascii_lowercase_32 | NonAscii Number => is_non_ascii_number_32 | NonAscii Uppercase => is_non_ascii_uppercase_32 | NonAscii Whitespace => is_non_ascii_whitespace_32
  | IsNot CodePoint => is_not_code_point_32 | IsNot Hyphen => is_not_hyphen_32 | IsNot Letter => is_not_letter_32 | IsNot Lowercase => is_not_lowercase_32 | IsNot Number => is_not_number_32 | IsNot Uppercase => is_not_uppercase_32 | IsNot Whitespace => is_not_whitespace_32
  | Is CodePoint => is_code_point_32 | Is Hyphen => is_hyphen_32 | Is Letter => is_letter_32 | Is Lowercase => is_lowercase_32 | Is Number => is_number_32 | Is Uppercase => is_uppercase_32 | Is Whitespace => is_whitespace_32
  | Boundary => is_code_point_boundary_32 | Mark => is_combining_mark_32 | Decimal => is_decimal_digit_32 | Hexadecimal => is_hexadecimal_digit_32 | Octal => is_octal_digit_32
  end.
Definition on_char16 (p : pred) : stmt :=
  match p with
  | Ascii CodePoint => is_ascii_code_point_16 | Ascii Hyphen => is_ascii_hyphen_16 | Ascii Letter => is_ascii_letter_16 | Ascii Lowercase => is_ascii_lowercase_16 | Ascii Number => is_ascii_number_16 | Ascii Uppercase => is_ascii_uppercase_16 | Ascii Whitespace => is_ascii_whitespace_16
  | NonAscii CodePoint => is_non_ascii_code_point_16 | NonAscii Hyphen => is_non_ascii_hyphen_16 | NonAscii Letter => is_non_ascii_letter_16 | NonAscii Lowercase => is_non_ascii_lowercase_16 | NonAscii Number => is_non_ascii_number_16 | NonAscii Uppercase => is_non_ascii_uppercase_16 | NonAscii Whitespace => is_non_ascii_whitespace_16
  | IsNot CodePoint => is_not_code_point_16 | IsNot Hyphen => is_not_hyphen_16 | IsNot Letter => is_not_letter_16 | IsNot Lowercase => is_not_lowercase_16 | IsNot Number => is_not_number_16 | IsNot Uppercase => is_not_uppercase_16 | IsNot Whitespace => is_not_whitespace_16
  | Is CodePoint => is_code_point_16 | Is Hyphen => is_hyphen_16 | Is Letter => is_letter_16 | Is Lowercase => is_lowercase_16 | Is Number => is_number_16 | Is Uppercase => is_uppercase_16 | Is Whitespace => is_whitespace_16
  | Boundary => is_code_point_boundary_16 | Mark => is_combining_mark_16 | Decimal => is_decimal_digit_16 | Hexadecimal => is_hexadecimal_digit_16 | Octal => is_octal_digit_16
  end.
(** fwd.h:252-269: the type that a [wchar_t] of two or four bytes is cast to; unicode_wchar_t.h:40-427; a [wchar_t] of one byte is left out. *)
Inductive wide := Wide16 | Wide32.
Definition on_wchar (w : wide) (p : pred) (c : Z) : option bool :=
  match w with Wide16 => run (on_char16 p) (unsigned_cast 16 c) | Wide32 => run (on_char32 p) (unsigned_cast 32 c) end.
