(** Specification for trimming: the ways in which a text can be stored, and what should be left of it. *)
From Verif Require Import Words UniSpec UniData UtfSpec.
Import ListNotations.
Local Open Scope N_scope.

(** How a text is stored: UTF-8, or code units of [sz] bytes (2: UTF-16, 4: UTF-32) in the machine's byte order, or in
    the opposite order; without or with a byte order mark in front. *)
Inductive form := Utf8 | Utf8Mark | Wide (sz : N) | WideMark (sz : N) | SwappedMark (sz : N).
Definition unit_bytes (f : form) : N := match f with Utf8 | Utf8Mark => 1 | Wide sz | WideMark sz | SwappedMark sz => sz end.
Definition body (f : form) (cps : list N) : list N :=
  match f with
  | SwappedMark sz => map (swapped sz) (text sz cps)
  | _ => text (unit_bytes f) cps
  end.
Definition mark (f : form) : list N :=
  match f with Utf8 | Wide _ => [] | Utf8Mark => [0xEF; 0xBB; 0xBF] | WideMark _ => [0xFEFF] | SwappedMark sz => [swapped sz 0xFEFF] end.
Definition stored (f : form) (cps : list N) : list N := mark f ++ body f cps.

(** When the library reads the stored text as this text: UTF-8 that does not start with a mark of its own; anything after
    a mark; and without one, in units of two or four bytes, if the guess of the byte order comes out right. *)
Definition recognised (be : bool) (f : form) (cps : list N) : Prop :=
  match f with
  | Utf8 => ~ starts_with_bom cps
  | Utf8Mark => True
  | Wide sz => (sz = 2 \/ sz = 4) /\ ~ has_bom sz (text sz cps) /\ (cps = [] \/ looks_native be sz (text sz cps) = true)
  | WideMark sz | SwappedMark sz => sz = 2 \/ sz = 4
  end.

(** The White_Space property of Unicode 15 (UniData.v). *)
Definition space (c : N) : bool := in_ranges white_space c.
(** U+160B..U+16C8 without U+1680, and U+2F47..U+2FFF: code points that are not white space, but for which the library's
    predicate has no defined answer (C16). *)
Definition no_answer (c : N) : bool := in_ranges [(0x160B,0x167F);(0x1681,0x16C8);(0x2F47,0x2FFF)] c.

(** The first and the last code point that is not white space, if there are any. *)
Definition first_char (cps : list N) : option N := find (fun c => negb (space c)) cps.
Definition last_char (cps : list N) : option N := find (fun c => negb (space c)) (rev cps).
Definition has_answer (c : option N) : bool := match c with Some c => negb (no_answer c) | None => true end.
