(** What the character predicates should say: membership in the sets of UniData.v. *)
From Verif Require Import Words.
Local Open Scope N_scope.

Definition in_ranges (l : list (N * N)) (c : N) : bool := existsb (fun r => (fst r <=? c) && (c <=? snd r)) l.
(** The values of char32_t and of char16_t. *)
Definition is_char32 (c : N) : Prop := c < 2 ^ 32.
Definition is_char16 (c : N) : Prop := c < 2 ^ 16.
(** The answer for a set [l] of code points, where [undefined] are the code units for which the function has no defined result. *)
Definition answer (undefined l : list (N * N)) (c : N) : option bool := if in_ranges undefined c then None else Some (in_ranges l c).
