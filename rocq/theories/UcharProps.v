(** Property C173. *)
From Coq Require Import ZArith Lia ZifyBool ZifyN Ascii String.
From Verif Require Import Words UniModel UniSpec UniTables UniData UniProofs UniProofs2 UcharModel.
Local Open Scope string_scope.
Local Open Scope list_scope.
Local Open Scope Z_scope.

(** Some characters, by the values of their codes. *)
Definition codes (s : string) : list Z := map (fun a => Z.of_N (N_of_ascii a)) (list_ascii_of_string s).
Definition among (l : list Z) (c : Z) : bool := existsb (Z.eqb c) l.
Definition digits : string := "0123456789".
Definition small : string := "abcdefghijklmnopqrstuvwxyz".
Definition capital : string := "ABCDEFGHIJKLMNOPQRSTUVWXYZ".
Definition ascii_class (k : kind) (c : Z) : bool :=
  match k with
  | CodePoint => (0 <=? c) && (c <? 128)
  | Hyphen => among (codes "-") c
  | Letter => among (codes small) c || among (codes capital) c
  | Lowercase => among (codes small) c
  | Number => among (codes digits) c
  | Uppercase => among (codes capital) c
  | Whitespace => among (9 :: 10 :: 11 :: 12 :: 13 :: codes " ") c
  end.
(** What each of the functions should answer of a byte, taken as a signed or as an unsigned number. *)
Definition expected (p : pred) (c : Z) : bool :=
  match p with
  | Ascii k | Is k => ascii_class k c
  | NonAscii _ | Mark => false
  | IsNot k => negb (ascii_class k c)
  | Boundary => negb ((-128 <=? c) && (c <=? -65) || (128 <=? c) && (c <=? 191))
  | Decimal => among (codes digits) c
  | Hexadecimal => among (codes (digits ++ "abcdefABCDEF")%string) c
  | Octal => among (codes "01234567") c
  end.

Definition kinds : list kind := [CodePoint; Hyphen; Letter; Lowercase; Number; Uppercase; Whitespace].
Definition preds : list pred := map Ascii kinds ++ map NonAscii kinds ++ map IsNot kinds ++ map Is kinds ++ [Boundary; Mark; Decimal; Hexadecimal; Octal].
Lemma all_preds p : In p preds.
Proof. destruct p as [k|k|k|k| | | | |]; try destruct k; unfold preds, kinds; cbn [map app In]; tauto. Qed.
Definition from (a : Z) (n : nat) : list Z := map (fun i => a + Z.of_nat i) (seq 0 n).
Lemma in_from a n c : a <= c < a + Z.of_nat n -> In c (from a n).
Proof. intros H. unfold from. apply in_map_iff. exists (Z.to_nat (c - a)). split; [lia|]. apply in_seq. lia. Qed.
Lemma same_eq a b : same a b = true -> a = b.
Proof. destruct a as [[|]|], b as [[|]|]; cbn; congruence. Qed.
Lemma each_byte (f g : pred -> Z -> option bool) a n : forallb (fun p => forallb (fun c => same (f p c) (g p c)) (from a n)) preds = true -> forall p c, a <= c < a + Z.of_nat n -> f p c = g p c.
Proof. intros H p c C. rewrite forallb_forall in H. specialize (H p (all_preds p)). rewrite forallb_forall in H. apply same_eq, H, in_from, C. Qed.

(** Every function of [char], which may be signed or not, and of [unsigned char]: the ASCII classes, nothing else, and always defined. *)
Theorem C173_char : forall p c, -128 <= c < 256 -> on_char p c = Some (expected p c) /\ (0 <= c -> run (on_uchar p) (Z.to_N c) = Some (expected p c)).
Proof.
  intros p c C. split.
  - refine (each_byte on_char (fun p c => Some (expected p c)) (-128) 384 _ p c ltac:(lia)). vm_compute. reflexivity.
  - intros P. refine (each_byte (fun p c => run (on_uchar p) (Z.to_N c)) (fun p c => Some (expected p c)) 0 256 _ p c ltac:(lia)). vm_compute. reflexivity.
Qed.
Print Assumptions C173_char.
(** Below 128 a [wchar_t] of either size is classed as a [char] is. *)
Theorem C173_wide_ascii : forall w p c, 0 <= c < 128 -> on_wchar w p c = Some (expected p c).
Proof.
  intros w p c C. destruct w.
  - refine (each_byte (on_wchar Wide16) (fun p c => Some (expected p c)) 0 128 _ p c ltac:(lia)). vm_compute. reflexivity.
  - refine (each_byte (on_wchar Wide32) (fun p c => Some (expected p c)) 0 128 _ p c ltac:(lia)). vm_compute. reflexivity.
Qed.
Print Assumptions C173_wide_ascii.
(** A negative [wchar_t] of four bytes is in no class. *)
Theorem C173_wide_negative : forall p c, - 2 ^ 31 <= c < 0 -> on_wchar Wide32 p c = Some (match p with IsNot _ => true | _ => false end).
Proof.
  intros p c C. unfold on_wchar, unsigned_cast. replace (c mod 2 ^ 32) with (c + 2 ^ 32) by (apply (Zmod_unique c (2 ^ 32) (-1)); lia).
  assert (K : forallb (fun p => check_same fuel (on_char32 p) (Return (match p with IsNot _ => Yes | _ => No end)) (2 ^ 31) (2 ^ 32)) preds = true) by (vm_compute; reflexivity).
  rewrite forallb_forall in K. specialize (K p (all_preds p)). cbv beta in K.
  rewrite (check_same_sound _ _ _ _ _ K ltac:(vm_compute; discriminate)) by (change (2 ^ 31)%N with 0x80000000%N; change (2 ^ 32)%N with 0x100000000%N; change (2 ^ 31) with 0x80000000 in C; change (2 ^ 32) with 0x100000000; lia).
  destruct p; reflexivity.
Qed.
Print Assumptions C173_wide_negative.
(** Whether [wchar_t] has two or four bytes makes no difference to a value that fits in two, but to the questions about code points. *)
Theorem C173_wide_portable : forall p c, 0 <= c < 2 ^ 16 -> ~ In p [NonAscii CodePoint; IsNot CodePoint; Is CodePoint; Boundary] -> on_wchar Wide16 p c = on_wchar Wide32 p c.
Proof.
  intros p c C E. unfold on_wchar, unsigned_cast. change (2 ^ 16) with 0x10000 in *. change (2 ^ 32) with 0x100000000. rewrite !Z.mod_small by lia.
  assert (B : is_char16 (Z.to_N c)) by (unfold is_char16; change (2 ^ 16)%N with 0x10000%N; lia).
  destruct p as [k|k|k|k| | | | |]; try destruct k; cbn [on_char16 on_char32]; try (exfalso; apply E; cbn [In]; tauto);
    match goal with |- run ?a _ = run ?b _ => refine (pairs_same (a, b) _ _ B); unfold pairs; cbn [In]; tauto end.
Qed.
Print Assumptions C173_wide_portable.
(** They do differ on the surrogates. *)
Theorem C173_wide_portable_refuted : on_wchar Wide16 (Is CodePoint) 0xD800 = Some false /\ on_wchar Wide32 (Is CodePoint) 0xD800 = Some true /\
  on_wchar Wide16 Boundary 0xDC00 = Some false /\ on_wchar Wide32 Boundary 0xDC00 = Some true.
Proof. repeat split; vm_compute; reflexivity. Qed.
Print Assumptions C173_wide_portable_refuted.
Example C173_witness : on_char (Is Letter) 97 = Some true /\ on_char (Is Letter) (-23) = Some false /\ on_char Boundary (-87) = Some false /\ on_wchar Wide32 (Is Letter) 0x4E00 = Some true /\ on_wchar Wide32 (IsNot Letter) (-1) = Some true.
Proof. repeat split; vm_compute; reflexivity. Qed.
