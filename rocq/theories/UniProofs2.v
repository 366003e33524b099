(** The scans of the tables. *)
From Verif Require Import Words UniModel UniSpec UniTables UniData UniProofs.
Local Open Scope N_scope.

Definition fuel : nat := N.to_nat 4000.
Lemma checked : forall s u l top, check fuel s 0 top u l = true -> (top <=? far) && sorted 0 u && sorted 0 l = true -> forall c, c < top -> run s c = answer u l c.
Proof.
  intros s u l top H K c C. rewrite !andb_true_iff in K. apply (check_sound _ _ _ _ _ _ H); try tauto; [apply N.leb_le; tauto|]. split; [apply N.le_0_l|assumption].
Qed.
Lemma checked_same : forall s t top, check_same fuel s t 0 top = true -> top <=? far = true -> forall c, c < top -> run s c = run t c.
Proof. intros s t top H K c C. apply (check_same_sound _ _ _ _ _ H); [apply N.leb_le, K|]. split; [apply N.le_0_l|assumption]. Qed.
Ltac scan := apply checked; vm_compute; reflexivity.
Ltac scan_same := apply checked_same; vm_compute; reflexivity.

(** The code units for which the functions run into MUU_UNREACHABLE. *)
Definition hyphen_undefined : list (N * N) :=
  [(0xAE,0x589);(0x58B,0x8A2);(0x1494,0x1805);(0x1807,0x188E);(0x2C76,0x2E16);(0x2E18,0x30FA);(0x30FC,0x346B)].
Definition whitespace_undefined : list (N * N) := [(0x160B,0x167F);(0x1681,0x16C8);(0x2F47,0x2FFF)].

Lemma whitespace_32 : forall c, c < 2 ^ 32 -> run is_whitespace_32 c = answer whitespace_undefined white_space c. Proof. scan. Qed.
Lemma whitespace_16 : forall c, c < 2 ^ 16 -> run is_whitespace_16 c = answer whitespace_undefined white_space c. Proof. scan. Qed.
Lemma hyphen_32 : forall c, c < 2 ^ 32 -> run is_hyphen_32 c = answer hyphen_undefined hyphen c. Proof. scan. Qed.
Lemma hyphen_16 : forall c, c < 2 ^ 16 -> run is_hyphen_16 c = answer hyphen_undefined hyphen c. Proof. scan. Qed.
Lemma letter_32 : forall c, c < 2 ^ 32 -> run is_letter_32 c = answer [] letter c. Proof. scan. Qed.
Lemma number_32 : forall c, c < 2 ^ 32 -> run is_number_32 c = answer [] decimal_or_letter_number c. Proof. scan. Qed.
Lemma combining_32 : forall c, c < 2 ^ 32 -> run is_combining_mark_32 c = answer [] nonspacing_or_spacing_mark c. Proof. scan. Qed.
Definition uppercase_undefined : list (N * N) := [(0x2182,0x2182)].
Lemma uppercase_32 : forall c, c < 2 ^ 32 -> run is_uppercase_32 c = answer uppercase_undefined (below 0x10000 uppercase) c. Proof. scan. Qed.
Lemma lowercase_32 : forall c, c < 2 ^ 32 -> run is_lowercase_32 c = answer [] (below 0x10000 lowercase) c. Proof. scan. Qed.
Lemma decimal_32 : forall c, c < 2 ^ 32 -> run is_decimal_digit_32 c = answer [] [(0x30,0x39)] c. Proof. scan. Qed.
Lemma octal_32 : forall c, c < 2 ^ 32 -> run is_octal_digit_32 c = answer [] [(0x30,0x37)] c. Proof. scan. Qed.
Lemma hexadecimal_32 : forall c, c < 2 ^ 32 -> run is_hexadecimal_digit_32 c = answer [] [(0x30,0x39);(0x41,0x46);(0x61,0x66)] c. Proof. scan. Qed.
Lemma code_point_32 : forall c, c < 2 ^ 32 -> run is_code_point_32 c = answer [] [(0,0x10FFFF)] c. Proof. scan. Qed.
Lemma boundary_32 : forall c, c < 2 ^ 32 -> run is_code_point_boundary_32 c = answer [] [(0,0x10FFFF)] c. Proof. scan. Qed.
Lemma code_point_16 : forall c, c < 2 ^ 16 -> run is_code_point_16 c = answer [] [(0,0xD7FF);(0xE000,0xFFFF)] c. Proof. scan. Qed.
Lemma boundary_16 : forall c, c < 2 ^ 16 -> run is_code_point_boundary_16 c = answer [] [(0,0xDBFF);(0xE000,0xFFFF)] c. Proof. scan. Qed.

(** The functions for 16 and 32 bits, in pairs; without those about code points. *)
Definition pairs : list (stmt * stmt) :=
  [(is_ascii_code_point_16, is_ascii_code_point_32); (is_ascii_hyphen_16, is_ascii_hyphen_32); (is_ascii_letter_16, is_ascii_letter_32);
   (is_ascii_lowercase_16, is_ascii_lowercase_32); (is_ascii_number_16, is_ascii_number_32); (is_ascii_uppercase_16, is_ascii_uppercase_32);
   (is_ascii_whitespace_16, is_ascii_whitespace_32); (is_non_ascii_hyphen_16, is_non_ascii_hyphen_32); (is_non_ascii_letter_16, is_non_ascii_letter_32);
   (is_non_ascii_lowercase_16, is_non_ascii_lowercase_32); (is_non_ascii_number_16, is_non_ascii_number_32);
   (is_non_ascii_uppercase_16, is_non_ascii_uppercase_32); (is_non_ascii_whitespace_16, is_non_ascii_whitespace_32);
   (is_not_hyphen_16, is_not_hyphen_32); (is_not_letter_16, is_not_letter_32); (is_not_lowercase_16, is_not_lowercase_32);
   (is_not_number_16, is_not_number_32); (is_not_uppercase_16, is_not_uppercase_32); (is_not_whitespace_16, is_not_whitespace_32);
   (is_combining_mark_16, is_combining_mark_32); (is_decimal_digit_16, is_decimal_digit_32); (is_hexadecimal_digit_16, is_hexadecimal_digit_32);
   (is_hyphen_16, is_hyphen_32); (is_letter_16, is_letter_32); (is_lowercase_16, is_lowercase_32); (is_number_16, is_number_32);
   (is_octal_digit_16, is_octal_digit_32); (is_uppercase_16, is_uppercase_32); (is_whitespace_16, is_whitespace_32)].
Definition base_pairs : list (stmt * stmt) :=
  [(is_ascii_code_point_16, is_ascii_code_point_32); (is_ascii_hyphen_16, is_ascii_hyphen_32); (is_ascii_letter_16, is_ascii_letter_32);
   (is_ascii_lowercase_16, is_ascii_lowercase_32); (is_ascii_number_16, is_ascii_number_32); (is_ascii_uppercase_16, is_ascii_uppercase_32);
   (is_ascii_whitespace_16, is_ascii_whitespace_32); (is_non_ascii_hyphen_16, is_non_ascii_hyphen_32); (is_non_ascii_letter_16, is_non_ascii_letter_32);
   (is_non_ascii_lowercase_16, is_non_ascii_lowercase_32); (is_non_ascii_number_16, is_non_ascii_number_32);
   (is_non_ascii_uppercase_16, is_non_ascii_uppercase_32); (is_non_ascii_whitespace_16, is_non_ascii_whitespace_32);
   (is_combining_mark_16, is_combining_mark_32); (is_decimal_digit_16, is_decimal_digit_32); (is_hexadecimal_digit_16, is_hexadecimal_digit_32);
   (is_octal_digit_16, is_octal_digit_32)].
Lemma base_pairs_same : forallb (fun p => check_same fuel (fst p) (snd p) 0 (2 ^ 16)) base_pairs = true.
Proof. vm_compute. reflexivity. Qed.
Lemma base_same : forall p, In p base_pairs -> forall c, c < 2 ^ 16 -> run (fst p) c = run (snd p) c.
Proof. intros p H. apply checked_same; [|reflexivity]. assert (K := base_pairs_same). rewrite forallb_forall in K. apply (K p H). Qed.
Lemma call_same : forall f f' g g' s s' t c, run f c = run f' c -> run g c = run g' c -> run (Call f s (Call g s' t)) c = run (Call f' s (Call g' s' t)) c.
Proof. intros f f' g g' s s' t c E1 E2. cbn [run]. rewrite E1, E2. reflexivity. Qed.
Lemma pairs_same : forall p, In p pairs -> forall c, c < 2 ^ 16 -> run (fst p) c = run (snd p) c.
Proof.
  intros p H c C.
  assert (E : forall s t, In (s, t) base_pairs -> run s c = run t c) by (intros s t I; exact (base_same (s, t) I c C)).
  unfold pairs in H. cbn [In] in H.
  repeat match type of H with
  | _ \/ _ => destruct H as [H|H]; [rewrite <- H; cbn [fst snd]; clear H; first [apply E; unfold base_pairs; cbn [In]; tauto | apply call_same; apply E; unfold base_pairs; cbn [In]; tauto]|]
  end. destruct H.
Qed.
