(** C16-C19, C89, C90: the character predicates. *)
From Verif Require Import Words UniModel UniSpec UniTables UniData UniProofs UniProofs2.
From Coq Require Import ZifyBool ZifyN.
Local Open Scope N_scope.

Lemma answer_none : forall u l c, answer u l c = None <-> in_ranges u c = true.
Proof. intros. unfold answer. destruct (in_ranges u c); split; congruence. Qed.
Lemma answer_some : forall u l c, in_ranges u c = false -> answer u l c = Some (in_ranges l c).
Proof. intros u l c H. unfold answer. rewrite H. reflexivity. Qed.

(* ------------------------------------------------------------------ C16 *)
(** The full statement is [run is_whitespace_32 c = Some (in_ranges white_space c)] for every 32-bit value, and the same for 16 bits.
    It holds but for 374 code units, for which the function runs into MUU_UNREACHABLE. *)
Theorem C16_whitespace_partial :
  (forall c, is_char32 c -> in_ranges whitespace_undefined c = false -> run is_whitespace_32 c = Some (in_ranges white_space c)) /\
  (forall c, is_char16 c -> in_ranges whitespace_undefined c = false -> run is_whitespace_16 c = Some (in_ranges white_space c)).
Proof. split; intros c C U; [rewrite whitespace_32 by assumption|rewrite whitespace_16 by assumption]; apply answer_some, U. Qed.
Theorem C16_whitespace_refuted :
  (forall c, is_char32 c -> (run is_whitespace_32 c = None <-> in_ranges whitespace_undefined c = true)) /\
  (forall c, is_char16 c -> (run is_whitespace_16 c = None <-> in_ranges whitespace_undefined c = true)) /\
  (in_ranges whitespace_undefined 0x1690 = true /\ run is_whitespace_32 0x1690 = None).
Proof.
  split; [|split].
  - intros c C. rewrite whitespace_32 by assumption. apply answer_none.
  - intros c C. rewrite whitespace_16 by assumption. apply answer_none.
  - split; vm_compute; reflexivity.
Qed.
Print Assumptions C16_whitespace_partial.
Print Assumptions C16_whitespace_refuted.
(** Both answers occur on both sides of the undefined set, and the set is small. *)
Example C16_ex : run is_whitespace_32 0x3000 = Some true /\ run is_whitespace_32 0x2003 = Some true /\ run is_whitespace_32 0x200B = Some false /\ run is_whitespace_32 0x10FFFF = Some false /\
  in_ranges whitespace_undefined 0x3000 = false /\ is_char32 0xFFFFFFFF.
Proof. repeat split; vm_compute; reflexivity. Qed.

(* ------------------------------------------------------------------ C17 *)
(** The full statement is [run is_hyphen_32 c = Some (in_ranges hyphen c)] for every value. The undefined set has most of the letters
    with diacritics, Greek, Cyrillic, Hebrew and Arabic, and the kana. *)
Theorem C17_hyphen_partial :
  (forall c, is_char32 c -> in_ranges hyphen_undefined c = false -> run is_hyphen_32 c = Some (in_ranges hyphen c)) /\
  (forall c, is_char16 c -> in_ranges hyphen_undefined c = false -> run is_hyphen_16 c = Some (in_ranges hyphen c)).
Proof. split; intros c C U; [rewrite hyphen_32 by assumption|rewrite hyphen_16 by assumption]; apply answer_some, U. Qed.
Theorem C17_hyphen_refuted :
  (forall c, is_char32 c -> (run is_hyphen_32 c = None <-> in_ranges hyphen_undefined c = true)) /\
  (forall c, is_char16 c -> (run is_hyphen_16 c = None <-> in_ranges hyphen_undefined c = true)) /\
  (forall c, 0xAE <= c <= 0x4FF -> run is_hyphen_32 c = None).
Proof.
  split; [|split].
  - intros c C. rewrite hyphen_32 by assumption. apply answer_none.
  - intros c C. rewrite hyphen_16 by assumption. apply answer_none.
  - intros c C. rewrite hyphen_32 by (change (2 ^ 32) with 0x100000000; lia). apply answer_none. unfold in_ranges, hyphen_undefined. cbn [existsb fst snd]. lia.
Qed.
Print Assumptions C17_hyphen_partial.
Print Assumptions C17_hyphen_refuted.
Example C17_ex : run is_hyphen_32 0x2D = Some true /\ run is_hyphen_32 0x2010 = Some true /\ run is_hyphen_32 0x2013 = Some false /\ run is_hyphen_32 0x58A = Some true /\ run is_hyphen_32 0xE9 = None.
Proof. repeat split; vm_compute; reflexivity. Qed.

(* ------------------------------------------------------------------ C18 *)
(** Letters (categories Lu, Ll, Lt, Lm, Lo), numbers (Nd, Nl) and combining marks (Mn, Mc): right for every value. *)
Theorem C18_letter : forall c, is_char32 c -> run is_letter_32 c = Some (in_ranges letter c).
Proof. exact letter_32. Qed.
Theorem C18_number : forall c, is_char32 c -> run is_number_32 c = Some (in_ranges decimal_or_letter_number c).
Proof. exact number_32. Qed.
Theorem C18_combining_mark : forall c, is_char32 c -> run is_combining_mark_32 c = Some (in_ranges nonspacing_or_spacing_mark c).
Proof. exact combining_32. Qed.
(** The digits are the ASCII ones. *)
Theorem C18_digits : forall c, is_char32 c ->
  run is_decimal_digit_32 c = Some ((0x30 <=? c) && (c <=? 0x39)) /\ run is_octal_digit_32 c = Some ((0x30 <=? c) && (c <=? 0x37)) /\
  run is_hexadecimal_digit_32 c = Some ((0x30 <=? c) && (c <=? 0x39) || (0x41 <=? c) && (c <=? 0x46) || (0x61 <=? c) && (c <=? 0x66)).
Proof.
  intros c C. rewrite decimal_32, octal_32, hexadecimal_32 by assumption. unfold answer, in_ranges. cbn [existsb fst snd]. rewrite !orb_false_r, !orb_assoc. auto.
Qed.
(** The full statement is [run is_uppercase_32 c = Some (in_ranges uppercase c)] and the same for lowercase. It holds up to U+FFFF, but
    for the undefined U+2182; above, no character has a case. *)
Theorem C18_case_partial : forall c, is_char32 c ->
  (c <> 0x2182 -> run is_uppercase_32 c = Some (in_ranges uppercase c && (c <? 0x10000))) /\ run is_lowercase_32 c = Some (in_ranges lowercase c && (c <? 0x10000)).
Proof.
  intros c C. split.
  - intros N. rewrite uppercase_32 by assumption. rewrite answer_some by (unfold in_ranges, uppercase_undefined; cbn [existsb fst snd]; lia). f_equal. apply below_in. vm_compute. reflexivity.
  - rewrite lowercase_32 by assumption. rewrite answer_some by reflexivity. f_equal. apply below_in. vm_compute. reflexivity.
Qed.
(** Roman numeral ten thousand; Deseret capital and small letter long i. *)
Theorem C18_case_refuted : run is_uppercase_32 0x2182 = None /\ (in_ranges uppercase 0x10400 = true /\ run is_uppercase_32 0x10400 = Some false) /\
  (in_ranges lowercase 0x10428 = true /\ run is_lowercase_32 0x10428 = Some false).
Proof. repeat split; vm_compute; reflexivity. Qed.
Print Assumptions C18_letter.
Print Assumptions C18_number.
Print Assumptions C18_combining_mark.
Print Assumptions C18_digits.
Print Assumptions C18_case_partial.
Print Assumptions C18_case_refuted.
Example C18_ex : run is_letter_32 0x4E00 = Some true /\ run is_letter_32 0x323B0 = Some false /\ run is_number_32 0x2167 = Some true /\ run is_number_32 0xBD = Some false /\
  run is_combining_mark_32 0xE01EF = Some true /\ run is_uppercase_32 0xC4 = Some true /\ run is_lowercase_32 0xE4 = Some true.
Proof. repeat split; vm_compute; reflexivity. Qed.

(* ------------------------------------------------------------------ C19 *)
(** All predicates but those about code points as such. *)
Theorem C19_classes : forall p, In p pairs -> forall c, is_char16 c -> run (fst p) c = run (snd p) c.
Proof. exact pairs_same. Qed.
(** The full statement includes is_code_point and is_code_point_boundary. They differ on surrogates, which the 32-bit functions take
    for code points; outside the surrogates all is well. *)
Theorem C19_code_points_partial : forall c, is_char16 c -> c < 0xD800 \/ 0xE000 <= c ->
  run is_code_point_16 c = run is_code_point_32 c /\ run is_code_point_boundary_16 c = run is_code_point_boundary_32 c.
Proof.
  intros c C S. assert (C' : c < 2 ^ 32) by (apply N.lt_trans with (2 ^ 16); [assumption|reflexivity]). unfold is_char16 in C. change (2 ^ 16) with 0x10000 in C.
  rewrite code_point_16, code_point_32, boundary_16, boundary_32 by assumption.
  unfold answer, in_ranges. cbn [existsb fst snd]. split; f_equal; lia.
Qed.
Theorem C19_code_points_refuted : forall c, 0xD800 <= c <= 0xDFFF -> run is_code_point_16 c = Some false /\ run is_code_point_32 c = Some true /\
  run is_code_point_boundary_16 c = Some (c <? 0xDC00) /\ run is_code_point_boundary_32 c = Some true.
Proof.
  intros c S. assert (C : c < 2 ^ 16) by (change (2 ^ 16) with 0x10000; lia). assert (C' : c < 2 ^ 32) by (change (2 ^ 32) with 0x100000000; lia).
  rewrite code_point_16, code_point_32, boundary_16, boundary_32 by assumption.
  unfold answer, in_ranges. cbn [existsb fst snd]. repeat split; f_equal; lia.
Qed.
Print Assumptions C19_classes.
Print Assumptions C19_code_points_partial.
Print Assumptions C19_code_points_refuted.
Example C19_ex : length pairs = 29%nat /\ In (is_letter_16, is_letter_32) pairs /\ run is_letter_16 0x4E00 = Some true /\ run is_letter_16 0xFFFD = Some false.
Proof. split; [reflexivity|]. split; [unfold pairs; cbn [In]; tauto|]. split; vm_compute; reflexivity. Qed.

(* ------------------------------------------------------------------ C89 *)
(** 8 bits: the ASCII part of the 32-bit predicates, nothing above, and never undefined. *)
Definition pairs8 : list (stmt * stmt) :=
  [(is_hyphen_8, is_hyphen_32); (is_letter_8, is_letter_32); (is_lowercase_8, is_lowercase_32); (is_number_8, is_number_32); (is_uppercase_8, is_uppercase_32);
   (is_whitespace_8, is_whitespace_32); (is_combining_mark_8, is_combining_mark_32); (is_decimal_digit_8, is_decimal_digit_32);
   (is_hexadecimal_digit_8, is_hexadecimal_digit_32); (is_octal_digit_8, is_octal_digit_32); (is_code_point_8, is_code_point_32)].
Lemma pairs8_low : forallb (fun p => check_same fuel (fst p) (snd p) 0 0x80) pairs8 = true. Proof. vm_compute. reflexivity. Qed.
Lemma pairs8_high : forallb (fun p => check_same fuel (fst p) (Return No) 0x80 0x100) pairs8 = true. Proof. vm_compute. reflexivity. Qed.
Theorem C89_narrow : forall p, In p pairs8 -> forall c, c < 0x100 -> if c <? 0x80 then run (fst p) c = run (snd p) c /\ run (fst p) c <> None else run (fst p) c = Some false.
Proof.
  intros p H c C. assert (L := pairs8_low). assert (G := pairs8_high). rewrite forallb_forall in L, G. destruct (c <? 0x80) eqn:E.
  - assert (Q : run (fst p) c = run (snd p) c) by (apply (check_same_sound _ _ _ _ _ (L p H)); [vm_compute; discriminate|lia]). split; [assumption|].
    assert (D : forallb (fun p => check fuel (Call (fst p) (Return Yes) (Return Yes)) 0 0x80 [] [(0, 0x7F)]) pairs8 = true) by (vm_compute; reflexivity).
    rewrite forallb_forall in D. assert (K := check_sound _ _ _ _ _ _ (D p H) ltac:(vm_compute; discriminate) eq_refl eq_refl c ltac:(lia)).
    cbn [run] in K. intro N. rewrite N in K. discriminate K.
  - apply (check_same_sound _ _ _ _ _ (G p H)); [vm_compute; discriminate|lia].
Qed.
(** A code unit is a boundary unless it is a continuation byte 10xxxxxx. *)
Theorem C89_boundary : forall c, c < 0x100 -> run is_code_point_boundary_8 c = Some (negb ((0x80 <=? c) && (c <? 0xC0))).
Proof.
  intros c C. assert (K : check fuel is_code_point_boundary_8 0 0x100 [] [(0,0x7F);(0xC0,0xFF)] = true) by (vm_compute; reflexivity).
  rewrite (check_sound _ _ _ _ _ _ K ltac:(vm_compute; discriminate) eq_refl eq_refl c ltac:(lia)). unfold answer, in_ranges. cbn [existsb fst snd]. f_equal. lia.
Qed.
Print Assumptions C89_narrow.
Print Assumptions C89_boundary.
Example C89_ex : run is_letter_8 0x41 = Some true /\ run is_letter_8 0xE9 = Some false /\ run is_code_point_boundary_8 0xA9 = Some false.
Proof. repeat split; vm_compute; reflexivity. Qed.

(* ------------------------------------------------------------------ C90 *)
(** is_not_x is the opposite of is_x, and is undefined for the same code units; is_x is is_ascii_x or is_non_ascii_x, of which at most one holds. *)
Record family := Family { fam_ascii : stmt; fam_non_ascii : stmt; fam_is : stmt; fam_not : stmt }.
Definition families32 : list family :=
  [Family is_ascii_hyphen_32 is_non_ascii_hyphen_32 is_hyphen_32 is_not_hyphen_32; Family is_ascii_letter_32 is_non_ascii_letter_32 is_letter_32 is_not_letter_32;
   Family is_ascii_lowercase_32 is_non_ascii_lowercase_32 is_lowercase_32 is_not_lowercase_32; Family is_ascii_number_32 is_non_ascii_number_32 is_number_32 is_not_number_32;
   Family is_ascii_uppercase_32 is_non_ascii_uppercase_32 is_uppercase_32 is_not_uppercase_32; Family is_ascii_whitespace_32 is_non_ascii_whitespace_32 is_whitespace_32 is_not_whitespace_32;
   Family is_ascii_code_point_32 is_non_ascii_code_point_32 is_code_point_32 is_not_code_point_32].
Definition families16 : list family :=
  [Family is_ascii_hyphen_16 is_non_ascii_hyphen_16 is_hyphen_16 is_not_hyphen_16; Family is_ascii_letter_16 is_non_ascii_letter_16 is_letter_16 is_not_letter_16;
   Family is_ascii_lowercase_16 is_non_ascii_lowercase_16 is_lowercase_16 is_not_lowercase_16; Family is_ascii_number_16 is_non_ascii_number_16 is_number_16 is_not_number_16;
   Family is_ascii_uppercase_16 is_non_ascii_uppercase_16 is_uppercase_16 is_not_uppercase_16; Family is_ascii_whitespace_16 is_non_ascii_whitespace_16 is_whitespace_16 is_not_whitespace_16;
   Family is_ascii_code_point_16 is_non_ascii_code_point_16 is_code_point_16 is_not_code_point_16].
Definition families8 : list family :=
  [Family is_ascii_hyphen_8 is_non_ascii_hyphen_8 is_hyphen_8 is_not_hyphen_8; Family is_ascii_letter_8 is_non_ascii_letter_8 is_letter_8 is_not_letter_8;
   Family is_ascii_lowercase_8 is_non_ascii_lowercase_8 is_lowercase_8 is_not_lowercase_8; Family is_ascii_number_8 is_non_ascii_number_8 is_number_8 is_not_number_8;
   Family is_ascii_uppercase_8 is_non_ascii_uppercase_8 is_uppercase_8 is_not_uppercase_8; Family is_ascii_whitespace_8 is_non_ascii_whitespace_8 is_whitespace_8 is_not_whitespace_8;
   Family is_ascii_code_point_8 is_non_ascii_code_point_8 is_code_point_8 is_not_code_point_8].
(** The ASCII half: defined everywhere and false from 0x80 on; the other half is false below 0x80. *)
Definition halves (top : N) (f : family) : bool :=
  check_same fuel (Call (fam_ascii f) (Return Yes) (Return Yes)) (Return Yes) 0 top &&
  check_same fuel (fam_ascii f) (Return No) 0x80 top && check_same fuel (fam_non_ascii f) (Return No) 0 0x80.
Definition neg (s : stmt) : stmt := Call s (Return No) (Return Yes).
Definition either (s t : stmt) : stmt := Call s (Return Yes) t.
(** The composite functions as they are written for all but code points. *)
Definition composed (f : family) : Prop :=
  fam_is f = Call (fam_ascii f) (Return Yes) (Call (fam_non_ascii f) (Return Yes) (Return No)) /\
  fam_not f = Call (fam_ascii f) (Return No) (Call (fam_non_ascii f) (Return No) (Return Yes)).
Definition scanned (top : N) (f : family) : Prop :=
  (check_same fuel (fam_not f) (neg (fam_is f)) 0 top && check_same fuel (fam_is f) (either (fam_ascii f) (fam_non_ascii f)) 0 top) = true.
Lemma family_spec : forall top f, halves top f = true -> composed f \/ scanned top f -> 0x80 <= top <= far -> forall c, c < top ->
  run (fam_not f) c = option_map negb (run (fam_is f) c) /\
  run (fam_is f) c = (if c <? 0x80 then run (fam_ascii f) c else run (fam_non_ascii f) c) /\
  (if c <? 0x80 then run (fam_non_ascii f) c = Some false else run (fam_ascii f) c = Some false).
Proof.
  intros top f H S T c C. unfold halves in H. apply andb_true_iff in H. destruct H as [H H3]. apply andb_true_iff in H. destruct H as [H1 H2].
  assert (K1 := check_same_sound _ _ _ _ _ H1 ltac:(lia) c ltac:(lia)). cbn [run test] in K1.
  assert (K : run (fam_not f) c = option_map negb (run (fam_is f) c) /\ run (fam_is f) c = run (either (fam_ascii f) (fam_non_ascii f)) c).
  { destruct S as [[-> ->]|S].
    - unfold either. cbn [run test]. destruct (run (fam_ascii f) c) as [[|]|]; auto. destruct (run (fam_non_ascii f) c) as [[|]|]; auto.
    - apply andb_true_iff in S. destruct S as [H4 H5]. rewrite (check_same_sound _ _ _ _ _ H4) by lia. rewrite <- (check_same_sound _ _ _ _ _ H5) by lia.
      split; [|reflexivity]. unfold neg. cbn [run test]. destruct (run (fam_is f) c) as [[|]|]; reflexivity. }
  destruct K as [K4 K5]. split; [exact K4|]. rewrite K5. unfold either. cbn [run test].
  destruct (c <? 0x80) eqn:E.
  - assert (K3 := check_same_sound _ _ _ _ _ H3 ltac:(vm_compute; discriminate) c ltac:(lia)). cbn [run test] in K3. rewrite K3. split; [|reflexivity].
    destruct (run (fam_ascii f) c) as [[|]|]; try reflexivity.
  - assert (K2 := check_same_sound _ _ _ _ _ H2 ltac:(lia) c ltac:(lia)). cbn [run test] in K2. rewrite K2. auto.
Qed.
Lemma halves_ok : forallb (halves (2 ^ 32)) families32 && forallb (halves (2 ^ 16)) families16 && forallb (halves (2 ^ 8)) families8 = true.
Proof. vm_compute. reflexivity. Qed.
Lemma family_ok32 : forall f, In f families32 -> composed f \/ scanned (2 ^ 32) f.
Proof. intros f H. repeat (destruct H as [<-|H]; [first [left; split; reflexivity | right; vm_compute; reflexivity]|]). destruct H. Qed.
Lemma family_ok16 : forall f, In f families16 -> composed f \/ scanned (2 ^ 16) f.
Proof. intros f H. repeat (destruct H as [<-|H]; [first [left; split; reflexivity | right; vm_compute; reflexivity]|]). destruct H. Qed.
Lemma family_ok8 : forall f, In f families8 -> composed f \/ scanned (2 ^ 8) f.
Proof. intros f H. repeat (destruct H as [<-|H]; [first [left; split; reflexivity | right; vm_compute; reflexivity]|]). destruct H. Qed.
Theorem C90_families : forall f top, In f families32 /\ top = 2 ^ 32 \/ In f families16 /\ top = 2 ^ 16 \/ In f families8 /\ top = 2 ^ 8 -> forall c, c < top ->
  run (fam_not f) c = option_map negb (run (fam_is f) c) /\
  run (fam_is f) c = (if c <? 0x80 then run (fam_ascii f) c else run (fam_non_ascii f) c) /\
  (if c <? 0x80 then run (fam_non_ascii f) c = Some false else run (fam_ascii f) c = Some false).
Proof.
  intros f top H. assert (K := halves_ok). apply andb_true_iff in K. destruct K as [K K3]. apply andb_true_iff in K. destruct K as [K1 K2].
  assert (F1 := proj1 (forallb_forall _ _) K1). assert (F2 := proj1 (forallb_forall _ _) K2). assert (F3 := proj1 (forallb_forall _ _) K3). clear K1 K2 K3.
  destruct H as [[H ->]|[[H ->]|[H ->]]].
  - apply family_spec; [exact (F1 f H)|exact (family_ok32 f H)|vm_compute; split; discriminate].
  - apply family_spec; [exact (F2 f H)|exact (family_ok16 f H)|vm_compute; split; discriminate].
  - apply family_spec; [exact (F3 f H)|exact (family_ok8 f H)|vm_compute; split; discriminate].
Qed.
Print Assumptions C90_families.
Example C90_ex : run is_not_letter_32 0x4E00 = Some false /\ run is_not_letter_32 0x21 = Some true /\ run is_not_hyphen_32 0xE9 = None.
Proof. repeat split; vm_compute; reflexivity. Qed.
