(** Property C121: trimming with the library's own whitespace predicate, for every character type. *)
From Verif Require Import Words UniSpec UniData UtfModel UtfSpec UtfProofs3 TrimModel TrimSpec TrimProofs.
Import ListNotations.
Local Open Scope N_scope.

(** Both ends: what is left is the text without its leading and trailing white space (drop_while and drop_end remove the longest
    runs, C27_maximal), in the units it was stored in; defined exactly when the first and the last character that is not white space
    have an answer. Supplementary characters in UTF-16 are covered. *)
Theorem C121_trim be schar f cps : recognised be f cps -> Forall scalar cps ->
  trim be schar (unit_bytes f) (stored f cps) =
    if has_answer (first_char cps) && has_answer (last_char cps) then Some (body f (drop_end space (drop_while space cps))) else None.
Proof. intros R H. apply (trim_all be schar f cps R H). Qed.
Print Assumptions C121_trim.

Theorem C121_trim_left be schar f cps : recognised be f cps -> Forall scalar cps ->
  trim_left be schar (unit_bytes f) (stored f cps) = if has_answer (first_char cps) then Some (body f (drop_while space cps)) else None.
Proof. intros R H. apply (trim_all be schar f cps R H). Qed.
Print Assumptions C121_trim_left.

(** Trimming only the right end keeps the byte order mark, unless nothing else is left. *)
Theorem C121_trim_right be schar f cps : recognised be f cps -> Forall scalar cps ->
  trim_right be schar (unit_bytes f) (stored f cps) =
    if has_answer (last_char cps) then Some (match drop_end space cps with [] => [] | k => stored f k end) else None.
Proof. intros R H. apply (trim_all be schar f cps R H). Qed.
Print Assumptions C121_trim_right.

(** The answer is there for all texts outside the small set of code points of C16 ... *)
Theorem C121_defined be schar f cps : recognised be f cps -> Forall scalar cps -> Forall (fun c => no_answer c = false) cps ->
  trim be schar (unit_bytes f) (stored f cps) = Some (body f (drop_end space (drop_while space cps))).
Proof.
  intros R H N. rewrite C121_trim by assumption. rewrite Forall_forall in N.
  assert (A : forall l, incl l cps -> has_answer (find (fun c => negb (space c)) l) = true).
  { intros l I. destruct (find _ l) as [c|] eqn:E; [|reflexivity]. apply find_some in E. cbn [has_answer]. rewrite N; [reflexivity|apply I, E]. }
  unfold first_char, last_char. rewrite !A; [reflexivity| |apply incl_refl]. intros c Hc. apply in_rev, Hc.
Qed.
Print Assumptions C121_defined.

(** ... and is missing for any text that begins or ends, apart from white space, with one of these: Ogham and Runic letters among
    them. *)
Theorem C121_undefined_refuted be schar f pre c post : recognised be f (pre ++ c :: post) -> Forall scalar (pre ++ c :: post) ->
  no_answer c = true -> Forall (fun c => space c = true) pre \/ Forall (fun c => space c = true) post ->
  trim be schar (unit_bytes f) (stored f (pre ++ c :: post)) = None.
Proof.
  intros R H N F. rewrite C121_trim by assumption.
  assert (S : space c = false) by (destruct (space c) eqn:S; [rewrite (space_answer c S) in N; discriminate|reflexivity]).
  assert (A : forall p q, Forall (fun c => space c = true) p -> has_answer (find (fun c => negb (space c)) (p ++ c :: q)) = false).
  { intros p q P. induction P as [|x p Hx P IH]; cbn [app find]; [rewrite S; cbn [negb has_answer]; rewrite N; reflexivity|]. rewrite Hx. exact IH. }
  unfold first_char, last_char. destruct F as [F|F].
  - rewrite A by exact F. reflexivity.
  - rewrite rev_app_distr. cbn [rev]. rewrite <- app_assoc. cbn [app]. rewrite (A (rev post)) by apply Forall_rev, F. destruct (has_answer _); reflexivity.
Qed.
Print Assumptions C121_undefined_refuted.

(** Trimming a text in the other byte order takes the mark away and leaves the units swapped, so that the result may be read as a
    different text. *)
Theorem C121_mark_lost_refuted : exists cps t, Forall scalar cps /\ trim false false 2 (stored (SwappedMark 2) cps) = Some t /\
  t = map (swapped 2) (text 2 [0x4E00; 0x4E8C]) /\
  utf_decode (fun l cp _ _ => (l ++ [cp], true)) false false 2 t false [] <> Some [0x4E00; 0x4E8C] /\
  utf_decode (fun l cp _ _ => (l ++ [cp], true)) false false 2 (stored (SwappedMark 2) cps) false [] = Some cps.
Proof.
  exists [0x20; 0x4E00; 0x4E8C], (map (swapped 2) (text 2 [0x4E00; 0x4E8C])). split; [repeat constructor; unfold scalar; lia|].
  split; [vm_compute; reflexivity|]. split; [reflexivity|]. split; [vm_compute; discriminate|vm_compute; reflexivity].
Qed.
Print Assumptions C121_mark_lost_refuted.

Example C121_witness : let cps := [0x20; 0x3000; 0x1F600; 0x20; 0xE9; 0x2028; 0x0A] in
  Forall scalar cps /\ Forall (fun c => no_answer c = false) cps /\
  recognised false Utf8 cps /\ recognised false (Wide 2) cps /\ recognised false (Wide 4) cps /\ recognised true (SwappedMark 2) cps /\
  trim false false 2 (stored (Wide 2) cps) = Some [0xD83D; 0xDE00; 0x20; 0xE9] /\
  trim false true 1 (stored Utf8 cps) = Some [0xF0; 0x9F; 0x98; 0x80; 0x20; 0xC3; 0xA9].
Proof.
  cbv zeta. split; [repeat constructor; unfold scalar; lia|]. split; [repeat constructor|].
  split; [intros (r & E); discriminate|].
  split; [split; [left; reflexivity|split; [intros (r & [E|E]); vm_compute in E; discriminate|right; vm_compute; reflexivity]]|].
  split; [split; [right; reflexivity|split; [intros (r & [E|E]); vm_compute in E; discriminate|right; vm_compute; reflexivity]]|].
  split; [left; reflexivity|]. split; vm_compute; reflexivity.
Qed.
(** A Runic text (U+16A0) has no defined trim, the same text before U+0041 and after it has. *)
Example C121_undefined_witness : trim false false 4 (stored (WideMark 4) [0x20; 0x16A0; 0x41]) = None /\ no_answer 0x16A0 = true /\
  trim false false 4 (stored (WideMark 4) [0x20; 0x41; 0x16A0; 0x41]) = Some [0x41; 0x16A0; 0x41].
Proof. repeat split; vm_compute; reflexivity. Qed.
