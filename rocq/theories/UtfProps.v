(** Properties C20-C27 and C70: the UTF decoders and encoders, utf_decode, transcoding and trimming. *)
From Verif Require Import Words UtfModel UtfSpec UtfProofs UtfProofs2 UtfProofs3.
From Coq Require Import ZifyBool ZifyNat ZifyN.
Local Open Scope N_scope.

(* ================================================================ C20 *)

(** Feeding a byte string to a fresh decoder never hits the error state and ends on a complete code point exactly when
    the string is well-formed UTF-8 ([None] is feeding a decoder that is in its error state). *)
Theorem C20_utf8_decoder_accepts_exactly_wellformed l : Forall (fun u => u < 256) l ->
  (exists vs d, feed_list 1 dec_init l = Some (vs, d) /\ d8_has_value d = true) <-> wf_utf8 l.
Proof. exact (d8_accepts l). Qed.
Print Assumptions C20_utf8_decoder_accepts_exactly_wellformed.

(** The error state is reached as soon as no continuation could make the string well-formed. *)
Theorem C20_utf8_decoder_error_exact l : Forall (fun u => u < 256) l ->
  (exists vs d, feed_list 1 dec_init l = Some (vs, d) /\ d8_error d = false) <->
  (exists ext, Forall (fun u => u < 256) ext /\ wf_utf8 (l ++ ext)).
Proof. exact (d8_prefix l). Qed.
Print Assumptions C20_utf8_decoder_error_exact.

(** The code points produced are those the text encodes. *)
Theorem C20_utf8_decoder_values l vs d : Forall (fun u => u < 256) l ->
  feed_list 1 dec_init l = Some (vs, d) -> d8_has_value d = true -> Forall scalar vs /\ l = text 1 vs.
Proof. intros H. exact (accept_text (length l) l 0 vs d (le_n _) H eq_refl). Qed.
Print Assumptions C20_utf8_decoder_values.

Example C20_witness : Forall (fun u => u < 256) [0x7A; 0xC3; 0xA9; 0xE2; 0x82; 0xAC; 0xF0; 0x9F; 0x98; 0x80] /\
  wf_utf8 [0x7A; 0xC3; 0xA9; 0xE2; 0x82; 0xAC; 0xF0; 0x9F; 0x98; 0x80] /\
  feed_list 1 dec_init [0x7A; 0xC3; 0xA9; 0xE2; 0x82; 0xAC; 0xF0; 0x9F; 0x98; 0x80]
  = Some ([0x7A; 0xE9; 0x20AC; 0x1F600], {| d_state := 0; d_cp := 0x1F600 |}).
Proof.
  split; [repeat constructor|]. split; [|vm_compute; reflexivity].
  apply wf_utf8_text. exists [0x7A; 0xE9; 0x20AC; 0x1F600]. split; [|reflexivity].
  repeat constructor; unfold scalar; lia.
Qed.
Example C20_overlong : ~ wf_utf8 [0xC0; 0x80] /\ ~ wf_utf8 [0xED; 0xA0; 0x80] /\ ~ wf_utf8 [0xF4; 0x90; 0x80; 0x80].
Proof.
  assert (K : forall l, Forall (fun u => u < 256) l ->
    (match feed_list 1 dec_init l with Some (_, d) => d8_has_value d | None => false end) = false -> ~ wf_utf8 l).
  { intros l H F W. apply (C20_utf8_decoder_accepts_exactly_wellformed l H) in W. destruct W as (vs & d & E & V).
    rewrite E in F. congruence. }
  repeat split; (apply K; [repeat constructor|vm_compute; reflexivity]).
Qed.

(* ================================================================ C21 *)

(** The encoder produces the RFC 3629 bytes of every scalar value but U+0000, and decoding them gives it back.
    Missing for the full claim: U+0000, see below. *)
Theorem C21_encode_decode_partial cp : scalar cp -> cp <> 0 ->
  wf_seq (encode 1 cp) /\ encode 1 cp = enc8 cp /\
  exists d, feed_list 1 dec_init (encode 1 cp) = Some ([cp], d) /\ d8_has_value d = true.
Proof.
  intros Hs Hn. assert (E : encode 1 cp = enc8 cp).
  { rewrite encode_ok; [|left; reflexivity|apply scalar_le, Hs]. apply N.eqb_neq in Hn. rewrite Hn. reflexivity. }
  rewrite E. split; [apply enc8_wf, Hs|]. split; [reflexivity|].
  destruct (feed_text [cp] 0 ltac:(constructor; [exact Hs|constructor])) as (d & F & V). cbn [text flat_map] in F.
  rewrite app_nil_r in F. exists d. split; [exact F|]. unfold d8_has_value. rewrite V. reflexivity.
Qed.
Print Assumptions C21_encode_decode_partial.

(** The decoder needs exactly those bytes: no proper prefix completes a code point. *)
Theorem C21_needs_all_bytes_partial cp pre post : scalar cp -> encode 1 cp = pre ++ post -> post <> [] -> pre <> [] ->
  exists d, feed_list 1 dec_init pre = Some ([], d) /\ d8_error d = false /\ d8_has_value d = false.
Proof.
  intros Hs E Hpost Hpre.
  assert (Hn : cp <> 0) by (intros ->; destruct pre; [congruence|discriminate]).
  destruct (C21_encode_decode_partial cp Hs Hn) as (_ & E8 & _). rewrite E8 in E.
  pose proof (enc8_chain 0 cp Hs) as C. rewrite E in C. clear - C Hpost Hpre.
  change {| d_state := 0; d_cp := 0 |} with dec_init in C. remember {| d_state := 0; d_cp := cp |} as d' eqn:Ed. clear Ed.
  assert (K : forall pre d0, pre <> [] -> chain 1 d0 (pre ++ post) d' -> exists d, feed_list 1 d0 pre = Some ([], d) /\ d8_error d = false /\ d8_has_value d = false).
  { clear - Hpost. induction pre as [|u pre IH]; intros d0 Hne C; [congruence|]. cbn [app] in C.
    inversion C as [? ? ? F V E1 E2 E3|? ? d1 l ? F V Er C' E1 E2 E3]; subst.
    - destruct pre; [destruct post; [congruence|discriminate]|discriminate].
    - cbn [feed_list]. rewrite F. cbn [option_bind]. destruct pre as [|u2 pre].
      + cbn [feed_list option_bind fst snd]. rewrite V. exists d1. split; [reflexivity|split; assumption].
      + destruct (IH d1 ltac:(discriminate) C') as (d & Fd & Hd). rewrite Fd. cbn [option_bind fst snd]. rewrite V. exists d. split; [reflexivity|exact Hd]. }
  exact (K pre dec_init Hpre C).
Qed.
Print Assumptions C21_needs_all_bytes_partial.

(** Sequences: encoding every scalar value of a sequence without U+0000 and decoding the concatenation. *)
Theorem C21_sequences_partial cps : Forall scalar cps -> Forall (fun c => c <> 0) cps ->
  wf_utf8 (flat_map (encode 1) cps) /\
  exists d, feed_list 1 dec_init (flat_map (encode 1) cps) = Some (cps, d) /\ d8_has_value d = true.
Proof.
  intros Hs Hn. rewrite encode_text by (try exact Hs; left; reflexivity). cbn [N.eqb Pos.eqb].
  assert (F : filter (fun c => negb (c =? 0)) cps = cps).
  { clear Hs. induction Hn as [|c l Hc Hl IH]; [reflexivity|]. cbn [filter]. apply N.eqb_neq in Hc. rewrite Hc. cbn. rewrite IH. reflexivity. }
  rewrite F. split; [apply wf_utf8_text; exists cps; split; [exact Hs|reflexivity]|].
  destruct (feed_text cps 0 Hs) as (d & E & V). exists d. split; [exact E|]. unfold d8_has_value. rewrite V. reflexivity.
Qed.
Print Assumptions C21_sequences_partial.

(** U+0000 is a scalar value whose encoding comes out empty: the view stops at the first zero unit. *)
Theorem C21_encode_nul_refuted : exists cp, scalar cp /\ encode 1 cp = [] /\ enc8 cp = [cp].
Proof. exists 0. split; [left; reflexivity|split; reflexivity]. Qed.
Print Assumptions C21_encode_nul_refuted.

Example C21_witness : scalar 0x1F600 /\ encode 1 0x1F600 = [0xF0; 0x9F; 0x98; 0x80] /\
  Forall scalar [0x41; 0x7FF; 0xFFFD; 0x10FFFF] /\ Forall (fun c => c <> 0) [0x41; 0x7FF; 0xFFFD; 0x10FFFF].
Proof. split; [unfold scalar; lia|]. split; [vm_compute; reflexivity|]. split; repeat constructor; unfold scalar; lia. Qed.

(* ================================================================ C22 *)

(** Code points of the basic multilingual plane decode.  Missing for the full claim: everything above, see below. *)
Theorem C22_utf16_bmp_partial cps : Forall scalar cps -> Forall bmp cps ->
  exists d, feed_list 2 dec_init (text 2 cps) = Some (cps, d) /\ dec_error 2 d = false.
Proof.
  intros Hs Hb. destruct (feed_text16 cps dec_init ltac:(left; reflexivity) Hs Hb) as (d & F & O).
  exists d. split; [exact F|]. cbn. unfold d16_error. destruct O as [-> | ->]; reflexivity.
Qed.
Print Assumptions C22_utf16_bmp_partial.

(** Any sequence with a code point outside the basic multilingual plane is not decoded: the decoder ends in its error
    state, or is fed while in it, and never yields the sequence. *)
Theorem C22_utf16_supplementary_exact_partial cps : Forall scalar cps -> ~ Forall bmp cps ->
  feed_list 2 dec_init (text 2 cps) = None \/
  exists vs d, feed_list 2 dec_init (text 2 cps) = Some (vs, d) /\ dec_error 2 d = true /\ vs <> cps.
Proof. exact (feed_text16_supp cps dec_init (or_introl eq_refl)). Qed.
Print Assumptions C22_utf16_supplementary_exact_partial.

Theorem C22_utf16_decoder_refuted : exists cps, Forall scalar cps /\
  ~ exists d, feed_list 2 dec_init (text 2 cps) = Some (cps, d).
Proof.
  exists [0x1F600]. split; [repeat constructor; unfold scalar; lia|]. intros (d & F). vm_compute in F. discriminate.
Qed.
Print Assumptions C22_utf16_decoder_refuted.

Example C22_witness : Forall scalar [0x41; 0x4E2D; 0xFFFD] /\ Forall bmp [0x41; 0x4E2D; 0xFFFD] /\ ~ Forall bmp [0x41; 0x1F600].
Proof.
  split; [|split]; [repeat constructor; unfold scalar; lia|repeat constructor|].
  intros H. apply Forall_cons_iff in H. destruct H as [_ H]. apply Forall_cons_iff in H. unfold bmp in H. lia.
Qed.

(* ================================================================ C23 *)

(** [run cb s evs] calls [cb] for each event in turn and stops when it says so, so this also says what happens when
    the callback stops early. *)
Theorem C23_utf_decode_forward (S : Type) (cb : S -> N -> nat -> nat -> S * bool) be schar cps s :
  Forall scalar cps -> ~ starts_with_bom cps ->
  utf_decode cb be schar 1 (text 1 cps) false s = Some (fst (run cb s (positions 1 0 cps))).
Proof. intros Hs Hb. exact (proj1 (decode8 cb be schar cps s Hs Hb)). Qed.
Print Assumptions C23_utf_decode_forward.

(** The positions really are those of the code points: the reported slices are the encodings, and concatenated in
    order they are the text. *)
Theorem C23_positions_are_slices cps : forall pre k,
  Forall (fun e => firstn (snd e) (skipn (snd (fst e)) (pre ++ text k cps)) = enc k (fst (fst e))) (positions k (length pre) cps)
  /\ map (fun e => fst (fst e)) (positions k (length pre) cps) = cps.
Proof.
  induction cps as [|cp cps IH]; intros pre k; [split; [constructor|reflexivity]|].
  cbn [positions text flat_map map fst snd]. specialize (IH (pre ++ enc k cp) k). rewrite app_length in IH. destruct IH as [IH1 IH2].
  rewrite IH2. split; [|reflexivity]. constructor.
  - cbn [fst snd]. rewrite skipn_app, skipn_all, Nat.sub_diag. cbn [app skipn].
    replace (length (enc k cp)) with (length (enc k cp) + 0)%nat by lia. rewrite firstn_app_2. apply app_nil_r.
  - rewrite <- app_assoc in IH1. exact IH1.
Qed.
Print Assumptions C23_positions_are_slices.

(** A leading byte order mark is skipped, and positions still count from the start of the string. *)
Theorem C23_utf_decode_bom (S : Type) (cb : S -> N -> nat -> nat -> S * bool) be schar cps s : Forall scalar cps ->
  utf_decode cb be schar 1 (text 1 (0xFEFF :: cps)) false s = Some (fst (run cb s (positions 1 3 cps))).
Proof. intros Hs. exact (proj1 (decode8_bom cb be schar cps s Hs)). Qed.
Print Assumptions C23_utf_decode_bom.

Definition ev (cp : N) (i n : nat) : event := (cp, i, n).
Definition log_cb (l : list event) (cp : N) (i n : nat) : list event * bool := (l ++ [(cp, i, n)], true).
Definition log2_cb (l : list event) (cp : N) (i n : nat) : list event * bool := (l ++ [(cp, i, n)], (length l <? 1)%nat).
Example C23_witness : Forall scalar [0x7A; 0xE9; 0x20AC; 0x1F600] /\ ~ starts_with_bom [0x7A; 0xE9; 0x20AC; 0x1F600] /\
  utf_decode log_cb false true 1 (text 1 [0x7A; 0xE9; 0x20AC; 0x1F600]) false []
    = Some [ev 0x7A 0 1; ev 0xE9 1 2; ev 0x20AC 3 3; ev 0x1F600 6 4] /\
  utf_decode log2_cb false true 1 (text 1 [0x7A; 0xE9; 0x20AC; 0x1F600]) false [] = Some [ev 0x7A 0 1; ev 0xE9 1 2].
Proof.
  split; [repeat constructor; unfold scalar; lia|]. split; [intros (r & E); discriminate|].
  split; vm_compute; reflexivity.
Qed.

(* ================================================================ C24 *)

Theorem C24_utf_decode_reverse (S : Type) (cb : S -> N -> nat -> nat -> S * bool) be schar cps s :
  Forall scalar cps -> ~ starts_with_bom cps ->
  utf_decode cb be schar 1 (text 1 cps) true s = Some (fst (run cb s (rev (positions 1 0 cps)))).
Proof. intros Hs Hb. exact (proj2 (decode8 cb be schar cps s Hs Hb)). Qed.
Print Assumptions C24_utf_decode_reverse.

Theorem C24_utf_decode_reverse_bom (S : Type) (cb : S -> N -> nat -> nat -> S * bool) be schar cps s : Forall scalar cps ->
  utf_decode cb be schar 1 (text 1 (0xFEFF :: cps)) true s = Some (fst (run cb s (rev (positions 1 3 cps)))).
Proof. intros Hs. exact (proj2 (decode8_bom cb be schar cps s Hs)). Qed.
Print Assumptions C24_utf_decode_reverse_bom.

Example C24_witness :
  utf_decode log_cb false true 1 (text 1 [0x7A; 0xE9; 0x20AC; 0x1F600]) true []
    = Some [ev 0x1F600 6 4; ev 0x20AC 3 3; ev 0xE9 1 2; ev 0x7A 0 1].
Proof. vm_compute. reflexivity. Qed.

(* ================================================================ C25 *)

(** UTF-32, and UTF-16 within the basic multilingual plane: with a byte order mark the text after it is decoded, in
    either byte order.  Missing for the full claim: surrogate pairs (C22) and text without a mark, see below. *)
Theorem C25_bom_partial (S : Type) (cb : S -> N -> nat -> nat -> S * bool) be schar sz cps s :
  sz = 4 \/ (sz = 2 /\ Forall bmp cps) -> Forall scalar cps ->
  utf_decode cb be schar sz (text sz (0xFEFF :: cps)) false s = Some (fst (run cb s (positions sz 1 cps))) /\
  utf_decode cb be schar sz (map (swapped sz) (text sz (0xFEFF :: cps))) false s = Some (fst (run cb s (positions sz 1 cps))).
Proof.
  intros Hsz Hs.
  assert (T : text sz (0xFEFF :: cps) = 0xFEFF :: cps).
  { destruct Hsz as [->|[-> Hb]]; [apply text4|]. apply text2_bmp. constructor; [reflexivity|exact Hb]. }
  assert (W : sz = 2 \/ sz = 4) by tauto.
  assert (U : units sz (0xFEFF :: cps)).
  { destruct Hsz as [->|[-> Hb]]; [apply units4; constructor; [right; lia|exact Hs]|constructor; [reflexivity|exact Hb]]. }
  rewrite T, positions_wide by exact Hsz. split.
  - rewrite wide_forward by (try assumption; discriminate). cbn [hd tl].
    replace (0xFEFF =? swapped sz 0xFEFF) with false by (destruct W as [-> | ->]; reflexivity). reflexivity.
  - assert (U2 : units sz (map (swapped sz) (0xFEFF :: cps))).
    { unfold units. rewrite Forall_map. eapply Forall_impl; [|exact U]. intros u Hu. apply byte_reverse_swapped; assumption. }
    rewrite wide_forward by (try assumption; discriminate). cbn [hd tl map]. rewrite N.eqb_refl.
    rewrite map_swapped_swapped; [reflexivity|exact W|]. apply Forall_cons_iff in U. apply U.
Qed.
Print Assumptions C25_bom_partial.

(** The same backwards for UTF-32. *)
Theorem C25_bom_reverse_partial (S : Type) (cb : S -> N -> nat -> nat -> S * bool) be schar cps s : Forall scalar cps ->
  utf_decode cb be schar 4 (text 4 (0xFEFF :: cps)) true s = Some (fst (run cb s (rev (positions 4 1 cps)))) /\
  utf_decode cb be schar 4 (map (swapped 4) (text 4 (0xFEFF :: cps))) true s = Some (fst (run cb s (rev (positions 4 1 cps)))).
Proof.
  intros Hs. assert (U : units 4 (0xFEFF :: cps)) by (apply units4; constructor; [right; lia|exact Hs]).
  rewrite text4, positions_wide by (left; reflexivity). split.
  - rewrite wide_backward4 by (try assumption; discriminate). reflexivity.
  - assert (U2 : units 4 (map (swapped 4) (0xFEFF :: cps))).
    { unfold units. rewrite Forall_map. eapply Forall_impl; [|exact U]. intros u Hu. apply byte_reverse_swapped; [right; reflexivity|exact Hu]. }
    rewrite wide_backward4 by (try assumption; discriminate). cbn [hd tl map]. rewrite N.eqb_refl.
    rewrite map_swapped_swapped; [reflexivity|right; reflexivity|]. apply Forall_cons_iff in U. apply U.
Qed.
Print Assumptions C25_bom_reverse_partial.

(** Any UTF-16 or UTF-32 string, exactly: every unit after the mark is reported as a code point of its own; without a
    mark the byte order is guessed from the zero bytes of the first sixteen units. *)
Theorem C25_wide_exact_partial (S : Type) (cb : S -> N -> nat -> nat -> S * bool) be schar sz u l s :
  sz = 2 \/ sz = 4 -> units sz (u :: l) ->
  utf_decode cb be schar sz (u :: l) false s =
  Some (fst (run cb s
    (if u =? swapped sz 0xFEFF then unit_events 1 (map (swapped sz) l)
     else if u =? 0xFEFF then unit_events 1 l
     else unit_events 0 (if looks_native be sz (u :: l) then u :: l else map (swapped sz) (u :: l))))).
Proof. intros Hsz Hu. apply wide_forward; [exact Hsz|exact Hu|discriminate]. Qed.
Print Assumptions C25_wide_exact_partial.

(** On a little-endian machine, UTF-32 text without a mark is decoded as it is exactly when one of its first sixteen
    code points has a non-zero low byte ... *)
Theorem C25_utf32_native_partial (S : Type) (cb : S -> N -> nat -> nat -> S * bool) schar cps s :
  Forall scalar cps -> ~ starts_with_bom cps -> Exists (fun c => c mod 256 <> 0) (firstn 16 cps) ->
  utf_decode cb false schar 4 (text 4 cps) false s = Some (fst (run cb s (positions 4 0 cps))).
Proof.
  intros Hs Hb He. assert (Hne : cps <> []) by (intros ->; inversion He).
  rewrite text4, positions_wide by (left; reflexivity).
  rewrite wide_forward by (try exact Hne; try (apply units4, Hs); right; reflexivity).
  rewrite looks_native4 by assumption.
  replace (existsb (fun c => negb (c mod 256 =? 0)) (firstn 16 cps)) with true.
  - destruct cps as [|c r]; [congruence|]. cbn [hd]. apply Forall_cons_iff in Hs. destruct Hs as [Hc Hs].
    destruct (scalar_not_swapped_bom 4 c ltac:(right; reflexivity) Hc) as [[_ E]| ->]; [discriminate|].
    destruct (N.eqb_spec c 0xFEFF) as [->|_]; [exfalso; apply Hb; exists r; reflexivity|]. reflexivity.
  - symmetry. apply existsb_exists. apply Exists_exists in He. destruct He as (x & Hx & Hz). exists x. split; [exact Hx|].
    apply N.eqb_neq in Hz. rewrite Hz. reflexivity.
Qed.
Print Assumptions C25_utf32_native_partial.

(** ... and UTF-16 text of the basic multilingual plane when more of the first sixteen units have a zero high byte
    than a zero low byte (ASCII and Latin-1 text without U+0000, for example). *)
Theorem C25_utf16_native_partial (S : Type) (cb : S -> N -> nat -> nat -> S * bool) schar c cps s :
  Forall bmp (c :: cps) -> c <> 0xFEFF -> c <> 0xFFFE -> (low_zeros (c :: cps) < high_zeros 2 (c :: cps))%nat ->
  utf_decode cb false schar 2 (text 2 (c :: cps)) false s = Some (fst (run cb s (positions 2 0 (c :: cps)))).
Proof.
  intros Hb H1 H2 Hz. rewrite text2_bmp by exact Hb. rewrite positions_wide by (right; split; [reflexivity|exact Hb]).
  rewrite wide_forward by (try exact Hb; try discriminate; left; reflexivity). cbn [hd].
  change (swapped 2 0xFEFF) with 0xFFFE. apply N.eqb_neq in H1, H2. rewrite H1, H2.
  unfold looks_native. apply Nat.ltb_lt in Hz. rewrite Hz. reflexivity.
Qed.
Print Assumptions C25_utf16_native_partial.

(** Text in native byte order without a mark is not always decoded as it is: U+4E2D in UTF-16, U+0100 in UTF-32. *)
Theorem C25_native_refuted : exists sz cps, (sz = 2 \/ sz = 4) /\ Forall scalar cps /\ Forall bmp cps /\ ~ has_bom sz (text sz cps) /\
  utf_decode log_cb false false sz (text sz cps) false [] <> Some (positions sz 0 cps).
Proof.
  exists 2, [0x4E2D; 0x6587]. split; [left; reflexivity|]. split; [repeat constructor; unfold scalar; lia|].
  split; [repeat constructor|]. split; [intros (r & [E|E]); vm_compute in E; discriminate|]. vm_compute. discriminate.
Qed.
Print Assumptions C25_native_refuted.
Theorem C25_native32_refuted : exists cps, Forall scalar cps /\ ~ starts_with_bom cps /\
  utf_decode log_cb false false 4 (text 4 cps) false [] <> Some (positions 4 0 cps).
Proof.
  exists [0x100]. split; [repeat constructor; unfold scalar; lia|].
  split; [intros (r & E); discriminate|]. vm_compute. discriminate.
Qed.
Print Assumptions C25_native32_refuted.

Example C25_witness : Forall scalar [0x48; 0x4E2D] /\ Forall bmp [0x48; 0x4E2D] /\
  utf_decode log_cb false false 2 (map (swapped 2) (text 2 [0xFEFF; 0x48; 0x4E2D])) false [] = Some [ev 0x48 1 1; ev 0x4E2D 2 1] /\
  Nat.lt (low_zeros [0x48; 0x69; 0x4E2D]%N) (high_zeros 2 [0x48; 0x69; 0x4E2D]%N) /\
  Exists (fun c => c mod 256 <> 0) (firstn 16 [0x100; 0x1F600; 0x41]).
Proof.
  split; [repeat constructor; unfold scalar; lia|]. split; [repeat constructor|]. split; [vm_compute; reflexivity|].
  split; [vm_compute; lia|]. right. right. left. discriminate.
Qed.

(* ================================================================ C26 *)

(** From UTF-8: the target encoding of the same code points, except that U+0000 is dropped when the target is UTF-16. *)
Theorem C26_from_utf8_partial be schar to cps : to = 2 \/ to = 4 -> Forall scalar cps -> ~ starts_with_bom cps ->
  utf_transcode be schar 1 to (text 1 cps) = Some (text to (if to =? 4 then cps else filter (fun c => negb (c =? 0)) cps)).
Proof. exact (transcode8 be schar to cps). Qed.
Print Assumptions C26_from_utf8_partial.

(** Between types of the same size the units are kept as they are, valid or not. *)
Theorem C26_same be schar size units : utf_transcode be schar size size units = Some units.
Proof. destruct units as [|u l]; [reflexivity|]. unfold utf_transcode. rewrite N.eqb_refl. reflexivity. Qed.
Print Assumptions C26_same.
Example C26_same_witness : utf_transcode true false 1 1 [0xC3; 0x28] = Some [0xC3; 0x28].
Proof. reflexivity. Qed.

(** From UTF-32, without U+0000. *)
Theorem C26_from_utf32_partial schar to cps : to = 1 \/ to = 2 -> Forall scalar cps -> ~ starts_with_bom cps ->
  Exists (fun c => c mod 256 <> 0) (firstn 16 cps) ->
  utf_transcode false schar 4 to (text 4 cps) = Some (text to (filter (fun c => negb (c =? 0)) cps)).
Proof.
  intros Ht Hs Hb He. assert (Hne : cps <> []) by (intros ->; inversion He). rewrite text4.
  rewrite transcode_wide; [|right; reflexivity|destruct Ht as [-> | ->]; discriminate|apply units4, Hs|exact Hne].
  rewrite looks_native4 by assumption.
  replace (existsb (fun c => negb (c mod 256 =? 0)) (firstn 16 cps)) with true.
  - assert (E : (hd 0 cps =? swapped 4 0xFEFF) = false /\ (hd 0 cps =? 0xFEFF) = false).
    { destruct cps as [|c r]; [congruence|]. cbn [hd]. apply Forall_cons_iff in Hs. destruct Hs as [Hc _].
      destruct (scalar_not_swapped_bom 4 c ltac:(right; reflexivity) Hc) as [[_ E]|E]; [discriminate|]. split; [exact E|].
      destruct (N.eqb_spec c 0xFEFF) as [->|_]; [exfalso; apply Hb; exists r; reflexivity|reflexivity]. }
    destruct E as [-> ->]. rewrite encode_text; [|unfold unit_size; tauto|exact Hs].
    replace (to =? 4) with false by (destruct Ht as [-> | ->]; reflexivity). reflexivity.
  - symmetry. apply existsb_exists. apply Exists_exists in He. destruct He as (x & Hx & Hz). exists x. split; [exact Hx|].
    apply N.eqb_neq in Hz. rewrite Hz. reflexivity.
Qed.
Print Assumptions C26_from_utf32_partial.

(** From UTF-16 within the basic multilingual plane, when the byte order guess is right. *)
Theorem C26_from_utf16_partial schar to c cps : to = 1 \/ to = 4 -> Forall scalar (c :: cps) -> Forall bmp (c :: cps) ->
  c <> 0xFEFF -> c <> 0xFFFE -> (low_zeros (c :: cps) < high_zeros 2 (c :: cps))%nat ->
  utf_transcode false schar 2 to (text 2 (c :: cps))
  = Some (text to (if to =? 4 then c :: cps else filter (fun c => negb (c =? 0)) (c :: cps))).
Proof.
  intros Ht Hs Hb H1 H2 Hz. rewrite text2_bmp by exact Hb.
  rewrite transcode_wide; [|left; reflexivity|destruct Ht as [-> | ->]; discriminate|exact Hb|discriminate].
  cbn [hd]. change (swapped 2 0xFEFF) with 0xFFFE. apply N.eqb_neq in H1, H2. rewrite H1, H2.
  unfold looks_native. apply Nat.ltb_lt in Hz. rewrite Hz. rewrite encode_text; [reflexivity|unfold unit_size; tauto|exact Hs].
Qed.
Print Assumptions C26_from_utf16_partial.

Lemma filter_nonzero cps : Forall (fun c => c <> 0) cps -> filter (fun c => negb (c =? 0)) cps = cps.
Proof. induction 1 as [|c l Hc Hl IH]; [reflexivity|]. cbn [filter]. apply N.eqb_neq in Hc. rewrite Hc. cbn. rewrite IH. reflexivity. Qed.

(** There and back. *)
Theorem C26_roundtrip_8_32_partial schar cps : Forall scalar cps -> ~ starts_with_bom cps -> Forall (fun c => c <> 0) cps ->
  Exists (fun c => c mod 256 <> 0) (firstn 16 cps) ->
  exists m, utf_transcode false schar 1 4 (text 1 cps) = Some m /\ utf_transcode false schar 4 1 m = Some (text 1 cps).
Proof.
  intros Hs Hb Hn He. exists (text 4 cps). split; [apply (C26_from_utf8_partial false schar 4 cps (or_intror eq_refl) Hs Hb)|].
  rewrite (C26_from_utf32_partial schar 1 cps (or_introl eq_refl) Hs Hb He), filter_nonzero by exact Hn. reflexivity.
Qed.
Print Assumptions C26_roundtrip_8_32_partial.

Theorem C26_roundtrip_8_16_partial schar c cps : Forall scalar (c :: cps) -> Forall bmp (c :: cps) -> Forall (fun c => c <> 0) (c :: cps) ->
  c <> 0xFEFF -> c <> 0xFFFE -> (low_zeros (c :: cps) < high_zeros 2 (c :: cps))%nat ->
  exists m, utf_transcode false schar 1 2 (text 1 (c :: cps)) = Some m /\ utf_transcode false schar 2 1 m = Some (text 1 (c :: cps)).
Proof.
  intros Hs Hb Hn H1 H2 Hz. exists (text 2 (c :: cps)). split.
  - rewrite (C26_from_utf8_partial false schar 2 (c :: cps) (or_introl eq_refl) Hs) by (intros (r & [= E _]); congruence).
    rewrite filter_nonzero by exact Hn. reflexivity.
  - rewrite (C26_from_utf16_partial schar 1 c cps (or_introl eq_refl) Hs Hb H1 H2 Hz).
    rewrite filter_nonzero by exact Hn. reflexivity.
Qed.
Print Assumptions C26_roundtrip_8_16_partial.

(** Where it fails: U+0000, and a surrogate pair, which comes out as two three-byte sequences that are not UTF-8. *)
Theorem C26_nul_refuted : exists cps, Forall scalar cps /\ ~ starts_with_bom cps /\
  utf_transcode false false 1 2 (text 1 cps) <> Some (text 2 cps).
Proof.
  exists [0x41; 0; 0x42]. split; [repeat constructor; unfold scalar; lia|]. split; [intros (r & E); discriminate|].
  vm_compute. discriminate.
Qed.
Print Assumptions C26_nul_refuted.
Theorem C26_surrogates_refuted : exists cps out, Forall scalar cps /\ ~ starts_with_bom cps /\
  utf_transcode false false 2 1 (text 2 cps) = Some out /\ ~ wf_utf8 out /\ out <> text 1 cps.
Proof.
  exists [0x41; 0x1F601], [0x41; 0xED; 0xA0; 0xBD; 0xED; 0xB8; 0x81]. split; [repeat constructor; unfold scalar; lia|].
  split; [intros (r & E); discriminate|]. split; [vm_compute; reflexivity|]. split; [|discriminate].
  intros W. apply C20_utf8_decoder_accepts_exactly_wellformed in W; [|repeat constructor].
  destruct W as (vs & d & F & V). vm_compute in F. discriminate.
Qed.
Print Assumptions C26_surrogates_refuted.

Example C26_witness : Forall scalar [0x48; 0xE9; 0x1F600] /\ ~ starts_with_bom [0x48; 0xE9; 0x1F600] /\
  Forall (fun c => c <> 0) [0x48; 0xE9; 0x1F600] /\ Exists (fun c => c mod 256 <> 0) (firstn 16 [0x48; 0xE9; 0x1F600]) /\
  utf_transcode false true 1 2 (text 1 [0x48; 0xE9; 0x1F600]) = Some [0x48; 0xE9; 0xD83D; 0xDE00].
Proof.
  split; [repeat constructor; unfold scalar; lia|]. split; [intros (r & E); discriminate|].
  split; [repeat constructor; discriminate|]. split; [left; discriminate|]. vm_compute. reflexivity.
Qed.

(* ================================================================ C27 *)

(** For any notion of whitespace [ws].  The results are encodings of contiguous subsequences, hence views. *)
Theorem C27_trim_left_partial be schar ws cps : Forall scalar cps -> ~ starts_with_bom cps ->
  predicated_trim_left be schar 1 (fun c => negb (ws c)) (text 1 cps) = Some (text 1 (drop_while ws cps)).
Proof. intros Hs Hb. exact (trim_left_ok be schar ws cps 0 [] (or_introl (conj eq_refl (conj eq_refl Hb))) Hs). Qed.
Print Assumptions C27_trim_left_partial.

Theorem C27_trim_right_partial be schar ws cps : Forall scalar cps -> ~ starts_with_bom cps ->
  predicated_trim_right be schar 1 (fun c => negb (ws c)) (text 1 cps) = Some (text 1 (drop_end ws cps)).
Proof.
  intros Hs Hb. pose proof (trim_right_ok be schar ws cps 0 [] (or_introl (conj eq_refl (conj eq_refl Hb))) Hs) as R.
  cbn [app] in R. rewrite R. destruct (drop_end ws cps); reflexivity.
Qed.
Print Assumptions C27_trim_right_partial.

Theorem C27_trim_partial be schar ws cps : Forall scalar cps -> ~ starts_with_bom cps ->
  predicated_trim be schar 1 (fun c => negb (ws c)) (text 1 cps) = Some (text 1 (drop_end ws (drop_while ws cps))).
Proof. intros Hs Hb. exact (trim_ok be schar ws cps 0 [] (or_introl (conj eq_refl (conj eq_refl Hb))) Hs). Qed.
Print Assumptions C27_trim_partial.

(** Text that starts with a byte order mark: [trim] and [trim_left] strip it along with the whitespace after it,
    [trim_right] keeps it. *)
Theorem C27_trim_bom_partial be schar ws cps : Forall scalar cps ->
  predicated_trim_left be schar 1 (fun c => negb (ws c)) (text 1 (0xFEFF :: cps)) = Some (text 1 (drop_while ws cps)) /\
  predicated_trim be schar 1 (fun c => negb (ws c)) (text 1 (0xFEFF :: cps)) = Some (text 1 (drop_end ws (drop_while ws cps))) /\
  predicated_trim_right be schar 1 (fun c => negb (ws c)) (text 1 (0xFEFF :: cps)) =
    Some (match drop_end ws cps with [] => [] | k => text 1 (0xFEFF :: k) end).
Proof.
  intros Hs. pose (H := or_intror (conj eq_refl eq_refl) : 3%nat = 0%nat /\ [0xFEFF] = [] /\ ~ starts_with_bom cps \/ 3%nat = 3%nat /\ [0xFEFF] = [0xFEFF]).
  split; [exact (trim_left_ok be schar ws cps 3 [0xFEFF] H Hs)|].
  split; [exact (trim_ok be schar ws cps 3 [0xFEFF] H Hs)|].
  pose proof (trim_right_ok be schar ws cps 3 [0xFEFF] H Hs) as R. cbn [app] in R. rewrite R. destruct (drop_end ws cps); reflexivity.
Qed.
Print Assumptions C27_trim_bom_partial.

(** Trimming twice changes nothing, provided the trimmed text does not start with U+FEFF. *)
Theorem C27_trim_idempotent_partial be schar ws cps once : Forall scalar cps -> ~ starts_with_bom cps ->
  predicated_trim be schar 1 (fun c => negb (ws c)) (text 1 cps) = Some once ->
  ~ starts_with_bom (drop_end ws (drop_while ws cps)) ->
  predicated_trim be schar 1 (fun c => negb (ws c)) once = Some once.
Proof.
  intros Hs Hb. rewrite (C27_trim_partial be schar ws cps Hs Hb). intros [= <-] Hb2.
  rewrite C27_trim_partial; [rewrite drop_end_drop_while_idem; reflexivity| |exact Hb2].
  destruct (drop_while_split ws cps) as (pre & E & _). destruct (drop_end_split ws (drop_while ws cps)) as (post & E2 & _).
  rewrite E in Hs. apply Forall_app in Hs. destruct Hs as [_ Hs]. rewrite E2 in Hs. apply Forall_app in Hs. apply Hs.
Qed.
Print Assumptions C27_trim_idempotent_partial.

(** Without that proviso it can: the inner mark becomes a leading one. *)
Theorem C27_trim_idempotent_refuted : exists ws cps once twice, Forall scalar cps /\ ~ starts_with_bom cps /\
  predicated_trim false false 1 (fun c => negb (ws c)) (text 1 cps) = Some once /\
  predicated_trim false false 1 (fun c => negb (ws c)) once = Some twice /\ twice <> once.
Proof.
  exists (fun c => c =? 0x20), [0x20; 0xFEFF; 0x20; 0x78], (text 1 [0xFEFF; 0x20; 0x78]), (text 1 [0x78]).
  split; [repeat constructor; unfold scalar; lia|]. split; [intros (r & E); discriminate|].
  split; [vm_compute; reflexivity|]. split; [vm_compute; reflexivity|]. vm_compute. discriminate.
Qed.
Print Assumptions C27_trim_idempotent_refuted.

(** [drop_while] and [drop_end] remove the longest run: what they leave starts / ends with a non-space, and what they
    removed was all space. *)
Theorem C27_maximal ws l :
  (exists pre, l = pre ++ drop_while ws l /\ Forall (fun c => ws c = true) pre /\
    (drop_while ws l = [] \/ exists c r, drop_while ws l = c :: r /\ ws c = false)) /\
  (exists post, l = drop_end ws l ++ post /\ Forall (fun c => ws c = true) post /\
    (drop_end ws l = [] \/ exists a c, drop_end ws l = a ++ [c] /\ ws c = false)).
Proof.
  split; [|exact (drop_end_split ws l)]. destruct (drop_while_split ws l) as (pre & E & F & H). exists pre. split; [exact E|]. split; [exact F|].
  destruct (drop_while ws l) as [|c r]; [left; reflexivity|right; exists c, r; split; [reflexivity|exact H]].
Qed.
Print Assumptions C27_maximal.

Example C27_witness : Forall scalar [0x20; 0x3000; 0x1F600; 0x20; 0x78; 0x20] /\ ~ starts_with_bom [0x20; 0x3000; 0x1F600; 0x20; 0x78; 0x20] /\
  predicated_trim false true 1 (fun c => negb ((c =? 0x20) || (c =? 0x3000))) (text 1 [0x20; 0x3000; 0x1F600; 0x20; 0x78; 0x20])
  = Some (text 1 [0x1F600; 0x20; 0x78]) /\ ~ starts_with_bom [0x1F600; 0x20; 0x78].
Proof.
  split; [repeat constructor; unfold scalar; lia|]. split; [intros (r & E); discriminate|].
  split; [vm_compute; reflexivity|intros (r & E); discriminate].
Qed.

(* ================================================================ C70 *)

(** On every string of code units, valid or not and in both directions, [utf_decode] is defined and makes one fixed
    sequence of calls (which a callback that stops early merely cuts short). *)
Theorem C70_utf_decode_total be schar sz str reverse : sz = 1 \/ sz = 2 \/ sz = 4 -> units sz str ->
  exists evs, forall (S : Type) (cb : S -> N -> nat -> nat -> S * bool) s,
    utf_decode cb be schar sz str reverse s = Some (fst (run cb s evs)).
Proof. exact (decode_total be schar sz str reverse). Qed.
Print Assumptions C70_utf_decode_total.

(** Forwards over UTF-8 the reported slices tile the string from its start (or from behind a byte order mark) to its
    end, except for an incomplete sequence of at most three bytes at the very end, which is not reported. *)
Theorem C70_utf8_forward_tiles be schar str : Forall (fun u => u < 256) str ->
  exists evs start j, covers start evs j /\ (start = 0 \/ start = 3)%nat /\ (j <= length str <= j + 3)%nat /\
    forall (S : Type) (cb : S -> N -> nat -> nat -> S * bool) s,
    utf_decode cb be schar 1 str false s = Some (fst (run cb s evs)).
Proof. exact (decode8_tiles be schar str). Qed.
Print Assumptions C70_utf8_forward_tiles.

Example C70_witness : Forall (fun u => u < 256) [0x41; 0xE2; 0x82; 0x41; 0xFF; 0xF0; 0x9F; 0x98] /\
  utf_decode log_cb false false 1 [0x41; 0xE2; 0x82; 0x41; 0xFF; 0xF0; 0x9F; 0x98] false []
  = Some [ev 0x41 0 1; ev 0xE2 1 1; ev 0x82 2 1; ev 0x41 3 1; ev 0xFF 4 1].
Proof. split; [repeat constructor|vm_compute; reflexivity]. Qed.
