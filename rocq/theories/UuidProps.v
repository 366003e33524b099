(** Properties C33-C36: uuid.  [be] is the byte order of the machine, [schar] whether [char] is signed, [sz] the size of
    the character type. *)
From Coq Require Import Lia ZifyBool ZifyNat ZifyN.
From Verif Require Import Words BitsModel CoreModel UtfModel UtfSpec UtfProofs2 HashModel HashSpec HashProofs2.
From Verif Require Import UuidModel UuidSpec UuidProofs UuidProofs2 UuidProofs3.
Local Open Scope N_scope.
Ltac Zify.zify_post_hook ::= idtac.

Definition sample : list N := [0x6B; 0xA7; 0xB8; 0x10; 0x9D; 0xAD; 0x11; 0xD1; 0x80; 0xB4; 0x00; 0xC0; 0x4F; 0xD4; 0x30; 0xC8].
Lemma sample_ok : uuid_ok sample.
Proof. split; [repeat constructor|reflexivity]. Qed.

(* ------------------------------------------------------------------------ C33 *)

(** What is printed is the canonical form, 8-4-4-4-12, in upper case. *)
Theorem C33_print cw id : 8 <= cw -> uuid_ok id -> uuid_print cw id = canonical (fun _ => true) id.
Proof. apply print_canonical. Qed.
Print Assumptions C33_print.

(** Parsing what was printed gives the uuid back, on strings of [char]. *)
Theorem C33_round_trip be schar cw id : 8 <= cw -> uuid_ok id -> uuid_parse be schar 1 (uuid_print cw id) = Some (Some id).
Proof.
  intros Hcw Hid. rewrite print_canonical by assumption. pose proof (canonical_octets (fun _ => true) id Hid) as T.
  pose proof (ut_plain id [] _ [] (proj2 Hid) T (Forall_nil _) (Forall_nil _)) as U. cbn [app] in U. rewrite app_nil_r in U.
  apply parse8; [apply ascii_units; [apply (uuid_text_props _ _ U)|left; reflexivity]|].
  exists [], (canonical (fun _ => true) id), []. rewrite app_nil_r. split; [reflexivity|]. split; [left; reflexivity|]. split; [exact U|left; reflexivity].
Qed.
Print Assumptions C33_round_trip.

(** ... in any mixture of upper and lower case, with or without braces, and with white space around. *)
Theorem C33_case_and_braces be schar up id w1 w2 w3 w4 : uuid_ok id ->
  Forall blank w1 -> Forall blank w2 -> Forall blank w3 -> Forall blank w4 ->
  uuid_parse be schar 1 (canonical up id) = Some (Some id) /\
  uuid_parse be schar 1 (w1 ++ canonical up id ++ w2) = Some (Some id) /\
  uuid_parse be schar 1 ([0x7B] ++ canonical up id ++ [0x7D]) = Some (Some id) /\
  uuid_parse be schar 1 (w1 ++ [0x7B] ++ w2 ++ canonical up id ++ w3 ++ [0x7D] ++ w4) = Some (Some id).
Proof.
  intros Hid H1 H2 H3 H4. pose proof (canonical_octets up id Hid) as T.
  assert (P : forall t, uuid_text id t -> uuid_parse be schar 1 t = Some (Some id)).
  { intros t U. apply parse8; [apply ascii_units; [apply (uuid_text_props _ _ U)|left; reflexivity]|].
    exists [], t, []. rewrite app_nil_r. split; [reflexivity|]. split; [left; reflexivity|]. split; [exact U|left; reflexivity]. }
  split; [|split; [|split]]; apply P.
  - pose proof (ut_plain id [] _ [] (proj2 Hid) T (Forall_nil _) (Forall_nil _)) as U. cbn [app] in U. rewrite app_nil_r in U. exact U.
  - apply ut_plain; try assumption. apply Hid.
  - apply (ut_braced id [] [] (canonical up id) [] []); try constructor; try assumption. apply Hid.
  - apply ut_braced; try assumption. apply Hid.
Qed.
Print Assumptions C33_case_and_braces.

(** Whatever string is parsed, exchanging upper and lower case letters does not change the outcome. *)
Theorem C33_case_insensitive be schar str str' u : units 1 str -> Forall2 same_letter str str' ->
  uuid_parse be schar 1 str = Some (Some u) -> uuid_parse be schar 1 str' = Some (Some u).
Proof.
  intros Hu F H. apply parse8 in H; [|exact Hu]. destruct H as (b & t & r & -> & Hb & T & Hr).
  assert (Hu' : units 1 str').
  { unfold units in *. change (2 ^ (8 * 1)) with 256 in *. clear - Hu F. revert str' F.
    generalize dependent (b ++ t ++ r). intros l. induction l as [|c l IH]; intros Hu str' F; inversion F as [|? c' ? l' Hc Hl]; subst; [constructor|].
    apply Forall_cons_iff in Hu. constructor; [|apply IH; [apply Hu|exact Hl]]. destruct Hc as [<-|(k & Hk & H)]; [apply Hu|lia]. }
  apply parse8; [exact Hu'|].
  assert (Hi : forall l l', Forall (fun c => 128 <= c) l -> Forall2 same_letter l l' -> l' = l).
  { clear. intros l l' H F. induction F as [|c c' l l' Hc F IH]; [reflexivity|]. apply Forall_cons_iff in H. rewrite IH by apply H.
    destruct Hc as [<-|(k & Hk & K)]; [reflexivity|lia]. }
  apply Forall2_app_inv_l in F. destruct F as (b' & x & Fb & F & ->). apply Forall2_app_inv_l in F. destruct F as (t' & r' & Ft & Fr & ->).
  exists b', t', r'. split; [reflexivity|].
  assert (b' = b) as ->. { apply Hi; [|exact Fb]. destruct Hb as [->| ->]; repeat (apply Forall_cons; [lia|]); apply Forall_nil. }
  assert (r' = r) as ->. { apply Hi; [|exact Fr]. destruct Hr as [->|Hr]; [constructor|]. eapply Forall_impl; [|apply (cut_high _ Hr)]. cbn beta. intros; lia. }
  split; [exact Hb|]. split; [apply (same_text _ _ T _ Ft)|exact Hr].
Qed.
Print Assumptions C33_case_insensitive.

(** The same on strings of 2- or 4-byte characters on a little-endian machine, or after a byte order mark. *)
Theorem C33_round_trip_wide be schar sz up id : sz = 2 \/ sz = 4 -> uuid_ok id ->
  (be = false -> uuid_parse be schar sz (canonical up id) = Some (Some id)) /\
  uuid_parse be schar sz (0xFEFF :: canonical up id) = Some (Some id) /\
  uuid_parse be schar sz (map (swapped sz) (0xFEFF :: canonical up id)) = Some (Some id).
Proof.
  intros Hs Hid. pose proof (canonical_octets up id Hid) as T.
  pose proof (ut_plain id [] _ [] (proj2 Hid) T (Forall_nil _) (Forall_nil _)) as U. cbn [app] in U. rewrite app_nil_r in U.
  destruct (uuid_text_props _ _ U) as [_ A]. assert (Su : unit_size sz) by (unfold unit_size; tauto).
  pose proof (ascii_units sz _ A Su) as Hu.
  assert (Hm : units sz (0xFEFF :: canonical up id)) by (constructor; [destruct Hs as [-> | ->]; reflexivity|exact Hu]).
  split; [|split].
  - intros ->. apply parse_wide; [exact Hs|exact Hu|]. rewrite ascii_read by assumption. exact U.
  - apply parse_wide; [exact Hs|exact Hm|]. rewrite mark_read by exact Hs. exact U.
  - apply parse_wide; [exact Hs| |].
    + unfold units in *. rewrite Forall_map. eapply Forall_impl; [|exact Hm]. intros c Hc. apply byte_reverse_swapped; assumption.
    + rewrite swapped_mark_read by assumption. exact U.
Qed.
Print Assumptions C33_round_trip_wide.

(** On a big-endian machine it fails for every uuid: the text is taken to be byte-swapped. *)
Theorem C33_round_trip_wide_big_endian_refuted schar sz up id : sz = 2 \/ sz = 4 -> uuid_ok id ->
  uuid_parse true schar sz (canonical up id) = Some None.
Proof.
  intros Hs Hid. pose proof (canonical_octets up id Hid) as T.
  pose proof (ut_plain id [] _ [] (proj2 Hid) T (Forall_nil _) (Forall_nil _)) as U. cbn [app] in U. rewrite app_nil_r in U.
  destruct (uuid_text_props _ _ U) as [L A]. assert (Su : unit_size sz) by (unfold unit_size; tauto).
  pose proof (ascii_units sz _ A Su) as Hu. destruct (parse_total true schar sz _ Su Hu) as ([u|] & E); [exfalso|exact E].
  apply parse_wide in E; [|exact Hs|exact Hu]. rewrite ascii_read in E by assumption. apply uuid_text_props in E. destruct E as [_ E].
  destruct (canonical up id) as [|c t]; [cbn in L; lia|]. cbn [map] in E. apply Forall_cons_iff in E, A. destruct E as [E _], A as [A _].
  pose proof (proj2 (ascii_swapped sz c Hs A)). lia.
Qed.
Print Assumptions C33_round_trip_wide_big_endian_refuted.

Example C33_witness : uuid_ok sample /\ Forall2 same_letter [0x61; 0x46; 0x30] [0x41; 0x66; 0x30] /\
  uuid_print 8 sample = [0x36; 0x42; 0x41; 0x37; 0x42; 0x38; 0x31; 0x30; 0x2D; 0x39; 0x44; 0x41; 0x44; 0x2D; 0x31; 0x31; 0x44; 0x31; 0x2D;
    0x38; 0x30; 0x42; 0x34; 0x2D; 0x30; 0x30; 0x43; 0x30; 0x34; 0x46; 0x44; 0x34; 0x33; 0x30; 0x43; 0x38].
Proof.
  split; [exact sample_ok|]. split; [|reflexivity]. constructor; [right; exists 0; lia|]. constructor; [right; exists 5; lia|]. constructor; [left; reflexivity|constructor].
Qed.

(* ------------------------------------------------------------------------ C34 *)

(** On strings of [char], a value is returned exactly when the string is a uuid text, possibly after a byte order mark
    and possibly followed by the beginning of a UTF-8 sequence that the string breaks off. *)
Theorem C34_parse_exact be schar str u : units 1 str ->
  uuid_parse be schar 1 str = Some (Some u) <->
  exists b t r, str = b ++ t ++ r /\ (b = [] \/ b = bom) /\ uuid_text u t /\ (r = [] \/ cut_short r).
Proof. apply parse8. Qed.
Print Assumptions C34_parse_exact.

(** The digits in the input are exactly the digits of the result, in order, and the result is sixteen bytes. *)
Theorem C34_digits be schar str u : units 1 str -> uuid_parse be schar 1 str = Some (Some u) ->
  hex_values str = nibbles u /\ length (hex_values str) = 32%nat /\ length u = 16%nat.
Proof.
  intros Hu H. apply parse8 in H; [|exact Hu]. destruct H as (b & t & r & -> & Hb & T & Hr). destruct (text_nibbles u t T) as [E L].
  assert (Eh : hex_values (b ++ t ++ r) = nibbles u).
  { rewrite !hex_values_app, E. assert (hex_values b = []) as -> by (destruct Hb as [->| ->]; reflexivity).
    assert (hex_values r = []) as ->; [|cbn [app]; apply app_nil_r]. destruct Hr as [->|Hr]; [reflexivity|].
    apply hex_values_none. eapply Forall_impl; [|apply (cut_high _ Hr)]. intros c Hc. apply high_not_hex. apply Hc. }
  split; [exact Eh|]. split; [|exact L]. rewrite Eh. clear - L. elems u L. reflexivity.
Qed.
Print Assumptions C34_digits.

(** On strings of 2- or 4-byte characters: exactly the uuid texts. *)
Theorem C34_parse_exact_wide be schar sz str u : sz = 2 \/ sz = 4 -> units sz str ->
  uuid_parse be schar sz str = Some (Some u) <-> uuid_text u (as_read be sz str).
Proof. apply parse_wide. Qed.
Print Assumptions C34_parse_exact_wide.

(** [parse] never runs into undefined behaviour, whatever the string. *)
Theorem C34_parse_total be schar sz str : unit_size sz -> units sz str -> exists o, uuid_parse be schar sz str = Some o.
Proof. apply parse_total. Qed.
Print Assumptions C34_parse_total.

(** Strings that are not uuid texts but parse: a UTF-8 sequence broken off at the end is overlooked, for every uuid. *)
Theorem C34_malformed_refuted be schar up id : uuid_ok id ->
  uuid_parse be schar 1 (canonical up id ++ [0xE4; 0xB8]) = Some (Some id) /\ ~ uuid_text id (canonical up id ++ [0xE4; 0xB8]).
Proof.
  intros Hid. pose proof (canonical_octets up id Hid) as T.
  pose proof (ut_plain id [] _ [] (proj2 Hid) T (Forall_nil _) (Forall_nil _)) as U. cbn [app] in U. rewrite app_nil_r in U.
  split.
  - apply parse8.
    + unfold units. apply Forall_app. split; [apply ascii_units; [apply (uuid_text_props _ _ U)|left; reflexivity]|repeat constructor].
    + exists [], (canonical up id), [0xE4; 0xB8]. split; [reflexivity|]. split; [left; reflexivity|]. split; [exact U|]. right.
      split; [discriminate|]. exists [0xAD]. split; [discriminate|]. apply wf3b; unfold rng; lia.
  - intros K. apply uuid_text_props in K. destruct K as [_ K]. rewrite Forall_app, Forall_cons_iff in K. lia.
Qed.
Print Assumptions C34_malformed_refuted.

Example C34_witness : exists w, Forall separator w /\ w <> [] /\ uuid_parse false true 1 (w ++ uuid_print 8 sample) = Some None /\
  uuid_parse false true 1 (removelast (uuid_print 8 sample)) = Some None /\ uuid_parse false true 1 (uuid_print 8 sample ++ [0x7D]) = Some None.
Proof. exists [0x2D]. split; [repeat constructor|]. split; [discriminate|]. vm_compute. repeat split. Qed.

(* ------------------------------------------------------------------------ C35 *)

(** Sixteen numbers from the random source: version 4 and the RFC 4122 variant, as the accessors report them, and the
    remaining 122 bits are those of the source. *)
Theorem C35_generate rnd : bytes rnd -> length rnd = 16%nat ->
  uuid_generate rnd = stamped 4 rnd /\ uuid_ok (uuid_generate rnd) /\ uuid_version (uuid_generate rnd) = 4 /\
  uuid_variant (uuid_generate rnd) = VStandard /\ rfc_version (uuid_generate rnd) = 4 /\ rfc_variant (uuid_generate rnd).
Proof.
  intros Hb Hl. assert (E : uuid_generate rnd = stamped 4 rnd).
  { unfold uuid_generate. change 0x40 with (16 * 4).
    assert (M : map (trunc 8) rnd = rnd).
    { clear Hl. induction Hb as [|b l H Hl IH]; [reflexivity|]. cbn [map]. rewrite IH. f_equal. apply N.mod_small. exact H. }
    rewrite M. apply stamp_ok; [exact Hb|lia|reflexivity]. }
  destruct (stamped_facts 4 rnd Hb Hl eq_refl) as (U & V & W). rewrite E. split; [reflexivity|]. split; [exact U|].
  split; [rewrite version_ok, V by exact U; reflexivity|]. split; [|split; assumption].
  pose proof (variant_ok _ U) as K. apply rfc_variant_of in W; [|exact U]. rewrite W in K. destruct (uuid_variant (stamped 4 rnd)); try discriminate. reflexivity.
Qed.
Print Assumptions C35_generate.

(** A name-based uuid is, for every namespace and name, the first sixteen bytes of the SHA-1 digest of the namespace
    followed by the name with version 5 and the RFC 4122 variant put in (RFC 4122, 4.3), whatever the machine's byte
    order and the initial contents of the hasher's buffer. *)
Theorem C35_named be junk ns name : length junk = 64%nat -> uuid_ok ns -> bytes name -> N.of_nat (length name) < 2 ^ 38 - 16 ->
  uuid_named be junk ns name = Some (stamped 5 (firstn 16 (sha1_spec (ns ++ name)))).
Proof.
  intros Hj [Hb Hl] Hn Hs. rewrite named_ok by assumption. unfold code_digest. rewrite code_pad_spec; [reflexivity|]. rewrite app_length, Hl. lia.
Qed.
Print Assumptions C35_named.

Theorem C35_named_version be junk ns name : length junk = 64%nat -> uuid_ok ns -> bytes name ->
  exists id, (forall be' junk', length junk' = 64%nat -> uuid_named be' junk' ns name = Some id) /\
    uuid_named be junk ns name = Some id /\ uuid_ok id /\ uuid_version id = 5 /\ uuid_variant id = VStandard /\
    rfc_version id = 5 /\ rfc_variant id.
Proof.
  intros Hj [Hb Hl] Hn. exists (stamped 5 (firstn 16 (code_digest (ns ++ name)))).
  split; [intros be' junk' Hj'; apply named_ok; assumption|]. split; [apply named_ok; assumption|].
  assert (B : bytes (firstn 16 (code_digest (ns ++ name))) /\ length (firstn 16 (code_digest (ns ++ name))) = 16%nat).
  { unfold code_digest, digest_bytes. destruct (fold_left _ _ _) as [[[[a b] c] d] e]. split.
    - apply HashProofs.bytes_firstn. unfold bytes. rewrite !Forall_app. repeat split; apply be_bytes_bytes.
    - rewrite firstn_length, !app_length, !be_bytes_length. reflexivity. }
  destruct B as [B L]. destruct (stamped_facts 5 _ B L eq_refl) as (U & V & W). split; [exact U|].
  split; [rewrite version_ok, V by exact U; reflexivity|]. split; [|split; assumption].
  pose proof (variant_ok _ U) as K. apply rfc_variant_of in W; [|exact U]. rewrite W in K. destruct (uuid_variant _); try discriminate. reflexivity.
Qed.
Print Assumptions C35_named_version.

(** The accessors themselves, on any uuid. *)
Theorem C35_accessors id : uuid_ok id ->
  uuid_version id = (if rfc_version id <=? 5 then rfc_version id else 15) /\ name_of (uuid_variant id) = variant_of id.
Proof. intros H. split; [apply version_ok, H|apply variant_ok, H]. Qed.
Print Assumptions C35_accessors.

(** RFC 4122 namespace for domain names and the name "www.example.com": the known answer
    2ed6657d-e927-568b-95e1-2665a8aea6a2. *)
Example C35_witness : uuid_named false (repeat 0 64) sample [119; 119; 119; 46; 101; 120; 97; 109; 112; 108; 101; 46; 99; 111; 109] =
  Some [0x2E; 0xD6; 0x65; 0x7D; 0xE9; 0x27; 0x56; 0x8B; 0x95; 0xE1; 0x26; 0x65; 0xA8; 0xAE; 0xA6; 0xA2].
Proof. vm_compute. reflexivity. Qed.

(* ------------------------------------------------------------------------ C36 *)

(** [compare] and the relational operators follow the lexicographic order of the bytes; [int128]: with or without a
    128-bit integer type; [cast]: with or without a constexpr bit_cast. *)
Theorem C36_compare int128 cast be a b : uuid_ok a -> uuid_ok b -> int128 = false \/ cast = true \/ be = false ->
  exists c, uuid_compare int128 cast be a b = Some c /\
    (uuid_lt c = true <-> lex a b) /\ (uuid_gt c = true <-> lex b a) /\
    (uuid_le c = true <-> a = b \/ lex a b) /\ (uuid_ge c = true <-> a = b \/ lex b a) /\ (c = 0%Z <-> a = b).
Proof.
  intros Ha Hb H. destruct (compare_ok int128 cast be a b Ha Hb H) as (c & E & H1 & H2 & H3). exists c. split; [exact E|].
  unfold uuid_lt, uuid_gt, uuid_le, uuid_ge. rewrite Z.ltb_lt, Z.ltb_lt, !Z.leb_le, <- H1, <- H2, <- H3. lia.
Qed.
Print Assumptions C36_compare.

(** That order is a strict total order. *)
Theorem C36_total_order a b c : uuid_ok a -> uuid_ok b -> uuid_ok c ->
  ~ lex a a /\ (lex a b -> lex b c -> lex a c) /\ (lex a b -> ~ lex b a) /\ (a = b \/ lex a b \/ lex b a).
Proof.
  intros [Ha La] [Hb Lb] [Hc Lc]. rewrite <- !lex_value by (try assumption; congruence).
  split; [lia|]. split; [lia|]. split; [lia|].
  destruct (N.lt_trichotomy (be_value a) (be_value b)) as [H|[H|H]]; [tauto| |tauto]. left. apply value_inj; try assumption. congruence.
Qed.
Print Assumptions C36_total_order.

Theorem C36_equality cast be a b : uuid_ok a -> uuid_ok b ->
  (uuid_eqb cast be a b = true <-> a = b) /\ (uuid_bool cast be a = true <-> a <> repeat 0 16).
Proof. intros Ha Hb. split; [apply eqb_ok; assumption|apply bool_ok, Ha]. Qed.
Print Assumptions C36_equality.

(** The integer view: big-endian value of the bytes, and back. *)
Theorem C36_uint128 cast be id x : uuid_ok id -> x < 2 ^ 128 -> cast = true \/ be = false ->
  uuid_to_u128 cast be id = Some (be_value id) /\ uuid_of_u128 be x = Some (be_bytes 16 x) /\
  uuid_of_u128 be (be_value id) = Some id /\ uuid_to_u128 cast be (be_bytes 16 x) = Some x.
Proof.
  intros Hid Hx H. assert (E : forall id, uuid_ok id -> uuid_to_u128 cast be id = Some (be_value id)).
  { intros i Hi. destruct H as [->| ->]; [apply to_u128_cast, Hi|destruct cast; [apply to_u128_cast, Hi|apply to_u128_pack_le, Hi]]. }
  split; [apply E, Hid|]. split; [apply of_u128, Hx|]. destruct Hid as [Hb Hl]. pose proof (be_value_bound id Hb) as B. rewrite Hl in B.
  split.
  - rewrite of_u128 by exact B. f_equal. rewrite <- Hl. apply be_bytes_value, Hb.
  - rewrite E by (split; [apply be_bytes_bytes|apply be_bytes_length]). f_equal. apply be_value_bytes. exact Hx.
Qed.
Print Assumptions C36_uint128.

(** The fields on a little-endian machine: the constructor lays them out as RFC 4122 says and the accessors read them
    back; a node number is 48 bits wide. *)
Theorem C36_fields tl tm th ch cl nd : tl < 2 ^ 32 -> tm < 2 ^ 16 -> th < 2 ^ 16 -> ch < 256 -> cl < 256 -> nd < 2 ^ 48 ->
  exists id, uuid_fields false tl tm th ch cl nd = Some id /\ uuid_fields16 false tl tm th (256 * ch + cl) nd = Some id /\
    id = rfc_bytes tl tm th ch cl nd /\ uuid_ok id /\
    time_low false id = Some tl /\ time_mid false id = Some tm /\ time_high_and_version false id = Some th /\
    clock_seq_high_and_reserved id = ch /\ clock_seq_low id = cl /\ node false id = Some nd.
Proof.
  intros H1 H2 H3 H4 H5 H6. exists (rfc_bytes tl tm th ch cl nd).
  assert (N64 : nd < 2 ^ 64) by (change (2 ^ 64) with 18446744073709551616; change (2 ^ 48) with 281474976710656 in H6; lia).
  split; [apply fields_le; assumption|]. split.
  { rewrite fields16_le; try assumption.
    - f_equal. f_equal; symmetry; [apply (N.div_unique _ _ _ cl)|apply (N.mod_unique _ _ ch)]; lia.
    - change (2 ^ 16) with 65536. lia. }
  split; [reflexivity|]. set (id := rfc_bytes tl tm th ch cl nd).
  assert (Hid : uuid_ok id).
  { unfold id, rfc_bytes. split.
    - unfold bytes. rewrite !Forall_app. repeat split; try apply be_bytes_bytes. repeat constructor; assumption.
    - rewrite !app_length, !be_bytes_length. reflexivity. }
  split; [exact Hid|]. destruct Hid as [Hb Hl].
  assert (S0 : firstn 4 (skipn 0 id) = be_bytes 4 tl) by reflexivity.
  assert (S4 : firstn 2 (skipn 4 id) = be_bytes 2 tm) by reflexivity.
  assert (S6 : firstn 2 (skipn 6 id) = be_bytes 2 th) by reflexivity.
  assert (S10 : skipn 10 id = be_bytes 6 nd) by reflexivity.
  unfold time_low, time_mid, time_high_and_version. rewrite !slice_ok by (try assumption; lia). cbn iota. rewrite S0, S4, S6.
  rewrite !be_value_bytes by assumption. repeat (split; [reflexivity|]). rewrite node_le by (split; assumption). rewrite S10, be_value_bytes by assumption. reflexivity.
Qed.
Print Assumptions C36_fields.

Theorem C36_accessors id : uuid_ok id ->
  time_low false id = Some (be_value (firstn 4 id)) /\ time_mid false id = Some (be_value (firstn 2 (skipn 4 id))) /\
  time_high_and_version false id = Some (be_value (firstn 2 (skipn 6 id))) /\ node false id = Some (be_value (skipn 10 id)).
Proof.
  intros [Hb Hl]. unfold time_low, time_mid, time_high_and_version. rewrite !slice_ok by (try assumption; lia). rewrite node_le by (split; assumption). repeat split.
Qed.
Print Assumptions C36_accessors.

(** On a big-endian machine the constructor stores the fields least significant byte first, contrary to RFC 4122 and to
    the integer view; the node accessor then loses two of its bytes; and without bit_cast, [compare] no longer follows
    the bytes. *)
Theorem C36_big_endian_refuted :
  (exists tl, tl < 2 ^ 32 /\ uuid_fields true tl 0 0 0 0 0 <> Some (rfc_bytes tl 0 0 0 0 0)) /\
  (exists nd id, nd < 2 ^ 48 /\ uuid_fields true 0 0 0 0 0 nd = Some id /\ node true id <> Some nd) /\
  (exists a b, uuid_ok a /\ uuid_ok b /\ lex a b /\ uuid_compare true false true a b = Some 1%Z).
Proof.
  split; [|split].
  - exists 1. split; [reflexivity|]. vm_compute. discriminate.
  - exists 1. eexists. split; [reflexivity|]. split; [vm_compute; reflexivity|]. vm_compute. discriminate.
  - exists (0 :: 2 :: repeat 0 14), (1 :: repeat 0 15). split; [split; [repeat constructor|reflexivity]|]. split; [split; [repeat constructor|reflexivity]|].
    split; [apply lex_here; reflexivity|vm_compute; reflexivity].
Qed.
Print Assumptions C36_big_endian_refuted.

Example C36_witness : uuid_compare true true false sample (0x6C :: tl sample) = Some (-1)%Z /\ time_low false sample = Some 0x6BA7B810 /\
  node false sample = Some 0xC04FD430C8 /\ uuid_to_u128 true true sample = Some 0x6BA7B8109DAD11D180B400C04FD430C8.
Proof. vm_compute. repeat split. Qed.
