(** Proofs about [utf_decode] as a whole, and what is built on it. *)
From Verif Require Import Words WordsProofs BitsModel BitsSpec BitsProofs3 UtfModel UtfSpec UtfProofs UtfProofs2.
From Coq Require Import ZifyBool ZifyNat ZifyN.
Local Open Scope N_scope.

Definition bom8 (str : list N) : bool :=
  match str with a :: b :: c :: _ => (a =? 0xEF) && (b =? 0xBB) && (c =? 0xBF) | _ => false end.

Lemma detect8 be str : units 1 str -> detect be 1 str = Some (if bom8 str then 3%nat else 0%nat, false).
Proof.
  intros Hu. unfold detect. cbn [N.eqb Pos.eqb]. destruct str as [|a [|b [|c r]]]; [reflexivity..|].
  unfold units in Hu. change (2 ^ (8 * 1)) with 256 in Hu.
  rewrite !Forall_cons_iff in Hu. destruct Hu as (Ha & Hb & Hc & _).
  rewrite bit_pack_ok; [|discriminate| | |cbn; lia].
  - cbn [option_bind]. f_equal. f_equal. unfold concat_value, bom8. cbn [fold_right fst snd].
    change (2 ^ (8 + (8 + 0))) with 65536. change (2 ^ (8 + 0)) with 256. change (2 ^ 0) with 1.
    replace (a * 65536 + (b * 256 + (c * 1 + 0)) =? 15711167) with ((a =? 0xEF) && (b =? 0xBB) && (c =? 0xBF)); [reflexivity|lia].
  - unfold args_ok. repeat (apply Forall_cons; [cbn [fst snd]; change (2 ^ 8) with 256; assumption|]). constructor.
  - repeat (apply Forall_cons; [cbn; lia|]). constructor.
Qed.

Lemma bom8_text cps : Forall scalar cps -> bom8 (text 1 cps) = true <-> starts_with_bom cps.
Proof.
  intros Hs. destruct cps as [|cp cps]; [split; [discriminate|intros (r & E); discriminate]|].
  apply Forall_cons_iff in Hs. destruct Hs as [Hc _]. split.
  - cbn [text flat_map]. change (enc 1 cp) with (enc8 cp). intros B. exists cps. f_equal.
    unfold enc8, scalar in *. unfold bom8 in B.
    Ltac Zify.zify_post_hook ::= Z.div_mod_to_equations.
    destruct (N.ltb_spec cp 0x80).
    { cbn [app] in B. destruct (flat_map (enc 1) cps) as [|b [|c r]]; [discriminate..|]. lia. }
    destruct (N.ltb_spec cp 0x800).
    { cbn [app] in B. destruct (flat_map (enc 1) cps) as [|c r]; [discriminate|]. lia. }
    destruct (N.ltb_spec cp 0x10000).
    { cbn [app] in B. lia. }
    cbn [app] in B. lia.
  - intros (r & [= -> ->]). reflexivity.
Qed.
Ltac Zify.zify_post_hook ::= idtac.

Lemma enc8_length_pos cp : (0 < length (enc8 cp))%nat.
Proof. unfold enc8. repeat match goal with |- context [if ?c then _ else _] => destruct c end; cbn; lia. Qed.

Lemma utf_decode_cons {S} (cb : S -> N -> nat -> nat -> S * bool) be schar sz str reverse s : str <> [] ->
  utf_decode cb be schar sz str reverse s =
  option_bind (detect be sz str) (fun det =>
    let '(data_start, sw) := det in
    let n := (length str - data_start)%nat in
    option_bind (if sz =? 4 then
                if reverse then emit_down cb schar sz str sw n data_start s else emit_up cb schar sz str sw n data_start s
              else if reverse then backward cb schar sz str sw data_start (length str) 0 dec_init s
              else forward cb schar sz str sw n data_start data_start 0 dec_init s) (fun r => Some (fst r))).
Proof. destruct str; [congruence|reflexivity]. Qed.

(* ------------------------------------------------------------------- UTF-8 *)

Lemma decode8 {S} (cb : S -> N -> nat -> nat -> S * bool) be schar cps s : Forall scalar cps -> ~ starts_with_bom cps ->
  utf_decode cb be schar 1 (text 1 cps) false s = Some (fst (run cb s (positions 1 0 cps))) /\
  utf_decode cb be schar 1 (text 1 cps) true s = Some (fst (run cb s (rev (positions 1 0 cps)))).
Proof.
  intros Hs Hb. pose proof (text_units1 cps Hs) as Hu.
  destruct cps as [|cp cps']; [split; reflexivity|]. set (cps := cp :: cps') in *.
  assert (Hne : text 1 cps <> []).
  { subst cps. cbn [text flat_map]. change (enc 1 cp) with (enc8 cp). intros E. apply app_eq_nil in E.
    pose proof (enc8_length_pos cp) as P. destruct E as [E _]. rewrite E in P. cbn in P. lia. }
  rewrite !utf_decode_cons by exact Hne. rewrite detect8 by exact Hu. cbn [option_bind].
  destruct (bom8 (text 1 cps)) eqn:B; [apply bom8_text in B; [contradiction|exact Hs]|].
  change (1 =? 4) with false. cbn iota. rewrite Nat.sub_0_r. split.
  - pose proof (forward_text8 schar cps [] dec_init Hs Hu eq_refl S cb s) as F. cbn [app length] in F. rewrite F. reflexivity.
  - pose proof (backward_text8 schar cps [] [] dec_init Hs) as F. cbn [app length Nat.add] in F. rewrite app_nil_r in F.
    rewrite (F Hu eq_refl). reflexivity.
Qed.

Lemma decode8_bom {S} (cb : S -> N -> nat -> nat -> S * bool) be schar cps s : Forall scalar cps ->
  utf_decode cb be schar 1 (text 1 (0xFEFF :: cps)) false s = Some (fst (run cb s (positions 1 3 cps))) /\
  utf_decode cb be schar 1 (text 1 (0xFEFF :: cps)) true s = Some (fst (run cb s (rev (positions 1 3 cps)))).
Proof.
  intros Hs.
  assert (Hs' : Forall scalar (0xFEFF :: cps)) by (constructor; [unfold scalar; lia|exact Hs]).
  pose proof (text_units1 _ Hs') as Hu.
  rewrite !utf_decode_cons by discriminate. rewrite detect8 by exact Hu. cbn [option_bind].
  change (bom8 (text 1 (0xFEFF :: cps))) with true. cbn iota. change (1 =? 4) with false. cbn iota.
  change (text 1 (0xFEFF :: cps)) with ([0xEF; 0xBB; 0xBF] ++ text 1 cps) in *. rewrite app_length. cbn [length]. split.
  - pose proof (forward_text8 schar cps [0xEF; 0xBB; 0xBF] dec_init Hs Hu eq_refl S cb s) as F. cbn [length] in F.
    replace (3 + length (text 1 cps) - 3)%nat with (length (text 1 cps)) by lia. rewrite F. reflexivity.
  - pose proof (backward_text8 schar cps [0xEF; 0xBB; 0xBF] [] dec_init Hs) as F. cbn [length] in F. rewrite app_nil_r in F.
    rewrite (F Hu eq_refl). reflexivity.
Qed.

(* ---------------------------------------------------------------- UTF-16/32 *)

Lemma zero_bytes_ok sz i l : sz = 2 \/ sz = 4 -> i < sz -> units sz l ->
  zero_bytes (8 * sz) i l = Some (N.of_nat (length (filter (fun u => u / 2 ^ (8 * i) mod 256 =? 0) l))).
Proof.
  intros Hsz Hi. assert (W : std_width (8 * sz)) by (unfold std_width; destruct Hsz as [-> | ->]; cbn; tauto).
  induction l as [|u l IH]; intros Hu; [reflexivity|]. apply Forall_cons_iff in Hu. destruct Hu as [Hx Hu].
  cbn [zero_bytes filter]. rewrite byte_select_static_ok; [|exact W|exact Hx|replace (8 * sz / 8) with sz; [exact Hi|]].
  - cbn [option_bind]. rewrite (IH Hu). cbn [option_bind]. unfold byte_at. destruct (u / 2 ^ (8 * i) mod 256 =? 0); cbn [length N.b2n]; f_equal; lia.
  - rewrite N.mul_comm, N.div_mul by discriminate. reflexivity.
Qed.

Lemma units_firstn sz n l : units sz l -> units sz (firstn n l).
Proof. unfold units. rewrite !Forall_forall. intros H x Hx. apply H. rewrite <- (firstn_skipn n l). apply in_or_app. left; exact Hx. Qed.

Lemma detect_endian_ok be sz str : sz = 2 \/ sz = 4 -> units sz str ->
  detect_platform_endian be sz (firstn 16 str) = Some (looks_native be sz str).
Proof.
  intros Hsz Hu. apply (units_firstn sz 16) in Hu. unfold detect_platform_endian, looks_native, high_zeros, low_zeros.
  rewrite !zero_bytes_ok; try assumption; try (destruct Hsz as [-> | ->]; lia). cbn [option_bind].
  set (h := filter (fun u => u / 2 ^ (8 * (sz - 1)) mod 256 =? 0) (firstn 16 str)).
  replace (filter (fun u => u / 2 ^ (8 * 0) mod 256 =? 0) (firstn 16 str)) with (filter (fun u => u mod 256 =? 0) (firstn 16 str)).
  - f_equal. destruct be; lia.
  - apply filter_ext. intros u. rewrite N.mul_0_r, N.pow_0_r, N.div_1_r. reflexivity.
Qed.

Definition bom_swapped (sz : N) : N := swapped sz 0xFEFF.

Lemma detect_wide be sz str : sz = 2 \/ sz = 4 -> units sz str -> str <> [] ->
  detect be sz str =
    Some (if hd 0 str =? swapped sz 0xFEFF then (1%nat, true) else if hd 0 str =? 0xFEFF then (1%nat, false)
          else (0%nat, negb (looks_native be sz str))).
Proof.
  intros Hsz Hu Hne. unfold detect. replace (sz =? 1) with false by (destruct Hsz as [-> | ->]; reflexivity).
  destruct str as [|u r]; [congruence|]. cbn [hd].
  replace (if sz =? 4 then 0xFFFE0000 else 0xFFFE) with (swapped sz 0xFEFF) by (destruct Hsz as [-> | ->]; reflexivity).
  destruct (u =? swapped sz 0xFEFF); [reflexivity|]. destruct (u =? 0xFEFF); [reflexivity|].
  rewrite detect_endian_ok by assumption. reflexivity.
Qed.

Lemma singles_units f i l : (forall u, f u = u) -> singles f i l = unit_events i l.
Proof. intros H. revert i. induction l as [|u l IH]; intros i; cbn; [reflexivity|]. rewrite H, IH. reflexivity. Qed.

Lemma c32_wide schar sz u : sz <> 1 -> to_char32 schar sz u = u.
Proof. intros H. unfold to_char32. apply N.eqb_neq in H. rewrite H, andb_false_r. reflexivity. Qed.

(** What the loops do for the wide encodings, given the detected start and byte order. *)
Lemma wide_loop {S} (cb : S -> N -> nat -> nat -> S * bool) schar sz str sw start s : sz = 2 \/ sz = 4 -> units sz str ->
  (start <= length str)%nat ->
  (if sz =? 4 then emit_up cb schar sz str sw (length str - start) start s
   else forward cb schar sz str sw (length str - start) start start 0 dec_init s)
  = Some (run cb s (unit_events start (skipn start (logical sz sw str)))).
Proof.
  intros Hsz Hu Hst.
  assert (Hus : unit_size sz) by (destruct Hsz as [-> | ->]; unfold unit_size; tauto).
  set (L := logical sz sw str).
  assert (HL : L = firstn start L ++ skipn start L) by (symmetry; apply firstn_skipn).
  assert (LL : length L = length str) by apply logical_length.
  assert (Lp : length (firstn start L) = start) by (rewrite firstn_length; lia).
  assert (Ls : length (skipn start L) = (length str - start)%nat) by (rewrite skipn_length; lia).
  destruct Hsz as [-> | ->].
  - change (2 =? 4) with false. cbn iota.
    pose proof (forward16 schar sw str (skipn start L) Hu (firstn start L) dec_init HL ltac:(left; reflexivity) S cb s) as F.
    rewrite Lp, Ls in F. rewrite F. rewrite singles_units by reflexivity. reflexivity.
  - change (4 =? 4) with true. cbn iota.
    pose proof (emit_up_ok schar 4 str sw Hus Hu (skipn start L) (firstn start L) []) as F.
    rewrite Lp, Ls, app_nil_r in F. rewrite (F HL). rewrite singles_units by (intros; apply c32_wide; discriminate). reflexivity.
Qed.

Lemma wide_forward {S} (cb : S -> N -> nat -> nat -> S * bool) be schar sz str s : sz = 2 \/ sz = 4 -> units sz str -> str <> [] ->
  utf_decode cb be schar sz str false s =
  Some (fst (run cb s
    (if hd 0 str =? swapped sz 0xFEFF then unit_events 1 (map (swapped sz) (tl str))
     else if hd 0 str =? 0xFEFF then unit_events 1 (tl str)
     else unit_events 0 (if looks_native be sz str then str else map (swapped sz) str)))).
Proof.
  intros Hsz Hu Hne. rewrite utf_decode_cons by exact Hne. rewrite detect_wide by assumption. cbn [option_bind].
  assert (L1 : (sz =? 1) = false) by (destruct Hsz as [-> | ->]; reflexivity).
  assert (Len : (1 <= length str)%nat) by (destruct str; [congruence|cbn; lia]).
  destruct (hd 0 str =? swapped sz 0xFEFF); [|destruct (hd 0 str =? 0xFEFF)]; cbn iota;
    rewrite wide_loop by (try assumption; lia); cbn [option_bind]; do 4 f_equal; unfold logical; rewrite L1; cbn [orb].
  - destruct str; reflexivity.
  - destruct str; reflexivity.
  - destruct (looks_native be sz str); reflexivity.
Qed.

Lemma swapped_swapped sz u : sz = 2 \/ sz = 4 -> u < 2 ^ (8 * sz) -> swapped sz (swapped sz u) = u.
Proof.
  intros Hsz Hu. destruct (byte_reverse_swapped sz u Hsz Hu) as [E B].
  destruct (byte_reverse_swapped sz (swapped sz u) Hsz B) as [E2 B2].
  assert (W : std_width (8 * sz)) by (unfold std_width; destruct Hsz as [-> | ->]; cbn; tauto).
  pose proof (byte_reverse_involutive (8 * sz) u (swapped sz u) ltac:(destruct Hsz as [-> | ->]; discriminate) W Hu E). congruence.
Qed.

Lemma map_swapped_swapped sz l : sz = 2 \/ sz = 4 -> units sz l -> map (swapped sz) (map (swapped sz) l) = l.
Proof.
  intros Hsz Hu. induction Hu as [|u l Hx Hu IH]; cbn [map]; [reflexivity|]. rewrite IH, swapped_swapped by assumption. reflexivity.
Qed.

Lemma text4 cps : text 4 cps = cps.
Proof. induction cps as [|cp cps IH]; cbn; [reflexivity|]. unfold text in IH. rewrite IH. reflexivity. Qed.

Lemma text2_bmp cps : Forall bmp cps -> text 2 cps = cps.
Proof.
  induction 1 as [|cp cps Hb Hc IH]; [reflexivity|]. cbn [text flat_map]. change (enc 2 cp) with (enc16 cp).
  rewrite enc16_bmp by exact Hb. unfold text in IH. rewrite IH. reflexivity.
Qed.

Lemma positions_wide sz cps : forall i, sz = 4 \/ (sz = 2 /\ Forall bmp cps) -> positions sz i cps = unit_events i cps.
Proof.
  induction cps as [|cp cps IH]; intros i H; [reflexivity|]. cbn [positions unit_events].
  assert (E : enc sz cp = [cp]).
  { destruct H as [->|[-> H]]; [reflexivity|]. apply Forall_cons_iff in H. apply enc16_bmp, H. }
  rewrite E. cbn [length]. rewrite Nat.add_1_r. rewrite IH; [reflexivity|].
  destruct H as [->|[-> H]]; [left; reflexivity|right; split; [reflexivity|]]. apply Forall_cons_iff in H. apply H.
Qed.

(** Reverse decoding. *)
Lemma wide_backward4 {S} (cb : S -> N -> nat -> nat -> S * bool) be schar str s : units 4 str -> str <> [] ->
  utf_decode cb be schar 4 str true s =
  Some (fst (run cb s (rev
    (if hd 0 str =? swapped 4 0xFEFF then unit_events 1 (map (swapped 4) (tl str))
     else if hd 0 str =? 0xFEFF then unit_events 1 (tl str)
     else unit_events 0 (if looks_native be 4 str then str else map (swapped 4) str))))).
Proof.
  intros Hu Hne. rewrite utf_decode_cons by exact Hne. rewrite detect_wide by (try assumption; right; reflexivity). cbn [option_bind].
  assert (Len : (1 <= length str)%nat) by (destruct str; [congruence|cbn; lia]).
  assert (K : forall sw start, (start <= length str)%nat ->
     emit_down cb schar 4 str sw (length str - start) start s = Some (run cb s (rev (unit_events start (skipn start (logical 4 sw str)))))).
  { intros sw start Hst. set (L := logical 4 sw str).
    assert (HL : L = firstn start L ++ skipn start L) by (symmetry; apply firstn_skipn).
    assert (LL : length L = length str) by apply logical_length.
    assert (Lp : length (firstn start L) = start) by (rewrite firstn_length; lia).
    assert (Ls : length (skipn start L) = (length str - start)%nat) by (rewrite skipn_length; lia).
    pose proof (emit_down_ok schar 4 str sw ltac:(right; right; reflexivity) Hu (skipn start L) (firstn start L) []) as F.
    rewrite Lp, Ls, app_nil_r in F. rewrite (F HL). rewrite singles_units by (intros; apply c32_wide; discriminate). reflexivity. }
  change (4 =? 4) with true.
  destruct (hd 0 str =? swapped 4 0xFEFF); [|destruct (hd 0 str =? 0xFEFF)]; cbn iota; rewrite K by lia; cbn [option_bind];
    do 5 f_equal; unfold logical; cbn [N.eqb Pos.eqb orb];
    first [destruct (looks_native be 4 str); reflexivity | destruct str; reflexivity].
Qed.

(** [utf_decode] is defined on every string and makes one fixed sequence of calls. *)
Lemma decode_total be schar sz str reverse : unit_size sz -> units sz str ->
  exists evs, forall S (cb : S -> N -> nat -> nat -> S * bool) s,
    utf_decode cb be schar sz str reverse s = Some (fst (run cb s evs)).
Proof.
  intros Hsz Hu. destruct (list_eq_dec N.eq_dec str []) as [->|Hne]; [exists []; reflexivity|].
  assert (D : exists ds sw, detect be sz str = Some (ds, sw) /\ (ds <= length str)%nat).
  { assert (1 <= length str)%nat by (destruct str; [congruence|cbn; lia]).
    destruct Hsz as [->|Hw].
    - rewrite detect8 by exact Hu. eexists _, _. split; [reflexivity|]. destruct str as [|a [|b [|c r]]]; cbn; try lia.
      destruct ((a =? 239) && (b =? 187) && (c =? 191)); lia.
    - rewrite detect_wide by assumption. destruct (hd 0 str =? swapped sz 0xFEFF); [|destruct (hd 0 str =? 0xFEFF)];
        eexists _, _; (split; [reflexivity|lia]). }
  destruct D as (ds & sw & D & Hds).
  destruct (N.eq_dec sz 4) as [->|H4].
  - destruct (split_at schar 4 str sw ds (length str - ds)) as (pre & l & post & HL & Lp & Ll); [rewrite logical_length; lia|].
    exists (if reverse then rev (singles (to_char32 schar 4) ds l) else singles (to_char32 schar 4) ds l). intros S cb s.
    rewrite utf_decode_cons by exact Hne. rewrite D. cbn [option_bind]. change (4 =? 4) with true. cbn iota. rewrite <- Ll, <- Lp.
    destruct reverse.
    + rewrite (emit_down_ok schar 4 str sw Hsz Hu l pre post HL). reflexivity.
    + rewrite (emit_up_ok schar 4 str sw Hsz Hu l pre post HL). reflexivity.
  - assert (E4 : (sz =? 4) = false) by (apply N.eqb_neq; exact H4). destruct reverse.
    + destruct (backward_total schar sz str sw Hsz Hu ds (length str) H4 0 dec_init) as (evs & R).
      * rewrite logical_length. lia.
      * unfold live. destruct (sz =? 1); left; reflexivity.
      * exists evs. intros S cb s. rewrite utf_decode_cons by exact Hne. rewrite D. cbn [option_bind]. rewrite E4, R. reflexivity.
    + destruct (forward_total schar sz str sw Hsz Hu (length str - ds) H4 ds ds 0 dec_init) as (evs & j & _ & _ & _ & _ & R).
      * rewrite logical_length. lia.
      * lia.
      * unfold state_ok. destruct (sz =? 1); [left; split; reflexivity|split; [left; reflexivity|reflexivity]].
      * exists evs. intros S cb s. rewrite utf_decode_cons by exact Hne. rewrite D. cbn [option_bind]. rewrite E4, R. reflexivity.
Qed.

(** Forward decoding of any UTF-8 string tiles it, up to an incomplete sequence at the very end. *)
Lemma decode8_tiles be schar str : units 1 str ->
  exists evs start j, covers start evs j /\ (start = 0 \/ start = 3)%nat /\ (j <= length str <= j + 3)%nat /\
    forall S (cb : S -> N -> nat -> nat -> S * bool) s,
    utf_decode cb be schar 1 str false s = Some (fst (run cb s evs)).
Proof.
  intros Hu. destruct (list_eq_dec N.eq_dec str []) as [->|Hne].
  - exists [], 0%nat, 0%nat. split; [constructor|]. split; [left; reflexivity|]. split; [cbn; lia|reflexivity].
  - set (ds := if bom8 str then 3%nat else 0%nat).
    assert (Hds : (ds <= length str)%nat).
    { unfold ds. destruct str as [|a [|b [|c r]]]; cbn; try lia. destruct ((a =? 239) && (b =? 187) && (c =? 191)); lia. }
    destruct (forward_total schar 1 str false ltac:(left; reflexivity) Hu (length str - ds) ltac:(discriminate) ds ds 0 dec_init)
      as (evs & j & C & J1 & J2 & _ & R); [change (logical 1 false str) with str; lia|lia|left; split; reflexivity|].
    change (logical 1 false str) with str in *.
    exists evs, ds, j. split; [exact C|]. split; [unfold ds; destruct (bom8 str); tauto|]. split; [lia|].
    intros S cb s. rewrite utf_decode_cons by exact Hne. rewrite detect8 by exact Hu. cbn [option_bind]. fold ds.
    change (1 =? 4) with false. cbn iota. rewrite R. reflexivity.
Qed.

(* --------------------------------------------------------------------- trim *)

Definition find_cb (pred : N -> bool) (r : option (nat * nat)) (cp : N) (i n : nat) : option (nat * nat) * bool :=
  if pred cp then (Some (i, n), false) else (r, true).

Lemma run_find_none pred r evs : Forall (fun e => pred (fst (fst e)) = false) evs -> run (find_cb pred) r evs = (r, false).
Proof.
  induction 1 as [|[[cp i] n] evs H Hs IH]; [reflexivity|]. cbn [run]. unfold find_cb at 1. cbn [fst] in H. rewrite H. exact IH.
Qed.

Lemma run_find_some pred r pre cp i n post : Forall (fun e => pred (fst (fst e)) = false) pre -> pred cp = true ->
  run (find_cb pred) r (pre ++ (cp, i, n) :: post) = (Some (i, n), true).
Proof.
  intros H Hp. rewrite run_app, run_find_none by exact H. cbn [run]. unfold find_cb. rewrite Hp. reflexivity.
Qed.

Lemma positions_forall sz (P : N -> Prop) cps : forall i, Forall P cps -> Forall (fun e => P (fst (fst e))) (positions sz i cps).
Proof. induction cps as [|cp cps IH]; intros i H; [constructor|]. apply Forall_cons_iff in H. constructor; [apply H|apply IH, H]. Qed.

Lemma drop_while_split ws l : exists pre, l = pre ++ drop_while ws l /\ Forall (fun c => ws c = true) pre /\
  match drop_while ws l with [] => True | c :: _ => ws c = false end.
Proof.
  induction l as [|c l (pre & E & F & H)]; [exists []; repeat constructor|]. cbn [drop_while]. destruct (ws c) eqn:W.
  - exists (c :: pre). cbn [app]. rewrite <- E. split; [reflexivity|]. split; [constructor; assumption|exact H].
  - exists []. split; [reflexivity|]. split; [constructor|exact W].
Qed.

Lemma drop_end_split ws l : exists post, l = drop_end ws l ++ post /\ Forall (fun c => ws c = true) post /\
  (drop_end ws l = [] \/ exists a c, drop_end ws l = a ++ [c] /\ ws c = false).
Proof.
  destruct (drop_while_split ws (rev l)) as (pre & E & F & H). exists (rev pre). unfold drop_end.
  split; [rewrite <- rev_app_distr, <- E, rev_involutive; reflexivity|]. split; [apply Forall_rev, F|].
  destruct (drop_while ws (rev l)) as [|c r]; [left; reflexivity|]. right. exists (rev r), c. split; [reflexivity|exact H].
Qed.

Lemma drop_while_all ws l : Forall (fun c => ws c = true) l -> drop_while ws l = [].
Proof. induction 1 as [|c l H F IH]; [reflexivity|]. cbn. rewrite H. exact IH. Qed.

Lemma drop_while_app ws a c r : Forall (fun c => ws c = true) a -> ws c = false -> drop_while ws (a ++ c :: r) = c :: r.
Proof. intros H Hc. induction H as [|x a H F IH]; cbn; [rewrite Hc; reflexivity|]. rewrite H. exact IH. Qed.

Lemma drop_end_all ws l : Forall (fun c => ws c = true) l -> drop_end ws l = [].
Proof. intros H. unfold drop_end. rewrite drop_while_all; [reflexivity|apply Forall_rev, H]. Qed.

Lemma drop_end_app ws a c r : Forall (fun c => ws c = true) r -> ws c = false -> drop_end ws (a ++ c :: r) = a ++ [c].
Proof.
  intros H Hc. unfold drop_end. rewrite rev_app_distr. cbn [rev]. rewrite <- app_assoc. cbn [app].
  rewrite drop_while_app; [cbn [rev]; rewrite rev_involutive; reflexivity|apply Forall_rev, H|exact Hc].
Qed.

Section Trim.
  Context (be schar : bool) (ws : N -> bool) (cps : list N).
  Context (start : nat) (lead : list N).
  Let pred c := negb (ws c).
  (** The two cases: no byte order mark, or one that the decoder skips. *)
  Context (Hlead : (start = 0%nat /\ lead = [] /\ ~ starts_with_bom cps) \/ (start = 3%nat /\ lead = [0xFEFF])).
  Context (Hs : Forall scalar cps).
  Let str := text 1 (lead ++ cps).

  Lemma find_run reverse : utf_find be schar 1 str reverse pred =
    Some (fst (run (find_cb pred) None (if reverse then rev (positions 1 start cps) else positions 1 start cps))).
  Proof.
    unfold utf_find. fold (find_cb pred). unfold str.
    destruct Hlead as [(-> & -> & Hb)|(-> & ->)]; cbn [app].
    - destruct (decode8 (find_cb pred) be schar cps None Hs Hb) as [F B]. destruct reverse; [exact B|exact F].
    - destruct (decode8_bom (find_cb pred) be schar cps None Hs) as [F B]. destruct reverse; [exact B|exact F].
  Qed.

  Lemma text_lead : length (text 1 lead) = start.
  Proof. destruct Hlead as [(-> & -> & _)|(-> & ->)]; reflexivity. Qed.

  Lemma all_or_split : Forall (fun c => ws c = true) cps \/
    exists a c mid r, Forall (fun c => ws c = true) a /\ ws c = false /\ drop_while ws cps = c :: mid /\ cps = a ++ c :: mid /\
      r = drop_end ws cps.
  Proof.
    destruct (drop_while_split ws cps) as (pre & E & F & H). destruct (drop_while ws cps) as [|c mid].
    - left. rewrite E, app_nil_r. exact F.
    - right. exists pre, c, mid, (drop_end ws cps). repeat split; assumption.
  Qed.

  Lemma find_first : utf_find be schar 1 str false pred =
    Some (match drop_while ws cps with
          | [] => None
          | c :: _ => Some ((length str - length (text 1 (drop_while ws cps)))%nat, length (enc 1 c))
          end).
  Proof.
    rewrite find_run. cbn iota. destruct (drop_while_split ws cps) as (pre & E & F & H).
    assert (Fp : forall i, Forall (fun e : event => pred (fst (fst e)) = false) (positions 1 i pre)).
    { intros i. apply (positions_forall 1 (fun c => pred c = false)). eapply Forall_impl; [|exact F]. intros c Hc. unfold pred. rewrite Hc. reflexivity. }
    destruct (drop_while ws cps) as [|c r] eqn:D.
    - rewrite E, app_nil_r. rewrite run_find_none by apply Fp. reflexivity.
    - assert (Len : (length str - length (text 1 (c :: r)))%nat = (start + length (text 1 pre))%nat).
      { unfold str. rewrite E, !text_app, !app_length, text_lead. lia. }
      rewrite Len. rewrite E at 1. rewrite positions_app. cbn [positions].
      rewrite run_find_some; [reflexivity|apply Fp|unfold pred; rewrite H; reflexivity].
  Qed.

  (** The last code point kept: the end of its encoding. *)
  Lemma find_last : drop_end ws cps = [] /\ utf_find be schar 1 str true pred = Some None \/
    exists li ln, utf_find be schar 1 str true pred = Some (Some (li, ln)) /\
      (li + ln)%nat = (start + length (text 1 (drop_end ws cps)))%nat /\ drop_end ws cps <> [].
  Proof.
    rewrite find_run. cbn iota. destruct (drop_end_split ws cps) as (post & E & F & H).
    assert (Fp : forall i, Forall (fun e : event => pred (fst (fst e)) = false) (rev (positions 1 i post))).
    { intros i. apply Forall_rev. apply (positions_forall 1 (fun c => pred c = false)). eapply Forall_impl; [|exact F]. intros c Hc. unfold pred. rewrite Hc. reflexivity. }
    destruct H as [H|(a & c & H & Hc)].
    - left. split; [exact H|]. rewrite E, H. cbn [app]. rewrite run_find_none by apply Fp. reflexivity.
    - right. exists (start + length (text 1 a))%nat, (length (enc 1 c)). split; [|split].
      + rewrite E, H. rewrite !positions_app, !rev_app_distr. cbn [positions rev app].
        rewrite run_find_some; [reflexivity|apply Fp|unfold pred; rewrite Hc; reflexivity].
      + rewrite H, text_app, app_length. cbn [text flat_map]. rewrite app_nil_r. lia.
      + rewrite H. destruct a; discriminate.
  Qed.

  Lemma str_nil : str = [] -> cps = [].
  Proof.
    unfold str. intros E. destruct Hlead as [(-> & -> & _)|(-> & ->)]; [|discriminate]. cbn [app] in E.
    destruct cps as [|cp r]; [reflexivity|]. cbn [text flat_map] in E. apply app_eq_nil in E. destruct E as [E _].
    pose proof (enc8_length_pos cp) as P. change (enc 1 cp) with (enc8 cp) in E. rewrite E in P. cbn in P. lia.
  Qed.

  Lemma trim_left_ok : predicated_trim_left be schar 1 pred str = Some (text 1 (drop_while ws cps)).
  Proof.
    unfold predicated_trim_left. rewrite find_first. destruct (list_eq_dec N.eq_dec str []) as [E|E].
    - rewrite E. rewrite (str_nil E). reflexivity.
    - transitivity (option_bind (Some (match drop_while ws cps with
          | [] => None
          | c :: _ => Some ((length str - length (text 1 (drop_while ws cps)))%nat, length (enc 1 c))
          end)) (fun first => match first with None => Some [] | Some (fi, _) => Some (skipn fi str) end)); [destruct str; [congruence|reflexivity]|].
      cbn [option_bind]. destruct (drop_while_split ws cps) as (pre & Ep & _ & _). destruct (drop_while ws cps) as [|c r]; [reflexivity|].
      f_equal. unfold str at 2. rewrite Ep, app_assoc, text_app.
      assert (Len : (length str - length (text 1 (c :: r)))%nat = length (text 1 (lead ++ pre))).
      { unfold str. rewrite Ep, app_assoc, (text_app 1 (lead ++ pre)), app_length. lia. }
      rewrite Len, skipn_app, skipn_all, Nat.sub_diag. reflexivity.
  Qed.

  Lemma trim_right_ok : predicated_trim_right be schar 1 pred str =
    Some (match drop_end ws cps with [] => [] | _ => text 1 (lead ++ drop_end ws cps) end).
  Proof.
    unfold predicated_trim_right. destruct (list_eq_dec N.eq_dec str []) as [E|E].
    - rewrite E. rewrite (str_nil E). reflexivity.
    - transitivity (option_bind (utf_find be schar 1 str true pred)
        (fun lastr => match lastr with None => Some [] | Some (li, ln) => Some (substr str 0 (li + ln)) end)); [destruct str; [congruence|reflexivity]|].
      destruct find_last as [[D F]|(li & ln & F & P & N)]; rewrite F; cbn [option_bind].
      + rewrite D. reflexivity.
      + rewrite P. unfold substr. cbn [skipn].
        destruct (drop_end_split ws cps) as (post & Ep & _ & _).
        assert (X : firstn (start + length (text 1 (drop_end ws cps))) str = text 1 (lead ++ drop_end ws cps)).
        { unfold str. rewrite Ep at 2. rewrite app_assoc, (text_app 1 (lead ++ _)).
          replace (start + length (text 1 (drop_end ws cps)))%nat with (length (text 1 (lead ++ drop_end ws cps)) + 0)%nat
            by (rewrite text_app, app_length, text_lead; lia).
          rewrite firstn_app_2. cbn [firstn]. apply app_nil_r. }
        rewrite X. destruct (drop_end ws cps); [congruence|reflexivity].
  Qed.

  Lemma trim_ok : predicated_trim be schar 1 pred str = Some (text 1 (drop_end ws (drop_while ws cps))).
  Proof.
    unfold predicated_trim. destruct (list_eq_dec N.eq_dec str []) as [E|E].
    - rewrite E. rewrite (str_nil E). reflexivity.
    - transitivity (option_bind (utf_find be schar 1 str false pred)
        (fun first => match first with None => Some [] | Some (fi, _) =>
           option_bind (utf_find be schar 1 str true pred)
             (fun lastr => match lastr with None => None | Some (li, ln) => Some (substr str fi (li + ln - fi)) end) end));
        [destruct str; [congruence|reflexivity]|].
      rewrite find_first. cbn [option_bind].
      destruct (drop_while_split ws cps) as (pre & Ep & Fp & Hh). destruct (drop_while ws cps) as [|c r]; [reflexivity|].
      destruct (drop_end_split ws (c :: r)) as (post & Eq & Fq & Hq).
      assert (K : exists a c', drop_end ws (c :: r) = a ++ [c'] /\ ws c' = false).
      { destruct Hq as [Hq|Hq]; [|exact Hq]. rewrite Hq in Eq. cbn [app] in Eq. subst post. apply Forall_cons_iff in Fq. destruct Fq; congruence. }
      destruct K as (a & c' & Ea & Hc').
      assert (D : drop_end ws cps = pre ++ drop_end ws (c :: r)).
      { rewrite Ea. rewrite Ep, Eq, Ea. rewrite <- app_assoc. cbn [app]. rewrite app_assoc, drop_end_app by assumption. rewrite app_assoc. reflexivity. }
      destruct find_last as [[Dn F]|(li & ln & F & P & N)].
      + exfalso. rewrite Dn, Ea in D. destruct pre; [destruct a|]; discriminate.
      + rewrite F. cbn [option_bind]. f_equal. unfold substr.
        assert (Fi : (length str - length (text 1 (c :: r)))%nat = length (text 1 (lead ++ pre))).
        { unfold str. rewrite Ep, app_assoc, (text_app 1 (lead ++ pre)), app_length. lia. }
        rewrite Fi, P, D, (text_app 1 pre), app_length, (text_app 1 lead), app_length, text_lead.
        replace (start + (length (text 1 pre) + length (text 1 (drop_end ws (c :: r)))) - (start + length (text 1 pre)))%nat
          with (length (text 1 (drop_end ws (c :: r))) + 0)%nat by lia.
        unfold str. rewrite Ep, !text_app. rewrite app_assoc, skipn_app.
        rewrite <- text_lead at 1. rewrite <- app_length, skipn_all. cbn [app].
        replace (start + length (text 1 pre) - length (text 1 lead ++ text 1 pre))%nat with 0%nat by (rewrite app_length, text_lead; lia).
        cbn [skipn]. rewrite Eq at 2. rewrite text_app, firstn_app_2. cbn [firstn]. apply app_nil_r.
  Qed.
End Trim.

Lemma drop_end_drop_while_idem ws l :
  drop_end ws (drop_while ws (drop_end ws (drop_while ws l))) = drop_end ws (drop_while ws l).
Proof.
  destruct (drop_while_split ws l) as (pre & _ & _ & H). destruct (drop_while ws l) as [|c r]; [reflexivity|].
  destruct (drop_end_split ws (c :: r)) as (post & E & F & K).
  destruct K as [K|(a & c' & K & Hc')]; [rewrite K; reflexivity|].
  assert (W : drop_while ws (drop_end ws (c :: r)) = drop_end ws (c :: r)).
  { rewrite K. rewrite K in E. destruct a as [|x a]; cbn [app] in *.
    - injection E as -> _. cbn. rewrite H. reflexivity.
    - injection E as -> _. cbn. rewrite H. reflexivity. }
  rewrite W. rewrite K. rewrite (drop_end_app ws a c' []) by (try constructor; assumption). reflexivity.
Qed.

(* ---------------------------------------------------------------- transcode *)

Definition append_cb (to : N) (out : list N) (cp : N) (i n : nat) : list N * bool := (out ++ encode to cp, true).

Lemma run_append to evs : forall out, run (append_cb to) out evs = (out ++ flat_map (fun e => encode to (fst (fst e))) evs, false).
Proof.
  induction evs as [|[[cp i] n] evs IH]; intros out; cbn [run flat_map]; [rewrite app_nil_r; reflexivity|].
  unfold append_cb at 1. rewrite IH. cbn [fst]. rewrite app_assoc. reflexivity.
Qed.

Lemma flat_positions to sz cps : forall i, flat_map (fun e => encode to (fst (fst e))) (positions sz i cps) = flat_map (encode to) cps.
Proof. induction cps as [|cp cps IH]; intros i; cbn; [reflexivity|]. rewrite IH. reflexivity. Qed.

Lemma flat_unit_events to l : forall i, flat_map (fun e => encode to (fst (fst e))) (unit_events i l) = flat_map (encode to) l.
Proof. induction l as [|u l IH]; intros i; cbn; [reflexivity|]. rewrite IH. reflexivity. Qed.

Lemma encode_text to cps : unit_size to -> Forall scalar cps ->
  flat_map (encode to) cps = text to (if to =? 4 then cps else filter (fun c => negb (c =? 0)) cps).
Proof.
  intros Ht. induction 1 as [|cp cps Hc Hs IH]; [destruct (to =? 4); reflexivity|]. cbn [flat_map filter].
  rewrite encode_ok by (try exact Ht; apply scalar_le, Hc). rewrite IH.
  destruct (to =? 4); destruct (cp =? 0); cbn [negb andb]; reflexivity.
Qed.

Lemma transcode_cons be schar from to str : from <> to -> str <> [] ->
  utf_transcode be schar from to str = utf_decode (append_cb to) be schar from str false [].
Proof. intros H Hne. unfold utf_transcode. destruct str; [congruence|]. apply N.eqb_neq in H. rewrite H. reflexivity. Qed.

Lemma transcode8 be schar to cps : to = 2 \/ to = 4 -> Forall scalar cps -> ~ starts_with_bom cps ->
  utf_transcode be schar 1 to (text 1 cps) = Some (text to (if to =? 4 then cps else filter (fun c => negb (c =? 0)) cps)).
Proof.
  intros Ht Hs Hb. destruct (list_eq_dec N.eq_dec (text 1 cps) []) as [E|E].
  - assert (cps = []) as ->; [|destruct (to =? 4); reflexivity].
    destruct cps as [|cp r]; [reflexivity|]. cbn [text flat_map] in E. apply app_eq_nil in E. destruct E as [E _].
    pose proof (enc8_length_pos cp) as P. change (enc 1 cp) with (enc8 cp) in E. rewrite E in P. cbn in P. lia.
  - rewrite transcode_cons by (try exact E; destruct Ht as [-> | ->]; discriminate).
    destruct (decode8 (append_cb to) be schar cps [] Hs Hb) as [F _]. rewrite F, run_append. cbn [fst app].
    rewrite flat_positions, encode_text; [reflexivity|unfold unit_size; tauto|exact Hs].
Qed.

(** From a wide encoding, exactly. *)
Lemma transcode_wide be schar from to l : from = 2 \/ from = 4 -> from <> to -> units from l -> l <> [] ->
  utf_transcode be schar from to l =
  Some (flat_map (encode to)
    (if hd 0 l =? swapped from 0xFEFF then map (swapped from) (tl l)
     else if hd 0 l =? 0xFEFF then tl l
     else if looks_native be from l then l else map (swapped from) l)).
Proof.
  intros Hf Hne Hu Hl. rewrite transcode_cons by assumption. rewrite wide_forward by assumption. rewrite run_append. cbn [fst app]. f_equal.
  destruct (hd 0 l =? swapped from 0xFEFF); [apply flat_unit_events|].
  destruct (hd 0 l =? 0xFEFF); [apply flat_unit_events|]. destruct (looks_native be from l); apply flat_unit_events.
Qed.

Lemma units4 cps : Forall scalar cps -> units 4 cps.
Proof. intros H. unfold units. eapply Forall_impl; [|exact H]. intros c Hc. unfold scalar in Hc. change (2 ^ (8 * 4)) with 4294967296. lia. Qed.
Lemma units2 cps : Forall bmp cps -> units 2 cps.
Proof. intros H. exact H. Qed.

Lemma scalar_not_swapped_bom sz cp : sz = 2 \/ sz = 4 -> scalar cp -> (cp = 0xFFFE /\ sz = 2) \/ (cp =? swapped sz 0xFEFF) = false.
Proof.
  intros [-> | ->] Hc.
  - change (swapped 2 0xFEFF) with 0xFFFE. destruct (N.eqb_spec cp 0xFFFE); [left; split; [assumption|reflexivity]|right; reflexivity].
  - right. change (swapped 4 0xFEFF) with 0xFFFE0000. unfold scalar in Hc. lia.
Qed.

(** For UTF-32 the high byte of a scalar value is always zero, so the guess is wrong only if the low bytes of the
    first sixteen code points are all zero. *)
Lemma looks_native4 cps : Forall scalar cps -> cps <> [] ->
  looks_native false 4 cps = existsb (fun c => negb (c mod 256 =? 0)) (firstn 16 cps).
Proof.
  intros Hs Hne. unfold looks_native, high_zeros, low_zeros.
  assert (Hf : Forall scalar (firstn 16 cps)).
  { rewrite Forall_forall in *. intros x Hx. apply Hs. rewrite <- (firstn_skipn 16 cps). apply in_or_app. left; exact Hx. }
  induction Hf as [|c l Hc Hl IH]; [reflexivity|]. cbn [filter existsb].
  assert (Z : (c / 2 ^ (8 * (4 - 1)) mod 256 =? 0) = true).
  { change (2 ^ (8 * (4 - 1))) with 16777216. unfold scalar in Hc. rewrite N.div_small by lia. reflexivity. }
  rewrite Z. destruct (c mod 256 =? 0); cbn [negb orb length]; [rewrite <- IH|]; [lia|].
  clear IH Z. 
  assert (B : (length (filter (fun u => (u mod 256 =? 0)%N) l) <= length l)%nat) by (clear; induction l as [|x l IHl]; cbn; [lia|destruct (x mod 256 =? 0); cbn; lia]).
  assert (E : length (filter (fun u => u / 2 ^ (8 * (4 - 1)) mod 256 =? 0) l) = length l).
  { clear B. induction Hl as [|x l Hx Hl IHl]; [reflexivity|]. cbn [filter].
    assert (Zx : (x / 2 ^ (8 * (4 - 1)) mod 256 =? 0) = true).
    { change (2 ^ (8 * (4 - 1))) with 16777216. unfold scalar in Hx. rewrite N.div_small by lia. reflexivity. }
    rewrite Zx. cbn [length]. rewrite IHl. reflexivity. }
  rewrite E. lia.
Qed.
