(** Proofs about trimming with the library's whitespace predicate. *)
From Verif Require Import Words WordsProofs BitsModel BitsSpec BitsProofs3 UniModel UniSpec UniTables UniData UniProofs UniProofs2
  UtfModel UtfSpec UtfProofs UtfProofs2 UtfProofs3 TrimModel TrimSpec.
From Coq Require Import ZifyBool ZifyNat ZifyN.
Import ListNotations.
Local Open Scope N_scope.

(* ------------------------------------------------------------ the predicate *)

Lemma space_answer c : space c = true -> no_answer c = false.
Proof.
  unfold space, no_answer, in_ranges. intros H. apply existsb_exists in H. destruct H as ([a b] & I & H). cbn [fst snd] in H.
  cbn in I. repeat (destruct I as [[= <- <-]|I]; [cbn; lia|]). destruct I.
Qed.

Lemma not_whitespace_ok c : c < 2 ^ 32 -> is_not_whitespace c = if no_answer c then None else Some (negb (space c)).
Proof.
  intros H. pose proof (whitespace_32 c H) as W. unfold answer in W. fold (no_answer c) in W.
  change (in_ranges whitespace_undefined c) with (no_answer c) in W. fold (space c) in W.
  unfold is_not_whitespace, is_not_whitespace_32. unfold is_whitespace_32 in W. cbn [UniModel.run test] in *.
  destruct (UniModel.run is_ascii_whitespace_32 c) as [[|]|].
  - destruct (no_answer c); [discriminate W|]. injection W as <-. reflexivity.
  - destruct (UniModel.run is_non_ascii_whitespace_32 c) as [[|]|]; destruct (no_answer c); try discriminate W; try reflexivity;
      injection W as <-; reflexivity.
  - destruct (no_answer c); [reflexivity|discriminate W].
Qed.

(* ---------------------------------------------------------------- searching *)

Definition lib_cb (pred : N -> option bool) (r : option (option (nat * nat))) (cp : N) (i n : nat) : option (option (nat * nat)) * bool :=
  match pred cp with Some true => (Some (Some (i, n)), false) | Some false => (r, true) | None => (None, false) end.

Lemma run_lib_none pred r evs : Forall (fun e => pred (fst (fst e)) = Some false) evs -> run (lib_cb pred) r evs = (r, false).
Proof.
  induction 1 as [|[[cp i] n] evs H Hs IH]; [reflexivity|]. cbn [run]. unfold lib_cb at 1. cbn [fst] in H. rewrite H. exact IH.
Qed.

Lemma run_lib_some pred r pre cp i n post : Forall (fun e => pred (fst (fst e)) = Some false) pre -> pred cp <> Some false ->
  run (lib_cb pred) r (pre ++ (cp, i, n) :: post) = (match pred cp with None => None | _ => Some (Some (i, n)) end, true).
Proof.
  intros H Hp. rewrite run_app, run_lib_none by exact H. cbn [run]. unfold lib_cb. destruct (pred cp) as [[|]|]; [reflexivity|congruence|reflexivity].
Qed.

(** Items laid out one after the other, each taking the units [e] gives it. *)
Fixpoint place (e : N -> list N) (i : nat) (l : list N) : list event :=
  match l with [] => [] | c :: r => (c, i, length (e c)) :: place e (i + length (e c)) r end.

Lemma place_app e l1 l2 : forall i, place e i (l1 ++ l2) = place e i l1 ++ place e (i + length (flat_map e l1)) l2.
Proof.
  induction l1 as [|c l1 IH]; intros i; cbn [app place flat_map length]; [rewrite Nat.add_0_r; reflexivity|].
  rewrite IH, app_length, Nat.add_assoc. reflexivity.
Qed.
Lemma place_forall e (P : N -> Prop) l : forall i, Forall P l -> Forall (fun ev => P (fst (fst ev))) (place e i l).
Proof. induction l as [|c l IH]; intros i H; [constructor|]. apply Forall_cons_iff in H. constructor; [apply H|apply IH, H]. Qed.

Section Items.
  Context (be schar : bool) (sz : N) (e : N -> list N) (lead items : list N).
  Let str := lead ++ flat_map e items.
  Context (Hchar : Forall (fun c => c < 2 ^ 32) items).
  Context (He : Forall (fun c => e c <> []) items).
  Context (Hf : forall S (cb : S -> N -> nat -> nat -> S * bool) s,
    utf_decode cb be schar sz str false s = Some (fst (run cb s (place e (length lead) items)))).
  Context (Hb : forall S (cb : S -> N -> nat -> nat -> S * bool) s,
    utf_decode cb be schar sz str true s = Some (fst (run cb s (rev (place e (length lead) items))))).

  Lemma pred_space c : c < 2 ^ 32 -> space c = true -> is_not_whitespace c = Some false.
  Proof. intros H S. rewrite not_whitespace_ok by exact H. rewrite (space_answer c S), S. reflexivity. Qed.
  Lemma pred_char c : c < 2 ^ 32 -> space c = false -> is_not_whitespace c = if no_answer c then None else Some true.
  Proof. intros H S. rewrite not_whitespace_ok by exact H. rewrite S. reflexivity. Qed.

  Lemma spaces_none l : incl l items -> Forall (fun c => space c = true) l -> Forall (fun c => is_not_whitespace c = Some false) l.
  Proof.
    intros I F. rewrite Forall_forall in *. intros c Hc. apply pred_space; [apply Hchar, I, Hc|apply F, Hc].
  Qed.

  Lemma lib_first pre c r : items = pre ++ c :: r -> Forall (fun c => space c = true) pre -> space c = false ->
    utf_find_lib be schar sz str false is_not_whitespace =
      if no_answer c then None else Some (Some (length (lead ++ flat_map e pre), length (e c))).
  Proof.
    intros E F H. unfold utf_find_lib. fold (lib_cb is_not_whitespace). rewrite Hf. cbn [option_bind].
    assert (C : c < 2 ^ 32) by (rewrite Forall_forall in Hchar; apply Hchar; rewrite E; apply in_elt).
    rewrite E, place_app. cbn [place].
    rewrite run_lib_some; [|apply (place_forall e (fun c => is_not_whitespace c = Some false)), spaces_none; [rewrite E; apply incl_appl, incl_refl|exact F]|
      rewrite pred_char by assumption; destruct (no_answer c); discriminate].
    rewrite pred_char by assumption. cbn [fst]. rewrite app_length. destruct (no_answer c); reflexivity.
  Qed.
  Lemma lib_first_none : Forall (fun c => space c = true) items -> utf_find_lib be schar sz str false is_not_whitespace = Some None.
  Proof.
    intros F. unfold utf_find_lib. fold (lib_cb is_not_whitespace). rewrite Hf. cbn [option_bind].
    rewrite run_lib_none; [reflexivity|]. apply (place_forall e (fun c => is_not_whitespace c = Some false)), spaces_none; [apply incl_refl|exact F].
  Qed.
  Lemma lib_last a c post : items = a ++ c :: post -> Forall (fun c => space c = true) post -> space c = false ->
    utf_find_lib be schar sz str true is_not_whitespace =
      if no_answer c then None else Some (Some (length (lead ++ flat_map e a), length (e c))).
  Proof.
    intros E F H. unfold utf_find_lib. fold (lib_cb is_not_whitespace). rewrite Hb. cbn [option_bind].
    assert (C : c < 2 ^ 32) by (rewrite Forall_forall in Hchar; apply Hchar; rewrite E; apply in_elt).
    rewrite E, place_app. cbn [place]. rewrite rev_app_distr. cbn [rev]. rewrite <- app_assoc. cbn [app].
    rewrite run_lib_some; [| |rewrite pred_char by assumption; destruct (no_answer c); discriminate].
    - rewrite pred_char by assumption. cbn [fst]. rewrite app_length. destruct (no_answer c); reflexivity.
    - apply Forall_rev, (place_forall e (fun c => is_not_whitespace c = Some false)), spaces_none; [|exact F].
      rewrite E. intros x Hx. apply in_or_app. right; right; exact Hx.
  Qed.
  Lemma lib_last_none : Forall (fun c => space c = true) items -> utf_find_lib be schar sz str true is_not_whitespace = Some None.
  Proof.
    intros F. unfold utf_find_lib. fold (lib_cb is_not_whitespace). rewrite Hb. cbn [option_bind].
    rewrite run_lib_none; [reflexivity|]. apply Forall_rev, (place_forall e (fun c => is_not_whitespace c = Some false)), spaces_none; [apply incl_refl|exact F].
  Qed.

  Lemma items_nil : str = [] -> items = [].
  Proof.
    unfold str. intros E. apply app_eq_nil in E. destruct E as [_ E]. destruct items as [|c r]; [reflexivity|]. cbn [flat_map] in E.
    apply app_eq_nil in E. apply Forall_cons_iff in He. tauto.
  Qed.

  Definition head_answer (l : list N) : bool := match l with [] => true | c :: _ => negb (no_answer c) end.

  Lemma items_left : trim_left be schar sz str =
    if head_answer (drop_while space items) then Some (flat_map e (drop_while space items)) else None.
  Proof.
    destruct (drop_while_split space items) as (pre & E & F & H). unfold trim_left.
    destruct (list_eq_dec N.eq_dec str []) as [Z|Z]; [rewrite Z, (items_nil Z); reflexivity|].
    destruct str eqn:Zs; [congruence|]. rewrite <- Zs in *. clear Zs.
    destruct (drop_while space items) as [|c r].
    - rewrite app_nil_r in E. rewrite lib_first_none by (rewrite E; exact F). reflexivity.
    - rewrite (lib_first pre c r E F H). cbn [head_answer]. destruct (no_answer c); [reflexivity|]. cbn [option_bind negb].
      f_equal. unfold str. rewrite E, flat_map_app, app_assoc, skipn_app, skipn_all, Nat.sub_diag. reflexivity.
  Qed.

  Lemma items_right : trim_right be schar sz str =
    if head_answer (rev (drop_end space items)) then
      Some (match drop_end space items with [] => [] | k => lead ++ flat_map e k end) else None.
  Proof.
    destruct (drop_end_split space items) as (post & E & F & H). unfold trim_right.
    destruct (list_eq_dec N.eq_dec str []) as [Z|Z]; [rewrite Z, (items_nil Z); reflexivity|].
    destruct str eqn:Zs; [congruence|]. rewrite <- Zs in *. clear Zs.
    destruct H as [H|(a & c & H & Hc)].
    - rewrite H in *. cbn [app] in E. rewrite lib_last_none by (rewrite E; exact F). reflexivity.
    - rewrite H in *. rewrite <- app_assoc in E. cbn [app] in E. rewrite (lib_last a c post E F Hc).
      rewrite rev_app_distr. cbn [rev app head_answer]. destruct (no_answer c); [reflexivity|]. cbn [option_bind negb].
      transitivity (Some (lead ++ flat_map e (a ++ [c]))); [|destruct a; reflexivity].
      f_equal. unfold substr. cbn [skipn]. unfold str. rewrite E.
      replace (a ++ c :: post) with ((a ++ [c]) ++ post) by (rewrite <- app_assoc; reflexivity).
      rewrite (flat_map_app e (a ++ [c])), app_assoc.
      replace (length (lead ++ flat_map e a) + length (e c))%nat with (length (lead ++ flat_map e (a ++ [c])) + 0)%nat
        by (rewrite !app_length, flat_map_app, app_length; cbn [flat_map]; rewrite app_nil_r; lia).
      rewrite firstn_app_2. cbn [firstn]. apply app_nil_r.
  Qed.

  Lemma items_trim : trim be schar sz str =
    if head_answer (drop_while space items) && head_answer (rev (drop_end space items))
    then Some (flat_map e (drop_end space (drop_while space items))) else None.
  Proof.
    destruct (drop_while_split space items) as (pre & E & F & H). unfold trim.
    destruct (list_eq_dec N.eq_dec str []) as [Z|Z]; [rewrite Z, (items_nil Z); reflexivity|].
    destruct str eqn:Zs; [congruence|]. rewrite <- Zs in *. clear Zs.
    destruct (drop_while space items) as [|c r].
    - rewrite app_nil_r in E. assert (F' : Forall (fun c => space c = true) items) by (rewrite E; exact F).
      rewrite lib_first_none by exact F'. cbn [option_bind head_answer andb]. rewrite drop_end_all by exact F'. reflexivity.
    - rewrite (lib_first pre c r E F H). cbn [head_answer]. destruct (no_answer c) eqn:Nc; [reflexivity|]. cbn [option_bind negb andb].
      destruct (drop_end_split space (c :: r)) as (post & Eq & Fq & Hq).
      destruct Hq as [Hq|(a & c' & Ea & Hc')].
      { exfalso. rewrite Hq in Eq. cbn [app] in Eq. rewrite <- Eq in Fq. apply Forall_cons_iff in Fq. destruct Fq; congruence. }
      rewrite Ea in *. rewrite <- app_assoc in Eq. cbn [app] in Eq.
      assert (E2 : items = (pre ++ a) ++ c' :: post) by (rewrite E, Eq, <- app_assoc; reflexivity).
      rewrite (lib_last _ _ _ E2 Fq Hc').
      assert (D : drop_end space items = (pre ++ a) ++ [c']) by (rewrite E2; apply drop_end_app; assumption).
      rewrite D, rev_app_distr. cbn [rev app head_answer]. destruct (no_answer c'); [reflexivity|]. cbn [option_bind negb].
      f_equal. unfold substr, str. rewrite E2.
      set (k := (length (lead ++ flat_map e (pre ++ a)) + length (e c') - length (lead ++ flat_map e pre))%nat).
      assert (Hn : k = length (flat_map e (a ++ [c'])))
        by (unfold k; rewrite !flat_map_app, !app_length; cbn [flat_map]; rewrite app_nil_r; lia).
      rewrite Hn. clear k Hn.
      replace ((pre ++ a) ++ c' :: post) with (pre ++ (a ++ [c']) ++ post) by (rewrite <- !app_assoc; reflexivity).
      rewrite (flat_map_app e pre), (flat_map_app e (a ++ [c']) post).
      rewrite (app_assoc lead), skipn_app, skipn_all, Nat.sub_diag. cbn [skipn app].
      rewrite firstn_app, firstn_all, Nat.sub_diag. cbn [firstn]. rewrite app_nil_r. reflexivity.
  Qed.
End Items.

(* ----------------------------------------------------------- the wide forms *)

Lemma wide_both be schar sz str start sw pre cps : sz = 2 \/ sz = 4 -> Forall scalar cps -> units sz str -> str <> [] ->
  detect be sz str = Some (start, sw) -> logical sz sw str = pre ++ text sz cps -> length pre = start ->
  forall S (cb : S -> N -> nat -> nat -> S * bool) s,
    utf_decode cb be schar sz str false s = Some (fst (run cb s (unit_events start (text sz cps)))) /\
    utf_decode cb be schar sz str true s = Some (fst (run cb s (rev (unit_events start (text sz cps))))).
Proof.
  intros Hsz Hs Hu Hne D L P S cb s. rewrite !utf_decode_cons by exact Hne. rewrite D. cbn [option_bind].
  assert (Len : length str = (start + length (text sz cps))%nat).
  { rewrite <- (logical_length sz sw str), L, app_length. lia. }
  split.
  - pose proof (wide_loop cb schar sz str sw start s Hsz Hu ltac:(lia)) as W.
    rewrite L, skipn_app, (skipn_all2 pre), P, Nat.sub_diag in W by lia. cbn [skipn app] in W.
    rewrite W. reflexivity.
  - destruct Hsz as [-> | ->]; cbn [N.eqb Pos.eqb].
    + pose proof (backward_text16 schar sw str cps Hu pre [] dec_init Hs) as B. rewrite app_nil_r in B.
      specialize (B L ltac:(left; reflexivity) S cb s). rewrite P in B. rewrite Len, B. rewrite singles_units by reflexivity. reflexivity.
    + pose proof (emit_down_ok schar 4 str sw ltac:(right; right; reflexivity) Hu (text 4 cps) pre []) as B. rewrite app_nil_r in B.
      specialize (B L). rewrite P in B. rewrite Len. replace (start + length (text 4 cps) - start)%nat with (length (text 4 cps)) by lia.
      rewrite B. rewrite singles_units by (intros; apply c32_wide; discriminate). reflexivity.
Qed.

Lemma place_units e l : (forall u, length (e u) = 1%nat) -> forall i, place e i l = unit_events i l.
Proof. intros H. induction l as [|u l IH]; intros i; cbn; [reflexivity|]. rewrite H, Nat.add_1_r, IH. reflexivity. Qed.
Lemma place_enc8 l : forall i, place enc8 i l = positions 1 i l.
Proof. induction l as [|u l IH]; intros i; cbn; [reflexivity|]. rewrite IH. reflexivity. Qed.
Lemma flat_map_single {A B} (f : A -> B) l : flat_map (fun u => [f u]) l = map f l.
Proof. induction l as [|x l IH]; cbn; [reflexivity|]. rewrite IH. reflexivity. Qed.

Lemma text_units sz cps : sz = 2 \/ sz = 4 -> Forall scalar cps -> units sz (text sz cps).
Proof. intros [-> | ->] H; [apply text_units2, H|rewrite text4; apply units4, H]. Qed.

(** What one code point becomes in units: itself, or two surrogates; neither is white space or without an answer. *)
Lemma wide_units sz c : sz = 2 \/ sz = 4 -> scalar c ->
  enc sz c = [c] \/ exists h l, enc sz c = [h; l] /\ space c = false /\ no_answer c = false /\ space h = false /\ no_answer h = false /\ space l = false /\ no_answer l = false.
Proof.
  intros [-> | ->] Hc; [|left; reflexivity]. change (enc 2 c) with (enc16 c).
  destruct (N.ltb_spec c 0x10000) as [Hb|Hb]; [left; apply enc16_bmp, Hb|]. right.
  destruct (enc16_supp c Hc) as (h & l & E & K); [unfold bmp; lia|]. exists h, l. split; [exact E|].
  assert (R : forall x, 0xD800 <= x -> (x < 0xE000 \/ 0x10000 <= x) -> space x = false /\ no_answer x = false).
  { intros x Hx1 Hx2. split.
    - unfold space, in_ranges. apply Bool.not_true_iff_false. intros H. apply existsb_exists in H. destruct H as ([a b] & I & H). cbn [fst snd] in H.
      cbn in I. repeat (destruct I as [[= <- <-]|I]; [lia|]). destruct I.
    - unfold no_answer, in_ranges. cbn. lia. }
  assert (Hh : 0xD800 <= h < 0xE000 /\ 0xD800 <= l < 0xE000).
  { unfold low_surrogate, high_surrogate in K. lia. }
  destruct (R c ltac:(lia) ltac:(lia)). destruct (R h ltac:(lia) ltac:(lia)). destruct (R l ltac:(lia) ltac:(lia)). tauto.
Qed.

Lemma drop_while_text sz cps : sz = 2 \/ sz = 4 -> Forall scalar cps -> drop_while space (text sz cps) = text sz (drop_while space cps).
Proof.
  intros Hsz. induction 1 as [|c cps Hc Hs IH]; [reflexivity|]. unfold text in *. cbn [flat_map drop_while].
  destruct (wide_units sz c Hsz Hc) as [E|(h & l & E & Sc & _ & Sh & _)]; rewrite E; cbn [app drop_while].
  - destruct (space c) eqn:Sc; [exact IH|]. cbn [flat_map]. rewrite E. reflexivity.
  - rewrite Sc, Sh. cbn [flat_map]. rewrite E. reflexivity.
Qed.

Lemma drop_while_rev_text sz cps : sz = 2 \/ sz = 4 -> Forall scalar cps ->
  drop_while space (rev (text sz cps)) = rev (text sz (rev (drop_while space (rev cps)))).
Proof.
  intros Hsz. induction cps as [|c cps IH] using rev_ind; intros Hs; [reflexivity|].
  apply Forall_app in Hs. destruct Hs as [Hs Hc]. apply Forall_cons_iff in Hc. destruct Hc as [Hc _].
  rewrite text_app, !rev_app_distr. cbn [rev app drop_while]. replace (text sz [c]) with (enc sz c) by (cbn; rewrite app_nil_r; reflexivity).
  destruct (wide_units sz c Hsz Hc) as [E|(h & l & E & Sc & _ & Sh & _ & Sl & _)]; rewrite E; cbn [rev app drop_while].
  - destruct (space c) eqn:Sc; [apply IH, Hs|]. cbn [rev]. rewrite rev_involutive, text_app, rev_app_distr.
    replace (text sz [c]) with (enc sz c) by (cbn; rewrite app_nil_r; reflexivity). rewrite E. reflexivity.
  - rewrite Sc, Sl. cbn [rev]. rewrite rev_involutive, text_app, rev_app_distr.
    replace (text sz [c]) with (enc sz c) by (cbn; rewrite app_nil_r; reflexivity). rewrite E. reflexivity.
Qed.

Lemma drop_end_text sz cps : sz = 2 \/ sz = 4 -> Forall scalar cps -> drop_end space (text sz cps) = text sz (drop_end space cps).
Proof. intros Hsz Hs. unfold drop_end. rewrite drop_while_rev_text by assumption. apply rev_involutive. Qed.

Lemma scalar_drop_while cps : Forall scalar cps -> Forall scalar (drop_while space cps).
Proof. intros H. destruct (drop_while_split space cps) as (pre & E & _). rewrite E in H. apply Forall_app in H. apply H. Qed.

Lemma head_find l : head_answer (drop_while space l) = has_answer (find (fun c => negb (space c)) l).
Proof. induction l as [|c l IH]; [reflexivity|]. cbn [drop_while find]. destruct (space c); [exact IH|reflexivity]. Qed.
Lemma head_first l : head_answer (drop_while space l) = has_answer (first_char l).
Proof. apply head_find. Qed.
Lemma head_last l : head_answer (rev (drop_end space l)) = has_answer (last_char l).
Proof. unfold drop_end. rewrite rev_involutive. apply head_find. Qed.

Lemma first_text sz cps : sz = 2 \/ sz = 4 -> Forall scalar cps -> has_answer (first_char (text sz cps)) = has_answer (first_char cps).
Proof.
  intros Hsz. unfold first_char. induction 1 as [|c cps Hc Hs IH]; [reflexivity|]. unfold text in *. cbn [flat_map find].
  destruct (wide_units sz c Hsz Hc) as [E|(h & l & E & Sc & Nc & Sh & Nh & _)]; rewrite E; cbn [app find].
  - destruct (space c); [exact IH|reflexivity].
  - rewrite Sc, Sh. cbn [negb has_answer]. rewrite Nc, Nh. reflexivity.
Qed.
Lemma last_text sz cps : sz = 2 \/ sz = 4 -> Forall scalar cps -> has_answer (last_char (text sz cps)) = has_answer (last_char cps).
Proof.
  intros Hsz. unfold last_char. induction cps as [|c cps IH] using rev_ind; intros Hs; [reflexivity|].
  apply Forall_app in Hs. destruct Hs as [Hs Hc]. apply Forall_cons_iff in Hc. destruct Hc as [Hc _].
  rewrite text_app, !rev_app_distr. cbn [rev app find]. replace (text sz [c]) with (enc sz c) by (cbn; rewrite app_nil_r; reflexivity).
  destruct (wide_units sz c Hsz Hc) as [E|(h & l & E & Sc & Nc & Sh & Nh & Sl & Nl)]; rewrite E; cbn [rev app find].
  - destruct (space c); [apply IH, Hs|reflexivity].
  - rewrite Sc, Sl. cbn [negb has_answer]. rewrite Nc, Nl. reflexivity.
Qed.

(* ---------------------------------------------------------------- all forms *)

Definition unit_enc (f : form) (u : N) : list N := match f with Utf8 | Utf8Mark => enc8 u | SwappedMark sz => [swapped sz u] | _ => [u] end.
Definition items_of (f : form) (cps : list N) : list N := match f with Utf8 | Utf8Mark => cps | _ => text (unit_bytes f) cps end.

Lemma body_items f cps : body f cps = flat_map (unit_enc f) (items_of f cps).
Proof.
  destruct f as [| |sz|sz|sz]; cbn [body unit_bytes items_of]; [reflexivity|reflexivity| | |]; unfold unit_enc.
  - rewrite (flat_map_single (fun u => u)). symmetry. apply map_id.
  - rewrite (flat_map_single (fun u => u)). symmetry. apply map_id.
  - rewrite (flat_map_single (swapped sz)). reflexivity.
Qed.
Lemma stored_items f cps : stored f cps = mark f ++ flat_map (unit_enc f) (items_of f cps).
Proof. unfold stored. rewrite body_items. reflexivity. Qed.

Lemma items_char be f cps : recognised be f cps -> Forall scalar cps -> Forall (fun c => c < 2 ^ 32) (items_of f cps).
Proof.
  intros R H. assert (S : Forall (fun c => c < 2 ^ 32) cps).
  { eapply Forall_impl; [|exact H]. intros c Hc. unfold scalar in Hc. change (2 ^ 32) with 4294967296. lia. }
  assert (W : forall sz, sz = 2 \/ sz = 4 -> Forall (fun c => c < 2 ^ 32) (text sz cps)).
  { intros sz Hsz. pose proof (text_units sz cps Hsz H) as U. eapply Forall_impl; [|exact U]. intros c Hc.
    eapply N.lt_le_trans; [exact Hc|]. apply N.pow_le_mono_r; [discriminate|]. destruct Hsz as [-> | ->]; discriminate. }
  destruct f; cbn [items_of unit_bytes recognised] in *; try exact S; apply W; tauto.
Qed.
Lemma items_enc f cps : Forall scalar cps -> Forall (fun c => unit_enc f c <> []) (items_of f cps).
Proof.
  intros H. apply Forall_forall. intros c _. destruct f; cbn [unit_enc]; try discriminate;
    intros E; pose proof (enc8_length_pos c) as P; rewrite E in P; cbn in P; lia.
Qed.

Lemma items_decode be schar f cps : recognised be f cps -> Forall scalar cps ->
  forall S (cb : S -> N -> nat -> nat -> S * bool) s,
    utf_decode cb be schar (unit_bytes f) (stored f cps) false s = Some (fst (run cb s (place (unit_enc f) (length (mark f)) (items_of f cps)))) /\
    utf_decode cb be schar (unit_bytes f) (stored f cps) true s = Some (fst (run cb s (rev (place (unit_enc f) (length (mark f)) (items_of f cps))))).
Proof.
  intros R H S cb s. destruct f as [| |sz|sz|sz]; cbn [recognised unit_bytes] in *.
  - change (unit_enc Utf8) with enc8. rewrite place_enc8. exact (decode8 cb be schar cps s H R).
  - change (unit_enc Utf8Mark) with enc8. rewrite place_enc8. exact (decode8_bom cb be schar cps s H).
  - destruct R as (Hsz & Hb & Hn). rewrite place_units by reflexivity. cbn [items_of unit_bytes mark length].
    unfold stored. cbn [mark body unit_bytes app].
    pose proof (text_units sz cps Hsz H) as U.
    destruct (list_eq_dec N.eq_dec (text sz cps) []) as [Z|Z]; [rewrite Z; split; reflexivity|].
    apply (wide_both be schar sz (text sz cps) 0 false []); try assumption; try reflexivity.
    + rewrite detect_wide by assumption.
      assert (L : looks_native be sz (text sz cps) = true) by (destruct Hn as [->|Hn]; [exfalso; apply Z; reflexivity|exact Hn]). rewrite L.
      destruct (text sz cps) as [|u l] eqn:T; [congruence|]. cbn [hd].
      destruct (N.eqb_spec u (swapped sz 0xFEFF)) as [->|_]; [exfalso; apply Hb; exists l; right; reflexivity|].
      destruct (N.eqb_spec u 0xFEFF) as [->|_]; [exfalso; apply Hb; exists l; left; reflexivity|]. reflexivity.
    + unfold logical. rewrite Bool.orb_true_r. reflexivity.
  - rewrite place_units by reflexivity. cbn [items_of unit_bytes mark length]. unfold stored. cbn [mark body unit_bytes app].
    pose proof (text_units sz cps R H) as U.
    assert (U1 : units sz (0xFEFF :: text sz cps)) by (constructor; [destruct R as [-> | ->]; reflexivity|exact U]).
    apply (wide_both be schar sz (0xFEFF :: text sz cps) 1 false [0xFEFF]); try assumption; try reflexivity; try discriminate.
    + rewrite detect_wide by (try assumption; discriminate). cbn [hd]. destruct R as [-> | ->]; reflexivity.
    + unfold logical. rewrite Bool.orb_true_r. reflexivity.
  - rewrite place_units by reflexivity. cbn [items_of unit_bytes mark length]. unfold stored. cbn [mark body unit_bytes app].
    pose proof (text_units sz cps R H) as U.
    assert (U1 : units sz (0xFEFF :: text sz cps)) by (constructor; [destruct R as [-> | ->]; reflexivity|exact U]).
    assert (U2 : units sz (map (swapped sz) (0xFEFF :: text sz cps))).
    { unfold units. rewrite Forall_map. eapply Forall_impl; [|exact U1]. intros u Hu. apply byte_reverse_swapped; assumption. }
    apply (wide_both be schar sz (map (swapped sz) (0xFEFF :: text sz cps)) 1 true [0xFEFF]); try assumption; try reflexivity; try discriminate.
    + rewrite detect_wide by (try assumption; discriminate). cbn [map hd]. rewrite N.eqb_refl. reflexivity.
    + unfold logical. replace (sz =? 1) with false by (destruct R as [-> | ->]; reflexivity). cbn [orb negb].
      rewrite map_swapped_swapped by assumption. reflexivity.
Qed.

Lemma items_drop be f cps : recognised be f cps -> Forall scalar cps ->
  drop_while space (items_of f cps) = items_of f (drop_while space cps) /\ drop_end space (items_of f cps) = items_of f (drop_end space cps) /\
  head_answer (drop_while space (items_of f cps)) = has_answer (first_char cps) /\
  head_answer (rev (drop_end space (items_of f cps))) = has_answer (last_char cps).
Proof.
  intros R H. rewrite head_first, head_last.
  destruct f as [| |sz|sz|sz]; cbn [items_of unit_bytes recognised] in *; try tauto;
    (assert (Hsz : sz = 2 \/ sz = 4) by tauto; rewrite drop_while_text, drop_end_text, first_text, last_text by assumption; tauto).
Qed.

Lemma trim_all be schar f cps : recognised be f cps -> Forall scalar cps ->
  trim be schar (unit_bytes f) (stored f cps) =
    (if has_answer (first_char cps) && has_answer (last_char cps) then Some (body f (drop_end space (drop_while space cps))) else None) /\
  trim_left be schar (unit_bytes f) (stored f cps) =
    (if has_answer (first_char cps) then Some (body f (drop_while space cps)) else None) /\
  trim_right be schar (unit_bytes f) (stored f cps) =
    (if has_answer (last_char cps) then Some (match drop_end space cps with [] => [] | k => stored f k end) else None).
Proof.
  intros R H. pose proof (items_decode be schar f cps R H) as D. pose proof (items_drop be f cps R H) as (D1 & D2 & D3 & D4).
  pose proof (items_char be f cps R H) as C. pose proof (items_enc f cps H) as E. rewrite stored_items in *.
  assert (Df := fun S cb s => proj1 (D S cb s)). assert (Db := fun S cb s => proj2 (D S cb s)). clear D.
  split; [|split].
  - rewrite (items_trim be schar (unit_bytes f) (unit_enc f) (mark f) (items_of f cps) C E Df Db).
    rewrite D3, D4, D1, body_items. destruct f as [| |sz|sz|sz]; try reflexivity; cbn [recognised items_of unit_bytes] in *;
      (assert (Hsz : sz = 2 \/ sz = 4) by tauto; rewrite drop_end_text by (try assumption; apply scalar_drop_while, H); reflexivity).
  - rewrite (items_left be schar (unit_bytes f) (unit_enc f) (mark f) (items_of f cps) C E Df Db).
    rewrite D3, D1, body_items. reflexivity.
  - rewrite (items_right be schar (unit_bytes f) (unit_enc f) (mark f) (items_of f cps) C E Df Db).
    rewrite D4, D2. destruct (has_answer (last_char cps)); [|reflexivity]. f_equal.
    destruct (drop_end space cps) as [|c r]; [destruct f; reflexivity|]. rewrite stored_items.
    destruct (items_of f (c :: r)) as [|u k] eqn:Z; [exfalso|reflexivity].
    pose proof (body_items f (c :: r)) as B. rewrite Z in B. cbn [flat_map] in B.
    assert (T : forall sz, (0 < length (enc sz c))%nat).
    { intros sz. unfold enc. destruct (sz =? 1); [apply enc8_length_pos|]. destruct (sz =? 2); [|cbn; lia]. unfold enc16. destruct (c <? 65536); cbn; lia. }
    pose proof (T (unit_bytes f)) as P. apply (f_equal (@length N)) in B.
    destruct f as [| |sz|sz|sz]; cbn [body unit_bytes text flat_map length] in *; rewrite ?map_length, ?app_length in B; lia.
Qed.
