(** Properties of string_param (C47). *)
From Coq Require Import Lia.
From Verif Require Import Words UtfModel UtfSpec UtfProps SparamModel SparamSpec SparamProofs.
Local Open Scope nat_scope.

(** Every history of constructions, moves, assignments, conversions, trims, queries and destructions is carried out without touching a
    dead or foreign string; each answer is the right text (a view shows it, in the state the operation leaves); afterwards each
    string parameter is destroyed, empty, owner of one live non-empty string of the right contents, or viewer of a part of a live string
    of the user's; and no two own the same string.  What is missing: the histories excluded by the specification ([wstep]) include some
    the library should support - those of the theorems [C47_*_refuted] below. *)
Theorem C47_refinement_partial be schar wsz ws prog w answers : wrun be schar wsz ws wstart prog = Some (w, answers) ->
  exists s, conforms be schar wsz ws start prog answers s /\
    users s = w_users w /\ length (pars s) = length (w_pars w) /\
    (forall i p v, nth_error (pars s) i = Some p -> nth_error (w_pars w) i = Some v -> denotes s p v) /\
    (forall i j k k' o, nth_error (pars s) i = Some (Some (POwn k o)) -> nth_error (pars s) j = Some (Some (POwn k' o)) -> i = j).
Proof.
  intros H. destruct (run_ok be schar wsz ws prog _ _ _ _ rel_start H) as (s & C & R). exists s. split; [exact C|].
  destruct R as (A & B & D & O & _). split; [exact A|]. split; [exact B|]. split; [exact D|].
  intros i j k k' o E E'. apply (O i j _ _ o E E'); eexists; reflexivity.
Qed.
Print Assumptions C47_refinement_partial.

(** [conforms] is the run of the model. *)
Theorem C47_conforms_run be schar wsz ws prog : forall s answers e, conforms be schar wsz ws s prog answers e ->
  exists outs, run be schar wsz ws s prog = Some (e, outs) /\ length outs = length answers.
Proof.
  induction prog as [|c prog IH]; intros s [|a answers] e H; cbn in *; try contradiction.
  - subst. exists []. split; reflexivity.
  - destruct H as (s' & o & E & _ & C). destruct (IH _ _ _ C) as (outs & R & L). rewrite E. cbn. rewrite R. cbn. exists (o :: outs). cbn. split; [reflexivity|]. congruence.
Qed.
Print Assumptions C47_conforms_run.

(** Nothing leaks: once all the parameters are gone (or empty, or views), the strings left behind without a destructor call
    hold no text. *)
Theorem C47_no_leak_partial be schar wsz ws prog w answers : wrun be schar wsz ws wstart prog = Some (w, answers) ->
  (forall i k l, nth_error (w_pars w) i <> Some (Some (Some (k, l, None)))) ->
  exists s, conforms be schar wsz ws start prog answers s /\ (forall o k l, nth_error (objs s) o = Some (Some (k, l)) -> l = []).
Proof.
  intros H N. destruct (run_ok be schar wsz ws prog _ _ _ _ rel_start H) as (s & C & R). exists s. split; [exact C|].
  intros o k l E. destruct R as (_ & B & D & _ & K). destruct l as [|c l]; [reflexivity|]. exfalso.
  destruct (K o k (c :: l) E ltac:(discriminate)) as (i & p & P & (k2 & ->)).
  destruct (nth_error (w_pars w) i) as [v|] eqn:V; [|apply nth_error_None in V; apply EarrProofs.nth_len in P; lia].
  specialize (D _ _ _ P V). destruct v as [[[[k' l'] [u|]]|]|]; try contradiction. exact (N i k' l' V).
Qed.
Print Assumptions C47_no_leak_partial.

(** Conversion to another encoding: a parameter holding UTF-8 text gives the same text in UTF-16 or UTF-32 (the former without U+0000). *)
Theorem C47_convert_from_utf8_partial be schar wsz ws w i k to cps f :
  k = Narrow \/ k = U8 -> to = U16 \/ to = U32 -> Forall scalar cps -> ~ starts_with_bom cps -> Exists (fun c => c <> 0%N) cps ->
  par w i = Some (Some (k, text 1 cps, f)) ->
  exists l, wstep be schar wsz ws w (View i to) = Some (put w i (Some (Some (to, l, None))), Some (inl l)) /\
    wstep be schar wsz ws w (Into i to) = Some (w, Some (inl l)) /\
    l = text (size_of wsz to) (if kind_eqb to U32 then cps else filter (fun c => negb (c =? 0)%N) cps).
Proof.
  intros K T Hs Hb Hn P. eexists. split; [|split; [|reflexivity]]; cbn [wstep]; rewrite P; cbn [option_bind];
  (replace (kind_eqb k to) with false by (destruct K as [-> | ->], T as [-> | ->]; reflexivity));
  unfold transcode; replace (size_of wsz k) with 1%N by (destruct K as [-> | ->]; reflexivity);
  (rewrite C26_from_utf8_partial; [|destruct T as [-> | ->]; [left|right]; reflexivity|exact Hs|exact Hb]); cbn [option_bind];
  (replace (size_of wsz to =? 4)%N with (kind_eqb to U32) by (destruct T as [-> | ->]; reflexivity)); [|reflexivity].
  set (c2 := if kind_eqb to U32 then cps else filter (fun c => negb (c =? 0)%N) cps).
  assert (Ne : c2 <> []).
  { unfold c2. rewrite Exists_exists in Hn. destruct Hn as (c & I & Nc). destruct (kind_eqb to U32); [intros ->; contradiction|].
    intros F. assert (I2 : In c (filter (fun c => negb (c =? 0)%N) cps)) by (apply filter_In; split; [exact I|apply negb_true_iff, N.eqb_neq, Nc]).
    rewrite F in I2. contradiction. }
  destruct c2 as [|c c2]; [congruence|]. cbn [text flat_map].
  assert (Ec : enc (size_of wsz to) c <> []).
  { unfold enc, enc8, enc16. destruct T as [-> | ->]; cbn; [destruct (c <? 65536)%N|]; discriminate. }
  destruct (enc (size_of wsz to) c) as [|x y]; [congruence|]. reflexivity.
Qed.
Print Assumptions C47_convert_from_utf8_partial.

(** Trimming UTF-8 text removes the longest runs of whitespace at both ends, and does not change whether it is owned. *)
Theorem C47_trim_utf8_partial be schar wsz ws w i k cps f : k = Narrow \/ k = U8 -> Forall scalar cps -> ~ starts_with_bom cps ->
  par w i = Some (Some (k, text 1 cps, f)) ->
  wstep be schar wsz ws w (Trim i) = Some (put w i (Some (match text 1 (drop_end ws (drop_while ws cps)) with [] => None | l => Some (k, l, f) end)), None).
Proof.
  intros K Hs Hb P. cbn [wstep]. rewrite P. cbn [option_bind]. replace (size_of wsz k) with 1%N by (destruct K as [-> | ->]; reflexivity).
  rewrite C27_trim_partial by assumption. cbn [option_bind]. unfold mk. destruct (text 1 (drop_end ws (drop_while ws cps))); reflexivity.
Qed.
Print Assumptions C47_trim_utf8_partial.

Definition C47_ascii : list N := [32; 104; 105; 32]%N.
(** A program that uses most of the operations; the hypotheses of the theorems above hold for it. *)
Definition C47_prog : list op :=
  [UserNew U8 C47_ascii; FromString U8 0; Trim 0; Owning 0; View 0 U16; Owning 0; MoveNew 0; Empty 0; UserDrop 0;
   UserNew U32 [97; 98]%N; FromMoved U32 1; MoveAssign 1 2; View 1 U32; Into 1 U32; New; Destroy 0; Destroy 1; Destroy 2; Destroy 3].
Example C47_witness : exists w, wrun false false 4 (fun c => (c =? 32)%N) wstart C47_prog = Some (w,
    [None; None; None; Some (inr false); Some (inl [104; 105]%N); Some (inr true); None; Some (inr true); None;
     None; None; None; Some (inl [97; 98]%N); Some (inl [97; 98]%N); None; None; None; None; None]) /\
  (forall i k l, nth_error (w_pars w) i <> Some (Some (Some (k, l, None)))).
Proof.
  eexists. split; [vm_compute; reflexivity|]. intros i k l. cbn. do 5 (destruct i as [|i]; [discriminate|]). destruct i; discriminate.
Qed.
Example C47_convert_witness : exists w, par w 0 = Some (Some (U8, text 1 [233; 0x1F601]%N, None)) /\ Forall scalar [233; 0x1F601]%N /\
  ~ starts_with_bom [233; 0x1F601]%N /\ Exists (fun c => c <> 0%N) [233; 0x1F601]%N /\
  wstep false false 4 (fun _ => false) w (View 0 U16) = Some (put w 0 (Some (Some (U16, [233; 0xD83D; 0xDE01]%N, None))), Some (inl [233; 0xD83D; 0xDE01]%N)).
Proof.
  exists {| w_users := []; w_pars := [Some (Some (U8, text 1 [233; 0x1F601]%N, None))] |}. split; [reflexivity|].
  split; [apply Forall_cons; [left; reflexivity|]; apply Forall_cons; [right; split; [discriminate|discriminate]|apply Forall_nil]|].
  split; [intros (r & H); discriminate|]. split; [apply Exists_cons_hd; discriminate|]. vm_compute. reflexivity.
Qed.

(** Moving from an empty parameter, by constructor or assignment, has undefined behaviour (the visitor assumes a value), *)
Theorem C47_move_from_empty_refuted be schar wsz ws s j p :
  nth_error (pars s) j = Some (Some PNone) -> step be schar wsz ws s (MoveNew j) = None /\
  (forall i, i <> j -> nth_error (pars s) i = Some (Some p) -> step be schar wsz ws s (MoveAssign i j) = None).
Proof.
  intros E. apply get_par_iff in E. cbn. rewrite E. cbn. split; [reflexivity|]. intros i N P. apply get_par_iff in P. rewrite P. cbn.
  apply Nat.eqb_neq in N. rewrite N. destruct p as [|k o|k u off len]; cbn; [reflexivity| |reflexivity].
  destruct (destroy_obj s k o); reflexivity.
Qed.
Print Assumptions C47_move_from_empty_refuted.
(** so a moved-from parameter cannot be moved from again. *)
Theorem C47_move_twice_refuted be schar wsz ws : exists prog, run be schar wsz ws start prog = None /\
  prog = [UserNew U8 [65]%N; FromString U8 0; MoveNew 0; MoveNew 0].
Proof. eexists. split; [|reflexivity]. cbn. reflexivity. Qed.
Print Assumptions C47_move_twice_refuted.

(** So has trimming an empty one. *)
Theorem C47_trim_empty_refuted be schar wsz ws s i : nth_error (pars s) i = Some (Some PNone) -> step be schar wsz ws s (Trim i) = None.
Proof. intros E. apply get_par_iff in E. cbn. rewrite E. reflexivity. Qed.
Print Assumptions C47_trim_empty_refuted.

(** Asking for a view in another encoding whose text comes out empty dereferences a null pointer; so with a lone byte order mark. *)
Theorem C47_view_to_empty_refuted be schar wsz ws s i p k l to :
  nth_error (pars s) i = Some (Some p) -> payload s p = Some (k, l) -> l <> [] -> kind_eqb k to = false ->
  transcode be schar wsz k to l = Some [] -> step be schar wsz ws s (View i to) = None.
Proof.
  intros E P N K T. apply get_par_iff in E. cbn [step]. rewrite E. cbn [option_bind].
  assert (Em : is_empty s p = Some false) by (unfold is_empty; rewrite P; destruct p; [discriminate| |]; (destruct l; [congruence|reflexivity])).
  rewrite Em. cbn [option_bind]. unfold get_view. rewrite P. cbn [option_bind fst snd]. rewrite K, T. cbn [option_bind].
  assert (G : forall os, get (os ++ [Some (to, [])]) to (length os) = Some []).
  { intros os. apply get_iff. rewrite nth_error_app2, Nat.sub_diag by lia. reflexivity. }
  destruct p as [|k2 o|k2 u off len]; [discriminate| |].
  - cbn in P. destruct (get (objs s) k2 o) as [l2|] eqn:G2; [|discriminate]. cbn in P. injection P as -> ->.
    assert (B : o < length (objs s)) by (apply get_iff in G2; exact (EarrProofs.nth_len _ _ _ G2)).
    unfold destroy_obj at 1. cbn [objs set_objs].
    assert (G3 : get (objs s ++ [Some (to, [])]) k o = Some l) by (apply get_iff; rewrite nth_error_app1 by exact B; apply get_iff, G2).
    rewrite G3. cbn [option_bind]. unfold init_move. cbn [objs set_objs].
    assert (G4 : get (upd (objs s ++ [Some (to, [])]) o None) to (length (objs s)) = Some []).
    { apply get_iff. rewrite EarrProofs.upd_other by lia. rewrite nth_error_app2, Nat.sub_diag by lia. reflexivity. }
    rewrite G4. reflexivity.
  - cbn [option_bind]. unfold init_move. cbn [objs set_objs]. rewrite G. reflexivity.
Qed.
Print Assumptions C47_view_to_empty_refuted.
Example C47_view_to_empty_witness be schar wsz ws :
  run be schar wsz ws start [UserNew U8 [0xEF; 0xBB; 0xBF]%N; FromString U8 0; View 0 U16] = None.
Proof. destruct be, schar; vm_compute; reflexivity. Qed.

(** Converting a parameter that owns its text invalidates the views handed out before. *)
Theorem C47_old_view_refuted : exists prog s v, 
  run false false 4 (fun _ => false) start prog = Some (s, [ODone; ODone; OView v; OView (InObj U16 2 0 1)]) /\
  prog = [UserNew U8 [65]%N; FromMoved U8 0; View 0 U8; View 0 U16] /\ look s v = None.
Proof. eexists. eexists. eexists. split; [|split; [reflexivity|]]; vm_compute; reflexivity. Qed.
Print Assumptions C47_old_view_refuted.

(** Conversions replace the text, and not all are exact: after a detour over UTF-16 the text is another. *)
Theorem C47_there_and_back_refuted : exists w answers,
  wrun false false 4 (fun _ => false) wstart [UserNew U8 [65; 0xF0; 0x9F; 0x98; 0x81]%N; FromMoved U8 0; View 0 U8; View 0 U16; View 0 U8] = Some (w, answers) /\
  nth_error answers 2 = Some (Some (inl (text 1 [65; 0x1F601]%N))) /\ nth_error answers 4 <> Some (Some (inl (text 1 [65; 0x1F601]%N))).
Proof. eexists. eexists. split; [vm_compute; reflexivity|]. split; [reflexivity|]. vm_compute. discriminate. Qed.
Print Assumptions C47_there_and_back_refuted.

(** A moved-from parameter is empty, as documented, whatever it held, unless it is moved to itself. *)
Theorem C47_moved_from_empty_partial be schar wsz ws s c s' o j : step be schar wsz ws s c = Some (s', o) ->
  c = MoveNew j \/ (exists i, i <> j /\ c = MoveAssign i j) -> nth_error (pars s') j = Some (Some PNone).
Proof.
  assert (PR : forall p q r, move_assign s p q = Some r -> pars (fst r) = pars s).
  { intros p q r H. destruct (move_pars s p q r H) as [_ E]. exact E. }
  intros H [-> | (i & N & ->)]; cbn [step] in H.
  - destruct (get_par s j) as [q|] eqn:P; [|discriminate]. cbn [option_bind] in H. destruct (move_assign s PNone q) as [r|] eqn:M; [|discriminate].
    cbn [option_bind] in H. injection H as <- <-. apply get_par_iff in P. pose proof (EarrProofs.nth_len _ _ _ P) as B. cbn. rewrite (PR _ _ _ M).
    rewrite nth_error_app1 by (rewrite EarrProofs.upd_length; exact B). apply EarrProofs.upd_same, B.
  - destruct (get_par s i) as [p|] eqn:Q; [|discriminate]. cbn [option_bind] in H. destruct (get_par s j) as [q|] eqn:P; [|discriminate]. cbn [option_bind] in H.
    apply Nat.eqb_neq in N. rewrite N in H. destruct (move_assign s p q) as [r|] eqn:M; [|discriminate]. cbn [option_bind] in H. injection H as <- <-.
    apply get_par_iff in P. pose proof (EarrProofs.nth_len _ _ _ P) as B. cbn. rewrite (PR _ _ _ M). apply EarrProofs.upd_same. rewrite EarrProofs.upd_length. exact B.
Qed.
Print Assumptions C47_moved_from_empty_partial.
Example C47_moved_from_witness : exists s s' o, nth_error (pars s) 0 = Some (Some (PView U8 0 0 1)) /\ step false false 4 (fun _ => false) s (MoveNew 0) = Some (s', o).
Proof. exists {| users := [Some (U8, [65]%N)]; objs := []; pars := [Some (PView U8 0 0 1)] |}. eexists. eexists. split; reflexivity. Qed.
