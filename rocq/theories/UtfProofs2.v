(** Proofs about [utf_decode]. *)
From Verif Require Import Words WordsProofs BitsModel BitsSpec BitsProofs3 UtfModel UtfSpec UtfProofs.
From Coq Require Import ZifyBool ZifyNat ZifyN.
Local Open Scope N_scope.

Definition unit_size (sz : N) : Prop := sz = 1 \/ sz = 2 \/ sz = 4.

(** The string after the optional byte swap. *)
Definition logical (sz : N) (sw : bool) (str : list N) : list N :=
  if (sz =? 1) || negb sw then str else map (swapped sz) str.

Lemma byte_reverse_swapped sz u : sz = 2 \/ sz = 4 -> u < 2 ^ (8 * sz) ->
  byte_reverse (8 * sz) u = Some (swapped sz u) /\ swapped sz u < 2 ^ (8 * sz).
Proof.
  intros Hsz Hu.
  assert (W : std_width (8 * sz)) by (unfold std_width; destruct Hsz as [-> | ->]; cbn; tauto).
  destruct (byte_reverse_bytes (N.to_nat sz) (8 * sz) u) as (r & E & Hr & B);
    [rewrite N2Nat.id; reflexivity|destruct Hsz as [-> | ->]; discriminate|exact W|exact Hu|].
  unfold swapped. rewrite <- B. rewrite of_le_bytes_le_bytes. rewrite N2Nat.id.
  rewrite N.mod_small by exact Hr. split; assumption.
Qed.

Lemma get_logical sz sw str i : unit_size sz -> units sz str -> get sz str sw i = nth_error (logical sz sw str) i.
Proof.
  intros Hsz Hu. unfold get, logical. destruct ((sz =? 1) || negb sw) eqn:E.
  - destruct (nth_error str i); reflexivity.
  - rewrite nth_error_map. destruct (nth_error str i) as [u|] eqn:N; [|reflexivity]. cbn [option_bind option_map].
    apply byte_reverse_swapped.
    + destruct Hsz as [->|[->| ->]]; [discriminate|left; reflexivity|right; reflexivity].
    + unfold units in Hu. rewrite Forall_forall in Hu. apply Hu. eapply nth_error_In, N.
Qed.

Lemma logical_length sz sw str : length (logical sz sw str) = length str.
Proof. unfold logical. destruct ((sz =? 1) || negb sw); [reflexivity|apply map_length]. Qed.

Lemma logical_units sz sw str : unit_size sz -> units sz str -> units sz (logical sz sw str).
Proof.
  intros Hsz Hu. unfold logical. destruct ((sz =? 1) || negb sw) eqn:E; [exact Hu|].
  unfold units in *. rewrite Forall_map. eapply Forall_impl; [|exact Hu]. intros u H. cbn beta in H.
  apply byte_reverse_swapped; [|exact H].
  destruct Hsz as [->|[->| ->]]; [discriminate|left; reflexivity|right; reflexivity].
Qed.

Lemma run_app {S : Type} (cb : S -> N -> nat -> nat -> S * bool) a : forall s b,
  run cb s (a ++ b) = let '(s', st) := run cb s a in if st then (s', true) else run cb s' b.
Proof.
  induction a as [|[[cp i] n] a IH]; intros s b; cbn [app run]; [reflexivity|].
  destruct (cb s cp i n) as [s' [|]]; [apply IH|reflexivity].
Qed.

(** One event per code unit. *)
Fixpoint singles (f : N -> N) (i : nat) (l : list N) : list event :=
  match l with [] => [] | u :: r => (f u, i, 1%nat) :: singles f (S i) r end.

Lemma singles_app f l1 : forall i l2, singles f i (l1 ++ l2) = singles f i l1 ++ singles f (i + length l1) l2.
Proof.
  induction l1 as [|u l1 IH]; intros i l2; cbn [app singles length].
  - rewrite Nat.add_0_r. reflexivity.
  - rewrite IH. replace (S i + length l1)%nat with (i + S (length l1))%nat by lia. reflexivity.
Qed.

Lemma singles_covers f l : forall i, covers i (singles f i l) (i + length l).
Proof.
  induction l as [|u l IH]; intros i; cbn [singles length].
  - rewrite Nat.add_0_r. constructor.
  - constructor; [lia|]. replace (i + S (length l))%nat with (S i + length l)%nat by lia.
    replace (i + 1)%nat with (S i) by lia. apply IH.
Qed.

Lemma covers_app i a j b k : covers i a j -> covers j b k -> covers i (a ++ b) k.
Proof. induction 1; intros H'; [exact H'|]. cbn. constructor; auto. Qed.

Lemma nth_error_mid {A} (pre : list A) x post : nth_error (pre ++ x :: post) (length pre) = Some x.
Proof. rewrite nth_error_app2 by lia. rewrite Nat.sub_diag. reflexivity. Qed.

Section Loops.
  Context (schar : bool) (sz : N) (str : list N) (sw : bool).
  Context (Hsz : unit_size sz) (Hu : units sz str).
  Let L := logical sz sw str.
  Let c32 := to_char32 schar sz.

  Lemma getL i : get sz str sw i = nth_error L i.
  Proof. apply get_logical; assumption. Qed.

  Lemma emit_up_ok l : forall pre post, L = pre ++ l ++ post -> forall S (cb : S -> N -> nat -> nat -> S * bool) s,
    emit_up cb schar sz str sw (length l) (length pre) s = Some (run cb s (singles c32 (length pre) l)).
  Proof.
    induction l as [|u l IH]; intros pre post HL S cb s; cbn [length emit_up singles run]; [reflexivity|].
    rewrite getL, HL. cbn [app]. rewrite nth_error_mid. cbn [option_bind]. fold c32.
    destruct (cb s (c32 u) (length pre) 1%nat) as [s' [|]]; [|reflexivity].
    specialize (IH (pre ++ [u]) post). rewrite app_length in IH. cbn [length] in IH.
    replace (Datatypes.S (length pre)) with (length pre + 1)%nat by lia.
    apply IH. rewrite HL, <- app_assoc. reflexivity.
  Qed.

  Lemma emit_down_ok l : forall pre post, L = pre ++ l ++ post -> forall S (cb : S -> N -> nat -> nat -> S * bool) s,
    emit_down cb schar sz str sw (length l) (length pre) s = Some (run cb s (rev (singles c32 (length pre) l))).
  Proof.
    induction l as [|u l IH] using rev_ind; intros pre post HL S cb s; [reflexivity|].
    rewrite app_length. cbn [length]. rewrite Nat.add_1_r. cbn [emit_down].
    rewrite singles_app, rev_app_distr. cbn [singles rev app run].
    assert (G : get sz str sw (length pre + length l) = Some u).
    { rewrite getL, HL. replace (pre ++ (l ++ [u]) ++ post) with ((pre ++ l) ++ u :: post).
      - rewrite <- app_length. apply nth_error_mid.
      - rewrite <- !app_assoc. reflexivity. }
    rewrite G. cbn [option_bind]. fold c32.
    destruct (cb s (c32 u) (length pre + length l)%nat 1%nat) as [s' [|]]; [|reflexivity].
    apply IH with (u :: post). rewrite HL, <- !app_assoc. reflexivity.
  Qed.

  (** Splitting the string at an interval. *)
  Lemma split_at i n : (i + n <= length L)%nat -> exists pre l post, L = pre ++ l ++ post /\ length pre = i /\ length l = n.
  Proof.
    intros H. exists (firstn i L), (firstn n (skipn i L)), (skipn n (skipn i L)).
    rewrite !firstn_skipn. split; [reflexivity|]. rewrite !firstn_length, skipn_length. lia.
  Qed.

  (* ----------------------------------------------- well-formed decoder states *)

  Definition state_ok (d : dec) (cu : nat) : Prop :=
    if sz =? 1 then
      (d_state d = 0 /\ cu = 0%nat) \/ (d_state d = 24 /\ (1 <= cu <= 3)%nat) \/ (d_state d = 36 /\ (1 <= cu <= 2)%nat) \/
      (In (d_state d) [48; 60; 72; 84; 96] /\ cu = 1%nat)
    else d16_ok d /\ cu = 0%nat.

  Definition live (d : dec) : Prop := if sz =? 1 then In (d_state d) live_states else d16_ok d.

  Lemma state_ok_live d cu : state_ok d cu -> live d.
  Proof.
    unfold state_ok, live. destruct (sz =? 1); [|tauto]. cbn [live_states In].
    intros [[-> _]|[[-> _]|[[-> _]|[H _]]]]; cbn [In] in *; tauto.
  Qed.

  Lemma feed_live d u : sz <> 4 -> live d -> u < 2 ^ (8 * sz) -> exists d', dec_feed sz d u = Some d' /\
    ((dec_error sz d' = true /\ dec_has_value sz d' = false) \/ (dec_error sz d' = false /\ live d')).
  Proof.
    intros H4 Hl Hb. unfold live, dec_feed, dec_error, dec_has_value in *.
    destruct Hsz as [->|[->| ->]]; [| |contradiction]; cbn [N.eqb Pos.eqb] in *.
    - destruct d as [st c]. cbn [d_state] in Hl. change (2 ^ (8 * 1)) with 256 in Hb.
      destruct (d8_feed_ok st c u Hl Hb) as (c' & F & _). rewrite F. eexists. split; [reflexivity|].
      unfold d8_error, d8_has_value. cbn [d_state]. destruct (next8_live st u) as [E|E].
      + left. rewrite E. split; reflexivity.
      + right. split; [apply live_not_error, E|exact E].
    - rewrite d16_feed_ok by exact Hl. eexists. split; [reflexivity|].
      destruct (low_surrogate u); [left; split; reflexivity|right; split; [reflexivity|right; reflexivity]].
  Qed.

  Lemma clear_live d : sz <> 4 -> dec_error sz d = true -> exists d', dec_clear sz d = Some d' /\ d_state d' = 0 /\ live d'.
  Proof.
    intros H4 He. unfold dec_clear, dec_error, live in *. destruct Hsz as [->|[->| ->]]; [| |contradiction]; cbn [N.eqb Pos.eqb] in *.
    - unfold d8_clear. rewrite He. eexists. split; [reflexivity|]. split; [reflexivity|left; reflexivity].
    - unfold d16_clear. rewrite He. eexists. split; [reflexivity|]. split; [reflexivity|left; reflexivity].
  Qed.

  Lemma feed_state d u cu : sz <> 4 -> state_ok d cu -> u < 2 ^ (8 * sz) -> exists d', dec_feed sz d u = Some d' /\
    ((dec_has_value sz d' = true /\ state_ok d' 0) \/
     (dec_has_value sz d' = false /\ dec_error sz d' = true) \/
     (dec_has_value sz d' = false /\ dec_error sz d' = false /\ state_ok d' (S cu))).
  Proof.
    intros H4 Hs Hb. unfold state_ok, dec_feed, dec_error, dec_has_value in *.
    destruct Hsz as [->|[->| ->]]; [| |contradiction].
    - cbn [N.eqb Pos.eqb] in *.
      destruct d as [st c]. cbn [d_state] in Hs. change (2 ^ (8 * 1)) with 256 in Hb.
      assert (Hl : In st live_states).
      { cbn [live_states In]. destruct Hs as [[-> _]|[[-> _]|[[-> _]|[H _]]]]; cbn [In] in *; tauto. }
      destruct (d8_feed_ok st c u Hl Hb) as (c' & F & _). rewrite F. eexists. split; [reflexivity|].
      unfold d8_error, d8_has_value. cbn [d_state].
      destruct (N.eq_dec (next8 st u) 12) as [E|E]; [right; left; rewrite E; split; reflexivity|].
      destruct Hs as [[-> ->]|[[-> Hcu]|[[-> Hcu]|[H ->]]]].
      + destruct (next8_0 u E) as [[-> R]|[[-> R]|[[-> R]|[[-> R]|[[-> R]|[[-> R]|[[-> R]|[-> R]]]]]]]];
          cbn [In]; (left; split; [reflexivity|left; split; reflexivity]) || (right; right; split; [reflexivity|split; [reflexivity|]]; lia).
      + destruct (proj1 (next8_cont u) E) as [-> R]. left. split; [reflexivity|left; split; reflexivity].
      + destruct (proj1 (proj2 (next8_cont u)) E) as [-> R]. right; right. split; [reflexivity|]. split; [reflexivity|]. cbn [In]. lia.
      + destruct (next8_cont u) as (_ & _ & C48 & C60 & C72 & C84 & C96).
        cbn [In] in H. destruct H as [<-|[<-|[<-|[<-|[<-|[]]]]]];
          [destruct (C48 E) as [-> R]|destruct (C60 E) as [-> R]|destruct (C72 E) as [-> R]|destruct (C84 E) as [-> R]|destruct (C96 E) as [-> R]];
          right; right; (split; [reflexivity|]); (split; [reflexivity|]); cbn [In]; lia.
    - cbn [N.eqb Pos.eqb] in *. destruct Hs as [Hd ->].
      rewrite d16_feed_ok by exact Hd. eexists. split; [reflexivity|].
      destruct (low_surrogate u); [right; left; split; reflexivity|].
      left. split; [reflexivity|]. split; [right; reflexivity|reflexivity].
  Qed.

  Lemma nth_L_unit i u : nth_error L i = Some u -> u < 2 ^ (8 * sz).
  Proof.
    intros H. pose proof (logical_units sz sw str Hsz Hu) as LU. unfold units in LU. rewrite Forall_forall in LU.
    apply LU. eapply nth_error_In, H.
  Qed.

  (** The forward loop is defined on every string and makes a fixed sequence of calls, which tile the string up to
      an incomplete sequence at its very end. *)
  Lemma forward_total n : sz <> 4 -> forall i st cu d, (i + n = length L)%nat -> (st + cu = i)%nat -> state_ok d cu ->
    exists evs j, covers st evs j /\ (j <= length L)%nat /\ (length L <= j + 3)%nat /\ (sz = 2 -> j = length L) /\
      forall S (cb : S -> N -> nat -> nat -> S * bool) s, forward cb schar sz str sw n i st cu d s = Some (run cb s evs).
  Proof.
    intros H4. induction n as [|n IH]; intros i st cu d Hi Hst Hd.
    - exists [], st. split; [constructor|]. split; [lia|]. split.
      + unfold state_ok in Hd. destruct (sz =? 1); [cbn [In] in Hd; lia|destruct Hd as [_ Hd]; lia].
      + split; [|reflexivity]. intros E2. unfold state_ok in Hd. rewrite E2 in Hd. cbn in Hd. destruct Hd as [_ Hd]. lia.
    - destruct (nth_error L i) as [u|] eqn:Nu; [|apply nth_error_None in Nu; lia].
      pose proof (nth_L_unit i u Nu) as Hb.
      destruct (feed_state d u cu H4 Hd Hb) as (d' & F & [[V Hd']|[[V E]|[V [E Hd']]]]).
      + destruct (IH (S i) (S i) 0%nat d') as (evs & j & C & J1 & J2 & J3 & R); [lia|lia|exact Hd'|].
        exists ((d_cp d', st, S cu) :: evs), j. split; [|split; [exact J1|split; [exact J2|split; [exact J3|]]]].
        * constructor; [lia|]. replace (st + S cu)%nat with (S i) by lia. exact C.
        * intros S cb s. cbn [forward run]. rewrite getL, Nu. cbn [option_bind]. rewrite F. cbn [option_bind]. rewrite V.
          destruct (cb s (d_cp d') st (Datatypes.S cu)) as [s' [|]]; [apply R|reflexivity].
      + destruct (clear_live d' H4 E) as (d2 & Cl & Hz & Hl).
        assert (Hd2 : state_ok d2 0).
        { unfold state_ok. destruct (sz =? 1) eqn:E1; [left; split; [exact Hz|reflexivity]|split; [left; exact Hz|reflexivity]]. }
        destruct (IH (S i) (S i) 0%nat d2) as (evs & j & C & J1 & J2 & J3 & R); [lia|lia|exact Hd2|].
        destruct (split_at st (S cu)) as (pre & l & post & HL & Lp & Ll); [lia|].
        exists (singles c32 st l ++ evs), j. split; [|split; [exact J1|split; [exact J2|split; [exact J3|]]]].
        * eapply covers_app; [apply singles_covers|]. replace (st + length l)%nat with (S i) by lia. exact C.
        * intros S cb s. cbn [forward]. rewrite getL, Nu. cbn [option_bind]. rewrite F. cbn [option_bind].
          rewrite V, E, Cl. cbn [option_bind]. rewrite <- Ll, <- Lp. rewrite (emit_up_ok l pre post HL). cbn [option_bind].
          rewrite run_app. destruct (run cb s (singles c32 (length pre) l)) as [s' [|]]; [reflexivity|].
          replace (Datatypes.S i) with (Datatypes.S i) by lia. apply R.
      + destruct (IH (S i) st (S cu) d') as (evs & j & C & J1 & J2 & J3 & R); [lia|lia|exact Hd'|].
        exists evs, j. split; [exact C|]. split; [exact J1|]. split; [exact J2|]. split; [exact J3|].
        intros S cb s. cbn [forward]. rewrite getL, Nu. cbn [option_bind]. rewrite F. cbn [option_bind]. rewrite V, E. apply R.
  Qed.

  Lemma feed_group_total n : sz <> 4 -> forall i d, (i + n <= length L)%nat -> live d ->
    exists d', feed_group sz str sw n i d = Some d' /\
      ((dec_error sz d' = true /\ dec_has_value sz d' = false) \/ (dec_error sz d' = false /\ live d')).
  Proof.
    intros H4. induction n as [|n IH]; intros i d Hi Hd; cbn [feed_group].
    - exists d. split; [reflexivity|]. right. split; [|exact Hd].
      unfold live, dec_error in *. destruct (sz =? 1).
      + apply live_not_error, Hd.
      + unfold d16_error. destruct Hd as [-> | ->]; reflexivity.
    - destruct (nth_error L i) as [u|] eqn:Nu; [|apply nth_error_None in Nu; lia].
      rewrite getL, Nu. cbn [option_bind]. destruct (feed_live d u H4 Hd (nth_L_unit i u Nu)) as (d' & F & H).
      rewrite F. cbn [option_bind]. destruct (dec_error sz d') eqn:E.
      + exists d'. split; [reflexivity|]. left. split; [exact E|]. destruct H as [[_ V]|[E' _]]; [exact V|congruence].
      + destruct H as [[E' _]|[_ Hl]]; [congruence|]. apply IH; [lia|exact Hl].
  Qed.

  (** So is the backward loop. *)
  Lemma backward_total ds p : sz <> 4 -> forall cu d, (p + cu <= length L)%nat -> live d ->
    exists evs, forall S (cb : S -> N -> nat -> nat -> S * bool) s,
      backward cb schar sz str sw ds p cu d s = Some (run cb s evs).
  Proof.
    intros H4. induction p as [|q IH]; intros cu d Hp Hd; cbn [backward].
    - exists []. reflexivity.
    - destruct (Nat.ltb_spec q ds); [exists []; reflexivity|].
      destruct (nth_error L q) as [u|] eqn:Nu; [|apply nth_error_None in Nu; lia].
      destruct ((N.of_nat (S cu) =? 4 / sz) || is_code_point_boundary sz u) eqn:B.
      + destruct (feed_group_total (S cu) H4 q d) as (d' & F & H0); [lia|exact Hd|].
        destruct (dec_has_value sz d') eqn:V.
        * destruct H0 as [[_ V']|[E Hl]]; [congruence|].
          destruct (IH 0%nat d') as (evs & R); [lia|exact Hl|]. exists ((d_cp d', q, S cu) :: evs). intros S cb s.
          rewrite getL, Nu. cbn [option_bind]. rewrite B, F. cbn [option_bind run]. rewrite V.
          destruct (cb s (d_cp d') q (Datatypes.S cu)) as [s' [|]]; [apply R|reflexivity].
        * destruct (dec_error sz d') eqn:E.
          -- destruct (clear_live d' H4 E) as (d2 & Cl & _ & Hl). destruct (IH 0%nat d2) as (evs & R); [lia|exact Hl|].
             destruct (split_at q (S cu)) as (pre & l & post & HL & Lp & Ll); [lia|].
             exists (rev (singles c32 q l) ++ evs). intros S cb s.
             rewrite getL, Nu. cbn [option_bind]. rewrite B, F. cbn [option_bind]. rewrite V, E, Cl. cbn [option_bind].
             rewrite <- Ll, <- Lp. rewrite (emit_down_ok l pre post HL). cbn [option_bind]. rewrite run_app.
             destruct (run cb s (rev (singles c32 (length pre) l))) as [s' [|]]; [reflexivity|]. rewrite Lp. apply R.
          -- destruct H0 as [[E' _]|[_ Hl]]; [congruence|]. destruct (IH 0%nat d') as (evs & R); [lia|exact Hl|].
             exists evs. intros S cb s. rewrite getL, Nu. cbn [option_bind]. rewrite B, F. cbn [option_bind]. rewrite V, E. apply R.
      + destruct (IH (S cu) d) as (evs & R); [lia|exact Hd|]. exists evs. intros S cb s.
        rewrite getL, Nu. cbn [option_bind]. rewrite B. apply R.
  Qed.

  (* ---------------------------------------------------------- valid text *)

  Lemma has_value_no_error d : sz <> 4 -> dec_has_value sz d = true -> dec_error sz d = false.
  Proof.
    intros H4. unfold dec_has_value, dec_error. destruct (sz =? 1); unfold d8_has_value, d8_error, d16_has_value, d16_error; lia.
  Qed.

  Lemma forward_chain d l d' : chain sz d l d' -> forall pre post st cu m, L = pre ++ l ++ post ->
    forall S (cb : S -> N -> nat -> nat -> S * bool) s,
    forward cb schar sz str sw (length l + m) (length pre) st cu d s =
      let '(s', go) := cb s (d_cp d') st (cu + length l)%nat in
      if go : bool then forward cb schar sz str sw m (length pre + length l) (length pre + length l) 0 d' s' else Some (s', true).
  Proof.
    induction 1 as [d u d' F V|d u d1 l d' F V E C IH]; intros pre post st cu m HL S cb s; cbn [length Nat.add].
    - cbn [forward]. rewrite getL, HL. cbn [app]. rewrite nth_error_mid. cbn [option_bind]. rewrite F. cbn [option_bind]. rewrite V.
      replace (cu + 1)%nat with (Datatypes.S cu) by lia.
      destruct (cb s (d_cp d') st (Datatypes.S cu)) as [s' [|]]; [|reflexivity].
      replace (length pre + 1)%nat with (Datatypes.S (length pre)) by lia. reflexivity.
    - cbn [forward]. rewrite getL, HL. cbn [app]. rewrite nth_error_mid. cbn [option_bind]. rewrite F. cbn [option_bind]. rewrite V, E.
      specialize (IH (pre ++ [u]) post st (Datatypes.S cu) m). rewrite app_length in IH. cbn [length] in IH.
      replace (Datatypes.S (length pre)) with (length pre + 1)%nat by lia.
      rewrite IH by (rewrite HL, <- app_assoc; reflexivity).
      replace (Datatypes.S cu + length l)%nat with (cu + Datatypes.S (length l))%nat by lia.
      destruct (cb s (d_cp d') st (cu + Datatypes.S (length l))%nat) as [s' [|]]; [|reflexivity].
      replace (length pre + 1 + length l)%nat with (length pre + Datatypes.S (length l))%nat by lia. reflexivity.
  Qed.

  Lemma feed_group_chain d l d' : sz <> 4 -> chain sz d l d' -> forall pre post, L = pre ++ l ++ post ->
    feed_group sz str sw (length l) (length pre) d = Some d'.
  Proof.
    intros H4. induction 1 as [d u d' F V|d u d1 l d' F V E C IH]; intros pre post HL; cbn [length feed_group].
    - rewrite getL, HL. cbn [app]. rewrite nth_error_mid. cbn [option_bind]. rewrite F. cbn [option_bind].
      rewrite has_value_no_error by assumption. reflexivity.
    - rewrite getL, HL. cbn [app]. rewrite nth_error_mid. cbn [option_bind]. rewrite F. cbn [option_bind]. rewrite E.
      specialize (IH (pre ++ [u]) post). rewrite app_length in IH. cbn [length] in IH.
      replace (Datatypes.S (length pre)) with (length pre + 1)%nat by lia.
      apply IH. rewrite HL, <- app_assoc. reflexivity.
  Qed.

  (** Walking backwards over the continuation units of one code point. *)
  Lemma backward_walk ds b0 conts k : forall pre post d cu,
    L = pre ++ (b0 :: conts) ++ post -> (ds <= length pre)%nat ->
    Forall (fun u => is_code_point_boundary sz u = false) conts -> N.of_nat (length conts) < 4 / sz ->
    (k + cu = length conts)%nat ->
    forall S (cb : S -> N -> nat -> nat -> S * bool) s,
    backward cb schar sz str sw ds (length pre + 1 + k) cu d s =
    backward cb schar sz str sw ds (length pre + 1) (length conts) d s.
  Proof.
    induction k as [|k IH]; intros pre post d cu HL Hds Hc H4 Hk S cb s.
    - replace cu with (length conts) by lia. rewrite Nat.add_0_r. reflexivity.
    - rewrite <- (IH pre post d (Datatypes.S cu)) by (try assumption; lia).
      replace (length pre + 1 + Datatypes.S k)%nat with (Datatypes.S (length pre + 1 + k)) by lia. cbn [backward].
      destruct (Nat.ltb_spec (length pre + 1 + k) ds); [lia|].
      destruct (nth_error conts k) as [u|] eqn:Nu; [|apply nth_error_None in Nu; lia].
      assert (G : nth_error L (length pre + 1 + k) = Some u).
      { rewrite HL. rewrite nth_error_app2 by lia. replace (length pre + 1 + k - length pre)%nat with (Datatypes.S k) by lia.
        cbn [app nth_error]. rewrite nth_error_app1 by (apply nth_error_Some; congruence). exact Nu. }
      rewrite getL, G. cbn [option_bind].
      assert (B : is_code_point_boundary sz u = false).
      { rewrite Forall_forall in Hc. apply Hc. eapply nth_error_In, Nu. }
      rewrite B. destruct (N.eqb_spec (N.of_nat (Datatypes.S cu)) (4 / sz)); [lia|]. reflexivity.
  Qed.

  Lemma backward_chain ds b0 conts d d' : sz <> 4 -> chain sz d (b0 :: conts) d' -> forall pre post,
    L = pre ++ (b0 :: conts) ++ post -> (ds <= length pre)%nat ->
    is_code_point_boundary sz b0 = true ->
    Forall (fun u => is_code_point_boundary sz u = false) conts -> N.of_nat (length conts) < 4 / sz ->
    dec_has_value sz d' = true ->
    forall S (cb : S -> N -> nat -> nat -> S * bool) s,
    backward cb schar sz str sw ds (length pre + length (b0 :: conts)) 0 d s =
      let '(s', go) := cb s (d_cp d') (length pre) (length (b0 :: conts)) in
      if go : bool then backward cb schar sz str sw ds (length pre) 0 d' s' else Some (s', true).
  Proof.
    intros H4 C pre post HL Hds B0 Bc Hlen V S cb s. cbn [length].
    replace (length pre + Datatypes.S (length conts))%nat with (length pre + 1 + length conts)%nat by lia.
    rewrite (backward_walk ds b0 conts (length conts) pre post) by (try assumption; lia).
    rewrite Nat.add_1_r. cbn [backward]. destruct (Nat.ltb_spec (length pre) ds); [lia|].
    rewrite getL, HL. cbn [app]. rewrite nth_error_mid. cbn [option_bind]. rewrite B0, orb_true_r.
    pose proof (feed_group_chain d _ d' H4 C pre post HL) as F. cbn [length] in F. rewrite F. cbn [option_bind]. rewrite V.
    reflexivity.
  Qed.
End Loops.

(* -------------------------------------------------------------- UTF-8 text *)

Lemma enc8_shape cp : scalar cp -> exists b0 conts, enc8 cp = b0 :: conts /\ is_code_point_boundary 1 b0 = true /\
  Forall (fun u => is_code_point_boundary 1 u = false) conts /\ (length conts <= 3)%nat.
Proof.
  intros Hs.
  assert (S : forallb (fun b => Bool.eqb (is_code_point_boundary 1 b) (negb ((0x80 <=? b) && (b <=? 0xBF)))) bytes256 = true)
    by (vm_compute; reflexivity).
  rewrite forallb_forall in S.
  assert (B : forall b, b < 256 -> is_code_point_boundary 1 b = negb ((0x80 <=? b) && (b <=? 0xBF))).
  { intros b Hb. apply Bool.eqb_prop, S, in_bytes256, Hb. }
  assert (C : forall x, is_code_point_boundary 1 (0x80 + x mod 64) = false).
  { intros x. assert (x mod 64 < 64) by (apply N.mod_lt; discriminate). rewrite B by lia. lia. }
  pose proof (enc8_bytes cp (scalar_le cp Hs)) as E. unfold enc8 in *. unfold scalar in Hs.
  Ltac Zify.zify_post_hook ::= Z.div_mod_to_equations.
  destruct (N.ltb_spec cp 0x80).
  { eexists _, []. split; [reflexivity|]. split; [rewrite B; lia|]. split; [constructor|cbn; lia]. }
  destruct (N.ltb_spec cp 0x800).
  { eexists _, [_]. split; [reflexivity|]. split; [rewrite B; lia|]. split; [repeat constructor; apply C|cbn; lia]. }
  destruct (N.ltb_spec cp 0x10000).
  { eexists _, [_; _]. split; [reflexivity|]. split; [rewrite B; lia|]. split; [repeat constructor; apply C|cbn; lia]. }
  eexists _, [_; _; _]. split; [reflexivity|]. split; [rewrite B; lia|]. split; [repeat constructor; apply C|cbn; lia].
Qed.
Ltac Zify.zify_post_hook ::= idtac.

Lemma text_units1 cps : Forall scalar cps -> units 1 (text 1 cps).
Proof.
  intros H. unfold units, text. apply Forall_flat_map. eapply Forall_impl; [|exact H].
  intros cp Hc. apply enc8_bytes, scalar_le, Hc.
Qed.

Lemma forward_text8 schar cps : forall pre d, Forall scalar cps -> units 1 (pre ++ text 1 cps) -> d_state d = 0 ->
  forall S (cb : S -> N -> nat -> nat -> S * bool) s,
  forward cb schar 1 (pre ++ text 1 cps) false (length (text 1 cps)) (length pre) (length pre) 0 d s
  = Some (run cb s (positions 1 (length pre) cps)).
Proof.
  induction cps as [|cp cps IH]; intros pre d Hs Hu Hd S cb s; [reflexivity|].
  apply Forall_cons_iff in Hs. destruct Hs as [Hc Hs]. destruct d as [st c]. cbn [d_state] in Hd. subst st.
  cbn [text flat_map positions run]. change (enc 1 cp) with (enc8 cp). rewrite app_length.
  pose proof (forward_chain schar 1 (pre ++ enc8 cp ++ text 1 cps) false ltac:(left; reflexivity) Hu _ _ _ (enc8_chain c cp Hc)
    pre (text 1 cps) (length pre) 0 (length (text 1 cps)) eq_refl S cb s) as R.
  unfold text in R |- *. rewrite R. cbn [d_cp Nat.add].
  destruct (cb s cp (length pre) (length (enc8 cp))) as [s' [|]]; [|reflexivity].
  specialize (IH (pre ++ enc8 cp) {| d_state := 0; d_cp := cp |} Hs). rewrite <- app_assoc in IH.
  rewrite app_length in IH. apply IH; [exact Hu|reflexivity].
Qed.

Lemma positions_app sz a : forall i b, positions sz i (a ++ b) = positions sz i a ++ positions sz (i + length (text sz a)) b.
Proof.
  induction a as [|cp a IH]; intros i b; cbn [app positions text flat_map length].
  - rewrite Nat.add_0_r. reflexivity.
  - rewrite IH, app_length, Nat.add_assoc. reflexivity.
Qed.

Lemma text_app sz a b : text sz (a ++ b) = text sz a ++ text sz b.
Proof. apply flat_map_app. Qed.

Lemma backward_text8 schar cps : forall pre post d, Forall scalar cps -> units 1 (pre ++ text 1 cps ++ post) -> d_state d = 0 ->
  forall S (cb : S -> N -> nat -> nat -> S * bool) s,
  backward cb schar 1 (pre ++ text 1 cps ++ post) false (length pre) (length pre + length (text 1 cps)) 0 d s
  = Some (run cb s (rev (positions 1 (length pre) cps))).
Proof.
  induction cps as [|cp cps IH] using rev_ind; intros pre post d Hs Hu Hd S cb s.
  - cbn [text flat_map length positions rev run]. rewrite Nat.add_0_r.
    destruct (length pre) as [|q] eqn:E; [reflexivity|]. cbn [backward]. destruct (Nat.ltb_spec q (Datatypes.S q)); [reflexivity|lia].
  - apply Forall_app in Hs. destruct Hs as [Hs Hc]. apply Forall_cons_iff in Hc. destruct Hc as [Hc _].
    destruct d as [st c]. cbn [d_state] in Hd. subst st.
    rewrite text_app in *. replace (text 1 [cp]) with (enc8 cp) in * by (cbn; rewrite app_nil_r; reflexivity).
    destruct (enc8_shape cp Hc) as (b0 & conts & E & B0 & Bc & Len).
    pose proof (enc8_chain c cp Hc) as Ch. rewrite E in *.
    rewrite positions_app, rev_app_distr. cbn [positions rev app run].
    replace (length (enc 1 cp)) with (length (b0 :: conts)) by (change (enc 1 cp) with (enc8 cp); rewrite E; reflexivity).
    rewrite <- app_assoc in *.
    pose proof (backward_chain schar 1 (pre ++ text 1 cps ++ (b0 :: conts) ++ post) false ltac:(left; reflexivity) Hu (length pre) b0 conts
      _ _ ltac:(discriminate) Ch (pre ++ text 1 cps) post) as R.
    rewrite app_length in *. rewrite Nat.add_assoc. rewrite R; [|rewrite <- app_assoc; reflexivity|lia|exact B0|exact Bc|change (4 / 1) with 4; lia|reflexivity].
    cbn [d_cp]. destruct (cb s cp (length pre + length (text 1 cps))%nat (length (b0 :: conts))) as [s' [|]]; [|reflexivity].
    apply (IH pre ((b0 :: conts) ++ post) {| d_state := 0; d_cp := cp |} Hs Hu eq_refl).
Qed.

(* ------------------------------------------------------------- UTF-16 text *)

(** The forward loop over UTF-16 reports every code unit as a code point of its own: the decoder never combines
    surrogates. *)
Lemma forward16 schar sw str l : units 2 str -> forall pre d, logical 2 sw str = pre ++ l -> d16_ok d ->
  forall S (cb : S -> N -> nat -> nat -> S * bool) s,
  forward cb schar 2 str sw (length l) (length pre) (length pre) 0 d s = Some (run cb s (singles (fun u => u) (length pre) l)).
Proof.
  intros Hu. induction l as [|u l IH]; intros pre d HL Hd S cb s; [reflexivity|].
  assert (G : forall i, get 2 str sw i = nth_error (logical 2 sw str) i).
  { intros i. apply get_logical; [right; left; reflexivity|exact Hu]. }
  assert (Next : forall d' s', d16_ok d' -> forward cb schar 2 str sw (length l) (Datatypes.S (length pre)) (Datatypes.S (length pre)) 0 d' s'
     = Some (run cb s' (singles (fun u => u) (Datatypes.S (length pre)) l))).
  { intros d' s' Hd'. specialize (IH (pre ++ [u]) d'). rewrite app_length in IH. cbn [length] in IH. rewrite Nat.add_1_r in IH.
    apply IH; [rewrite HL, <- app_assoc; reflexivity|exact Hd']. }
  cbn [length forward singles run]. rewrite G, HL, nth_error_mid. cbn [option_bind].
  change (dec_feed 2 d u) with (d16_feed d u). rewrite d16_feed_ok by exact Hd. cbn [option_bind].
  destruct (low_surrogate u).
  - cbn [dec_has_value dec_error dec_clear N.eqb Pos.eqb d16_has_value d16_error d16_clear d_state option_bind].
    cbn [emit_up]. rewrite G, HL, nth_error_mid. cbn [option_bind].
    replace (to_char32 schar 2 u) with u by (unfold to_char32; cbn [N.eqb Pos.eqb]; rewrite andb_false_r; reflexivity).
    destruct (cb s u (length pre) 1%nat) as [s' [|]]; [|reflexivity]. cbn [option_bind]. apply Next. left; reflexivity.
  - cbn [dec_has_value N.eqb Pos.eqb d16_has_value d_state d_cp].
    destruct (cb s u (length pre) 1%nat) as [s' [|]]; [|reflexivity]. apply Next. right; reflexivity.
Qed.

(** The backward loop does the same, in reverse, on well-formed text. *)
Lemma backward16_single schar sw str : units 2 str -> forall ds pre u post d, logical 2 sw str = pre ++ u :: post ->
  low_surrogate u = false -> (ds <= length pre)%nat -> d16_ok d -> u < 2 ^ 16 ->
  forall S (cb : S -> N -> nat -> nat -> S * bool) s,
  backward cb schar 2 str sw ds (Datatypes.S (length pre)) 0 d s =
    let '(s', go) := cb s u (length pre) 1%nat in
    if go : bool then backward cb schar 2 str sw ds (length pre) 0 {| d_state := 2; d_cp := u |} s' else Some (s', true).
Proof.
  intros Hu ds pre u post d HL Hlow Hds Hd Hb S cb s.
  pose proof (backward_chain schar 2 str sw ltac:(right; left; reflexivity) Hu ds u [] d _ ltac:(discriminate)
    (d16_chain d u Hd Hlow) pre post HL Hds) as R.
  cbn [length] in R. rewrite Nat.add_1_r in R. apply R; [|constructor|reflexivity|reflexivity].
  unfold is_code_point_boundary. cbn [N.eqb Pos.eqb]. unfold low_surrogate in Hlow. lia.
Qed.

Lemma backward16_pair schar sw str : units 2 str -> forall ds pre h l post d, logical 2 sw str = pre ++ h :: l :: post ->
  low_surrogate h = false -> low_surrogate l = true -> (ds <= length pre)%nat -> d16_ok d ->
  forall S (cb : S -> N -> nat -> nat -> S * bool) s,
  exists d', d16_ok d' /\
  backward cb schar 2 str sw ds (Datatypes.S (Datatypes.S (length pre))) 0 d s =
    let '(s', stop) := run cb s [(l, Datatypes.S (length pre), 1%nat); (h, length pre, 1%nat)] in
    if stop : bool then Some (s', true) else backward cb schar 2 str sw ds (length pre) 0 d' s'.
Proof.
  intros Hu ds pre h l post d HL Hh Hl Hds Hd S cb s.
  assert (G : forall i, get 2 str sw i = nth_error (logical 2 sw str) i).
  { intros i. apply get_logical; [right; left; reflexivity|exact Hu]. }
  assert (G0 : get 2 str sw (length pre) = Some h) by (rewrite G, HL; apply nth_error_mid).
  assert (G1 : get 2 str sw (Datatypes.S (length pre)) = Some l).
  { rewrite G, HL. replace (pre ++ h :: l :: post) with ((pre ++ [h]) ++ l :: post) by (rewrite <- app_assoc; reflexivity).
    replace (Datatypes.S (length pre)) with (length (pre ++ [h])) by (rewrite app_length; cbn; lia). apply nth_error_mid. }
  exists {| d_state := 0; d_cp := h |}. split; [left; reflexivity|].
  cbn [backward]. destruct (Nat.ltb_spec (Datatypes.S (length pre)) ds); [lia|]. rewrite G1. cbn [option_bind].
  assert (B1 : is_code_point_boundary 2 l = false).
  { unfold is_code_point_boundary. cbn [N.eqb Pos.eqb]. unfold low_surrogate in Hl. lia. }
  rewrite B1. change (N.of_nat 1 =? 4 / 2) with false. cbn [orb].
  destruct (Nat.ltb_spec (length pre) ds); [lia|]. rewrite G0. cbn [option_bind].
  change (N.of_nat 2 =? 4 / 2) with true. cbn [orb feed_group]. rewrite G0. cbn [option_bind].
  change (dec_feed 2) with d16_feed. rewrite d16_feed_ok by exact Hd. rewrite Hh. cbn [option_bind].
  change (dec_error 2 {| d_state := 2; d_cp := h |}) with false. cbn iota. rewrite G1. cbn [option_bind].
  rewrite d16_feed_ok by (right; reflexivity). rewrite Hl. cbn [option_bind d_cp].
  change (dec_error 2 {| d_state := 3; d_cp := h |}) with true.
  change (dec_has_value 2 {| d_state := 3; d_cp := h |}) with false.
  change (dec_clear 2 {| d_state := 3; d_cp := h |}) with (Some {| d_state := 0; d_cp := h |}). cbn iota. cbn [option_bind].
  cbn [emit_down run]. rewrite Nat.add_1_r, Nat.add_0_r, G0, G1. cbn [option_bind].
  replace (to_char32 schar 2 l) with l by (unfold to_char32; cbn [N.eqb Pos.eqb]; rewrite andb_false_r; reflexivity).
  replace (to_char32 schar 2 h) with h by (unfold to_char32; cbn [N.eqb Pos.eqb]; rewrite andb_false_r; reflexivity).
  destruct (cb s l (Datatypes.S (length pre)) 1%nat) as [s' [|]]; [|reflexivity].
  destruct (cb s' h (length pre) 1%nat) as [s'' [|]]; reflexivity.
Qed.

Lemma text_units2 cps : Forall scalar cps -> units 2 (text 2 cps).
Proof.
  intros H. unfold units, text. apply Forall_flat_map. eapply Forall_impl; [|exact H].
  intros cp Hc. change (enc 2 cp) with (enc16 cp). change (2 ^ (8 * 2)) with 65536.
  destruct (N.ltb_spec cp 0x10000) as [Hb|Hb].
  - rewrite enc16_bmp by exact Hb. repeat constructor. exact Hb.
  - destruct (enc16_supp cp Hc) as (h & l & -> & _ & _ & _ & _ & Hh & Hl); [unfold bmp; lia|]. repeat constructor; assumption.
Qed.

Lemma backward_text16 schar sw str cps : units 2 str -> forall pre post d, Forall scalar cps ->
  logical 2 sw str = pre ++ text 2 cps ++ post -> d16_ok d ->
  forall S (cb : S -> N -> nat -> nat -> S * bool) s,
  backward cb schar 2 str sw (length pre) (length pre + length (text 2 cps)) 0 d s
  = Some (run cb s (rev (singles (fun u => u) (length pre) (text 2 cps)))).
Proof.
  intros Hu. induction cps as [|cp cps IH] using rev_ind; intros pre post d Hs HL Hd S cb s.
  - cbn [text flat_map length singles rev run]. rewrite Nat.add_0_r.
    destruct (length pre) as [|q] eqn:E; [reflexivity|]. cbn [backward]. destruct (Nat.ltb_spec q (Datatypes.S q)); [reflexivity|lia].
  - apply Forall_app in Hs. destruct Hs as [Hs Hc]. apply Forall_cons_iff in Hc. destruct Hc as [Hc _].
    rewrite text_app in *. replace (text 2 [cp]) with (enc16 cp) in * by (cbn; rewrite app_nil_r; reflexivity).
    rewrite singles_app, rev_app_distr, app_length, <- app_assoc in *.
    destruct (N.ltb_spec cp 0x10000) as [Hb|Hb].
    + rewrite enc16_bmp in * by exact Hb. cbn [singles rev app length run].
      replace (length pre + (length (text 2 cps) + 1))%nat with (Datatypes.S (length (pre ++ text 2 cps))) by (rewrite app_length; lia).
      rewrite (backward16_single schar sw str Hu (length pre) (pre ++ text 2 cps) cp post d);
        [|rewrite HL, <- app_assoc; reflexivity|apply scalar_not_low, Hc|rewrite app_length; lia|exact Hd|exact Hb].
      rewrite app_length. destruct (cb s cp (length pre + length (text 2 cps))%nat 1%nat) as [s' [|]]; [|reflexivity].
      apply (IH pre (cp :: post)); [exact Hs|exact HL|right; reflexivity].
    + destruct (enc16_supp cp Hc) as (h & l & E & _ & Hh & Hl & _); [unfold bmp; lia|]. rewrite E in *.
      cbn [singles rev app length].
      replace (length pre + (length (text 2 cps) + 2))%nat with (Datatypes.S (Datatypes.S (length (pre ++ text 2 cps)))) by (rewrite app_length; lia).
      destruct (backward16_pair schar sw str Hu (length pre) (pre ++ text 2 cps) h l post d) with (cb := cb) (s := s) as (d' & Hd' & R);
        [rewrite HL, <- app_assoc; reflexivity|exact Hh|exact Hl|rewrite app_length; lia|exact Hd|].
      rewrite R. rewrite app_length.
      change ((l, Datatypes.S (length pre + length (text 2 cps)), 1%nat) :: (h, (length pre + length (text 2 cps))%nat, 1%nat)
              :: rev (singles (fun u => u) (length pre) (text 2 cps)))
        with ([(l, Datatypes.S (length pre + length (text 2 cps)), 1%nat); (h, (length pre + length (text 2 cps))%nat, 1%nat)]
              ++ rev (singles (fun u => u) (length pre) (text 2 cps))).
      rewrite run_app.
      destruct (run cb s [(l, Datatypes.S (length pre + length (text 2 cps)), 1%nat); (h, (length pre + length (text 2 cps))%nat, 1%nat)])
        as [s' [|]]; [reflexivity|].
      apply (IH pre (h :: l :: post)); [exact Hs|exact HL|exact Hd'].
Qed.
