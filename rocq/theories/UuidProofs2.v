From Coq Require Import Lia ZifyBool ZifyNat ZifyN.
From Verif Require Import Words WordsProofs BitsModel CoreModel UtfModel UtfSpec UtfProofs UtfProofs2 UtfProofs3.
From Verif Require Import HashModel HashSpec HashProofs UuidModel UuidSpec UuidProofs.
Local Open Scope N_scope.
Ltac Zify.zify_post_hook ::= idtac.

(* -------------------------------------------------------------- narrow strings *)

Section Narrow.
  Context (schar : bool) (str : list N) (Hu : units 1 str).
  Let c32 := to_char32 schar 1.

  Lemma c32_high u : 128 <= u -> 128 <= c32 u.
  Proof.
    intros H. unfold c32, to_char32. destruct (schar && (1 =? 1) && (128 <=? u)); [|exact H].
    change (2 ^ 32) with 4294967296. lia.
  Qed.

  (** A started sequence: what has been seen ([pend]) can be completed. *)
  Definition cont (b : N) : Prop := rng b 0x80 0xBF.
  Definition pending (d : dec) (pend : list N) : Prop :=
    (exists h r, pend = h :: r /\ 128 <= h) /\
    ((d_state d = 24 /\ 2 <= d_cp d < 2 ^ 16 /\ forall c, cont c -> wf_seq (pend ++ [c])) \/
     (d_state d = 36 /\ 1 <= d_cp d < 2 ^ 10 /\ forall c c', cont c -> cont c' -> wf_seq (pend ++ [c; c'])) \/
     (d_state d = 48 /\ d_cp d = 0 /\ pend = [0xE0]) \/
     (d_state d = 60 /\ d_cp d = 13 /\ pend = [0xED]) \/
     (d_state d = 72 /\ d_cp d = 0 /\ pend = [0xF0]) \/
     (d_state d = 84 /\ 1 <= d_cp d < 8 /\ exists b, pend = [b] /\ 0xF1 <= b <= 0xF3) \/
     (d_state d = 96 /\ d_cp d = 4 /\ pend = [0xF4])).

  Lemma pending_cut d pend : pending d pend -> cut_short pend.
  Proof.
    assert (K : cont 0x80 /\ cont 0xA0 /\ cont 0x90) by (unfold cont, rng; lia).
    destruct K as (K1 & K2 & K3).
    intros [(h & r & E & _) H]. split; [rewrite E; discriminate|].
    destruct H as [(_ & _ & H)|[(_ & _ & H)|[(_ & _ & ->)|[(_ & _ & ->)|[(_ & _ & ->)|[(_ & _ & b & -> & Hb)|(_ & _ & ->)]]]]]].
    - exists [0x80]. split; [discriminate|]. apply H, K1.
    - exists [0x80; 0x80]. split; [discriminate|]. apply H; exact K1.
    - exists [0xA0; 0x80]. split; [discriminate|]. apply wf3a; unfold rng; lia.
    - exists [0x80; 0x80]. split; [discriminate|]. apply wf3c; unfold rng; lia.
    - exists [0x90; 0x80; 0x80]. split; [discriminate|]. apply wf4a; unfold rng; lia.
    - exists [0x80; 0x80; 0x80]. split; [discriminate|]. apply wf4b; unfold rng; lia.
    - exists [0x80; 0x80; 0x80]. split; [discriminate|]. apply wf4c; unfold rng; lia.
  Qed.

  Lemma pending_step d pend u : pending d pend -> u < 256 ->
    exists d', dec_feed 1 d u = Some d' /\
      ((d8_has_value d' = false /\ d8_error d' = true) \/
       (d8_has_value d' = true /\ 128 <= d_cp d') \/
       (d8_has_value d' = false /\ d8_error d' = false /\ pending d' (pend ++ [u]))).
  Proof.
    intros [(h & r & Ep & Hh) H] Hb. destruct d as [st cp]. cbn [d_state d_cp] in H.
    assert (Hl : In st live_states /\ st <> 0 /\ cp < 2 ^ 26).
    { cbn [live_states In]. change (2 ^ 26) with 67108864. change (2 ^ 16) with 65536 in H. change (2 ^ 10) with 1024 in H.
      destruct H as [(-> & B & H)|[(-> & B & H)|[(-> & -> & H)|[(-> & -> & H)|[(-> & -> & H)|[(-> & B & H)|(-> & -> & H)]]]]]]; repeat split; try lia; tauto. }
    destruct Hl as (Hl & Hz & Hcp). destruct (d8_feed_ok st cp u Hl Hb) as (c' & F & Ec).
    change (dec_feed 1) with d8_feed. rewrite F. eexists. split; [reflexivity|]. unfold d8_has_value, d8_error. cbn [d_state d_cp].
    destruct (N.eq_dec (next8 st u) 12) as [E|E]; [left; rewrite E; split; reflexivity|right].
    specialize (Ec E Hcp). apply N.eqb_neq in Hz. rewrite Hz in Ec. clear Hz F.
    assert (Ph : exists h' r', pend ++ [u] = h' :: r' /\ 128 <= h').
    { rewrite Ep. exists h, (r ++ [u]). split; [reflexivity|exact Hh]. }
    destruct (next8_cont u) as (C24 & C36 & C48 & C60 & C72 & C84 & C96).
    change (2 ^ 16) with 65536 in *. change (2 ^ 10) with 1024 in *.
    destruct H as [(-> & B & H)|[(-> & B & H)|[(-> & -> & ->)|[(-> & -> & ->)|[(-> & -> & ->)|[(-> & B & b & -> & Bb)|(-> & -> & ->)]]]]]].
    - destruct (C24 E) as [-> R]. left. split; [reflexivity|]. lia.
    - destruct (C36 E) as [-> R]. right. split; [reflexivity|]. split; [reflexivity|]. split; [exact Ph|]. left. cbn [d_state d_cp].
      split; [reflexivity|]. split; [change (2 ^ 16) with 65536; lia|]. intros c Hc. rewrite <- app_assoc. apply H; [unfold cont, rng; lia|exact Hc].
    - destruct (C48 E) as [-> R]. right. split; [reflexivity|]. split; [reflexivity|]. split; [exact Ph|]. left. cbn [d_state d_cp].
      split; [reflexivity|]. split; [change (2 ^ 16) with 65536; lia|]. intros c Hc. apply wf3a; [reflexivity|unfold rng; lia|exact Hc].
    - destruct (C60 E) as [-> R]. right. split; [reflexivity|]. split; [reflexivity|]. split; [exact Ph|]. left. cbn [d_state d_cp].
      split; [reflexivity|]. split; [change (2 ^ 16) with 65536; lia|]. intros c Hc. apply wf3c; [reflexivity|unfold rng; lia|exact Hc].
    - destruct (C72 E) as [-> R]. right. split; [reflexivity|]. split; [reflexivity|]. split; [exact Ph|]. right; left. cbn [d_state d_cp].
      split; [reflexivity|]. split; [change (2 ^ 10) with 1024; lia|]. intros c e Hc He. apply wf4a; [reflexivity|unfold rng; lia|exact Hc|exact He].
    - destruct (C84 E) as [-> R]. right. split; [reflexivity|]. split; [reflexivity|]. split; [exact Ph|]. right; left. cbn [d_state d_cp].
      split; [reflexivity|]. split; [change (2 ^ 10) with 1024; lia|]. intros c e Hc He. apply wf4b; [unfold rng; lia|unfold rng; lia|exact Hc|exact He].
    - destruct (C96 E) as [-> R]. right. split; [reflexivity|]. split; [reflexivity|]. split; [exact Ph|]. right; left. cbn [d_state d_cp].
      split; [reflexivity|]. split; [change (2 ^ 10) with 1024; lia|]. intros c e Hc He. apply wf4c; [reflexivity|unfold rng; lia|exact Hc|exact He].
  Qed.

  Definition cp_of (e : event) : N := fst (fst e).
  (** What the forward loop does from a point on, as a sequence of calls. *)
  Definition calls (n i st cu : nat) (d : dec) (evs : list event) : Prop :=
    forall S (cb : S -> N -> nat -> nat -> S * bool) s, forward cb schar 1 str false n i st cu d s = Some (run cb s evs).

  Lemma L_str : logical 1 false str = str.
  Proof. reflexivity. Qed.

  Lemma some_calls n i d : (i + n = length str)%nat -> state_ok 1 d 0 -> exists evs, calls n i i 0 d evs.
  Proof.
    intros Hi Hd. destruct (forward_total schar 1 str false ltac:(left; reflexivity) Hu n ltac:(discriminate) i i 0 d) as (evs & j & _ & _ & _ & _ & R);
      [rewrite L_str; exact Hi|lia|exact Hd|]. exists evs. exact R.
  Qed.

  (** In the middle of a sequence: the next call has a non-ASCII code point, or the text ends. *)
  Lemma calls_pending rest : forall pre pend d, str = pre ++ pend ++ rest -> pending d pend ->
    exists evs, calls (length rest) (length pre + length pend) (length pre) (length pend) d evs /\
      ((evs = [] /\ cut_short (pend ++ rest)) \/ exists e evs', evs = e :: evs' /\ 128 <= cp_of e).
  Proof.
    induction rest as [|u rest IH]; intros pre pend d HS HP.
    - exists []. split; [intros S cb s; reflexivity|]. left. split; [reflexivity|]. rewrite app_nil_r. apply (pending_cut d), HP.
    - assert (Hb : u < 256).
      { unfold units in Hu. rewrite HS, !Forall_app, Forall_cons_iff in Hu. apply Hu. }
      assert (G : get 1 str false (length pre + length pend) = Some u).
      { rewrite (getL 1 str false) by (try (left; reflexivity); exact Hu). rewrite L_str, HS. rewrite app_assoc, <- app_length. apply nth_error_mid. }
      destruct (pending_step d pend u HP Hb) as (d' & F & [[V E]|[[V Hc]|[V [E HP']]]]).
      + destruct (clear_live schar 1 str false ltac:(left; reflexivity) Hu d' ltac:(discriminate) E) as (d2 & Cl & Hz & _).
        destruct (some_calls (length rest) (S (length pre + length pend)) d2) as (evs & R).
        { rewrite HS, !app_length. cbn [length]. lia. }
        { unfold state_ok. cbn. left. split; [exact Hz|reflexivity]. }
        exists (singles c32 (length pre) (pend ++ [u]) ++ evs). split.
        * intros S cb s. cbn [length forward]. rewrite G. cbn [option_bind]. rewrite F. cbn [option_bind].
          change (dec_has_value 1 d') with (d8_has_value d'). change (dec_error 1 d') with (d8_error d'). rewrite V, E, Cl. cbn [option_bind].
          replace (Datatypes.S (length pend)) with (length (pend ++ [u])) by (rewrite app_length; cbn; lia).
          rewrite (emit_up_ok schar 1 str false ltac:(left; reflexivity) Hu (pend ++ [u]) pre rest) by (rewrite L_str, HS, <- app_assoc; reflexivity).
          cbn [option_bind]. rewrite run_app. fold c32. destruct (run cb s (singles c32 (length pre) (pend ++ [u]))) as [s' [|]]; [reflexivity|]. apply R.
        * right. destruct HP as [(h & r & -> & Hh) _]. cbn [app singles]. eexists _, _. split; [reflexivity|]. cbn. apply c32_high, Hh.
      + destruct (some_calls (length rest) (S (length pre + length pend)) d') as (evs & R).
        { rewrite HS, !app_length. cbn [length]. lia. }
        { unfold state_ok. cbn. left. unfold d8_has_value in V. split; [lia|reflexivity]. }
        exists ((d_cp d', length pre, S (length pend)) :: evs). split.
        * intros S cb s. cbn [length forward run]. rewrite G. cbn [option_bind]. rewrite F. cbn [option_bind].
          change (dec_has_value 1 d') with (d8_has_value d'). rewrite V.
          destruct (cb s (d_cp d') (length pre) (Datatypes.S (length pend))) as [s' [|]]; [apply R|reflexivity].
        * right. eexists _, _. split; [reflexivity|exact Hc].
      + destruct (IH pre (pend ++ [u]) d') as (evs & R & K); [rewrite HS, <- app_assoc; reflexivity|exact HP'|].
        exists evs. split.
        * intros S cb s. cbn [length forward]. rewrite G. cbn [option_bind]. rewrite F. cbn [option_bind].
          change (dec_has_value 1 d') with (d8_has_value d'). change (dec_error 1 d') with (d8_error d'). rewrite V, E.
          rewrite app_length in R. cbn [length] in R. specialize (R S cb s).
          replace (length pre + (length pend + 1))%nat with (Datatypes.S (length pre + length pend)) in R by lia.
          replace (length pend + 1)%nat with (Datatypes.S (length pend)) in R by lia. exact R.
        * rewrite <- app_assoc in K. exact K.
  Qed.

  Lemma pending_start b nst : 128 <= b -> b < 256 -> next8 0 b = nst -> nst <> 12 -> pending {| d_state := nst; d_cp := lead8 b |} [b].
  Proof.
    intros H1 H2 E Ne. split; [exists b, []; split; [reflexivity|exact H1]|]. cbn [d_state d_cp]. subst nst.
    change (2 ^ 16) with 65536. change (2 ^ 10) with 1024.
    destruct (next8_0 b Ne) as [[_ R]|[[-> R]|[[-> ->]|[[-> ->]|[[-> R]|[[-> ->]|[[-> R]|[-> ->]]]]]]]]; [lia|..].
    - left. rewrite lead8_2 by lia. split; [reflexivity|]. split; [lia|]. intros c Hc. apply wf2; [unfold rng; lia|exact Hc].
    - right; right; left. repeat split.
    - right; right; right; left. repeat split.
    - right; left. rewrite lead8_3 by lia. split; [reflexivity|]. split; [lia|]. intros c e Hc He.
      destruct R as [R|R]; [apply wf3b|apply wf3d]; try (unfold rng; lia); assumption.
    - right; right; right; right; left. repeat split.
    - right; right; right; right; right; left. rewrite lead8_4 by lia. split; [reflexivity|]. split; [lia|]. exists b. split; [reflexivity|exact R].
    - right; right; right; right; right; right. repeat split.
  Qed.

  Lemma get_mid pre u post : str = pre ++ u :: post -> get 1 str false (length pre) = Some u.
  Proof. intros HS. rewrite (getL 1 str false) by (try (left; reflexivity); exact Hu). rewrite L_str, HS. apply nth_error_mid. Qed.

  Lemma fresh0 d : d_state d = 0 -> state_ok 1 d 0.
  Proof. intros H. unfold state_ok. cbn. left. split; [exact H|reflexivity]. Qed.

  (** An ASCII character is reported as itself. *)
  Lemma calls_ascii pre u rest d evs : str = pre ++ u :: rest -> u < 128 -> d_state d = 0 ->
    (forall d', d_state d' = 0 -> calls (length rest) (length pre + 1) (length pre + 1) 0 d' evs) ->
    calls (S (length rest)) (length pre) (length pre) 0 d ((u, length pre, 1%nat) :: evs).
  Proof.
    intros HS Ha Hd R S cb s. cbn [forward run]. rewrite (get_mid pre u rest HS). cbn [option_bind].
    destruct d as [st c]. cbn in Hd. subst st. rewrite (d8_start c u 0) by (lia || (unfold next8; cbn [N.eqb]; destruct (N.leb_spec u 0x7F); lia)).
    cbn [option_bind]. change (dec_has_value 1 {| d_state := 0; d_cp := lead8 u |}) with true. cbn iota. cbn [d_cp].
    assert (E : lead8 u = u) by (unfold lead8; destruct (N.leb_spec u 0x7F); [reflexivity|lia]). rewrite E.
    destruct (cb s u (length pre) 1%nat) as [s' [|]]; [|reflexivity].
    replace (Datatypes.S (length pre)) with (length pre + 1)%nat by lia. apply R. reflexivity.
  Qed.

  (** The first byte of a non-ASCII sequence. *)
  Lemma calls_high pre u rest d : str = pre ++ u :: rest -> 128 <= u -> d_state d = 0 ->
    exists evs, calls (S (length rest)) (length pre) (length pre) 0 d evs /\
      ((evs = [] /\ cut_short (u :: rest)) \/ exists e evs', evs = e :: evs' /\ 128 <= cp_of e).
  Proof.
    intros HS Ha Hd. pose proof (get_mid pre u rest HS) as G.
    assert (Hb : u < 256). { unfold units in Hu. rewrite HS, !Forall_app, Forall_cons_iff in Hu. apply Hu. }
    destruct d as [st c]. cbn in Hd. subst st. destruct (N.eq_dec (next8 0 u) 12) as [E|E].
    - destruct (d8_feed_ok 0 c u ltac:(left; reflexivity) Hb) as (c' & F & _). rewrite E in F.
      destruct (some_calls (length rest) (S (length pre)) {| d_state := 0; d_cp := c' |}) as (evs & R).
      { rewrite HS, !app_length. cbn [length]. lia. } { apply fresh0. reflexivity. }
      exists (singles c32 (length pre) [u] ++ evs). split.
      + intros S cb s. cbn [forward]. rewrite G. cbn [option_bind]. change (dec_feed 1) with d8_feed. rewrite F. cbn [option_bind].
        change (dec_has_value 1 {| d_state := 12; d_cp := c' |}) with false. change (dec_error 1 {| d_state := 12; d_cp := c' |}) with true.
        cbn iota. change (dec_clear 1 {| d_state := 12; d_cp := c' |}) with (Some {| d_state := 0; d_cp := c' |}). cbn [option_bind].
        change 1%nat with (length [u]) at 1.
        rewrite (emit_up_ok schar 1 str false ltac:(left; reflexivity) Hu [u] pre rest) by (rewrite L_str, HS; reflexivity).
        cbn [option_bind]. rewrite run_app. fold c32. destruct (run cb s (singles c32 (length pre) [u])) as [s' [|]]; [reflexivity|]. apply R.
      + right. cbn [singles app]. eexists _, _. split; [reflexivity|]. apply c32_high, Ha.
    - pose proof (pending_start u _ Ha Hb eq_refl E) as P.
      destruct (calls_pending rest pre [u] _ HS P) as (evs & R & K). exists evs. split; [|exact K].
      intros S cb s. cbn [forward]. rewrite G. cbn [option_bind]. rewrite (d8_start c u _ Hb eq_refl E). cbn [option_bind].
      assert (Nz : next8 0 u <> 0) by (destruct (next8_0 u E) as [[_ R0]|R0]; lia).
      unfold dec_has_value, dec_error, d8_has_value, d8_error. cbn [N.eqb Pos.eqb d_state]. apply N.eqb_neq in Nz, E. rewrite Nz, E.
      specialize (R S cb s). cbn [length] in R. replace (length pre + 1)%nat with (Datatypes.S (length pre)) in R by lia. exact R.
  Qed.

  Lemma calls_start rest : forall pre d, str = pre ++ rest -> d_state d = 0 ->
    exists evs, calls (length rest) (length pre) (length pre) 0 d evs /\
      ((exists t r, rest = t ++ r /\ map cp_of evs = t /\ (r = [] \/ cut_short r)) \/ (exists e, In e evs /\ 128 <= cp_of e)).
  Proof.
    induction rest as [|u rest IH]; intros pre d HS Hd.
    - exists []. split; [intros S cb s; reflexivity|]. left. exists [], []. split; [reflexivity|]. split; [reflexivity|left; reflexivity].
    - destruct (N.ltb_spec u 128) as [Ha|Ha].
      + assert (HS' : str = (pre ++ [u]) ++ rest) by (rewrite HS, <- app_assoc; reflexivity).
        destruct (IH (pre ++ [u]) {| d_state := 0; d_cp := u |} HS' eq_refl) as (evs & R & K). rewrite app_length in R. cbn [length] in R.
        exists ((u, length pre, 1%nat) :: evs). split.
        * intros S cb s. cbn [length forward run]. rewrite (get_mid pre u rest HS). cbn [option_bind].
          destruct d as [st c]. cbn in Hd. subst st. rewrite (d8_start c u 0) by (lia || (unfold next8; cbn [N.eqb]; destruct (N.leb_spec u 0x7F); lia)).
          cbn [option_bind]. change (dec_has_value 1 {| d_state := 0; d_cp := lead8 u |}) with true. cbn iota. cbn [d_cp].
          assert (E : lead8 u = u) by (unfold lead8; destruct (N.leb_spec u 0x7F); [reflexivity|lia]). rewrite E.
          destruct (cb s u (length pre) 1%nat) as [s' [|]]; [|reflexivity].
          replace (Datatypes.S (length pre)) with (length pre + 1)%nat by lia. apply R.
        * destruct K as [(t & r & -> & E & Hr)|(e & He & Hc)].
          -- left. exists (u :: t), r. split; [reflexivity|]. split; [cbn [map]; rewrite E; reflexivity|exact Hr].
          -- right. exists e. split; [right; exact He|exact Hc].
      + destruct (calls_high pre u rest d HS Ha Hd) as (evs & R & K). exists evs. split; [exact R|].
        destruct K as [[-> C]|(e & evs' & -> & C)].
        * left. exists [], (u :: rest). split; [reflexivity|]. split; [reflexivity|right; exact C].
        * right. exists e. split; [left; reflexivity|exact C].
  Qed.

  (** The calls for a known ASCII text followed by a cut-short sequence. *)
  Lemma chain_cut d l d' : chain 1 d l d' -> forall r ext pre st cu, l = r ++ ext -> ext <> [] -> str = pre ++ r ->
    calls (length r) (length pre) st cu d [].
  Proof.
    induction 1 as [d u d' F V|d u d1 l d' F V E C IH]; intros r ext pre st cu El He HS S cb s.
    - destruct r as [|x r]; [reflexivity|]. injection El as -> El. symmetry in El. apply app_eq_nil in El. destruct El as [_ ->]. congruence.
    - destruct r as [|x r]; [reflexivity|]. injection El as -> ->. cbn [length forward]. rewrite (get_mid pre x r HS). cbn [option_bind].
      rewrite F. cbn [option_bind]. rewrite V, E. specialize (IH r ext (pre ++ [x]) st (Datatypes.S cu) eq_refl He).
      rewrite app_length in IH. cbn [length] in IH. replace (Datatypes.S (length pre)) with (length pre + 1)%nat by lia.
      apply IH. rewrite HS, <- app_assoc. reflexivity.
  Qed.
  Lemma cut_calls r pre d : cut_short r -> str = pre ++ r -> d_state d = 0 -> calls (length r) (length pre) (length pre) 0 d [].
  Proof.
    intros [_ (ext & He & W)] HS Hd. destruct (wf_enc8 _ W) as (cp & Hc & E). destruct d as [st c]. cbn in Hd. subst st.
    eapply (chain_cut _ _ _ (enc8_chain c cp Hc) r ext); [symmetry; exact E|exact He|exact HS].
  Qed.
  Lemma ascii_calls r t : forall pre d, str = pre ++ t ++ r -> Forall (fun c => c < 128) t -> r = [] \/ cut_short r -> d_state d = 0 ->
    calls (length (t ++ r)) (length pre) (length pre) 0 d (unit_events (length pre) t).
  Proof.
    induction t as [|u t IH]; intros pre d HS Ht Hr Hd; cbn [app length unit_events].
    - destruct Hr as [->|Hr]; [intros S cb s; reflexivity|]. apply cut_calls; assumption.
    - apply Forall_cons_iff in Ht. destruct Ht as [Ha Ht]. apply (calls_ascii pre u (t ++ r)); [exact HS|exact Ha|exact Hd|].
      intros d' Hd'. specialize (IH (pre ++ [u]) d'). rewrite (app_length pre [u]) in IH. cbn [length] in IH.
      replace (S (length pre)) with (length pre + 1)%nat by lia.
      apply IH; [rewrite HS, <- app_assoc; reflexivity|exact Ht|exact Hr|exact Hd'].
  Qed.
End Narrow.

Lemma map_unit_events t : forall i, map (fun e : event => fst (fst e)) (unit_events i t) = t.
Proof. induction t as [|u t IH]; intros i; cbn; [reflexivity|]. rewrite IH. reflexivity. Qed.

Definition start8 (str : list N) : nat := if bom8 str then 3%nat else 0%nat.
Lemma decode8_calls {S} (cb : S -> N -> nat -> nat -> S * bool) be schar str pre rest evs s : units 1 str -> str <> [] -> str = pre ++ rest ->
  length pre = start8 str -> calls schar str (length rest) (length pre) (length pre) 0 dec_init evs ->
  utf_decode cb be schar 1 str false s = Some (fst (run cb s evs)).
Proof.
  intros Hu Hne HS Hp R. rewrite utf_decode_cons by exact Hne. rewrite detect8 by exact Hu. cbn [option_bind].
  fold (start8 str). rewrite <- Hp. replace (length str - length pre)%nat with (length rest) by (rewrite HS, app_length; lia).
  change (1 =? 4) with false. cbn iota. rewrite R. reflexivity.
Qed.

Lemma bom8_split str : bom8 str = true -> exists r, str = bom ++ r.
Proof.
  unfold bom8. destruct str as [|a [|b [|c r]]]; try discriminate. rewrite !andb_true_iff, !N.eqb_eq. intros [[-> ->] ->]. exists r. reflexivity.
Qed.

Theorem parse8 be schar str u : units 1 str ->
  uuid_parse be schar 1 str = Some (Some u) <->
  exists b t r, str = b ++ t ++ r /\ (b = [] \/ b = bom) /\ uuid_text u t /\ (r = [] \/ cut_short r).
Proof.
  intros Hu. split.
  - intros H. destruct (Nat.ltb_spec (length str) 32) as [L|L]; [unfold uuid_parse in H; destruct (Nat.ltb_spec (length str) 32); [discriminate|lia]|].
    assert (Hne : str <> []) by (destruct str; [cbn in L; lia|discriminate]).
    assert (Sp : exists b rest, str = b ++ rest /\ length b = start8 str /\ (b = [] \/ b = bom)).
    { unfold start8. destruct (bom8 str) eqn:B.
      - destruct (bom8_split str B) as (r & E). exists bom, r. split; [exact E|]. split; [reflexivity|right; reflexivity].
      - exists [], str. split; [reflexivity|]. split; [reflexivity|left; reflexivity]. }
    destruct Sp as (b & rest & HS & Lb & Hb). destruct (calls_start schar str Hu rest b dec_init HS eq_refl) as (evs & R & K).
    rewrite (parse_outcome be schar 1 str evs L) in H by (intros; apply (decode8_calls cb be schar str b rest); assumption).
    injection H as H. apply outcome_ok in H. destruct K as [(t & r & -> & E & Hr)|(e & He & Hc)].
    + exists b, t, r. split; [exact HS|]. split; [exact Hb|]. split; [|exact Hr]. rewrite <- E. exact H.
    + exfalso. apply uuid_text_props in H. destruct H as [_ H]. rewrite Forall_map, Forall_forall in H. specialize (H e He). cbn beta in H. unfold cp_of in Hc. lia.
  - intros (b & t & r & HS & Hb & T & Hr). destruct (uuid_text_props u t T) as [L A].
    assert (A' : Forall (fun c => c < 128) t) by (eapply Forall_impl; [|exact A]; cbn beta; intros; lia).
    assert (L' : (32 <= length str)%nat) by (rewrite HS, !app_length; lia).
    assert (Hne : str <> []) by (destruct str; [cbn in L'; lia|discriminate]).
    assert (Lb : length b = start8 str).
    { unfold start8. destruct Hb as [->| ->].
      - cbn [app] in HS. destruct t as [|c t]; [cbn in L; lia|]. rewrite HS. cbn [app bom8]. apply Forall_cons_iff in A'.
        destruct (t ++ r) as [|y [|z w]]; [reflexivity..|]. destruct (N.eqb_spec c 0xEF); [lia|reflexivity].
      - rewrite HS. reflexivity. }
    rewrite (parse_outcome be schar 1 str (unit_events (length b) t) L').
    2:{ intros S cb s. apply (decode8_calls cb be schar str b (t ++ r)); try assumption.
        apply (ascii_calls schar str Hu r t b dec_init HS A' Hr). reflexivity. }
    rewrite map_unit_events. f_equal. apply outcome_ok, T.
Qed.

Theorem parse8_total be schar str : units 1 str -> exists o, uuid_parse be schar 1 str = Some o.
Proof.
  intros Hu. destruct (Nat.ltb_spec (length str) 32) as [L|L].
  - exists None. unfold uuid_parse. destruct (Nat.ltb_spec (length str) 32); [reflexivity|lia].
  - destruct (decode_total be schar 1 str false ltac:(left; reflexivity) Hu) as (evs & D). eexists. apply (parse_outcome _ _ _ _ evs L). exact D.
Qed.

(* ----------------------------------------------------------------- wide strings *)

Theorem parse_wide be schar sz str u : sz = 2 \/ sz = 4 -> units sz str ->
  uuid_parse be schar sz str = Some (Some u) <-> uuid_text u (as_read be sz str).
Proof.
  intros Hsz Hu. destruct (Nat.ltb_spec (length str) 32) as [L|L].
  - split.
    + unfold uuid_parse. destruct (Nat.ltb_spec (length str) 32); [discriminate|lia].
    + intros T. exfalso. destruct (uuid_text_props _ _ T) as [T1 _].
      assert (length (as_read be sz str) <= length str)%nat; [|lia].
      unfold as_read. destruct str as [|x r]; [cbn; lia|].
      repeat match goal with |- context [if ?c then _ else _] => destruct c end; rewrite ?map_length; cbn [length]; lia.
  - assert (Hne : str <> []) by (destruct str; [cbn in L; lia|discriminate]).
    destruct str as [|x r]; [congruence|]. set (str := x :: r) in *.
    rewrite (parse_outcome be schar sz str
      (if hd 0 str =? swapped sz 0xFEFF then unit_events 1 (map (swapped sz) (tl str))
       else if hd 0 str =? 0xFEFF then unit_events 1 (tl str)
       else unit_events 0 (if looks_native be sz str then str else map (swapped sz) str)) L).
    2:{ intros S cb s. apply wide_forward; assumption. }
    unfold as_read. unfold str at 1 2 3 4 8. cbn [hd tl]. destruct (x =? swapped sz 0xFEFF).
    + rewrite map_unit_events. rewrite <- outcome_ok. split; [intros [= E]; exact E|intros ->; reflexivity].
    + destruct (x =? 0xFEFF); rewrite map_unit_events, <- outcome_ok; (split; [intros [= E]; exact E|intros ->; reflexivity]).
Qed.

Theorem parse_total be schar sz str : unit_size sz -> units sz str -> exists o, uuid_parse be schar sz str = Some o.
Proof.
  intros Hsz Hu. destruct (Nat.ltb_spec (length str) 32) as [L|L].
  - exists None. unfold uuid_parse. destruct (Nat.ltb_spec (length str) 32); [reflexivity|lia].
  - destruct (decode_total be schar sz str false Hsz Hu) as (evs & D). eexists. apply (parse_outcome _ _ _ _ evs L). exact D.
Qed.
