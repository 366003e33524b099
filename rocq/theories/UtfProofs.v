(** Proofs about the UTF-8 / UTF-16 decoders and encoders. *)
From Verif Require Import Words WordsProofs BitsModel UtfModel UtfSpec.
From Coq Require Import ZifyBool ZifyNat ZifyN.
Local Open Scope N_scope.

(* --------------------------------------------------- the UTF-8 automaton *)

Definition live_states : list N := [0; 24; 36; 48; 60; 72; 84; 96].

(** The transition function written out. *)
Definition next8 (st b : N) : N :=
  let cont lo hi t := if (lo <=? b) && (b <=? hi) then t else 12 in
  if st =? 0 then
    if b <=? 0x7F then 0
    else if (0xC2 <=? b) && (b <=? 0xDF) then 24
    else if b =? 0xE0 then 48
    else if b =? 0xED then 60
    else if (0xE1 <=? b) && (b <=? 0xEF) then 36
    else if b =? 0xF0 then 72
    else if (0xF1 <=? b) && (b <=? 0xF3) then 84
    else if b =? 0xF4 then 96
    else 12
  else if st =? 24 then cont 0x80 0xBF 0
  else if st =? 36 then cont 0x80 0xBF 24
  else if st =? 48 then cont 0xA0 0xBF 24
  else if st =? 60 then cont 0x80 0x9F 24
  else if st =? 72 then cont 0x90 0xBF 36
  else if st =? 84 then cont 0x80 0xBF 36
  else if st =? 96 then cont 0x80 0x8F 36
  else 12.

(** The value bits of a lead byte. *)
Definition lead8 (b : N) : N :=
  if b <=? 0x7F then b else if b <=? 0xDF then b - 0xC0 else if b <=? 0xEF then b - 0xE0 else b - 0xF0.

Definition bytes256 : list N := map N.of_nat (seq 0 256).
Lemma in_bytes256 b : b < 256 -> In b bytes256.
Proof. intros H. replace b with (N.of_nat (N.to_nat b)) by lia. apply in_map, in_seq. lia. Qed.

Definition table_step (st b : N) : option (N * N) :=
  type <- nth_error state_table (N.to_nat b) ;;
  nst <- nth_error state_table (N.to_nat (st + 256 + type)) ;;
  Some (nst, N.land (N.shiftr 255 type) b).

Lemma table_sweep :
  forallb (fun st => forallb (fun b =>
    match table_step st b with
    | Some (nst, lead) => (nst =? next8 st b) && ((next8 0 b =? 12) || (lead =? lead8 b))
    | None => false
    end) bytes256) live_states = true.
Proof. vm_compute. reflexivity. Qed.

Lemma table_step_ok st b : In st live_states -> b < 256 ->
  exists lead, table_step st b = Some (next8 st b, lead) /\ (next8 0 b <> 12 -> lead = lead8 b).
Proof.
  intros Hs Hb. pose proof table_sweep as T. rewrite forallb_forall in T. specialize (T st Hs).
  rewrite forallb_forall in T. specialize (T b (in_bytes256 b Hb)).
  destruct (table_step st b) as [[nst lead]|]; [|discriminate]. exists lead. apply andb_true_iff in T.
  destruct T as [T1 T2]. apply N.eqb_eq in T1. subst nst. split; [reflexivity|]. intros Hn.
  apply orb_true_iff in T2. destruct T2 as [T2|T2]; apply N.eqb_eq in T2; congruence.
Qed.

Lemma live_not_error st : In st live_states -> (st =? 12) = false.
Proof. cbn [live_states In]. lia. Qed.

Lemma next8_live st b : next8 st b = 12 \/ In (next8 st b) live_states.
Proof.
  unfold next8, live_states. cbn [In].
  repeat match goal with |- context [if ?c then _ else _] => destruct c end; tauto.
Qed.

Lemma d8_feed_ok st cp b : In st live_states -> b < 256 ->
  exists cp', d8_feed {| d_state := st; d_cp := cp |} b = Some {| d_state := next8 st b; d_cp := cp' |} /\
    (next8 st b <> 12 -> cp < 2 ^ 26 -> cp' = if st =? 0 then lead8 b else cp * 64 + (b - 0x80)).
Proof.
  intros Hs Hb. destruct (table_step_ok st b Hs Hb) as (lead & T & L). unfold table_step in T.
  unfold d8_feed, d8_error, d8_has_value. cbn [d_state d_cp]. rewrite (live_not_error st Hs).
  destruct (nth_error state_table (N.to_nat b)) as [type|]; [|discriminate]. cbn [option_bind] in *.
  destruct (nth_error state_table (N.to_nat (st + 256 + type))) as [nst|]; [|discriminate]. cbn [option_bind] in *.
  injection T as -> E. eexists. split; [reflexivity|]. intros Hn Hcp.
  destruct (N.eqb_spec st 0) as [->|Hst].
  - rewrite E. apply L, Hn.
  - assert (R : 0x80 <= b <= 0xBF).
    { clear - Hn Hst Hs. unfold next8 in Hn. destruct (N.eqb_spec st 0); [contradiction|].
      repeat match type of Hn with context [if ?c then _ else _] => destruct c eqn:? end; try contradiction; lia. }
    assert (B63 : N.land b 63 = b - 0x80).
    { change 63 with (N.ones 6). rewrite N.land_ones. change (2 ^ 6) with 64.
      Ltac Zify.zify_post_hook ::= Z.div_mod_to_equations. lia. }
    rewrite B63. unfold trunc. rewrite N.shiftl_mul_pow2. change (2 ^ 6) with 64.
    rewrite N.mod_small by (change (2 ^ 32) with (2 ^ 26 * 64); nia).
    rewrite N.lor_comm. 
    replace (cp * 64) with (N.shiftl cp 6) by (rewrite N.shiftl_mul_pow2; reflexivity).
    assert (D : N.land (N.shiftl cp 6) (b - 0x80) = 0).
    { apply N.bits_inj. intros i. rewrite N.land_spec, N.bits_0. destruct (N.ltb_spec i 6).
      - rewrite N.shiftl_spec_low by assumption. reflexivity.
      - rewrite (testbit_high 6 (b - 0x80)) by (change (2 ^ 6) with 64; lia). apply andb_false_r. }
    rewrite <- N.lxor_lor by exact D. symmetry. apply N.add_nocarry_lxor. exact D.
Qed.

(* ------------------------------------------------------- chains of feeds *)

(** [chain sz d l d']: feeding the units [l] to [d] leaves it incomplete until the last unit, which completes a
    code point. *)
Inductive chain (sz : N) : dec -> list N -> dec -> Prop :=
| chain_last d u d' : dec_feed sz d u = Some d' -> dec_has_value sz d' = true -> chain sz d [u] d'
| chain_more d u d1 l d' :
    dec_feed sz d u = Some d1 -> dec_has_value sz d1 = false -> dec_error sz d1 = false ->
    chain sz d1 l d' -> chain sz d (u :: l) d'.

Lemma d8_step st cp b nst cp' : In st live_states -> b < 256 -> cp < 2 ^ 26 -> next8 st b = nst -> nst <> 12 ->
  cp' = (if st =? 0 then lead8 b else cp * 64 + (b - 0x80)) ->
  dec_feed 1 {| d_state := st; d_cp := cp |} b = Some {| d_state := nst; d_cp := cp' |}.
Proof.
  intros Hs Hb Hcp Hn Hne ->. destruct (d8_feed_ok st cp b Hs Hb) as (c & F & E). rewrite Hn in *.
  cbn. rewrite F. rewrite E by assumption. reflexivity.
Qed.

(** A fresh start forgets the previous code point. *)
Lemma d8_start cp b nst : b < 256 -> next8 0 b = nst -> nst <> 12 ->
  dec_feed 1 {| d_state := 0; d_cp := cp |} b = Some {| d_state := nst; d_cp := lead8 b |}.
Proof.
  intros Hb Hn Hne. destruct (table_step_ok 0 b ltac:(left; reflexivity) Hb) as (lead & T & L).
  unfold table_step in T. cbn [dec_feed N.eqb Pos.eqb]. unfold d8_feed, d8_error, d8_has_value. cbn [d_state d_cp N.eqb].
  destruct (nth_error state_table (N.to_nat b)) as [type|]; [|discriminate]. cbn [option_bind] in *.
  destruct (nth_error state_table (N.to_nat (0 + 256 + type))) as [s'|]; [|discriminate]. cbn [option_bind] in *.
  injection T as -> ->. rewrite L by congruence. rewrite Hn. reflexivity.
Qed.

Ltac next8_tac := unfold next8; cbn [N.eqb Pos.eqb];
  repeat match goal with |- context [if ?c then _ else _] => destruct c eqn:?; try lia end; try reflexivity; lia.

Lemma scalar_div cp : scalar cp -> 0x10000 <= cp -> 1 <= cp / 65536 <= 16 /\ cp / 262144 <= 4.
Proof. unfold scalar. intros. Ltac Zify.zify_post_hook ::= Z.div_mod_to_equations. lia. Qed.

Lemma enc8_chain c cp : scalar cp -> chain 1 {| d_state := 0; d_cp := c |} (enc8 cp) {| d_state := 0; d_cp := cp |}.
Proof.
  intros Hc. unfold enc8, scalar in *.
  destruct (N.ltb_spec cp 0x80) as [H1|H1]; [|destruct (N.ltb_spec cp 0x800) as [H2|H2];
    [|destruct (N.ltb_spec cp 0x10000) as [H3|H3]]].
  - apply chain_last; [|reflexivity].
    rewrite (d8_start c cp 0); [f_equal; f_equal; unfold lead8; destruct (N.leb_spec cp 0x7F); lia|lia|next8_tac|lia].
  - set (a := cp / 64). set (b := cp mod 64). assert (E : cp = 64 * a + b /\ b < 64 /\ 2 <= a < 32) by (unfold a, b; lia).
    clearbody a b. Ltac Zify.zify_post_hook ::= idtac.
    eapply chain_more; [apply (d8_start c (0xC0 + a) 24); [lia|next8_tac|lia]|reflexivity|reflexivity|].
    apply chain_last; [|reflexivity].
    apply d8_step; [right; left; reflexivity|lia| |next8_tac|lia|].
    + unfold lead8. destruct (N.leb_spec (0xC0 + a) 0x7F); [lia|]. destruct (N.leb_spec (0xC0 + a) 0xDF); lia.
    + cbn [N.eqb]. unfold lead8. destruct (N.leb_spec (0xC0 + a) 0x7F); [lia|]. destruct (N.leb_spec (0xC0 + a) 0xDF); lia.
  - Ltac Zify.zify_post_hook ::= Z.div_mod_to_equations.
    set (a := cp / 4096). set (b := cp / 64 mod 64). set (e := cp mod 64).
    assert (E : cp = 4096 * a + 64 * b + e /\ e < 64 /\ b < 64 /\ a < 16) by (unfold a, b, e; lia).
    clearbody a b e. Ltac Zify.zify_post_hook ::= idtac.
    assert (L : lead8 (0xE0 + a) = a).
    { unfold lead8. destruct (N.leb_spec (0xE0 + a) 0x7F); [lia|]. destruct (N.leb_spec (0xE0 + a) 0xDF); [lia|].
      destruct (N.leb_spec (0xE0 + a) 0xEF); lia. }
    set (s1 := next8 0 (0xE0 + a)).
    assert (S1 : (s1 = 48 /\ a = 0) \/ (s1 = 60 /\ a = 13) \/ (s1 = 36 /\ 0 < a /\ a <> 13)).
    { unfold s1, next8. cbn [N.eqb Pos.eqb].
      repeat match goal with |- context [if ?c then _ else _] => destruct c eqn:?; try lia end. }
    clearbody s1.
    assert (F1 : dec_feed 1 {| d_state := 0; d_cp := c |} (0xE0 + a) = Some {| d_state := s1; d_cp := a |}).
    { rewrite (d8_start c (0xE0 + a) s1); [rewrite L; reflexivity|lia| |lia].
      unfold next8. cbn [N.eqb Pos.eqb]. repeat match goal with |- context [if ?c then _ else _] => destruct c eqn:?; try lia end. }
    eapply chain_more; [exact F1| | |].
    { change ((s1 =? 0) = false). lia. } { change ((s1 =? 12) = false). lia. }
    eapply chain_more with (d1 := {| d_state := 24; d_cp := a * 64 + b |}); [|reflexivity|reflexivity|].
    + apply d8_step; [cbn [live_states In]; lia|lia| | |lia|].
      * change (2 ^ 26) with 67108864. lia.
      * destruct S1 as [[-> Ha]|[[-> Ha]|[-> Ha]]]; next8_tac.
      * destruct (N.eqb_spec s1 0); lia.
    + apply chain_last; [|reflexivity]. apply d8_step; [right; left; reflexivity|lia| |next8_tac|lia|cbn [N.eqb]; lia].
      change (2 ^ 26) with 67108864. lia.
  - Ltac Zify.zify_post_hook ::= Z.div_mod_to_equations.
    set (a := cp / 262144). set (b := cp / 4096 mod 64). set (e := cp / 64 mod 64). set (f := cp mod 64).
    assert (E : cp = 262144 * a + 4096 * b + 64 * e + f /\ f < 64 /\ e < 64 /\ b < 64 /\ a <= 4) by (unfold a, b, e, f; lia).
    clearbody a b e f. Ltac Zify.zify_post_hook ::= idtac.
    assert (L : lead8 (0xF0 + a) = a).
    { unfold lead8. destruct (N.leb_spec (0xF0 + a) 0x7F); [lia|]. destruct (N.leb_spec (0xF0 + a) 0xDF); [lia|].
      destruct (N.leb_spec (0xF0 + a) 0xEF); lia. }
    set (s1 := next8 0 (0xF0 + a)).
    assert (S1 : (s1 = 72 /\ a = 0) \/ (s1 = 84 /\ 0 < a /\ a < 4) \/ (s1 = 96 /\ a = 4)).
    { unfold s1, next8. cbn [N.eqb Pos.eqb].
      repeat match goal with |- context [if ?c then _ else _] => destruct c eqn:?; try lia end. }
    assert (F1 : dec_feed 1 {| d_state := 0; d_cp := c |} (0xF0 + a) = Some {| d_state := s1; d_cp := a |}).
    { rewrite (d8_start c (0xF0 + a) s1); [rewrite L; reflexivity|lia|reflexivity|lia]. }
    clearbody s1.
    eapply chain_more; [exact F1| | |].
    { change ((s1 =? 0) = false). lia. } { change ((s1 =? 12) = false). lia. }
    eapply chain_more with (d1 := {| d_state := 36; d_cp := a * 64 + b |}); [|reflexivity|reflexivity|].
    + apply d8_step; [cbn [live_states In]; lia|lia| | |lia|].
      * change (2 ^ 26) with 67108864. lia.
      * destruct S1 as [[-> Ha]|[[-> Ha]|[-> Ha]]]; next8_tac.
      * destruct (N.eqb_spec s1 0); lia.
    + eapply chain_more with (d1 := {| d_state := 24; d_cp := (a * 64 + b) * 64 + e |}); [|reflexivity|reflexivity|].
      * apply d8_step; [right; right; left; reflexivity|lia| |next8_tac|lia|cbn [N.eqb]; lia].
        change (2 ^ 26) with 67108864. lia.
      * apply chain_last; [|reflexivity]. apply d8_step; [right; left; reflexivity|lia| |next8_tac|lia|cbn [N.eqb]; lia].
        change (2 ^ 26) with 67108864. lia.
Qed.

(* ---------------------------------------------------- the accepted language *)

Lemma feed_dead c l vs d : feed_list 1 {| d_state := 12; d_cp := c |} l = Some (vs, d) ->
  l = [] /\ d8_has_value d = false.
Proof.
  destruct l as [|u r]; cbn [feed_list]; [intros [= <- <-]; split; reflexivity|].
  cbn [dec_feed N.eqb Pos.eqb]. unfold d8_feed, d8_error. cbn [d_state N.eqb Pos.eqb option_bind]. discriminate.
Qed.

Lemma feed_step st c l vs d : In st live_states -> c < 2 ^ 26 -> Forall (fun u => u < 256) l -> (st <> 0 \/ l <> []) ->
  feed_list 1 {| d_state := st; d_cp := c |} l = Some (vs, d) -> d8_has_value d = true ->
  exists b r vs', l = b :: r /\ b < 256 /\ Forall (fun u => u < 256) r /\ next8 st b <> 12 /\
    let c' := if st =? 0 then lead8 b else c * 64 + (b - 0x80) in
    feed_list 1 {| d_state := next8 st b; d_cp := c' |} r = Some (vs', d) /\
    vs = if next8 st b =? 0 then c' :: vs' else vs'.
Proof.
  intros Hs Hc Hb Hne F V. destruct l as [|b r]; cbn [feed_list] in F.
  - injection F as <- <-. unfold d8_has_value in V. cbn [d_state] in V. destruct Hne; [lia|congruence].
  - apply Forall_cons_iff in Hb. destruct Hb as [Hb Hr].
    destruct (d8_feed_ok st c b Hs Hb) as (cp' & Fd & Ev).
    change (dec_feed 1) with d8_feed in F. rewrite Fd in F. cbn [option_bind] in F.
    destruct (feed_list 1 _ r) as [[vs' d']|] eqn:Fr; cbn [option_bind fst snd] in F; [|discriminate].
    injection F as Ev' ->.
    assert (N12 : next8 st b <> 12).
    { intros E. rewrite E in Fr. destruct (feed_dead _ _ _ _ Fr) as [_ V']. congruence. }
    exists b, r, vs'. specialize (Ev N12 Hc). subst cp'.
    split; [reflexivity|]. split; [exact Hb|]. split; [exact Hr|]. split; [exact N12|]. cbn zeta.
    split; [exact Fr|]. rewrite <- Ev'. unfold dec_has_value, d8_has_value. cbn [N.eqb Pos.eqb d_state d_cp].
    destruct (next8 st b =? 0); reflexivity.
Qed.

Lemma enc8_2 a b : 2 <= a < 32 -> b < 64 -> enc8 (a * 64 + b) = [0xC0 + a; 0x80 + b].
Proof.
  intros Ha Hb. unfold enc8. destruct (N.ltb_spec (a * 64 + b) 0x80); [lia|].
  destruct (N.ltb_spec (a * 64 + b) 0x800); [|lia]. 
  Ltac Zify.zify_post_hook ::= Z.div_mod_to_equations. repeat (f_equal; try lia).
Qed.

Lemma enc8_3 a b e : a < 16 -> b < 64 -> e < 64 -> (a = 0 -> 32 <= b) ->
  enc8 ((a * 64 + b) * 64 + e) = [0xE0 + a; 0x80 + b; 0x80 + e].
Proof.
  intros Ha Hb He H0. unfold enc8. destruct (N.ltb_spec ((a * 64 + b) * 64 + e) 0x80); [lia|].
  destruct (N.ltb_spec ((a * 64 + b) * 64 + e) 0x800); [lia|].
  destruct (N.ltb_spec ((a * 64 + b) * 64 + e) 0x10000); [|lia]. repeat (f_equal; try lia).
Qed.

Lemma enc8_4 a b e f : a <= 4 -> b < 64 -> e < 64 -> f < 64 -> (a = 0 -> 16 <= b) ->
  enc8 (((a * 64 + b) * 64 + e) * 64 + f) = [0xF0 + a; 0x80 + b; 0x80 + e; 0x80 + f].
Proof.
  intros Ha Hb He Hf H0. unfold enc8.
  destruct (N.ltb_spec (((a * 64 + b) * 64 + e) * 64 + f) 0x80); [lia|].
  destruct (N.ltb_spec (((a * 64 + b) * 64 + e) * 64 + f) 0x800); [lia|].
  destruct (N.ltb_spec (((a * 64 + b) * 64 + e) * 64 + f) 0x10000); [lia|]. repeat (f_equal; try lia).
Qed.
Ltac Zify.zify_post_hook ::= idtac.

Ltac kill_ifs H :=
  repeat match type of H with context [if ?c then _ else _] => destruct c eqn:?; try congruence; try lia end.

(** Where a transition can lead, with the byte range that leads there. *)
Lemma next8_0 b : next8 0 b <> 12 ->
  (next8 0 b = 0 /\ b < 0x80) \/
  (next8 0 b = 24 /\ 0xC2 <= b <= 0xDF) \/
  (next8 0 b = 48 /\ b = 0xE0) \/ (next8 0 b = 60 /\ b = 0xED) \/
  (next8 0 b = 36 /\ (0xE1 <= b <= 0xEC \/ 0xEE <= b <= 0xEF)) \/
  (next8 0 b = 72 /\ b = 0xF0) \/ (next8 0 b = 84 /\ 0xF1 <= b <= 0xF3) \/ (next8 0 b = 96 /\ b = 0xF4).
Proof.
  unfold next8. cbn [N.eqb Pos.eqb]. intros H.
  repeat match goal with |- context [if ?c then _ else _] => destruct c eqn:? end; lia.
Qed.

Lemma next8_cont b :
  (next8 24 b <> 12 -> next8 24 b = 0 /\ 0x80 <= b <= 0xBF) /\
  (next8 36 b <> 12 -> next8 36 b = 24 /\ 0x80 <= b <= 0xBF) /\
  (next8 48 b <> 12 -> next8 48 b = 24 /\ 0xA0 <= b <= 0xBF) /\
  (next8 60 b <> 12 -> next8 60 b = 24 /\ 0x80 <= b <= 0x9F) /\
  (next8 72 b <> 12 -> next8 72 b = 36 /\ 0x90 <= b <= 0xBF) /\
  (next8 84 b <> 12 -> next8 84 b = 36 /\ 0x80 <= b <= 0xBF) /\
  (next8 96 b <> 12 -> next8 96 b = 36 /\ 0x80 <= b <= 0x8F).
Proof.
  unfold next8. cbn [N.eqb Pos.eqb].
  repeat split; match goal with H : (if ?c then _ else _) <> _ |- _ => destruct c eqn:?; [|congruence] end; try reflexivity; lia.
Qed.

Lemma lead8_2 a : 0xC0 <= a <= 0xDF -> lead8 a = a - 0xC0.
Proof. intros. unfold lead8. destruct (N.leb_spec a 0x7F); [lia|]. destruct (N.leb_spec a 0xDF); lia. Qed.
Lemma lead8_3 a : 0xE0 <= a <= 0xEF -> lead8 a = a - 0xE0.
Proof.
  intros. unfold lead8. destruct (N.leb_spec a 0x7F); [lia|]. destruct (N.leb_spec a 0xDF); [lia|].
  destruct (N.leb_spec a 0xEF); lia.
Qed.
Lemma lead8_4 a : 0xF0 <= a -> lead8 a = a - 0xF0.
Proof.
  intros. unfold lead8. destruct (N.leb_spec a 0x7F); [lia|]. destruct (N.leb_spec a 0xDF); [lia|].
  destruct (N.leb_spec a 0xEF); lia.
Qed.

Ltac take F V b r vs Hb Hr N12 Ev :=
  let F' := fresh "F" in
  apply feed_step in F; [|cbn [live_states In]; lia|change (2 ^ 26) with 67108864; lia|assumption|try (left; discriminate); try (left; lia)|exact V];
  destruct F as (b & r & vs & -> & Hb & Hr & N12 & F & Ev); cbn [N.eqb Pos.eqb] in F, Ev.

Lemma accept_text n : forall l c vs d, (length l <= n)%nat -> Forall (fun u => u < 256) l -> c < 2 ^ 26 ->
  feed_list 1 {| d_state := 0; d_cp := c |} l = Some (vs, d) -> d8_has_value d = true ->
  Forall scalar vs /\ l = text 1 vs.
Proof.
  induction n as [|n IH]; intros l c vs d Hl Hb Hc F V.
  - destruct l; [|cbn in Hl; lia]. cbn in F. injection F as <- <-. split; [constructor|reflexivity].
  - destruct l as [|b0 l1]; [cbn in F; injection F as <- <-; split; [constructor|reflexivity]|].
    cbn [length] in Hl.
    apply feed_step in F; [|left; reflexivity|exact Hc|exact Hb|right; discriminate|exact V].
    destruct F as (b & r & vs1 & [= -> ->] & Hb0 & Hr & N12 & F & Ev). cbn [N.eqb Pos.eqb] in F, Ev.
    clear Hb.
    assert (Fin : forall cp pre rest vs', scalar cp -> enc8 cp = pre -> (length rest <= n)%nat ->
              Forall (fun u => u < 256) rest ->
              feed_list 1 {| d_state := 0; d_cp := cp |} rest = Some (vs', d) ->
              Forall scalar (cp :: vs') /\ pre ++ rest = text 1 (cp :: vs')).
    { intros cp pre rest vs' Hs He Hlen Hrest F'.
      assert (Hcp : cp < 2 ^ 26) by (change (2 ^ 26) with 67108864; unfold scalar in Hs; lia).
      destruct (IH rest cp vs' d Hlen Hrest Hcp F' V) as [I1 I2]. split; [constructor; assumption|].
      cbn [text flat_map]. change (enc 1 cp) with (enc8 cp). rewrite He, I2. reflexivity. }
    destruct (next8_0 b N12) as [[E R]|[[E R]|[[E R]|[[E R]|[[E R]|[[E R]|[[E R]|[E R]]]]]]]];
      rewrite E in F, Ev; cbn [N.eqb Pos.eqb] in Ev.
    + (* one byte *)
      subst vs. assert (L : lead8 b = b) by (unfold lead8; destruct (N.leb_spec b 0x7F); lia). rewrite L in *.
      apply (Fin b [b]); [unfold scalar; lia| |lia|assumption|assumption].
      unfold enc8. destruct (N.ltb_spec b 0x80); [reflexivity|lia].
    + (* two bytes *)
      rewrite lead8_2 in F by lia. subst vs.
      take F V b1 r1 vs2 Hb1 Hr1 N12' Ev1. destruct (proj1 (next8_cont b1) N12') as [E1 R1].
      rewrite E1 in F, Ev1; cbn [N.eqb Pos.eqb] in Ev1. subst vs1. cbn [length] in Hl.
      apply (Fin ((b - 0xC0) * 64 + (b1 - 0x80)) [b; b1]); [unfold scalar; lia| |lia|assumption|assumption].
      rewrite enc8_2 by lia. repeat f_equal; lia.
    + subst vs b. rewrite lead8_3 in F by lia.
      take F V b1 r1 vs2 Hb1 Hr1 N12' Ev1. destruct (proj1 (proj2 (proj2 (next8_cont b1))) N12') as [E1 R1].
      rewrite E1 in F, Ev1; cbn [N.eqb Pos.eqb] in Ev1. subst vs1. cbn [length] in Hl.
      take F V b2 r2 vs3 Hb2 Hr2 N12'' Ev2. destruct (proj1 (next8_cont b2) N12'') as [E2 R2].
      rewrite E2 in F, Ev2; cbn [N.eqb Pos.eqb] in Ev2. subst vs2. cbn [length] in Hl.
      apply (Fin _ [0xE0; b1; b2]) in F; [exact F|unfold scalar; lia| |lia|assumption].
      rewrite enc8_3 by lia. repeat f_equal; lia.
    + subst vs b. rewrite lead8_3 in F by lia.
      take F V b1 r1 vs2 Hb1 Hr1 N12' Ev1. destruct (proj1 (proj2 (proj2 (proj2 (next8_cont b1)))) N12') as [E1 R1].
      rewrite E1 in F, Ev1; cbn [N.eqb Pos.eqb] in Ev1. subst vs1. cbn [length] in Hl.
      take F V b2 r2 vs3 Hb2 Hr2 N12'' Ev2. destruct (proj1 (next8_cont b2) N12'') as [E2 R2].
      rewrite E2 in F, Ev2; cbn [N.eqb Pos.eqb] in Ev2. subst vs2. cbn [length] in Hl.
      apply (Fin _ [0xED; b1; b2]) in F; [exact F|unfold scalar; lia| |lia|assumption].
      rewrite enc8_3 by lia. repeat f_equal; lia.
    + subst vs. rewrite lead8_3 in F by lia.
      take F V b1 r1 vs2 Hb1 Hr1 N12' Ev1. destruct (proj1 (proj2 (next8_cont b1)) N12') as [E1 R1].
      rewrite E1 in F, Ev1; cbn [N.eqb Pos.eqb] in Ev1. subst vs1. cbn [length] in Hl.
      take F V b2 r2 vs3 Hb2 Hr2 N12'' Ev2. destruct (proj1 (next8_cont b2) N12'') as [E2 R2].
      rewrite E2 in F, Ev2; cbn [N.eqb Pos.eqb] in Ev2. subst vs2. cbn [length] in Hl.
      apply (Fin _ [b; b1; b2]) in F; [exact F|unfold scalar; lia| |lia|assumption].
      rewrite enc8_3 by lia. repeat f_equal; lia.
    + subst vs b. rewrite lead8_4 in F by lia.
      take F V b1 r1 vs2 Hb1 Hr1 N12' Ev1. destruct (proj1 (proj2 (proj2 (proj2 (proj2 (next8_cont b1))))) N12') as [E1 R1].
      rewrite E1 in F, Ev1; cbn [N.eqb Pos.eqb] in Ev1. subst vs1. cbn [length] in Hl.
      take F V b2 r2 vs3 Hb2 Hr2 N12'' Ev2. destruct (proj1 (proj2 (next8_cont b2)) N12'') as [E2 R2].
      rewrite E2 in F, Ev2; cbn [N.eqb Pos.eqb] in Ev2. subst vs2. cbn [length] in Hl.
      take F V b3 r3 vs4 Hb3 Hr3 N12''' Ev3. destruct (proj1 (next8_cont b3) N12''') as [E3 R3].
      rewrite E3 in F, Ev3; cbn [N.eqb Pos.eqb] in Ev3. subst vs3. cbn [length] in Hl.
      apply (Fin _ [0xF0; b1; b2; b3]) in F; [exact F|unfold scalar; lia| |lia|assumption].
      rewrite enc8_4 by lia. repeat f_equal; lia.
    + subst vs. rewrite lead8_4 in F by lia.
      take F V b1 r1 vs2 Hb1 Hr1 N12' Ev1. destruct (proj1 (proj2 (proj2 (proj2 (proj2 (proj2 (next8_cont b1)))))) N12') as [E1 R1].
      rewrite E1 in F, Ev1; cbn [N.eqb Pos.eqb] in Ev1. subst vs1. cbn [length] in Hl.
      take F V b2 r2 vs3 Hb2 Hr2 N12'' Ev2. destruct (proj1 (proj2 (next8_cont b2)) N12'') as [E2 R2].
      rewrite E2 in F, Ev2; cbn [N.eqb Pos.eqb] in Ev2. subst vs2. cbn [length] in Hl.
      take F V b3 r3 vs4 Hb3 Hr3 N12''' Ev3. destruct (proj1 (next8_cont b3) N12''') as [E3 R3].
      rewrite E3 in F, Ev3; cbn [N.eqb Pos.eqb] in Ev3. subst vs3. cbn [length] in Hl.
      apply (Fin _ [b; b1; b2; b3]) in F; [exact F|unfold scalar; lia| |lia|assumption].
      rewrite enc8_4 by lia. repeat f_equal; lia.
    + subst vs b. rewrite lead8_4 in F by lia.
      take F V b1 r1 vs2 Hb1 Hr1 N12' Ev1. destruct (proj2 (proj2 (proj2 (proj2 (proj2 (proj2 (next8_cont b1)))))) N12') as [E1 R1].
      rewrite E1 in F, Ev1; cbn [N.eqb Pos.eqb] in Ev1. subst vs1. cbn [length] in Hl.
      take F V b2 r2 vs3 Hb2 Hr2 N12'' Ev2. destruct (proj1 (proj2 (next8_cont b2)) N12'') as [E2 R2].
      rewrite E2 in F, Ev2; cbn [N.eqb Pos.eqb] in Ev2. subst vs2. cbn [length] in Hl.
      take F V b3 r3 vs4 Hb3 Hr3 N12''' Ev3. destruct (proj1 (next8_cont b3) N12''') as [E3 R3].
      rewrite E3 in F, Ev3; cbn [N.eqb Pos.eqb] in Ev3. subst vs3. cbn [length] in Hl.
      apply (Fin _ [0xF4; b1; b2; b3]) in F; [exact F|unfold scalar; lia| |lia|assumption].
      rewrite enc8_4 by lia. repeat f_equal; lia.
Qed.

Lemma feed_chain sz d l d' r : chain sz d l d' ->
  feed_list sz d (l ++ r) = option_map (fun p => (d_cp d' :: fst p, snd p)) (feed_list sz d' r).
Proof.
  induction 1 as [d u d' F V|d u d1 l d' F V E C IH]; cbn [app feed_list]; rewrite F; cbn [option_bind]; rewrite V.
  - destruct (feed_list sz d' r) as [[vs x]|]; reflexivity.
  - rewrite IH. destruct (feed_list sz d' r) as [[vs x]|]; reflexivity.
Qed.

Lemma feed_text cps : forall c, Forall scalar cps ->
  exists d, feed_list 1 {| d_state := 0; d_cp := c |} (text 1 cps) = Some (cps, d) /\ d_state d = 0.
Proof.
  induction cps as [|cp cps IH]; intros c Hs; cbn [text flat_map].
  - eexists. split; reflexivity.
  - apply Forall_cons_iff in Hs. destruct Hs as [Hc Hs]. destruct (IH cp Hs) as (d & F & V).
    exists d. split; [|exact V].
    rewrite (feed_chain 1 _ _ _ _ (enc8_chain c cp Hc)). unfold text in F. rewrite F. reflexivity.
Qed.

Lemma enc8_wf cp : scalar cp -> wf_seq (enc8 cp).
Proof.
  intros Hs. unfold enc8, scalar in *.
  Ltac Zify.zify_post_hook ::= Z.div_mod_to_equations.
  destruct (N.ltb_spec cp 0x80); [apply wf1; unfold rng; lia|].
  destruct (N.ltb_spec cp 0x800); [apply wf2; unfold rng; lia|].
  destruct (N.ltb_spec cp 0x10000).
  - destruct (N.ltb_spec cp 0x1000); [apply wf3a; unfold rng; lia|].
    destruct (N.ltb_spec cp 0xD000); [apply wf3b; unfold rng; lia|].
    destruct (N.ltb_spec cp 0xE000); [apply wf3c; unfold rng; lia|apply wf3d; unfold rng; lia].
  - destruct (N.ltb_spec cp 0x40000); [apply wf4a; unfold rng; lia|].
    destruct (N.ltb_spec cp 0x100000); [apply wf4b; unfold rng; lia|apply wf4c; unfold rng; lia].
Qed.
Ltac Zify.zify_post_hook ::= idtac.

Lemma wf_enc8 s : wf_seq s -> exists cp, scalar cp /\ s = enc8 cp.
Proof.
  assert (K2 : forall a b, 0xC2 <= a <= 0xDF -> 0x80 <= b <= 0xBF -> exists cp, scalar cp /\ [a; b] = enc8 cp).
  { intros a b Ha Hb. exists ((a - 0xC0) * 64 + (b - 0x80)). split; [unfold scalar; lia|].
    rewrite enc8_2 by lia. repeat f_equal; lia. }
  assert (K3 : forall a b c, 0xE0 <= a <= 0xEF -> 0x80 <= b <= 0xBF -> 0x80 <= c <= 0xBF ->
    (a = 0xE0 -> 0xA0 <= b) -> (a = 0xED -> b <= 0x9F) -> exists cp, scalar cp /\ [a; b; c] = enc8 cp).
  { intros a b c Ha Hb Hc H0 HD. exists (((a - 0xE0) * 64 + (b - 0x80)) * 64 + (c - 0x80)).
    split; [unfold scalar; lia|]. rewrite enc8_3 by lia. repeat f_equal; lia. }
  assert (K4 : forall a b c d, 0xF0 <= a <= 0xF4 -> 0x80 <= b <= 0xBF -> 0x80 <= c <= 0xBF -> 0x80 <= d <= 0xBF ->
    (a = 0xF0 -> 0x90 <= b) -> (a = 0xF4 -> b <= 0x8F) -> exists cp, scalar cp /\ [a; b; c; d] = enc8 cp).
  { intros a b c d Ha Hb Hc Hd H0 HD. exists ((((a - 0xF0) * 64 + (b - 0x80)) * 64 + (c - 0x80)) * 64 + (d - 0x80)).
    split; [unfold scalar; lia|]. rewrite enc8_4 by lia. repeat f_equal; lia. }
  unfold rng in *.
  destruct 1; unfold rng in *; try (apply K2; lia); try (apply K3; lia); try (apply K4; lia).
  exists a. split; [unfold scalar; lia|]. unfold enc8. destruct (N.ltb_spec a 0x80); [reflexivity|lia].
Qed.

Lemma wf_utf8_text l : wf_utf8 l <-> exists cps, Forall scalar cps /\ l = text 1 cps.
Proof.
  split.
  - induction 1 as [|s l Hs Hl (cps & Hc & ->)]; [exists []; split; [constructor|reflexivity]|].
    destruct (wf_enc8 s Hs) as (cp & Hcp & ->). exists (cp :: cps). split; [constructor; assumption|reflexivity].
  - intros (cps & Hc & ->). induction Hc as [|cp cps Hcp Hc IH]; [constructor|].
    cbn [text flat_map]. apply wf_app; [apply enc8_wf, Hcp|exact IH].
Qed.

(** The decoder accepts exactly the well-formed strings and yields their code points. *)
Lemma d8_accepts l : Forall (fun u => u < 256) l ->
  (exists vs d, feed_list 1 dec_init l = Some (vs, d) /\ d8_has_value d = true) <-> wf_utf8 l.
Proof.
  intros Hb. rewrite wf_utf8_text. split.
  - intros (vs & d & F & V). exists vs. apply (accept_text (length l) l 0 vs d); try assumption; lia.
  - intros (cps & Hc & ->). destruct (feed_text cps 0 Hc) as (d & F & V). exists cps, d.
    split; [exact F|]. unfold d8_has_value. rewrite V. reflexivity.
Qed.

(** No false alarms and no late alarms: as long as it is not in the error state, what was read can be completed. *)
Lemma d8_completable st : In st live_states -> exists ext, Forall (fun u => u < 256) ext /\
  forall c, exists vs d, feed_list 1 {| d_state := st; d_cp := c |} ext = Some (vs, d) /\ d8_has_value d = true.
Proof.
  intros Hs.
  assert (Step : forall st b nst ext, In st live_states -> b < 256 -> next8 st b = nst ->
     (Forall (fun u => u < 256) ext /\
      forall c, exists vs d, feed_list 1 {| d_state := nst; d_cp := c |} ext = Some (vs, d) /\ d8_has_value d = true) ->
     exists ext, Forall (fun u => u < 256) ext /\
      forall c, exists vs d, feed_list 1 {| d_state := st; d_cp := c |} ext = Some (vs, d) /\ d8_has_value d = true).
  { intros s b nst ext Hs' Hb Hn (Hext & H). exists (b :: ext). split; [constructor; assumption|]. intros c.
    destruct (d8_feed_ok s c b Hs' Hb) as (cp' & F & _). rewrite Hn in F. destruct (H cp') as (vs & d & F' & V).
    cbn [feed_list]. change (dec_feed 1) with d8_feed. rewrite F. cbn [option_bind]. rewrite F'. cbn [option_bind].
    eexists _, d. split; [reflexivity|exact V]. }
  assert (A0 : Forall (fun u => u < 256) [] /\
     forall c, exists vs d, feed_list 1 {| d_state := 0; d_cp := c |} [] = Some (vs, d) /\ d8_has_value d = true).
  { split; [constructor|]. intros c. eexists _, _. split; reflexivity. }
  assert (A24 := Step 24 0x80 0 [] ltac:(cbn; tauto) ltac:(lia) eq_refl A0). destruct A24 as (e24 & A24).
  assert (A36 := Step 36 0x80 24 e24 ltac:(cbn; tauto) ltac:(lia) eq_refl A24). destruct A36 as (e36 & A36).
  cbn [live_states In] in Hs. destruct Hs as [<-|[<-|[<-|[<-|[<-|[<-|[<-|[<-|[]]]]]]]]].
  - exists []. exact A0.
  - exists e24. exact A24.
  - exists e36. exact A36.
  - exact (Step 48 0xA0 24 e24 ltac:(cbn; tauto) ltac:(lia) eq_refl A24).
  - exact (Step 60 0x80 24 e24 ltac:(cbn; tauto) ltac:(lia) eq_refl A24).
  - exact (Step 72 0x90 36 e36 ltac:(cbn; tauto) ltac:(lia) eq_refl A36).
  - exact (Step 84 0x80 36 e36 ltac:(cbn; tauto) ltac:(lia) eq_refl A36).
  - exact (Step 96 0x80 36 e36 ltac:(cbn; tauto) ltac:(lia) eq_refl A36).
Qed.

Lemma feed_list_app sz l1 : forall l2 d,
  feed_list sz d (l1 ++ l2) =
  match feed_list sz d l1 with
  | Some (v1, d1) => match feed_list sz d1 l2 with Some (v2, d2) => Some (v1 ++ v2, d2) | None => None end
  | None => None
  end.
Proof.
  induction l1 as [|u l1 IH]; intros l2 d; cbn [app feed_list].
  - destruct (feed_list sz d l2) as [[v2 d2]|]; reflexivity.
  - destruct (dec_feed sz d u) as [d'|]; cbn [option_bind]; [|reflexivity]. rewrite IH.
    destruct (feed_list sz d' l1) as [[v1 d1]|]; cbn [option_bind fst snd]; [|reflexivity].
    destruct (feed_list sz d1 l2) as [[v2 d2]|]; cbn [option_bind fst snd]; [|reflexivity].
    rewrite app_assoc. reflexivity.
Qed.

Lemma feed_list_state l : forall st c, In st live_states -> Forall (fun u => u < 256) l ->
  feed_list 1 {| d_state := st; d_cp := c |} l = None \/
  exists vs st' c', feed_list 1 {| d_state := st; d_cp := c |} l = Some (vs, {| d_state := st'; d_cp := c' |}) /\
     (st' = 12 \/ In st' live_states).
Proof.
  induction l as [|b l IH]; intros st c Hs Hb; cbn [feed_list].
  - right. eexists _, st, c. split; [reflexivity|]. right; exact Hs.
  - apply Forall_cons_iff in Hb. destruct Hb as [Hb Hl]. destruct (d8_feed_ok st c b Hs Hb) as (c' & F & _).
    change (dec_feed 1) with d8_feed. rewrite F. cbn [option_bind].
    destruct (next8_live st b) as [E|L].
    + rewrite E. destruct l as [|b2 l2].
      * right. cbn [feed_list option_bind fst snd]. eexists _, 12, c'. split; [reflexivity|]. left; reflexivity.
      * left. reflexivity.
    + destruct (IH _ c' L Hl) as [-> |(vs & st' & c'' & -> & H)]; [left; reflexivity|].
      right. cbn [option_bind fst snd]. eexists _, st', c''. split; [reflexivity|exact H].
Qed.

Lemma d8_prefix l : Forall (fun u => u < 256) l ->
  (exists vs d, feed_list 1 dec_init l = Some (vs, d) /\ d8_error d = false) <->
  (exists ext, Forall (fun u => u < 256) ext /\ wf_utf8 (l ++ ext)).
Proof.
  intros Hb. destruct (feed_list_state l 0 0 ltac:(left; reflexivity) Hb) as [N|(vs & st & c & F & S)].
  - split.
    + intros (vs & d & F & _). unfold dec_init in F. congruence.
    + intros (ext & He & W). apply d8_accepts in W; [|apply Forall_app; split; assumption].
      destruct W as (vs & d & F & _). rewrite feed_list_app in F. unfold dec_init in F. rewrite N in F. discriminate.
  - split.
    + intros (vs' & d & F' & E). unfold dec_init in F'. rewrite F in F'. injection F' as <- <-.
      destruct S as [-> |S]; [discriminate|]. destruct (d8_completable st S) as (ext & He & H).
      exists ext. split; [exact He|]. apply d8_accepts; [apply Forall_app; split; assumption|].
      destruct (H c) as (vs2 & d2 & F2 & V2). exists (vs ++ vs2), d2. split; [|exact V2].
      rewrite feed_list_app. unfold dec_init. rewrite F, F2. reflexivity.
    + intros (ext & He & W). apply d8_accepts in W; [|apply Forall_app; split; assumption].
      destruct W as (vs2 & d2 & F2 & V2). rewrite feed_list_app in F2. unfold dec_init in *. rewrite F in F2.
      eexists _, _. split; [exact F|]. unfold d8_error. cbn [d_state].
      destruct S as [-> |S]; [|apply live_not_error, S]. exfalso.
      destruct (feed_list 1 {| d_state := 12; d_cp := c |} ext) as [[v3 d3]|] eqn:F3; [|discriminate].
      injection F2 as <- <-. destruct (feed_dead _ _ _ _ F3) as [_ D]. congruence.
Qed.

(* --------------------------------------------------------------- encoders *)

Lemma lor_add a b k : b < 2 ^ k -> a mod 2 ^ k = 0 -> N.lor b a = a + b.
Proof.
  intros Hb Ha.
  assert (D : N.land a b = 0).
  { apply N.bits_inj. intros i. rewrite N.land_spec, N.bits_0. destruct (N.ltb_spec i k).
    - rewrite <- (N.mod_pow2_bits_low a k i) by assumption. rewrite Ha, N.bits_0. reflexivity.
    - rewrite (testbit_high k b) by assumption. apply andb_false_r. }
  rewrite N.lor_comm, <- N.lxor_lor by exact D. symmetry. apply N.add_nocarry_lxor. exact D.
Qed.

Lemma land63 x : N.land x 0x3F = x mod 64.
Proof. change 0x3F with (N.ones 6). apply N.land_ones. Qed.

Lemma cont_byte x : trunc 8 (N.lor (N.land x 0x3F) 0x80) = 0x80 + x mod 64.
Proof.
  rewrite land63. assert (H : x mod 64 < 64) by (apply N.mod_lt; discriminate).
  rewrite (lor_add 0x80 _ 6) by (try reflexivity; exact H). apply N.mod_small. change (2 ^ 8) with 256. lia.
Qed.

(** The array built by the library holds the RFC 3629 bytes followed by zeros. *)
Lemma utf8_code_point_ok cp : cp <= 0x10FFFF ->
  utf8_code_point cp = enc8 cp ++ repeat 0 (4 - length (enc8 cp)).
Proof.
  intros Hc. unfold utf8_code_point, enc8.
  destruct (N.leb_spec cp 0x7F).
  { destruct (N.ltb_spec cp 0x80); [|lia]. cbn. unfold trunc. rewrite N.mod_small by (change (2 ^ 8) with 256; lia). reflexivity. }
  destruct (N.ltb_spec cp 0x80); [lia|].
  assert (S6 : N.shiftr cp 6 = cp / 64) by (rewrite N.shiftr_div_pow2; reflexivity).
  assert (S12 : N.shiftr cp 12 = cp / 4096) by (rewrite N.shiftr_div_pow2; reflexivity).
  assert (S18 : N.shiftr cp 18 = cp / 262144) by (rewrite N.shiftr_div_pow2; reflexivity).
  destruct (N.leb_spec cp 0x7FF).
  { destruct (N.ltb_spec cp 0x800); [|lia]. rewrite cont_byte, S6. assert (cp / 64 < 32) by (apply N.div_lt_upper_bound; lia).
    rewrite (lor_add 0xC0 _ 5) by (try reflexivity; assumption).
    unfold trunc. rewrite N.mod_small by (change (2 ^ 8) with 256; lia). reflexivity. }
  destruct (N.ltb_spec cp 0x800); [lia|].
  destruct (N.leb_spec cp 0xFFFF).
  { destruct (N.ltb_spec cp 0x10000); [|lia]. rewrite !cont_byte, S6, S12.
    assert (cp / 4096 < 16) by (apply N.div_lt_upper_bound; lia).
    rewrite (lor_add 0xE0 _ 4) by (try reflexivity; assumption).
    unfold trunc. rewrite N.mod_small by (change (2 ^ 8) with 256; lia). reflexivity. }
  destruct (N.ltb_spec cp 0x10000); [lia|]. destruct (N.leb_spec cp 0x10FFFF); [|lia].
  rewrite !cont_byte, S6, S12, S18. assert (cp / 262144 < 8) by (apply N.div_lt_upper_bound; lia).
  rewrite (lor_add 0xF0 _ 3) by (try reflexivity; assumption).
  unfold trunc. rewrite N.mod_small by (change (2 ^ 8) with 256; lia). reflexivity.
Qed.

Lemma utf16_code_point_ok cp : cp <= 0x10FFFF ->
  utf16_code_point cp = enc16 cp ++ repeat 0 (2 - length (enc16 cp)).
Proof.
  intros Hc. unfold utf16_code_point, enc16. destruct (N.ltb_spec cp 0x10000).
  - cbn. unfold trunc. rewrite N.mod_small by (change (2 ^ 16) with 65536; lia). reflexivity.
  - cbn [length repeat app Nat.sub]. cbn zeta. set (c := cp - 0x10000). assert (c < 0x100000) by (unfold c; lia).
    rewrite N.shiftr_div_pow2. change (2 ^ 10) with 1024. change 0x3FF with (N.ones 10). rewrite N.land_ones.
    change (2 ^ 10) with 1024.
    assert (c / 1024 < 1024) by (apply N.div_lt_upper_bound; lia).
    assert (c mod 1024 < 1024) by (apply N.mod_lt; discriminate).
    rewrite (N.lor_comm 0xD800), (N.lor_comm 0xDC00).
    rewrite (lor_add 0xD800 _ 10), (lor_add 0xDC00 _ 10) by (try reflexivity; assumption).
    unfold trunc. rewrite !N.mod_small by (change (2 ^ 16) with 65536; lia). reflexivity.
Qed.

Lemma c_str_pad l n : Forall (fun u => u <> 0) l -> c_str (l ++ repeat 0 n) = l.
Proof.
  induction 1 as [|u l Hu Hl IH]; cbn [app c_str].
  - destruct n; reflexivity.
  - destruct (N.eqb_spec u 0); [contradiction|]. rewrite IH. reflexivity.
Qed.

Lemma view_pad l n : Forall (fun u => u <> 0) l -> code_point_view (l ++ repeat 0 n) = l.
Proof.
  intros H. unfold code_point_view. destruct (N.eqb_spec (last (l ++ repeat 0 n) 0) 0) as [E|E].
  - apply c_str_pad, H.
  - destruct n as [|n]; [apply app_nil_r|]. exfalso. apply E.
    replace (repeat 0 (S n)) with (repeat 0 n ++ [0]) by (rewrite <- repeat_cons; reflexivity).
    rewrite app_assoc, last_last. reflexivity.
Qed.

Lemma enc8_nonzero cp : cp <> 0 -> Forall (fun u => u <> 0) (enc8 cp).
Proof.
  intros H. unfold enc8.
  repeat match goal with |- context [if ?c then _ else _] => destruct c end; repeat constructor; lia.
Qed.
Lemma enc16_nonzero cp : cp <> 0 -> Forall (fun u => u <> 0) (enc16 cp).
Proof.
  intros H. unfold enc16.
  repeat match goal with |- context [if ?c then _ else _] => destruct c end; repeat constructor; lia.
Qed.

Lemma encode_ok sz cp : sz = 1 \/ sz = 2 \/ sz = 4 -> cp <= 0x10FFFF ->
  encode sz cp = if (cp =? 0) && negb (sz =? 4) then [] else enc sz cp.
Proof.
  intros Hsz Hc. unfold encode, enc. destruct (N.eqb_spec cp 0) as [->|Hn].
  - destruct Hsz as [->|[->| ->]]; reflexivity.
  - destruct Hsz as [->|[->| ->]]; cbn [N.eqb Pos.eqb andb]; [| |reflexivity].
    + rewrite utf8_code_point_ok by exact Hc. apply view_pad, enc8_nonzero, Hn.
    + rewrite utf16_code_point_ok by exact Hc. apply view_pad, enc16_nonzero, Hn.
Qed.

Lemma enc8_bytes cp : cp <= 0x10FFFF -> Forall (fun u => u < 256) (enc8 cp).
Proof.
  intros Hc. unfold enc8.
  Ltac Zify.zify_post_hook ::= Z.div_mod_to_equations.
  destruct (N.ltb_spec cp 0x80); [repeat constructor; lia|].
  destruct (N.ltb_spec cp 0x800); [repeat constructor; lia|].
  destruct (N.ltb_spec cp 0x10000); repeat constructor; lia.
Qed.
Ltac Zify.zify_post_hook ::= idtac.

Lemma scalar_le cp : scalar cp -> cp <= 0x10FFFF.
Proof. unfold scalar. lia. Qed.

(* ---------------------------------------------------------- UTF-16 decoder *)

(** The decoder state reachable in practice: initial or "has code point". *)
Definition d16_ok (d : dec) : Prop := d_state d = 0 \/ d_state d = 2.

Lemma d16_feed_ok d u : d16_ok d ->
  d16_feed d u = Some (if low_surrogate u then {| d_state := 3; d_cp := d_cp d |} else {| d_state := 2; d_cp := u |}).
Proof.
  intros H. unfold d16_feed, d16_error.
  assert (E : (d_state d =? 3) = false) by (destruct H as [-> | ->]; reflexivity). rewrite E.
  destruct (low_surrogate u) eqn:L, (high_surrogate u) eqn:Hh.
  - unfold low_surrogate, high_surrogate in *. lia.
  - destruct H as [-> | ->]; reflexivity.
  - destruct H as [-> | ->]; reflexivity.
  - destruct H as [-> | ->]; reflexivity.
Qed.

Lemma d16_chain d u : d16_ok d -> low_surrogate u = false -> chain 2 d [u] {| d_state := 2; d_cp := u |}.
Proof.
  intros H L. apply chain_last; [|reflexivity]. change (dec_feed 2 d u) with (d16_feed d u).
  rewrite d16_feed_ok by exact H. rewrite L. reflexivity.
Qed.

Lemma enc16_bmp cp : bmp cp -> enc16 cp = [cp].
Proof. intros H. unfold enc16, bmp in *. destruct (N.ltb_spec cp 0x10000); [reflexivity|lia]. Qed.

Lemma scalar_not_low cp : scalar cp -> low_surrogate cp = false.
Proof. unfold scalar, low_surrogate. lia. Qed.

Lemma feed_text16 cps : forall d, d16_ok d -> Forall scalar cps -> Forall bmp cps ->
  exists d', feed_list 2 d (text 2 cps) = Some (cps, d') /\ d16_ok d'.
Proof.
  induction cps as [|cp cps IH]; intros d Hd Hs Hb; cbn [text flat_map].
  - exists d. split; [reflexivity|exact Hd].
  - apply Forall_cons_iff in Hs, Hb. destruct Hs as [Hc Hs], Hb as [Hbc Hb].
    change (enc 2 cp) with (enc16 cp). rewrite enc16_bmp by exact Hbc.
    rewrite (feed_chain 2 _ _ _ _ (d16_chain d cp Hd (scalar_not_low cp Hc))).
    destruct (IH {| d_state := 2; d_cp := cp |} ltac:(right; reflexivity) Hs Hb) as (d' & F & O).
    unfold text in F. rewrite F. exists d'. split; [reflexivity|exact O].
Qed.

Lemma enc16_supp cp : scalar cp -> ~ bmp cp -> exists h l, enc16 cp = [h; l] /\
  high_surrogate h = true /\ low_surrogate h = false /\ low_surrogate l = true /\
  cp = 0x10000 + (h - 0xD800) * 1024 + (l - 0xDC00) /\ h < 65536 /\ l < 65536.
Proof.
  intros Hs Hb. unfold enc16, bmp, scalar in *. destruct (N.ltb_spec cp 0x10000); [contradiction|].
  eexists _, _. split; [reflexivity|]. unfold high_surrogate, low_surrogate.
  Ltac Zify.zify_post_hook ::= Z.div_mod_to_equations. lia.
Qed.
Ltac Zify.zify_post_hook ::= idtac.

(** A surrogate pair always ends in an error. *)
Lemma feed_text16_supp cps : forall d, d16_ok d -> Forall scalar cps -> ~ Forall bmp cps ->
  feed_list 2 d (text 2 cps) = None \/
  exists vs d', feed_list 2 d (text 2 cps) = Some (vs, d') /\ d16_error d' = true /\ vs <> cps.
Proof.
  induction cps as [|cp cps IH]; intros d Hd Hs Hb; [exfalso; apply Hb; constructor|].
  apply Forall_cons_iff in Hs. destruct Hs as [Hc Hs]. cbn [text flat_map]. change (enc 2 cp) with (enc16 cp).
  destruct (N.ltb_spec cp 0x10000) as [Hlt|Hge].
  - rewrite enc16_bmp by exact Hlt. rewrite (feed_chain 2 _ _ _ _ (d16_chain d cp Hd (scalar_not_low cp Hc))).
    destruct (IH {| d_state := 2; d_cp := cp |} ltac:(right; reflexivity) Hs) as [N|(vs & d' & F & E & V)].
    + intros H. apply Hb. constructor; [exact Hlt|exact H].
    + left. unfold text in N. rewrite N. reflexivity.
    + right. unfold text in F. rewrite F. eexists _, d'. split; [reflexivity|]. split; [exact E|].
      cbn [fst d_cp]. intros [= H]. contradiction.
  - destruct (enc16_supp cp Hc) as (h & l & -> & Hh & Hnl & Hl & _); [unfold bmp; lia|].
    cbn [app feed_list]. change (dec_feed 2) with d16_feed. rewrite d16_feed_ok by exact Hd. rewrite Hnl. cbn [option_bind].
    rewrite d16_feed_ok by (right; reflexivity). rewrite Hl. cbn [option_bind].
    destruct (flat_map (enc 2) cps) as [|u r] eqn:Er; [|left; reflexivity].
    right. cbn [feed_list option_bind fst snd]. eexists _, _. split; [reflexivity|]. split; [reflexivity|].
    cbn. intros [= E _]. unfold high_surrogate in Hh. unfold scalar in Hc. subst h. lia.
Qed.
