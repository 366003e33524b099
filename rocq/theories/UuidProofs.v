From Coq Require Import Lia ZifyBool ZifyNat ZifyN.
From Verif Require Import Words WordsProofs BitsModel CoreModel UtfModel UtfSpec UtfProofs UtfProofs2 UtfProofs3.
From Verif Require Import HashModel HashSpec HashProofs UuidModel UuidSpec.
Local Open Scope N_scope.
Ltac Zify.zify_post_hook ::= idtac.

(* ------------------------------------------------------------------- characters *)

Lemma hex_ascii c v : hex_value c = Some v -> c < 128.
Proof.
  unfold hex_value. destruct ((0x30 <=? c) && (c <=? 0x39)) eqn:A; [lia|].
  destruct ((0x41 <=? c) && (c <=? 0x46)) eqn:B; [lia|]. destruct ((0x61 <=? c) && (c <=? 0x66)) eqn:D; [lia|discriminate].
Qed.

Lemma hex_sweep : forallb (fun c =>
  match hex_value c with
  | Some v => is_hex c && (hex_to_dec c =? v) && (v <? 16) && negb (is_ascii_hyphen c || is_ascii_ws c) && negb (c =? 0x7B) && negb (c =? 0x7D)
  | None => negb (is_hex c)
  end) (map N.of_nat (seq 0 128)) = true.
Proof. vm_compute. reflexivity. Qed.

Lemma hex_ok c : c < 128 ->
  match hex_value c with
  | Some v => is_hex c = true /\ hex_to_dec c = v /\ v < 16 /\ (is_ascii_hyphen c || is_ascii_ws c) = false /\ c <> 0x7B /\ c <> 0x7D
  | None => is_hex c = false
  end.
Proof.
  intros H. pose proof hex_sweep as T. rewrite forallb_forall in T. specialize (T c).
  assert (I : In c (map N.of_nat (seq 0 128))).
  { replace c with (N.of_nat (N.to_nat c)) by lia. apply in_map, in_seq. lia. }
  specialize (T I). destruct (hex_value c) as [v|]; [|apply negb_true_iff, T].
  rewrite !andb_true_iff in T. destruct T as (((((A & B) & D) & E) & F) & G).
  split; [exact A|]. split; [apply N.eqb_eq, B|]. split; [apply N.ltb_lt, D|]. split; [apply negb_true_iff, E|]. split; lia.
Qed.

Lemma blank_ok c : is_ascii_ws c = true <-> blank c.
Proof.
  unfold is_ascii_ws, blank. cbn [In]. rewrite orb_true_iff, andb_true_iff, !N.leb_le, N.eqb_eq. split; [|lia].
  intros [H|H]; [|lia]. assert (c = 9 \/ c = 10 \/ c = 11 \/ c = 12 \/ c = 13) by lia. lia.
Qed.
Lemma sep_ok c : is_ascii_hyphen c || is_ascii_ws c = true <-> separator c.
Proof. unfold separator. rewrite <- blank_ok, orb_true_iff. unfold is_ascii_hyphen. rewrite N.eqb_eq. reflexivity. Qed.
Lemma blank_ascii c : blank c -> c < 128.
Proof. unfold blank. cbn [In]. lia. Qed.
Lemma sep_ascii c : separator c -> c < 128.
Proof. unfold separator, blank. cbn [In]. lia. Qed.
Lemma sep_not_hex c : separator c -> hex_value c = None.
Proof.
  intros H. pose proof (hex_ok c (sep_ascii c H)) as K. destruct (hex_value c) as [v|]; [|reflexivity].
  destruct K as (_ & _ & _ & K & _). apply sep_ok in H. congruence.
Qed.

(* ----------------------------------------------------------------------- steps *)

Fixpoint steps (p : parser) (cps : list N) : option parser :=
  match cps with [] => Some p | c :: r => p' <- p_step p c ;; steps p' r end.

Definition accepts (p : parser) (cps : list N) (u : list N) : Prop :=
  exists p', steps p cps = Some p' /\ p_ok p' = true /\ p_value p' = u.

Lemma error_step p c : p_error p = true -> p_step p c = Some p.
Proof.
  unfold p_error, p_step. destruct p as [v b d r st]. cbn [p_state]. destruct st; try discriminate. intros _.
  destruct (is_ascii c); reflexivity.
Qed.
Lemma error_steps cps : forall p, p_error p = true -> steps p cps = Some p.
Proof. induction cps as [|c cps IH]; intros p H; cbn [steps]; [reflexivity|]. rewrite error_step by exact H. apply IH, H. Qed.

(** Stopping at the first error makes no difference. *)
Definition parse_cb (o : option parser) (cp : N) (_ _ : nat) : option parser * bool :=
  match o with
  | None => (None, false)
  | Some p => match p_step p cp with None => (None, false) | Some p' => (Some p', negb (p_error p')) end
  end.
Lemma run_steps evs : forall p, fst (run parse_cb (Some p) evs) = steps p (map (fun e => fst (fst e)) evs).
Proof.
  induction evs as [|[[cp i] n] evs IH]; intros p; cbn [run map steps fst]; [reflexivity|]. unfold parse_cb at 1.
  destruct (p_step p cp) as [p'|]; [|reflexivity]. cbn [option_bind].
  destruct (p_error p') eqn:E; cbn [negb]; [|apply IH]. cbn [fst]. symmetry. apply error_steps, E.
Qed.

Lemma accepts_cons p c cps u : accepts p (c :: cps) u <-> exists p', p_step p c = Some p' /\ accepts p' cps u.
Proof.
  unfold accepts. cbn [steps]. split.
  - intros (p' & E & K). destruct (p_step p c) as [q|]; [|discriminate]. exists q. split; [reflexivity|]. exists p'. split; [exact E|exact K].
  - intros (q & E & p' & K). exists p'. rewrite E. exact K.
Qed.
Lemma accepts_step p c cps u p' : p_step p c = Some p' -> accepts p (c :: cps) u <-> accepts p' cps u.
Proof.
  intros E. rewrite accepts_cons. split; [|intros H; exists p'; split; assumption].
  intros (q & E' & H). rewrite E in E'. injection E' as <-. exact H.
Qed.
Lemma accepts_error p cps u : p_error p = true -> ~ accepts p cps u.
Proof.
  intros H (p' & E & K & _). rewrite error_steps in E by exact H. injection E as <-.
  unfold p_error in H. unfold p_ok in K. destruct (p_state p); try discriminate. destruct (p_brack p); discriminate.
Qed.
Lemma accepts_bad p c cps u : p_step p c = Some (p_set p SError) -> ~ accepts p (c :: cps) u.
Proof. intros E. rewrite (accepts_step _ _ _ _ _ E). apply accepts_error. reflexivity. Qed.
Lemma step_non_ascii p c : 128 <= c -> p_step p c = Some (p_set p SError).
Proof. intros H. unfold p_step, is_ascii. destruct (N.leb_spec c 0x7F); [lia|reflexivity]. Qed.

Lemma ascii_true c : c < 128 -> is_ascii c = true.
Proof. unfold is_ascii. lia. Qed.

(* ------------------------------------------------------------- the finished state *)

Definition finished (v : list N) (b : bool) : parser := {| p_value := v; p_brack := b; p_digits := 32; p_rsh := 4; p_state := SFinished |}.
Definition tail_ok (b : bool) (cps : list N) : Prop :=
  if b then exists w3 w4, cps = w3 ++ 0x7D :: w4 /\ Forall blank w3 /\ Forall blank w4 else Forall blank cps.

Lemma finished_step v b c : c < 128 -> p_step (finished v b) c =
  Some (if c =? 0x7D then (if b then finished v false else p_set (finished v b) SError)
        else if is_ascii_ws c then finished v b else p_set (finished v b) SError).
Proof.
  intros H. unfold p_step. rewrite ascii_true by exact H. cbn [negb finished p_state p_brack].
  destruct (c =? 0x7D); [destruct b; reflexivity|]. destruct (is_ascii_ws c); reflexivity.
Qed.

Lemma finished_ok v cps : forall b u, accepts (finished v b) cps u <-> u = v /\ tail_ok b cps.
Proof.
  induction cps as [|c cps IH]; intros b u.
  - unfold accepts. cbn [steps]. split.
    + intros (p' & [= <-] & K & E). cbn in K, E. split; [congruence|]. destruct b; [discriminate|constructor].
    + intros [-> T]. exists (finished v b). split; [reflexivity|]. destruct b; [|split; reflexivity].
      destruct T as (w3 & w4 & E & _). destruct w3; discriminate.
  - destruct (N.ltb_spec c 128) as [Hc|Hc].
    2:{ split.
        - intros H. exfalso. revert H. apply accepts_bad, step_non_ascii, Hc.
        - intros [_ T]. exfalso. destruct b; cbn [tail_ok] in T.
          + destruct T as (w3 & w4 & E & B3 & B4). destruct w3 as [|x w3]; injection E as -> E; [lia|].
            apply Forall_cons_iff in B3. destruct B3 as [B3 _]. apply blank_ascii in B3. lia.
          + apply Forall_cons_iff in T. destruct T as [T _]. apply blank_ascii in T. lia. }
    pose proof (finished_step v b c Hc) as S. destruct (N.eqb_spec c 0x7D) as [->|Hn].
    + destruct b.
      * rewrite (accepts_step _ _ _ _ _ S), IH. cbn [tail_ok]. split.
        -- intros [-> T]. split; [reflexivity|]. exists [], cps. split; [reflexivity|]. split; [constructor|exact T].
        -- intros [-> (w3 & w4 & E & B3 & B4)]. split; [reflexivity|]. destruct w3 as [|x w3].
           ++ injection E as E. rewrite E. exact B4.
           ++ injection E as <- E. exfalso. apply Forall_cons_iff in B3. destruct B3 as [B3 _]. unfold blank in B3. cbn [In] in B3. lia.
      * split; [intros H; exfalso; revert H; apply accepts_bad, S|]. intros [_ T]. cbn [tail_ok] in T. apply Forall_cons_iff in T.
        destruct T as [T _]. unfold blank in T. cbn [In] in T. lia.
    + destruct (is_ascii_ws c) eqn:W.
      * rewrite (accepts_step _ _ _ _ _ S), IH. apply blank_ok in W. destruct b; cbn [tail_ok].
        -- split.
           ++ intros [-> (w3 & w4 & -> & B3 & B4)]. split; [reflexivity|]. exists (c :: w3), w4. split; [reflexivity|].
              split; [constructor; assumption|exact B4].
           ++ intros [-> (w3 & w4 & E & B3 & B4)]. split; [reflexivity|]. destruct w3 as [|x w3]; injection E as -> E; [congruence|].
              apply Forall_cons_iff in B3. exists w3, w4. split; [exact E|]. split; [apply B3|exact B4].
        -- rewrite Forall_cons_iff. tauto.
      * split; [intros H; exfalso; revert H; apply accepts_bad, S|]. intros [_ T]. exfalso.
        assert (B : blank c).
        { destruct b; cbn [tail_ok] in T.
          - destruct T as (w3 & w4 & E & B3 & B4). destruct w3 as [|x w3]; injection E as -> E; [congruence|].
            apply Forall_cons_iff in B3. apply B3.
          - apply Forall_cons_iff in T. apply T. }
        apply blank_ok in B. congruence.
Qed.

(* --------------------------------------------------------------- the digit states *)

(** Between octets; [st] is [SParsing], or [SInitial] before the first digit. *)
Definition between_octets (st : pstate) (os : list N) (b : bool) : parser :=
  {| p_value := os ++ repeat 0 (16 - length os); p_brack := b; p_digits := 2 * N.of_nat (length os); p_rsh := 4; p_state := st |}.
(** After the first digit of an octet. *)
Definition half_octet (os : list N) (a : N) (b : bool) : parser :=
  {| p_value := os ++ (16 * a) :: repeat 0 (15 - length os); p_brack := b; p_digits := 2 * N.of_nat (length os) + 1; p_rsh := 0; p_state := SParsing |}.

Lemma upd_mid (l : list N) y x r : upd (l ++ y :: r) (length l) x = l ++ x :: r.
Proof.
  unfold upd. rewrite firstn_app, Nat.sub_diag, firstn_all. cbn [firstn]. rewrite app_nil_r.
  f_equal. f_equal. rewrite skipn_app, skipn_all2 by lia. replace (S (length l) - length l)%nat with 1%nat by lia. reflexivity.
Qed.
Lemma byte_mid (l : list N) y r : byte_of (l ++ y :: r) (length l) = y.
Proof. unfold byte_of. rewrite app_nth2 by lia. rewrite Nat.sub_diag. reflexivity. Qed.

Lemma first_digit os b c a : (length os < 16)%nat -> c < 128 -> hex_value c = Some a ->
  p_parsing (between_octets SParsing os b) c = Some (half_octet os a b).
Proof.
  intros Hl Hc Hv. pose proof (hex_ok c Hc) as K. rewrite Hv in K. destruct K as (K1 & K2 & K3 & _).
  unfold p_parsing. rewrite K1. unfold between_octets, half_octet. cbn [p_digits p_value p_brack p_rsh p_state].
  replace (2 * N.of_nat (length os) / 2) with (N.of_nat (length os)) by (rewrite N.mul_comm, N.div_mul by discriminate; reflexivity).
  rewrite Nat2N.id. destruct (Nat.leb_spec 16 (length os)); [lia|].
  replace (16 - length os)%nat with (S (15 - length os)) by lia. cbn [repeat].
  rewrite byte_mid, upd_mid, K2. f_equal. f_equal.
  - f_equal. f_equal. rewrite N.lor_0_l, N.shiftl_mul_pow2. unfold trunc. change (2 ^ 4) with 16. rewrite N.mod_small by (change (2 ^ 8) with 256; lia). lia.
  - replace (2 * N.of_nat (length os) + 1 + 1) with ((N.of_nat (length os) + 1) * 2) by lia. rewrite N.mod_mul by discriminate. reflexivity.
  - destruct (N.eqb_spec (2 * N.of_nat (length os) + 1) 32); [lia|reflexivity].
Qed.

Lemma second_digit os b c a v : (length os < 16)%nat -> c < 128 -> hex_value c = Some v -> a < 16 ->
  p_parsing (half_octet os a b) c =
  Some (if (length os =? 15)%nat then finished (os ++ [16 * a + v]) b else between_octets SParsing (os ++ [16 * a + v]) b).
Proof.
  intros Hl Hc Hv Ha. pose proof (hex_ok c Hc) as K. rewrite Hv in K. destruct K as (K1 & K2 & K3 & _).
  unfold p_parsing. rewrite K1. unfold between_octets, half_octet, finished. cbn [p_digits p_value p_brack p_rsh p_state].
  replace ((2 * N.of_nat (length os) + 1) / 2) with (N.of_nat (length os)).
  2:{ apply (N.div_unique _ _ _ 1); lia. }
  rewrite Nat2N.id. destruct (Nat.leb_spec 16 (length os)); [lia|]. rewrite byte_mid, upd_mid, K2.
  assert (E : N.lor (16 * a) (trunc 8 (N.shiftl v 0)) = 16 * a + v).
  { rewrite N.shiftl_0_r. rewrite trunc_small by (change (2 ^ 8) with 256; lia). rewrite N.lor_comm. apply (lor_add (16 * a) v 4).
    - exact K3.
    - change (2 ^ 4) with 16. rewrite N.mul_comm. apply N.mod_mul. discriminate. }
  rewrite E.
  assert (R : ((2 * N.of_nat (length os) + 1 + 1 + 1) mod 2) * 4 = 4).
  { replace (2 * N.of_nat (length os) + 1 + 1 + 1) with (1 + (N.of_nat (length os) + 1) * 2) by lia. rewrite N.mod_add by discriminate. reflexivity. }
  rewrite R. destruct (Nat.eqb_spec (length os) 15) as [L|L].
  - rewrite L. reflexivity.
  - destruct (N.eqb_spec (2 * N.of_nat (length os) + 1 + 1) 32); [lia|]. f_equal. rewrite app_length. cbn [length]. f_equal.
    + rewrite <- app_assoc. cbn [app]. replace (16 - (length os + 1))%nat with (15 - length os)%nat by lia. reflexivity.
    + lia.
Qed.

Definition rest_ok (os : list N) (b : bool) (u cps : list N) : Prop :=
  exists os' t tail, cps = t ++ tail /\ octets_text os' t /\ u = os ++ os' /\ length u = 16%nat /\ tail_ok b tail.
Definition seps_rest_ok (os : list N) (b : bool) (u cps : list N) : Prop :=
  exists seps r, cps = seps ++ r /\ Forall separator seps /\ rest_ok os b u r.
Definition half_ok (os : list N) (a : N) (b : bool) (u cps : list N) : Prop :=
  exists l v r, cps = l :: r /\ hex_value l = Some v /\
    ((length os = 15%nat /\ u = os ++ [16 * a + v] /\ tail_ok b r) \/
     ((length os < 15)%nat /\ seps_rest_ok (os ++ [16 * a + v]) b u r)).

Lemma octets_nonempty os t : octets_text os t -> os <> [].
Proof. destruct 1; discriminate. Qed.

Lemma rest_half os b u cps : (length os < 16)%nat ->
  rest_ok os b u cps <-> exists h a r, cps = h :: r /\ hex_value h = Some a /\ half_ok os a b u r.
Proof.
  intros Hl. split.
  - intros (os' & t & tail & -> & T & -> & L & Ht). rewrite app_length in L. destruct T as [h l a v Hh Hv|h l a v seps os2 t Hh Hv Hs T].
    + cbn [length] in L. exists h, a, (l :: tail). split; [reflexivity|]. split; [exact Hh|]. exists l, v, tail. split; [reflexivity|].
      split; [exact Hv|]. left. split; [lia|]. split; [reflexivity|exact Ht].
    + cbn [length] in L. pose proof (octets_nonempty _ _ T) as Ne. destruct os2 as [|o os2]; [congruence|]. cbn [length] in L.
      exists h, a, (l :: (seps ++ t) ++ tail). split; [reflexivity|]. split; [exact Hh|]. exists l, v, ((seps ++ t) ++ tail).
      split; [reflexivity|]. split; [exact Hv|]. right. split; [lia|]. exists seps, (t ++ tail). split; [symmetry; apply app_assoc|].
      split; [exact Hs|]. exists (o :: os2), t, tail. split; [reflexivity|]. split; [exact T|].
      split; [rewrite <- app_assoc; reflexivity|]. split; [|exact Ht]. rewrite app_length. cbn [length]. lia.
  - intros (h & a & r & -> & Hh & l & v & r' & -> & Hv & [(L & -> & Ht)|(L & seps & r2 & -> & Hs & os' & t & tail & -> & T & -> & Lu & Ht)]).
    + exists [16 * a + v], [h; l], r'. split; [reflexivity|]. split; [apply ot_last; assumption|]. split; [reflexivity|].
      split; [|exact Ht]. rewrite app_length. cbn [length]. lia.
    + exists ((16 * a + v) :: os'), (h :: l :: seps ++ t), tail. split; [cbn [app]; rewrite <- app_assoc; reflexivity|].
      split; [apply ot_more; assumption|]. split; [rewrite <- app_assoc; reflexivity|]. split; [|exact Ht].
      exact Lu.
Qed.

Lemma digits_ok cps :
  (forall os b u, (1 <= length os < 16)%nat -> accepts (between_octets SParsing os b) cps u <-> seps_rest_ok os b u cps) /\
  (forall os a b u, (length os < 16)%nat -> a < 16 -> accepts (half_octet os a b) cps u <-> half_ok os a b u cps).
Proof.
  induction cps as [|c cps [IHA IHB]]; split.
  - intros os b u Hl. split.
    + intros (p' & [= <-] & K & _). cbn in K. destruct b; discriminate.
    + intros (seps & r & E & _ & R). symmetry in E. apply app_eq_nil in E. destruct E as [_ ->].
      apply rest_half in R; [|lia]. destruct R as (h & a & r & E & _). discriminate.
  - intros os a b u Hl Ha. split.
    + intros (p' & [= <-] & K & _). cbn in K. destruct b; discriminate.
    + intros (l & v & r & E & _). discriminate.
  - intros os b u Hl.
    assert (Inv : seps_rest_ok os b u (c :: cps) <->
              (separator c /\ seps_rest_ok os b u cps) \/ (exists a, hex_value c = Some a /\ half_ok os a b u cps)).
    { split.
      - intros (seps & r & E & Hs & R). destruct seps as [|x seps]; cbn [app] in E.
        + subst r. apply rest_half in R; [|lia]. destruct R as (h & a & r & [= -> ->] & Hh & H). right. exists a. split; assumption.
        + injection E as -> ->. apply Forall_cons_iff in Hs. left. split; [apply Hs|]. exists seps, r. split; [reflexivity|]. split; [apply Hs|exact R].
      - intros [[Hs (seps & r & -> & Hss & R)]|(a & Hh & H)].
        + exists (c :: seps), r. split; [reflexivity|]. split; [constructor; assumption|exact R].
        + exists [], (c :: cps). split; [reflexivity|]. split; [constructor|]. apply rest_half; [lia|].
          exists c, a, cps. split; [reflexivity|]. split; assumption. }
    rewrite Inv. destruct (N.ltb_spec c 128) as [Hc|Hc].
    2:{ split; [intros H; exfalso; revert H; apply accepts_bad, step_non_ascii, Hc|].
        intros [[Hs _]|(a & Hh & _)]; exfalso; [apply sep_ascii in Hs|apply hex_ascii in Hh]; lia. }
    assert (S : p_step (between_octets SParsing os b) c = p_parsing (between_octets SParsing os b) c).
    { unfold p_step. rewrite ascii_true by exact Hc. reflexivity. }
    destruct (hex_value c) as [a|] eqn:Hh.
    + pose proof (hex_ok c Hc) as K. rewrite Hh in K. destruct K as (K1 & K2 & K3 & K4 & _).
      rewrite (first_digit os b c a) in S by (try assumption; lia). rewrite (accepts_step _ _ _ _ _ S), IHB by (try assumption; lia). split.
      * intros H. right. exists a. split; [reflexivity|exact H].
      * intros [[Hs _]|(a' & [= <-] & H)]; [apply sep_ok in Hs; congruence|exact H].
    + pose proof (hex_ok c Hc) as K. rewrite Hh in K. unfold p_parsing in S. rewrite K in S.
      destruct (is_ascii_hyphen c || is_ascii_ws c) eqn:Hs.
      * assert (Ev : p_digits (between_octets SParsing os b) mod 2 =? 1 = false).
        { cbn [between_octets p_digits]. rewrite N.mul_comm, N.mod_mul by discriminate. reflexivity. }
        rewrite Ev in S. rewrite (accepts_step _ _ _ _ _ S), IHA by lia. apply sep_ok in Hs. split.
        -- intros H. left. split; assumption.
        -- intros [[_ H]|(a & [=] & _)]. exact H.
      * split; [intros H; exfalso; revert H; apply accepts_bad, S|].
        intros [[H _]|(a & [=] & _)]. apply sep_ok in H. congruence.
  - intros os a b u Hl Ha. destruct (N.ltb_spec c 128) as [Hc|Hc].
    2:{ split; [intros H; exfalso; revert H; apply accepts_bad, step_non_ascii, Hc|].
        intros (l & v & r & [= -> ->] & Hh & _). exfalso. apply hex_ascii in Hh. lia. }
    assert (S : p_step (half_octet os a b) c = p_parsing (half_octet os a b) c).
    { unfold p_step. rewrite ascii_true by exact Hc. reflexivity. }
    destruct (hex_value c) as [v|] eqn:Hh.
    + rewrite (second_digit os b c a v) in S by (try assumption; lia). rewrite (accepts_step _ _ _ _ _ S).
      destruct (Nat.eqb_spec (length os) 15) as [L|L].
      * rewrite finished_ok. split.
        -- intros [-> T]. exists c, v, cps. split; [reflexivity|]. split; [exact Hh|]. left. split; [exact L|]. split; [reflexivity|exact T].
        -- intros (l & v' & r & [= <- <-] & Hh' & H). rewrite Hh in Hh'. injection Hh' as <-. destruct H as [(_ & -> & T)|(L' & _)]; [split; [reflexivity|exact T]|lia].
      * rewrite IHA by (rewrite app_length; cbn [length]; lia). split.
        -- intros H. exists c, v, cps. split; [reflexivity|]. split; [exact Hh|]. right. split; [lia|exact H].
        -- intros (l & v' & r & [= <- <-] & Hh' & H). rewrite Hh in Hh'. injection Hh' as <-. destruct H as [(L' & _)|(_ & H)]; [congruence|exact H].
    + split; [|intros (l & v & r & [= <- <-] & Hh' & _); congruence]. intros H. exfalso.
      pose proof (hex_ok c Hc) as K. rewrite Hh in K. unfold p_parsing in S. rewrite K in S.
      assert (Od : p_digits (half_octet os a b) mod 2 =? 1 = true).
      { cbn [half_octet p_digits]. replace (2 * N.of_nat (length os) + 1) with (1 + N.of_nat (length os) * 2) by lia.
        rewrite N.mod_add by discriminate. reflexivity. }
      rewrite Od in S. revert H. apply accepts_bad. rewrite S. destruct (is_ascii_hyphen c || is_ascii_ws c); reflexivity.
Qed.

(* ---------------------------------------------------------------- the initial state *)

Definition start_ok (b : bool) (u cps : list N) : Prop := exists w r, cps = w ++ r /\ Forall blank w /\ rest_ok [] b u r.

Lemma init_step b c : c < 128 ->
  p_step (between_octets SInitial [] b) c =
  if c =? 0x7B then Some (p_bracket (if b then p_set (between_octets SInitial [] b) SError else between_octets SInitial [] b) true)
  else if is_ascii_ws c then Some (between_octets SInitial [] b)
  else if is_hex c then p_parsing (between_octets SParsing [] b) c
  else Some (p_set (between_octets SInitial [] b) SError).
Proof. intros H. unfold p_step. rewrite ascii_true by exact H. reflexivity. Qed.

Lemma blank_not_hex c : blank c -> hex_value c = None.
Proof. intros H. apply sep_not_hex. right. exact H. Qed.

(** After the opening brace (or, with [b = false], when there is none). *)
Lemma start_cons b u c cps : start_ok b u (c :: cps) <->
  (blank c /\ start_ok b u cps) \/ (exists a, hex_value c = Some a /\ half_ok [] a b u cps).
Proof.
  split.
  - intros (w & r & E & Hw & R). destruct w as [|x w]; cbn [app] in E.
    + subst r. apply rest_half in R; [|cbn; lia]. destruct R as (h & a & r & [= -> ->] & Hh & H). right. exists a. split; assumption.
    + injection E as -> ->. apply Forall_cons_iff in Hw. left. split; [apply Hw|]. exists w, r. split; [reflexivity|]. split; [apply Hw|exact R].
  - intros [[Hs (w & r & -> & Hw & R)]|(a & Hh & H)].
    + exists (c :: w), r. split; [reflexivity|]. split; [constructor; assumption|exact R].
    + exists [], (c :: cps). split; [reflexivity|]. split; [constructor|]. apply rest_half; [cbn; lia|].
      exists c, a, cps. split; [reflexivity|]. split; assumption.
Qed.

Lemma start_nil b u : ~ start_ok b u [].
Proof.
  intros (w & r & E & _ & R). symmetry in E. apply app_eq_nil in E. destruct E as [_ ->].
  apply rest_half in R; [|cbn; lia]. destruct R as (h & a & r & E & _). discriminate.
Qed.

Lemma init_braced cps : forall u, accepts (between_octets SInitial [] true) cps u <-> start_ok true u cps.
Proof.
  induction cps as [|c cps IH]; intros u.
  - split; [intros (p' & [= <-] & K & _); discriminate|]. intros H. exfalso. exact (start_nil _ _ H).
  - rewrite start_cons. destruct (N.ltb_spec c 128) as [Hc|Hc].
    2:{ split; [intros H; exfalso; revert H; apply accepts_bad, step_non_ascii, Hc|].
        intros [[Hs _]|(a & Hh & _)]; exfalso; [apply blank_ascii in Hs|apply hex_ascii in Hh]; lia. }
    pose proof (init_step true c Hc) as S. destruct (N.eqb_spec c 0x7B) as [->|Hn].
    { rewrite (accepts_step _ _ _ _ _ S). split.
      - intros H. exfalso. revert H. apply accepts_error. reflexivity.
      - intros [[Hs _]|(a & [=] & _)]. unfold blank in Hs. cbn [In] in Hs. lia. }
    destruct (is_ascii_ws c) eqn:W.
    { rewrite (accepts_step _ _ _ _ _ S), IH. apply blank_ok in W. rewrite (blank_not_hex c W). split; [intros H; left; split; assumption|].
      intros [[_ H]|(a & [=] & _)]. exact H. }
    pose proof (hex_ok c Hc) as K. destruct (hex_value c) as [a|] eqn:Hh.
    + destruct K as (K1 & K2 & K3 & _). rewrite K1, (first_digit [] true c a) in S by (try assumption; cbn; lia).
      rewrite (accepts_step _ _ _ _ _ S). rewrite (proj2 (digits_ok cps)) by (try assumption; cbn; lia). split.
      * intros H. right. exists a. split; [reflexivity|exact H].
      * intros [[Hs _]|(a' & [= <-] & H)]; [apply blank_ok in Hs; congruence|exact H].
    + rewrite K in S. split; [intros H; exfalso; revert H; apply accepts_bad, S|].
      intros [[Hs _]|(a & [=] & _)]. apply blank_ok in Hs. congruence.
Qed.

Definition text_ok (u cps : list N) : Prop :=
  start_ok false u cps \/ exists w r, cps = w ++ 0x7B :: r /\ Forall blank w /\ start_ok true u r.

Lemma init_plain cps : forall u, accepts (between_octets SInitial [] false) cps u <-> text_ok u cps.
Proof.
  induction cps as [|c cps IH]; intros u.
  - split; [intros (p' & [= <-] & K & _); discriminate|]. intros [H|(w & r & E & _)]; exfalso; [exact (start_nil _ _ H)|destruct w; discriminate].
  - assert (Inv : text_ok u (c :: cps) <-> (c = 0x7B /\ start_ok true u cps) \/ (blank c /\ text_ok u cps) \/
                    (exists a, hex_value c = Some a /\ half_ok [] a false u cps)).
    { unfold text_ok. rewrite start_cons. split.
      - intros [[[Hb H]|H]|(w & r & E & Hw & H)].
        + right; left. split; [exact Hb|left; exact H].
        + right; right. exact H.
        + destruct w as [|x w]; cbn [app] in E; injection E as -> ->; [left; split; [reflexivity|exact H]|].
          apply Forall_cons_iff in Hw. right; left. split; [apply Hw|]. right. exists w, r. split; [reflexivity|]. split; [apply Hw|exact H].
      - intros [[-> H]|[[Hb [H|(w & r & -> & Hw & H)]]|H]].
        + right. exists [], cps. split; [reflexivity|]. split; [constructor|exact H].
        + left. left. split; assumption.
        + right. exists (c :: w), r. split; [reflexivity|]. split; [constructor; assumption|exact H].
        + left. right. exact H. }
    rewrite Inv. destruct (N.ltb_spec c 128) as [Hc|Hc].
    2:{ split; [intros H; exfalso; revert H; apply accepts_bad, step_non_ascii, Hc|].
        intros [[Hs _]|[[Hs _]|(a & Hh & _)]]; exfalso; [|apply blank_ascii in Hs|apply hex_ascii in Hh]; lia. }
    pose proof (init_step false c Hc) as S. destruct (N.eqb_spec c 0x7B) as [->|Hn].
    { rewrite (accepts_step _ _ _ _ _ S). change (p_bracket (between_octets SInitial [] false) true) with (between_octets SInitial [] true).
      rewrite init_braced. split; [intros H; left; split; [reflexivity|exact H]|].
      intros [[_ H]|[[Hs _]|(a & [=] & _)]]; [exact H|]. unfold blank in Hs. cbn [In] in Hs. lia. }
    destruct (is_ascii_ws c) eqn:W.
    { rewrite (accepts_step _ _ _ _ _ S), IH. apply blank_ok in W. rewrite (blank_not_hex c W). split; [intros H; right; left; split; assumption|].
      intros [[H _]|[[_ H]|(a & [=] & _)]]; [congruence|exact H]. }
    pose proof (hex_ok c Hc) as K. destruct (hex_value c) as [a|] eqn:Hh.
    + destruct K as (K1 & K2 & K3 & _). rewrite K1, (first_digit [] false c a) in S by (try assumption; cbn; lia).
      rewrite (accepts_step _ _ _ _ _ S). rewrite (proj2 (digits_ok cps)) by (try assumption; cbn; lia). split.
      * intros H. right; right. exists a. split; [reflexivity|exact H].
      * intros [[H _]|[[Hs _]|(a' & [= <-] & H)]]; [congruence|apply blank_ok in Hs; congruence|exact H].
    + rewrite K in S. split; [intros H; exfalso; revert H; apply accepts_bad, S|].
      intros [[H _]|[[Hs _]|(a & [=] & _)]]; [congruence|]. apply blank_ok in Hs. congruence.
Qed.

Theorem parser_accepts cps u : accepts parser_init cps u <-> uuid_text u cps.
Proof.
  change parser_init with (between_octets SInitial [] false). rewrite init_plain. split.
  - intros [(w & r & -> & Hw & os & t & tail & -> & T & -> & L & Ht)|(w & r & -> & Hw & w2 & r2 & -> & Hw2 & os & t & tail & -> & T & -> & L & w3 & w4 & -> & H3 & H4)]; cbn [app] in *.
    + apply (ut_plain os w t tail); assumption.
    + apply (ut_braced os w w2 t w3 w4); assumption.
  - intros [w1 t w2 L T H1 H2|w1 w2 t w3 w4 L T H1 H2 H3 H4].
    + left. exists w1, (t ++ w2). split; [reflexivity|]. split; [exact H1|]. exists u, t, w2. repeat (split; [reflexivity || assumption|]). exact H2.
    + right. exists w1, (w2 ++ t ++ w3 ++ [0x7D] ++ w4). split; [reflexivity|]. split; [exact H1|].
      exists w2, (t ++ w3 ++ [0x7D] ++ w4). split; [reflexivity|]. split; [exact H2|]. exists u, t, (w3 ++ [0x7D] ++ w4).
      repeat (split; [reflexivity || assumption|]). exists w3, w4. split; [reflexivity|]. split; assumption.
Qed.

(* ------------------------------------------------------------------- no undefined step *)

Definition sane (p : parser) : Prop := match p_state p with SError => True | SFinished => True | _ => p_digits p < 32 end.
Lemma step_total p c : sane p -> exists p', p_step p c = Some p' /\ sane p'.
Proof.
  assert (P : forall q, p_state q = SParsing -> p_digits q < 32 -> exists p', p_parsing q c = Some p' /\ sane p').
  { intros q E H. unfold p_parsing. destruct (is_hex c).
    - destruct (Nat.leb_spec 16 (N.to_nat (p_digits q / 2))) as [G|G].
      + exfalso. assert (p_digits q / 2 < 16) by (apply N.div_lt_upper_bound; lia). lia.
      + eexists. split; [reflexivity|]. unfold sane. cbn [p_state p_digits]. rewrite E. destruct (N.eqb_spec (p_digits q + 1) 32); [exact I|lia].
    - destruct (is_ascii_hyphen c || is_ascii_ws c); [|eexists; split; [reflexivity|exact I]].
      destruct (p_digits q mod 2 =? 1); eexists; (split; [reflexivity|]); unfold sane; cbn; [exact I|rewrite E; exact H]. }
  intros H. unfold p_step. destruct (negb (is_ascii c)); [eexists; split; [reflexivity|exact I]|].
  unfold sane in H. destruct p as [v b d r st]. cbn [p_state p_digits] in *. destruct st.
  - destruct (c =? 0x7B); [eexists; split; [reflexivity|]; cbn; destruct b; cbn; [exact I|exact H]|].
    destruct (is_ascii_ws c); [eexists; split; [reflexivity|exact H]|].
    destruct (is_hex c); [apply P; [reflexivity|exact H]|eexists; split; [reflexivity|exact I]].
  - apply P; [reflexivity|exact H].
  - destruct (c =? 0x7D); [destruct b; eexists; (split; [reflexivity|exact I])|].
    destruct (is_ascii_ws c); eexists; (split; [reflexivity|exact I]).
  - eexists. split; [reflexivity|exact I].
Qed.
Lemma steps_total cps : forall p, sane p -> exists p', steps p cps = Some p'.
Proof.
  induction cps as [|c cps IH]; intros p H; cbn [steps]; [eexists; reflexivity|].
  destruct (step_total p c H) as (p' & -> & H'). apply IH, H'.
Qed.

(** The result of [parse], from the code points reported by [utf_decode]. *)
Definition outcome (cps : list N) : option (list N) :=
  match steps parser_init cps with Some p => if p_ok p then Some (p_value p) else None | None => None end.
Lemma outcome_ok cps u : outcome cps = Some u <-> uuid_text u cps.
Proof.
  rewrite <- parser_accepts. unfold outcome, accepts. split.
  - destruct (steps parser_init cps) as [p|]; [|discriminate]. destruct (p_ok p) eqn:K; [|discriminate]. intros [= <-]. exists p. repeat split. exact K.
  - intros (p & -> & -> & ->). reflexivity.
Qed.
Lemma parse_outcome be schar sz str evs : (32 <= length str)%nat ->
  (forall S (cb : S -> N -> nat -> nat -> S * bool) s, utf_decode cb be schar sz str false s = Some (fst (run cb s evs))) ->
  uuid_parse be schar sz str = Some (outcome (map (fun e => fst (fst e)) evs)).
Proof.
  intros L D. unfold uuid_parse. destruct (Nat.ltb_spec (length str) 32); [lia|]. fold parse_cb. rewrite D. cbn [option_bind].
  rewrite run_steps. unfold outcome. destruct (steps_total (map (fun e => fst (fst e)) evs) parser_init) as (p & ->); [reflexivity|]. reflexivity.
Qed.

(** An accepted text has at least 32 characters, all ASCII and none NUL. *)
Lemma octets_props os t : octets_text os t -> (2 * length os <= length t)%nat /\ Forall (fun c => 0 < c < 128) t.
Proof.
  assert (X : forall c v, hex_value c = Some v -> 0 < c < 128).
  { intros c v H. split; [|apply (hex_ascii c v H)]. destruct c; [discriminate|lia]. }
  assert (Y : forall l, Forall separator l -> Forall (fun c => 0 < c < 128) l).
  { intros l. apply Forall_impl. intros c. unfold separator, blank. cbn [In]. lia. }
  induction 1 as [h l a b Hh Hl|h l a b seps os t Hh Hl Hs T [IH1 IH2]].
  - split; [cbn; lia|]. constructor; [apply (X _ _ Hh)|]. constructor; [apply (X _ _ Hl)|constructor].
  - split; [cbn [length]; rewrite app_length; lia|]. constructor; [apply (X _ _ Hh)|]. constructor; [apply (X _ _ Hl)|].
    apply Forall_app. split; [apply Y, Hs|exact IH2].
Qed.
Lemma uuid_text_props u cps : uuid_text u cps -> (32 <= length cps)%nat /\ Forall (fun c => 0 < c < 128) cps.
Proof.
  assert (Y : forall l, Forall blank l -> Forall (fun c => 0 < c < 128) l).
  { intros l. apply Forall_impl. intros c. unfold blank. cbn [In]. lia. }
  intros [w1 t w2 L T H1 H2|w1 w2 t w3 w4 L T H1 H2 H3 H4]; destruct (octets_props _ _ T) as [A B].
  - split; [rewrite !app_length; lia|]. rewrite !Forall_app. repeat split; auto.
  - split; [rewrite !app_length; lia|]. rewrite !Forall_app. repeat split; auto; repeat constructor.
Qed.
