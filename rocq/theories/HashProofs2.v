(** Proofs about sha1::finish, histories of calls, fnv1a, wide text and hash_combiner. *)
From Verif Require Import Words WordsProofs BitsModel BitsSpec BitsProofs2 BitsProofs3 UtfModel UtfSpec UtfProofs UtfProofs2 UtfProofs3 HashModel HashSpec HashProofs.
From Coq Require Import ZifyBool ZifyNat ZifyN.
Local Open Scope N_scope.

Lemma be_bytes_rev n : forall x, be_bytes n x = rev (le_bytes n x).
Proof. induction n as [|n IH]; intros x; [reflexivity|]. cbn [be_bytes le_bytes rev]. rewrite IH. reflexivity. Qed.

Lemma le_bytes_bytes n x : bytes (le_bytes n x).
Proof. apply Forall_forall. intros b Hb. apply (le_bytes_bound n x b Hb). Qed.
Lemma be_bytes_bytes n x : bytes (be_bytes n x).
Proof. rewrite be_bytes_rev. apply Forall_rev, le_bytes_bytes. Qed.
Lemma be_bytes_length n x : length (be_bytes n x) = n.
Proof. rewrite be_bytes_rev, rev_length. apply le_bytes_length. Qed.

Lemma stored_length (be : bool) x : x < 2 ^ 64 ->
  exists r, (if be then Some x else byte_reverse 64 x) = Some r /\ (if be then rev (le_bytes 8 r) else le_bytes 8 r) = be_bytes 8 x.
Proof.
  intros Hx. rewrite be_bytes_rev. destruct be; [exists x; split; reflexivity|].
  destruct (byte_reverse_bytes 8 64 x) as (r & E & _ & R); [reflexivity|discriminate|unfold std_width; tauto|exact Hx|].
  exists r. split; [exact E|exact R].
Qed.

Lemma store_words_ok be h : vw h -> store_words be (vl h) = Some (digest_bytes h).
Proof.
  intros Hh. assert (K : forall x, w32 x -> exists r, (if be then Some x else byte_reverse 32 x) = Some r /\ store32 be r = be_bytes 4 x).
  { intros x Hx. rewrite be_bytes_rev. unfold store32. destruct be; [exists x; split; reflexivity|].
    destruct (byte_reverse_bytes 4 32 x) as (r & E & _ & R); [reflexivity|discriminate|unfold std_width; tauto|exact Hx|].
    exists r. split; [exact E|exact R]. }
  destruct h as [[[[a b] c] d] e]. destruct Hh as (Ha & Hb & Hc & Hd & He). unfold vl, digest_bytes. cbn [store_words].
  destruct (K a Ha) as (a' & -> & Ea), (K b Hb) as (b' & -> & Eb), (K c Hc) as (c' & -> & Ec), (K d Hd) as (d' & -> & Ed), (K e He) as (e' & -> & Ee).
  cbn [option_bind]. rewrite app_nil_r, Ea, Eb, Ec, Ed, Ee. reflexivity.
Qed.

(** The length the code writes at the end, in bits: the block counter has 32 bits. *)
Definition code_bits (n : nat) : N := 8 * (64 * (N.of_nat (n / 64) mod 2 ^ 32) + N.of_nat (n mod 64)).
Definition code_pad (m : list N) : list N := m ++ [0x80] ++ repeat 0 (pad_zeros (length m)) ++ be_bytes 8 (code_bits (length m)).
Definition code_digest (m : list N) : list N := digest_bytes (fold_left compress (map words (blocks (code_pad m))) sha_H0).

Lemma code_pad_spec m : N.of_nat (length m) < 2 ^ 38 -> code_pad m = pad m.
Proof.
  intros H. unfold code_pad, pad. do 4 f_equal. unfold code_bits. rewrite N.mod_small.
  - pose proof (Nat.div_mod (length m) 64 ltac:(lia)). lia.
  - pose proof (Nat.div_mod (length m) 64 ltac:(lia)). change (2 ^ 38) with (64 * 2 ^ 32) in H. lia.
Qed.

Lemma bytes_zeros n : bytes (repeat 0 n).
Proof. apply Forall_forall. intros x Hx. apply repeat_spec in Hx. subst. reflexivity. Qed.

Lemma Rep_zeros be s m k : Rep s m -> (0 < N.to_nat k <= 64 - length m mod 64)%nat ->
  exists s', sha_addn be s (zeros k) = Some s' /\ Rep s' (m ++ repeat 0 (N.to_nat k)).
Proof. intros H Hk. apply Rep_addn; [exact H|apply bytes_zeros|unfold zeros; rewrite repeat_length; exact Hk]. Qed.

Ltac Zify.zify_post_hook ::= Z.div_mod_to_equations.
Lemma finish_ok be s msg : Rep s msg ->
  exists s', sha_finish be s = Some s' /\ sha_finished s' = true /\ sha_hash s' = code_digest msg.
Proof.
  intros H. unfold sha_finish. rewrite (rep_fin _ _ H).
  assert (Hr : (length msg mod 64 < 64)%nat) by (apply Nat.mod_upper_bound; lia).
  assert (Hb : trunc 64 (trunc 64 (trunc 64 (sha_blocks s * 64) + sha_len s) * 8) = code_bits (length msg) /\ code_bits (length msg) < 2 ^ 64).
  { rewrite (rep_blocks _ _ H), (rep_len _ _ H). unfold code_bits, trunc. set (b := N.of_nat (length msg / 64) mod 2 ^ 32).
    assert (Hb : b < 2 ^ 32) by (apply N.mod_lt; discriminate). clearbody b. set (r := (length msg mod 64)%nat) in *. clearbody r.
    change (2 ^ 32) with 4294967296 in Hb. change (2 ^ 64) with 18446744073709551616.
    rewrite (N.mod_small (b * 64)) by lia. rewrite (N.mod_small (b * 64 + N.of_nat r)) by lia. rewrite N.mod_small by lia. split; lia. }
  destruct Hb as [-> Hb]. destruct (stored_length be _ Hb) as (r & -> & Er). cbn [option_bind].
  destruct (Rep_add1 be s msg 0x80 H ltac:(lia)) as (s1 & -> & H1). cbn [option_bind].
  set (L := length msg) in *.
  assert (L1 : (length (msg ++ [0x80%N]) mod 64 = (L mod 64 + 1) mod 64)%nat) by (rewrite app_length; cbn [length]; fold L; lia).
  assert (M : exists s2 z1, (if 56 <? sha_len s1 then sha_addn be s1 (zeros (64 - sha_len s1)) else Some s1) = Some s2 /\
    Rep s2 ((msg ++ [0x80%N]) ++ repeat 0 z1) /\ (z1 = if (56 <? (L mod 64 + 1) mod 64)%nat then 64 - (L mod 64 + 1) mod 64 else 0)%nat).
  { rewrite (rep_len _ _ H1), L1. destruct (Nat.ltb_spec 56 ((L mod 64 + 1) mod 64)) as [Hlt|Hge].
    - destruct (N.ltb_spec 56 (N.of_nat ((L mod 64 + 1) mod 64))); [|lia].
      destruct (Rep_zeros be s1 _ (64 - N.of_nat ((L mod 64 + 1) mod 64)) H1) as (s2 & -> & H2); [rewrite L1; lia|].
      exists s2, (N.to_nat (64 - N.of_nat ((L mod 64 + 1) mod 64))). split; [reflexivity|]. split; [exact H2|lia].
    - destruct (N.ltb_spec 56 (N.of_nat ((L mod 64 + 1) mod 64))); [lia|]. exists s1, 0%nat.
      split; [reflexivity|]. split; [cbn [repeat]; rewrite app_nil_r; exact H1|reflexivity]. }
  destruct M as (s2 & z1 & -> & H2 & Hz1). cbn [option_bind].
  assert (L2 : (length ((msg ++ [0x80%N]) ++ repeat 0%N z1) mod 64 = ((L mod 64 + 1) mod 64 + z1) mod 64)%nat).
  { rewrite !app_length, repeat_length. cbn [length]. fold L. clear - Hr. lia. }
  assert (M : exists s3 z2, (if sha_len s2 <? 56 then sha_addn be s2 (zeros (56 - sha_len s2)) else Some s2) = Some s3 /\
    Rep s3 (((msg ++ [0x80%N]) ++ repeat 0 z1) ++ repeat 0 z2) /\ (z1 + z2 = pad_zeros L)%nat).
  { rewrite (rep_len _ _ H2), L2. unfold pad_zeros. set (k := ((((L mod 64 + 1) mod 64 + z1) mod 64))%nat) in *.
    destruct (Nat.ltb_spec k 56) as [Hlt|Hge].
    - destruct (N.ltb_spec (N.of_nat k) 56); [|lia].
      destruct (Rep_zeros be s2 _ (56 - N.of_nat k) H2) as (s3 & -> & H3); [rewrite L2; lia|].
      exists s3, (N.to_nat (56 - N.of_nat k)). split; [reflexivity|]. split; [exact H3|].
      subst k. destruct (Nat.ltb_spec 56 ((L mod 64 + 1) mod 64)); lia.
    - destruct (N.ltb_spec (N.of_nat k) 56); [lia|]. exists s2, 0%nat.
      split; [reflexivity|]. split; [cbn [repeat]; rewrite app_nil_r; exact H2|].
      subst k. destruct (Nat.ltb_spec 56 ((L mod 64 + 1) mod 64)); lia. }
  destruct M as (s3 & z2 & -> & H3 & Hz). cbn [option_bind].
  assert (EM : ((msg ++ [0x80%N]) ++ repeat 0 z1) ++ repeat 0 z2 = msg ++ [0x80%N] ++ repeat 0 (pad_zeros L)).
  { rewrite <- !app_assoc, <- repeat_app, Hz. reflexivity. }
  rewrite EM in H3.
  assert (L3 : (length (msg ++ [0x80%N] ++ repeat 0%N (pad_zeros L)) mod 64 = 56)%nat).
  { rewrite !app_length, repeat_length. cbn [length]. fold L. unfold pad_zeros. clear - Hr. lia. }
  rewrite (rep_len _ _ H3), L3. change (N.of_nat 56 =? 56) with true. cbn [negb].
  rewrite Er. destruct (Rep_addn be s3 _ (be_bytes 8 (code_bits L)) H3) as (s4 & -> & H4);
    [apply be_bytes_bytes|rewrite be_bytes_length, L3; lia|]. cbn [option_bind].
  rewrite (rep_digest _ _ H4). rewrite store_words_ok.
  - cbn [option_bind]. eexists. split; [reflexivity|]. split; [reflexivity|]. cbn [sha_hash].
    unfold code_digest, code_pad, blocks, hashed. fold L. rewrite <- !app_assoc. reflexivity.
  - apply hashed_vw; [exact (rep_bytes _ _ H4)|]. lia.
Qed.
Ltac Zify.zify_post_hook ::= idtac.

(* ------------------------------------------------------------------ histories *)

Definition feed_sha (f : feed) : sha_op := match f with OneByte b => ShaByte b | Blob l => ShaData l end.
Definition feed_fnv (f : feed) : fnv_op := match f with OneByte b => FnvByte b | Blob l => FnvData l end.

Lemma Rep_byte be s m b : Rep s m -> b < 256 -> exists s', sha_byte be s b = Some s' /\ Rep s' (m ++ [b]).
Proof. intros H Hb. unfold sha_byte. rewrite (rep_fin _ _ H). apply Rep_add1; assumption. Qed.

Lemma Rep_feed be f s m : Rep s m -> bytes (feed_bytes f) -> exists s', sha_step be (feed_sha f) s = Some s' /\ Rep s' (m ++ feed_bytes f).
Proof.
  intros H Hb. destruct f as [b|l]; cbn [feed_sha sha_step feed_bytes] in *.
  - apply Rep_byte; [exact H|]. apply Forall_cons_iff in Hb. apply Hb.
  - apply Rep_data; assumption.
Qed.

Lemma Rep_feeds be fs : forall s m, Rep s m -> bytes (flat_map feed_bytes fs) ->
  exists s', sha_steps be (map feed_sha fs) s = Some s' /\ Rep s' (m ++ flat_map feed_bytes fs).
Proof.
  induction fs as [|f fs IH]; intros s m H Hb; cbn [map flat_map sha_steps] in *.
  - exists s. rewrite app_nil_r. split; [reflexivity|exact H].
  - apply Forall_app in Hb. destruct Hb as [Hb1 Hb2]. destruct (Rep_feed be f s m H Hb1) as (s1 & -> & H1). cbn [option_bind].
    destruct (IH s1 _ H1 Hb2) as (s2 & E & H2). exists s2. rewrite app_assoc. split; [exact E|exact H2].
Qed.

Lemma sha_steps_app be ops1 ops2 : forall s, sha_steps be (ops1 ++ ops2) s = option_bind (sha_steps be ops1 s) (sha_steps be ops2).
Proof.
  induction ops1 as [|op ops IH]; intros s; cbn [app sha_steps option_bind]; [reflexivity|].
  destruct (sha_step be op s) as [s1|]; cbn [option_bind]; [apply IH|reflexivity].
Qed.

Lemma history_digest be fs junk : length junk = 64%nat -> bytes (flat_map feed_bytes fs) ->
  exists s, sha_steps be (map feed_sha fs ++ [ShaFinish]) (sha_init junk) = Some s /\ sha_finished s = true /\
            sha_hash s = code_digest (flat_map feed_bytes fs).
Proof.
  intros Hj Hb. destruct (Rep_feeds be fs _ [] (Rep_init junk Hj) Hb) as (s & E & H). cbn [app] in H.
  destruct (finish_ok be s _ H) as (s' & E' & F & D). exists s'. rewrite sha_steps_app, E. cbn [option_bind sha_steps sha_step].
  rewrite E'. split; [reflexivity|]. split; assumption.
Qed.

(** A finished object ignores everything. *)
Definition op_ok (op : sha_op) : Prop :=
  match op with ShaWide sz l => (sz = 2 \/ sz = 4) /\ units sz l | _ => True end.

Lemma code_point_frozen be s cp : sha_finished s = true -> sha_code_point be s cp = Some s.
Proof.
  intros H. unfold sha_code_point, sha_byte, sha_data. rewrite H. destruct (cp =? 0); [reflexivity|].
  destruct (code_point_view (utf8_code_point cp)); reflexivity.
Qed.

Lemma step_frozen be op s : op_ok op -> sha_finished s = true -> sha_step be op s = Some s.
Proof.
  intros Ho H. destruct op as [b|l|sz l|]; cbn [sha_step].
  - unfold sha_byte. rewrite H. reflexivity.
  - unfold sha_data. rewrite H. destruct l; reflexivity.
  - unfold sha_wide. destruct Ho as [Hsz Hu].
    destruct (decode_total be false sz l false) as (evs & E); [unfold unit_size; tauto|exact Hu|]. rewrite E. cbn [option_bind]. clear E.
    induction evs as [|[[cp i] n] evs IH]; [reflexivity|]. cbn [run option_bind]. rewrite code_point_frozen by exact H. apply IH.
  - unfold sha_finish. rewrite H. reflexivity.
Qed.

Lemma steps_frozen be ops : forall s, Forall op_ok ops -> sha_finished s = true -> sha_steps be ops s = Some s.
Proof.
  induction ops as [|op ops IH]; intros s Ho H; [reflexivity|]. apply Forall_cons_iff in Ho. destruct Ho as [Ho1 Ho2].
  cbn [sha_steps]. rewrite step_frozen by assumption. cbn [option_bind]. apply IH; assumption.
Qed.

Lemma finish_finishes be s s' : sha_finish be s = Some s' -> sha_finished s' = true.
Proof.
  unfold sha_finish. destruct (sha_finished s) eqn:F; [intros [= <-]; exact F|].
  destruct (if be then _ else _); [|discriminate]. cbn [option_bind].
  destruct (sha_add1 be s 128); [|discriminate]. cbn [option_bind].
  destruct (if 56 <? _ then _ else _); [|discriminate]. cbn [option_bind].
  destruct (if _ <? 56 then _ else _); [|discriminate]. cbn [option_bind].
  destruct (negb _); [discriminate|]. destruct (sha_addn be _ _); [|discriminate]. cbn [option_bind].
  destruct (store_words be _); [|discriminate]. cbn [option_bind]. intros [= <-]. reflexivity.
Qed.

(* ------------------------------------------------------------------ wide text *)

Lemma single_text sz cps : single sz cps -> text sz cps = cps.
Proof. intros [->|[-> Hb]]; [apply text4|apply text2_bmp, Hb]. Qed.
Lemma single_units sz cps : single sz cps -> Forall scalar cps -> units sz cps.
Proof. intros [->|[-> Hb]] Hs; [apply units4, Hs|exact Hb]. Qed.
Lemma single_sz sz cps : single sz cps -> sz = 2 \/ sz = 4.
Proof. intros [->|[-> _]]; tauto. Qed.

Lemma reads_ok {S} (cb : S -> N -> nat -> nat -> S * bool) be sz l cps s : single sz cps -> Forall scalar cps -> reads be sz l cps ->
  exists i, utf_decode cb be false sz l false s = Some (fst (run cb s (unit_events i cps))).
Proof.
  intros Hw Hs Hr. pose proof (single_sz _ _ Hw) as W.
  assert (Hw1 : single sz (0xFEFF :: cps)).
  { destruct Hw as [->|[-> Hb]]; [left; reflexivity|right; split; [reflexivity|constructor; [reflexivity|exact Hb]]]. }
  assert (Hs1 : Forall scalar (0xFEFF :: cps)) by (constructor; [right; lia|exact Hs]).
  destruct Hr as [ | cps | cps | cps Hb Hn].
  - exists 0%nat. reflexivity.
  - exists 1%nat. rewrite (single_text _ _ Hw1). rewrite wide_forward by (try (apply single_units; assumption); try assumption; discriminate). cbn [hd tl].
    replace (0xFEFF =? swapped sz 0xFEFF) with false by (destruct W as [-> | ->]; reflexivity). reflexivity.
  - exists 1%nat. rewrite (single_text _ _ Hw1). pose proof (single_units _ _ Hw1 Hs1) as U.
    assert (U2 : units sz (map (swapped sz) (0xFEFF :: cps))).
    { unfold units. rewrite Forall_map. eapply Forall_impl; [|exact U]. intros u Hu. apply byte_reverse_swapped; assumption. }
    rewrite wide_forward by (try assumption; discriminate). cbn [map hd tl]. rewrite N.eqb_refl.
    rewrite map_swapped_swapped; [reflexivity|exact W|]. apply Forall_cons_iff in U. apply U.
  - exists 0%nat. rewrite (single_text _ _ Hw) in *. destruct cps as [|c r]; [reflexivity|].
    rewrite wide_forward by (try (apply single_units; assumption); try assumption; discriminate). cbn [hd tl]. rewrite Hn.
    destruct (N.eqb_spec c (swapped sz 0xFEFF)) as [E|_]; [exfalso; apply Hb; exists r; right; f_equal; exact E|].
    destruct (N.eqb_spec c 0xFEFF) as [E|_]; [exfalso; apply Hb; exists r; left; f_equal; exact E|]. reflexivity.
Qed.

Lemma view_enc8 cp : scalar cp -> cp <> 0 -> code_point_view (utf8_code_point cp) = enc8 cp.
Proof. intros Hs Hz. rewrite utf8_code_point_ok by (apply scalar_le, Hs). apply view_pad, enc8_nonzero, Hz. Qed.

Lemma fnv_code_point_ok bits prime v cp : scalar cp -> fnv_code_point bits prime v cp = fnv_bytes bits prime v (enc8 cp).
Proof.
  intros Hs. unfold fnv_code_point. destruct (N.eqb_spec cp 0) as [->|Hz]; [reflexivity|]. rewrite view_enc8 by assumption. reflexivity.
Qed.

Lemma fnv_bytes_app bits prime v l1 l2 : fnv_bytes bits prime v (l1 ++ l2) = fnv_bytes bits prime (fnv_bytes bits prime v l1) l2.
Proof. apply fold_left_app. Qed.

Lemma fnv_run bits prime cps : forall i v, Forall scalar cps ->
  fst (run (fun h cp (_ _ : nat) => (fnv_code_point bits prime h cp, true)) v (unit_events i cps)) = fnv_bytes bits prime v (text 1 cps).
Proof.
  induction cps as [|cp cps IH]; intros i v Hs; [reflexivity|]. apply Forall_cons_iff in Hs. destruct Hs as [Hc Hs].
  cbn [unit_events run text flat_map]. change (enc 1 cp) with (enc8 cp). rewrite fnv_bytes_app, <- fnv_code_point_ok by exact Hc. apply IH, Hs.
Qed.

Lemma fnv_wide_ok be bits prime sz v l cps : single sz cps -> Forall scalar cps -> reads be sz l cps ->
  fnv_wide be bits prime sz v l = Some (fnv_bytes bits prime v (text 1 cps)).
Proof.
  intros Hw Hs Hr. unfold fnv_wide.
  destruct (reads_ok (fun h cp (_ _ : nat) => (fnv_code_point bits prime h cp, true)) be sz l cps v Hw Hs Hr) as (i & ->).
  rewrite fnv_run by exact Hs. reflexivity.
Qed.

Lemma text_bytes cps : Forall scalar cps -> bytes (text 1 cps).
Proof. apply text_units1. Qed.

Lemma sha_run be cps : forall i s m, Forall scalar cps -> Rep s m ->
  exists s', fst (run (fun (o : option sha) cp (_ _ : nat) => (option_bind o (fun s => sha_code_point be s cp), true)) (Some s) (unit_events i cps)) = Some s' /\
    Rep s' (m ++ text 1 cps).
Proof.
  induction cps as [|cp cps IH]; intros i s m Hs H.
  - exists s. split; [reflexivity|]. cbn. rewrite app_nil_r. exact H.
  - apply Forall_cons_iff in Hs. destruct Hs as [Hc Hs]. cbn [unit_events run text flat_map option_bind]. change (enc 1 cp) with (enc8 cp).
    assert (E : exists s1, sha_code_point be s cp = Some s1 /\ Rep s1 (m ++ enc8 cp)).
    { unfold sha_code_point. destruct (N.eqb_spec cp 0) as [->|Hz].
      - apply Rep_byte; [exact H|reflexivity].
      - rewrite view_enc8 by assumption. apply Rep_data; [exact H|]. apply enc8_bytes, scalar_le, Hc. }
    destruct E as (s1 & -> & H1). destruct (IH (S i) s1 _ Hs H1) as (s2 & E2 & H2). exists s2. rewrite app_assoc. split; [exact E2|exact H2].
Qed.

Lemma sha_wide_ok be sz s m l cps : single sz cps -> Forall scalar cps -> reads be sz l cps -> Rep s m ->
  exists s', sha_wide be sz s l = Some s' /\ Rep s' (m ++ text 1 cps).
Proof.
  intros Hw Hs Hr H. unfold sha_wide.
  destruct (reads_ok (fun (o : option sha) cp (_ _ : nat) => (option_bind o (fun s => sha_code_point be s cp), true)) be sz l cps (Some s) Hw Hs Hr) as (i & ->).
  cbn [option_bind]. apply sha_run; assumption.
Qed.

(* ---------------------------------------------------------------------- fnv1a *)

Definition fnv_size (bits : N) : Prop := bits = 32 \/ bits = 64 \/ bits = 128.

Lemma fnv_traits_ok bits : fnv_size bits -> fnv_traits bits = Some (fnv_prime bits, fnv_basis bits).
Proof. intros [->|[->| ->]]; vm_compute; reflexivity. Qed.

Lemma fnv_feeds be bits prime fs : forall v, fnv_steps be bits prime (map feed_fnv fs) v = Some (fnv_bytes bits prime v (flat_map feed_bytes fs)).
Proof.
  induction fs as [|f fs IH]; intros v; [reflexivity|]. cbn [map fnv_steps flat_map]. rewrite fnv_bytes_app.
  destruct f as [b|l]; cbn [feed_fnv fnv_step option_bind feed_bytes]; apply IH.
Qed.

Lemma fnv_bytes_spec bits m : fnv_bytes bits (fnv_prime bits) (fnv_basis bits) m = fnv1a_spec bits m.
Proof. reflexivity. Qed.

Lemma fnv_steps_app be bits prime ops1 ops2 : forall v, fnv_steps be bits prime (ops1 ++ ops2) v =
  option_bind (fnv_steps be bits prime ops1 v) (fnv_steps be bits prime ops2).
Proof.
  induction ops1 as [|op ops IH]; intros v; cbn [app fnv_steps option_bind]; [reflexivity|].
  destruct (fnv_step be bits prime op v) as [v1|]; cbn [option_bind]; [apply IH|reflexivity].
Qed.

(** The primes are odd, so each step can be undone. *)
Definition fnv_inv (bits : N) : N :=
  if bits =? 32 then 0x359c449b else if bits =? 64 then 0xce965057aff6957b else 0xb1041ad2562ff2ff2ff2ff2ff2ff2ff3.

Lemma xor_w w x y : x < 2 ^ w -> y < 2 ^ w -> N.lxor x y < 2 ^ w.
Proof. intros Hx Hy. apply lt_pow2_bits. intros i Hi. rewrite N.lxor_spec, (testbit_high w x), (testbit_high w y) by assumption. reflexivity. Qed.

Lemma fnv_size_pos bits : fnv_size bits -> 256 <= 2 ^ bits /\ (fnv_prime bits * fnv_inv bits) mod 2 ^ bits = 1.
Proof. intros [->|[->| ->]]; split; vm_compute; congruence || reflexivity. Qed.

Lemma fnv_mul_inj bits x y : fnv_size bits -> x < 2 ^ bits -> y < 2 ^ bits ->
  (x * fnv_prime bits) mod 2 ^ bits = (y * fnv_prime bits) mod 2 ^ bits -> x = y.
Proof.
  intros Hb Hx Hy E. destruct (fnv_size_pos bits Hb) as [Hp Hi]. assert (Z : 2 ^ bits <> 0) by lia.
  assert (K : forall z, z < 2 ^ bits -> ((z * fnv_prime bits) mod 2 ^ bits * fnv_inv bits) mod 2 ^ bits = z).
  { intros z Hz. rewrite N.mul_mod_idemp_l by exact Z. rewrite <- N.mul_assoc, <- N.mul_mod_idemp_r, Hi, N.mul_1_r by exact Z. apply N.mod_small, Hz. }
  rewrite <- (K x Hx), <- (K y Hy), E. reflexivity.
Qed.

Lemma lxor_inj_l x y z : N.lxor x y = N.lxor x z -> y = z.
Proof. intros E. rewrite <- (N.lxor_0_l y), <- (N.lxor_0_l z), <- (N.lxor_nilpotent x), !N.lxor_assoc, E. reflexivity. Qed.

Lemma fnv_byte_lt bits prime v b : fnv_byte bits prime v b < 2 ^ bits.
Proof. apply trunc_lt. Qed.

Lemma fnv_state_inj bits m : fnv_size bits -> bytes m -> forall x y, x < 2 ^ bits -> y < 2 ^ bits ->
  fnv_bytes bits (fnv_prime bits) x m = fnv_bytes bits (fnv_prime bits) y m -> x = y.
Proof.
  intros Hb Hm. destruct (fnv_size_pos bits Hb) as [Hp _]. induction Hm as [|b m Hb1 Hm IH]; intros x y Hx Hy E; [exact E|].
  cbn [fnv_bytes fold_left] in E. apply IH in E; [|apply fnv_byte_lt..]. unfold fnv_byte, trunc in E.
  assert (Hb2 : b < 2 ^ bits) by lia. apply fnv_mul_inj in E; [|exact Hb|apply xor_w; assumption..].
  rewrite !(N.lxor_comm _ b) in E. apply lxor_inj_l in E. exact E.
Qed.

Lemma fnv_basis_lt bits : fnv_size bits -> fnv_basis bits < 2 ^ bits.
Proof. intros [->|[->| ->]]; vm_compute; reflexivity. Qed.

Lemma fnv_bytes_lt bits prime m : forall v, v < 2 ^ bits -> fnv_bytes bits prime v m < 2 ^ bits.
Proof. induction m as [|b m IH]; intros v Hv; [exact Hv|]. cbn [fnv_bytes fold_left]. apply IH, fnv_byte_lt. Qed.

Lemma fnv_one_byte bits p a b q : fnv_size bits -> bytes (a :: b :: q) -> a <> b ->
  fnv1a_spec bits (p ++ a :: q) <> fnv1a_spec bits (p ++ b :: q).
Proof.
  intros Hb Hm Hab E. destruct (fnv_size_pos bits Hb) as [Hp _]. unfold bytes in Hm. rewrite !Forall_cons_iff in Hm. destruct Hm as (Ha & Hb2 & Hq).
  rewrite <- !fnv_bytes_spec, !fnv_bytes_app in E. pose proof (fnv_bytes_lt bits (fnv_prime bits) p _ (fnv_basis_lt bits Hb)) as Hv.
  set (v := fnv_bytes bits (fnv_prime bits) (fnv_basis bits) p) in *. clearbody v. cbn [fnv_bytes fold_left] in E.
  change (fnv_bytes bits (fnv_prime bits) (fnv_byte bits (fnv_prime bits) v a) q = fnv_bytes bits (fnv_prime bits) (fnv_byte bits (fnv_prime bits) v b) q) in E.
  apply fnv_state_inj in E; [|assumption|assumption|apply fnv_byte_lt..]. unfold fnv_byte, trunc in E.
  apply fnv_mul_inj in E; [|assumption|apply xor_w; try assumption; lia..]. apply lxor_inj_l in E. contradiction.
Qed.

Lemma fnv_print_ok bits v i : fnv_size bits -> v < 2 ^ bits -> N.of_nat i <= bits / 8 -> fnv_print_bytes bits v i = Some (be_bytes i v).
Proof.
  intros Hb Hv. induction i as [|i IH]; intros Hi; [reflexivity|]. cbn [fnv_print_bytes].
  rewrite byte_select_ok; [|unfold std_width, fnv_size in *; tauto|exact Hv|lia]. cbn [option_bind].
  rewrite IH by lia. cbn [option_bind]. f_equal. rewrite !be_bytes_rev. replace (S i) with (i + 1)%nat by lia.
  rewrite le_bytes_app, rev_app_distr. reflexivity.
Qed.

(* -------------------------------------------------------------- hash_combiner *)

Definition combiner_size (bits : N) : Prop := bits = 16 \/ bits = 32 \/ bits = 64 \/ bits = 128.

Lemma lxor_trunc w x y : x < 2 ^ w -> trunc w (N.lxor x y) = N.lxor x (trunc w y).
Proof.
  intros Hx. apply N.bits_inj. intros i. rewrite N.lxor_spec, !testbit_trunc, N.lxor_spec. destruct (N.ltb_spec i w); [reflexivity|].
  rewrite (testbit_high w x) by assumption. reflexivity.
Qed.

Lemma combine_form bits v : combiner_size bits -> v < 2 ^ bits ->
  exists c, forall h, combine bits v h = Some (N.lxor v ((h + c) mod 2 ^ bits)).
Proof.
  intros Hb Hv.
  assert (T : exists off ls rs, combiner_traits bits = Some (off, ls, rs)).
  { destruct Hb as [->|[->|[->| ->]]]; vm_compute; eauto. }
  destruct T as (off & ls & rs & T). exists (off + trunc (promoted bits) (N.shiftl v ls) + N.shiftr v rs). intros h'.
  unfold combine. rewrite T. cbn [option_bind]. rewrite lxor_trunc by exact Hv. unfold trunc at 1. do 3 f_equal. lia.
Qed.

Lemma combine_bij bits v : combiner_size bits -> v < 2 ^ bits ->
  (forall h, h < 2 ^ bits -> exists r, combine bits v h = Some r /\ r < 2 ^ bits) /\
  (forall h1 h2, h1 < 2 ^ bits -> h2 < 2 ^ bits -> combine bits v h1 = combine bits v h2 -> h1 = h2) /\
  (forall r, r < 2 ^ bits -> exists h, h < 2 ^ bits /\ combine bits v h = Some r).
Proof.
  intros Hb Hv. destruct (combine_form bits v Hb Hv) as (c & F). assert (Z : 2 ^ bits <> 0) by lia.
  split; [|split].
  - intros h Hh. exists (N.lxor v ((h + c) mod 2 ^ bits)). split; [apply F|]. apply xor_w; [exact Hv|apply N.mod_lt, Z].
  - intros h1 h2 H1 H2. rewrite !F. intros [= E]. apply lxor_inj_l in E.
    set (M := 2 ^ bits) in *. clearbody M. rewrite <- (N.add_mod_idemp_r h1), <- (N.add_mod_idemp_r h2) in E by exact Z.
    pose proof (N.mod_lt c M Z) as Hc. set (c' := c mod M) in *. clearbody c'. clear - E H1 H2 Hc Z.
    pose proof (N.div_mod (h1 + c') M Z) as D1. pose proof (N.div_mod (h2 + c') M Z) as D2. rewrite E in D1.
    pose proof (N.mod_lt (h2 + c') M Z) as L.
    assert (Q1 : (h1 + c') / M < 2) by (apply N.div_lt_upper_bound; lia).
    assert (Q2 : (h2 + c') / M < 2) by (apply N.div_lt_upper_bound; lia).
    set (q1 := (h1 + c') / M) in *. set (q2 := (h2 + c') / M) in *. set (r := (h2 + c') mod M) in *. clearbody q1 q2 r. clear E.
    assert (q1 = 0 \/ q1 = 1) as [-> | ->] by lia; assert (q2 = 0 \/ q2 = 1) as [-> | ->] by lia; lia.
  - intros r Hr. set (t := N.lxor v r). assert (Ht : t < 2 ^ bits) by (apply xor_w; assumption).
    exists ((t + (2 ^ bits - c mod 2 ^ bits)) mod 2 ^ bits). split; [apply N.mod_lt, Z|]. rewrite F. f_equal.
    replace (((t + (2 ^ bits - c mod 2 ^ bits)) mod 2 ^ bits + c) mod 2 ^ bits) with t.
    + subst t. rewrite <- N.lxor_assoc, N.lxor_nilpotent, N.lxor_0_l. reflexivity.
    + rewrite N.add_mod_idemp_l by exact Z. rewrite <- N.add_mod_idemp_r by exact Z. pose proof (N.mod_lt c _ Z).
      replace (t + (2 ^ bits - c mod 2 ^ bits) + c mod 2 ^ bits) with (t + 1 * 2 ^ bits) by lia.
      rewrite N.mod_add by exact Z. symmetry. apply N.mod_small, Ht.
Qed.
