(** Property C37: tagged_ptr. *)
From Coq Require Import Lia ZifyBool ZifyNat ZifyN.
From Verif Require Import Words WordsProofs BitsModel BitsProofs TptrModel TptrSpec TptrProofs.
From Verif Require BitsProofs3.
Local Open Scope N_scope.
Ltac Zify.zify_post_hook ::= idtac.

(** After any sequence of operations on aligned pointers and storable tags, the pointer, the tag, its bits and the
    conversion to bool are those of a plain pair of pointer and tag; no assertion fails. *)
Theorem C37_history c k ops : cfg_ok c k -> Forall (op_ok c k) ops ->
  exists bits, tptr_run c 0 ops = Some bits /\
    let '(p, t) := fold_left (spec_step c) ops (0, 0) in
    get_ptr c bits = Some p /\ get_tag c bits = Some t /\ tptr_bool c bits = Some (negb (p =? 0)) /\
    (forall i, i < k + t_free c -> get_tag_bit c bits i = Some (N.testbit t i)).
Proof.
  intros C F. destruct (run_ok c k C ops 0 0 0 (inv_zero c k) F) as (b & E & I). exists b. split; [exact E|].
  destruct (fold_left (spec_step c) ops (0, 0)) as [p t]. cbn [fst snd] in I.
  split; [apply (get_ptr_ok c k C p t b I)|]. split; [apply (get_tag_ok c k C p t b I)|]. split; [apply (bool_ok c k C p t b I)|].
  intros i H. apply (get_tag_bit_ok c k C p t b i I H).
Qed.
Print Assumptions C37_history.

(** Setting one leaves the other alone, after any history. *)
Theorem C37_separate c k ops bits p t : cfg_ok c k -> Forall (op_ok c k) ops -> tptr_run c 0 ops = Some bits ->
  pointer c k p -> storable c (k + t_free c) t ->
  (exists b, tptr_step c bits (OSetPtr p) = Some b /\ get_ptr c b = Some p /\ get_tag c b = get_tag c bits) /\
  (exists b, tptr_step c bits (OSetTag t) = Some b /\ get_tag c b = Some (tag_value c t) /\ get_ptr c b = get_ptr c bits).
Proof.
  intros C F E Hp Ht. destruct (run_ok c k C ops 0 0 0 (inv_zero c k) F) as (b & E' & I). assert (b = bits) as -> by congruence. clear E'.
  destruct (fold_left (spec_step c) ops (0, 0)) as [p0 t0]. cbn [fst snd] in I. split.
  - destruct (step_ok c k C p0 t0 bits (OSetPtr p) I Hp) as (b & E1 & I1). cbn [spec_step fst snd] in I1. exists b. split; [exact E1|].
    rewrite (get_ptr_ok c k C _ _ _ I1), (get_tag_ok c k C _ _ _ I1), (get_tag_ok c k C _ _ _ I). split; reflexivity.
  - destruct (step_ok c k C p0 t0 bits (OSetTag t) I Ht) as (b & E1 & I1). cbn [spec_step fst snd] in I1. exists b. split; [exact E1|].
    rewrite (get_ptr_ok c k C _ _ _ I1), (get_tag_ok c k C _ _ _ I1), (get_ptr_ok c k C _ _ _ I). split; reflexivity.
Qed.
Print Assumptions C37_separate.

(** A tag of class type is read back byte for byte (little-endian machines). *)
Theorem C37_object c k ops bytes : cfg_ok c k -> Forall (op_ok c k) ops -> storable c (k + t_free c) (TPod bytes) ->
  exists bits b, tptr_run c 0 ops = Some bits /\ tptr_step c bits (OSetTag (TPod bytes)) = Some b /\
    get_tag_object c b (length bytes) = Some bytes /\ get_ptr c b = get_ptr c bits.
Proof.
  intros C F H. destruct (run_ok c k C ops 0 0 0 (inv_zero c k) F) as (bits & E' & I).
  destruct (fold_left (spec_step c) ops (0, 0)) as [p0 t0]. cbn [fst snd] in I.
  destruct (step_ok c k C p0 t0 bits (OSetTag (TPod bytes)) I H) as (b & E1 & I1). cbn [spec_step fst snd tag_value] in I1.
  exists bits, b. split; [exact E'|]. split; [exact E1|]. destruct H as [(H1 & H2 & H3) _].
  split; [apply (get_object_ok c k C p0 bytes b H3 H1 H2 I1)|]. rewrite (get_ptr_ok c k C _ _ _ I1), (get_ptr_ok c k C _ _ _ I). reflexivity.
Qed.
Print Assumptions C37_object.

(** Two tagged pointers compare equal exactly when pointers and tags agree. *)
Theorem C37_equality c k ops1 ops2 b1 b2 : cfg_ok c k -> Forall (op_ok c k) ops1 -> Forall (op_ok c k) ops2 ->
  tptr_run c 0 ops1 = Some b1 -> tptr_run c 0 ops2 = Some b2 ->
  (b1 = b2 <-> get_ptr c b1 = get_ptr c b2 /\ get_tag c b1 = get_tag c b2).
Proof.
  intros C F1 F2 E1 E2. destruct (run_ok c k C ops1 0 0 0 (inv_zero c k) F1) as (x & E & I1). assert (x = b1) as -> by congruence. clear E.
  destruct (run_ok c k C ops2 0 0 0 (inv_zero c k) F2) as (x & E & I2). assert (x = b2) as -> by congruence. clear E.
  rewrite (inv_unique c k C _ _ _ _ _ _ I1 I2). rewrite (get_ptr_ok c k C _ _ _ I1), (get_ptr_ok c k C _ _ _ I2), (get_tag_ok c k C _ _ _ I1), (get_tag_ok c k C _ _ _ I2).
  split; [intros [-> ->]; split; reflexivity|]. intros [A B]. split; congruence.
Qed.
Print Assumptions C37_equality.

(** [can_store_ptr] recognises the aligned addresses; [can_store_tag] the integers that fit, for types no wider than a
    pointer. *)
Theorem C37_can_store c k p : cfg_ok c k -> p < 2 ^ t_w c -> (can_store_ptr c p = Some true <-> p mod 2 ^ k = 0).
Proof.
  intros C L. destruct (W_pos c k C) as (P & S & K & T). destruct (tag_mask_ok c k C) as (m & E & _ & B). unfold can_store_ptr. rewrite (tag_bits_ok c k C), E. cbn [option_bind].
  assert (X : (k + t_free c =? 0 = true -> p mod 2 ^ k = 0) /\ (N.land (pack_ptr_unchecked c p) m = 0 <-> p mod 2 ^ k = 0)).
  { split.
    - intros Z. apply N.eqb_eq in Z. replace k with 0 by lia. apply N.mod_1_r.
    - split; intros H.
      + apply N.bits_inj_0. intros i. destruct (N.lt_ge_cases i k) as [Q|Q]; [|apply N.mod_pow2_bits_high; exact Q]. rewrite N.mod_pow2_bits_low by exact Q.
        assert (A : N.testbit (N.land (pack_ptr_unchecked c p) m) (i + t_free c) = false) by (rewrite H; apply N.bits_0).
        rewrite N.land_spec, B, (unchecked_bits c), N.add_sub in A.
        replace (i + t_free c <? t_w c) with true in A by (symmetry; apply N.ltb_lt; lia). replace (t_free c <=? i + t_free c) with true in A by (symmetry; apply N.leb_le; lia).
        replace (i + t_free c <? k + t_free c) with true in A by (symmetry; apply N.ltb_lt; lia). cbn [andb] in A. rewrite andb_true_r in A. exact A.
      + apply N.bits_inj_0. intros i. rewrite N.land_spec, B, (unchecked_bits c). destruct (N.ltb_spec i (k + t_free c)); [|apply andb_false_r].
        destruct (N.leb_spec (t_free c) i); [|rewrite !andb_false_r; reflexivity]. rewrite (aligned_bits k) by (assumption || lia). rewrite !andb_false_r. reflexivity. }
  destruct X as [X1 X2]. destruct (k + t_free c =? 0).
  - split; [intros _; apply X1; reflexivity|intros _; reflexivity].
  - rewrite <- X2. split; [intros H; injection H as H; apply N.eqb_eq, H|intros ->; reflexivity].
Qed.
Print Assumptions C37_can_store.

Theorem C37_can_store_tag c k sgn w v : cfg_ok c k -> 0 < w -> w <= t_w c -> v < 2 ^ w -> (sgn = true -> v < 2 ^ (w - 1)) ->
  (can_store_tag c (TInt sgn w v) = Some true <-> storable c (k + t_free c) (TInt sgn w v)).
Proof.
  intros C Hw HW Hv Hs. destruct (W_pos c k C) as (P & S & K & T). destruct (ptr_mask_ok c k C) as (m & E & B). unfold can_store_tag, storable.
  rewrite (tag_bits_ok c k C), E. cbn [option_bind tag_size]. set (tb := k + t_free c) in *. destruct (N.eqb_spec tb 0) as [Z|Z].
  - split; [discriminate|]. lia.
  - destruct (N.leb_spec w tb) as [Q|Q].
    + split; [|reflexivity]. intros _. assert (2 ^ w <= 2 ^ tb) by (apply N.pow_le_mono_r; lia). split; [|lia]. split; [exact Hw|]. split; [exact Hv|]. split; [lia|exact Hs].
    + split.
      * intros H. injection H as H. apply N.eqb_eq in H. split; [|lia]. split; [exact Hw|]. split; [exact Hv|]. split; [|exact Hs].
        apply lt_pow2_bits. intros i Hi. destruct (N.lt_ge_cases i (t_w c)) as [Q'|Q'].
        -- assert (A : N.testbit (N.land v m) i = false) by (rewrite H; apply N.bits_0). rewrite N.land_spec, B in A.
           replace (i <? t_w c) with true in A by (symmetry; apply N.ltb_lt; lia). replace (i <? tb) with false in A by (symmetry; apply N.ltb_ge; lia).
           cbn [andb negb] in A. rewrite andb_true_r in A. exact A.
        -- apply testbit_high with w; [exact Hv|lia].
      * intros ((_ & _ & H & _) & _). f_equal. apply N.eqb_eq. apply N.bits_inj_0. intros i. rewrite N.land_spec, B. destruct (N.ltb_spec i tb); [rewrite !andb_false_r; reflexivity|].
        rewrite (testbit_high tb) by assumption. reflexivity.
Qed.
Print Assumptions C37_can_store_tag.

(** A negative tag of a signed type that fits the tag area passes [can_store_tag] but overwrites every bit of the
    pointer: whatever pointer and tag were stored, the new pointer differs from every pointer whose highest usable bit
    is clear. *)
Theorem C37_signed_tag_refuted c k ops w v p t bits : cfg_ok c k -> Forall (op_ok c k) ops -> tptr_run c 0 ops = Some bits ->
  fold_left (spec_step c) ops (0, 0) = (p, t) -> N.testbit p (t_used c - 1) = false ->
  0 < w -> w <= k + t_free c -> 2 ^ (w - 1) <= v -> v < 2 ^ w ->
  can_store_tag c (TInt true w v) = Some true /\
  exists b, tptr_step c bits (OSetTag (TInt true w v)) = Some b /\ get_ptr c b <> Some p.
Proof.
  intros C F E Es Hp Hw Hwt Hn Hv. destruct (W_pos c k C) as (P & S & K & T). destruct (ptr_mask_ok c k C) as (m & Em & B).
  destruct (run_ok c k C ops 0 0 0 (inv_zero c k) F) as (x & E' & I). assert (x = bits) as -> by congruence. clear E'. rewrite Es in I. cbn [fst snd] in I. split.
  - unfold can_store_tag. rewrite (tag_bits_ok c k C), Em. cbn [option_bind tag_size]. replace (k + t_free c =? 0) with false by (symmetry; apply N.eqb_neq; lia).
    replace (w <=? k + t_free c) with true by (symmetry; apply N.leb_le; exact Hwt). reflexivity.
  - destruct (negative_ok c k C p t bits w v I Hw Hwt Hv Hn) as (b & Eb & H). exists b. split; [exact Eb|]. intros G.
    assert (A : N.testbit p (t_used c - 1) = true); [|congruence].
    assert (U : t_used c - 1 + t_free c = t_w c - 1) by (unfold t_used; lia).
    assert (X : N.testbit (N.shiftr (N.land b m) (t_free c)) (t_used c - 1) = true).
    { rewrite testbit_shiftr, N.land_spec, B, U, H by lia. replace (t_w c - 1 <? t_w c) with true by (symmetry; apply N.ltb_lt; lia).
      replace (t_w c - 1 <? k + t_free c) with false by (symmetry; apply N.ltb_ge; lia). reflexivity. }
    unfold get_ptr in G. rewrite Em in G. cbn [option_bind] in G. destruct (N.ltb_spec 0 (t_free c)) as [Q|Q].
    + destruct (t_amd64 c && _).
      * rewrite BitsProofs3.bit_fill_right_ok in G by exact P. cbn [option_bind] in G. injection G as <-. rewrite N.lor_spec, X. reflexivity.
      * injection G as <-. exact X.
    + injection G as <-. replace (t_free c) with 0 in X by lia. rewrite N.shiftr_0_r in X. exact X.
Qed.
Print Assumptions C37_signed_tag_refuted.

(** Where the other documented checks mislead: on a 32-bit platform a 64-bit tag is only checked in its low 32 bits; the
    constructor's assertion does not notice a misaligned pointer; on a big-endian machine a tag of class type lands in
    the pointer's bits. *)
Theorem C37_checks_refuted :
  (let c := {| t_w := 32; t_free := 0; t_amd64 := false; t_be := false; t_align := 8 |} in
   cfg_ok c 3 /\ exists b, can_store_tag c (TInt false 64 (2 ^ 32)) = Some true /\
     tptr_step c 0 (OSetTag (TInt false 64 (2 ^ 32))) = Some b /\ get_tag c b <> Some (2 ^ 32)) /\
  (let c := {| t_w := 64; t_free := 0; t_amd64 := true; t_be := false; t_align := 8 |} in
   cfg_ok c 3 /\ exists b, can_store_ptr c 0x1001 = Some false /\
     tptr_step c 0 (OResetPtr 0x1001) = Some b /\ get_ptr c b = Some 0x1000 /\ get_tag c b = Some 1) /\
  (let c := {| t_w := 64; t_free := 0; t_amd64 := false; t_be := true; t_align := 256 |} in
   cfg_ok c 8 /\ exists b b', tptr_step c 0 (OResetPtr 0x1200) = Some b /\ can_store_tag c (TPod [7]) = Some true /\
     tptr_step c b (OSetTag (TPod [7])) = Some b' /\ get_ptr c b' <> Some 0x1200).
Proof.
  unfold cfg_ok. cbn [t_w t_free t_align]. split; [|split].
  - split; [split; [left; reflexivity|]; split; [reflexivity|lia]|]. eexists. split; [vm_compute; reflexivity|]. split; [vm_compute; reflexivity|]. vm_compute. discriminate.
  - split; [split; [right; reflexivity|]; split; [reflexivity|lia]|]. eexists. split; [vm_compute; reflexivity|]. split; [vm_compute; reflexivity|]. vm_compute. split; reflexivity.
  - split; [split; [right; reflexivity|]; split; [reflexivity|lia]|]. eexists. eexists. split; [vm_compute; reflexivity|]. split; [vm_compute; reflexivity|].
    split; [vm_compute; reflexivity|]. vm_compute. discriminate.
Qed.
Print Assumptions C37_checks_refuted.

(** Objects are accepted exactly if they fit the tag. *)
Theorem C37_can_store_object c k bytes : cfg_ok c k ->
  (can_store_tag c (TPod bytes) = Some true <-> 0 < k + t_free c /\ 8 * N.of_nat (length bytes) <= k + t_free c).
Proof.
  intros C. destruct (ptr_mask_ok c k C) as (m & E & B). unfold can_store_tag. rewrite (tag_bits_ok c k C), E. cbn [option_bind tag_size].
  destruct (N.eqb_spec (k + t_free c) 0) as [Z|Z]; [split; [discriminate|lia]|].
  destruct (N.leb_spec (8 * N.of_nat (length bytes)) (k + t_free c)); (split; [intros; try discriminate; lia|]); intros; try reflexivity; lia.
Qed.
Print Assumptions C37_can_store_object.

(** On a big-endian machine every object put into the tag replaces the highest bytes, where the pointer is, instead of the lowest; the
    others stay, and so do the bits of the tag unless they are cleared first. It is still read back. *)
Theorem C37_big_endian_refuted c k bits bytes : cfg_ok c k -> t_be c = true -> Forall (fun x => x < 256) bytes -> bits < 2 ^ t_w c ->
  8 * N.of_nat (length bytes) <= k + t_free c ->
  exists b kept, tptr_step c bits (OSetTag (TPod bytes)) = Some b /\ get_tag_object c b (length bytes) = Some bytes /\
    (kept = bits \/ exists pm, ptr_mask c = Some pm /\ kept = N.land bits pm) /\
    (forall i, N.testbit b i = if i <? t_w c - 8 * N.of_nat (length bytes) then N.testbit kept i else N.testbit (of_le_bytes (rev bytes)) (i - (t_w c - 8 * N.of_nat (length bytes)))).
Proof.
  intros C Be F Hb Hl. destruct (W_pos c k C) as (P & S & K & T). destruct (ptr_mask_ok c k C) as (pm & Em & Bm).
  set (kept := if 8 * N.of_nat (length bytes) <? k + t_free c then N.land bits pm else bits).
  exists (overwrite c kept bytes), kept.
  assert (Hk : kept < 2 ^ t_w c).
  { unfold kept. destruct (_ <? _); [|exact Hb]. apply lt_pow2_bits. intros i Hi. rewrite N.land_spec, Bm. replace (i <? t_w c) with false by (symmetry; apply N.ltb_ge; exact Hi). apply andb_false_r. }
  set (n := N.to_nat (t_w c / 8)). assert (Hn : 8 * N.of_nat n = t_w c) by (unfold n; destruct C as ([-> | ->] & _); reflexivity).
  assert (Ln : (length bytes <= n)%nat) by lia.
  assert (Rest : rev (bytes ++ skipn (length bytes) (rev (le_bytes n kept))) = le_bytes (n - length bytes) kept ++ rev bytes).
  { rewrite rev_app_distr. f_equal. rewrite skipn_rev, rev_involutive, le_bytes_length.
    rewrite <- (firstn_skipn (n - length bytes) (le_bytes n kept)) at 1. rewrite firstn_app, firstn_firstn, Nat.min_id, firstn_length, le_bytes_length.
    replace (n - length bytes - Nat.min (n - length bytes) n)%nat with O by lia. rewrite firstn_O, app_nil_r.
    replace n with ((n - length bytes) + length bytes)%nat at 2 by lia. rewrite (BitsProofs3.le_bytes_app (n - length bytes) (length bytes)), firstn_app, le_bytes_length, Nat.sub_diag, firstn_O, app_nil_r.
    rewrite <- (le_bytes_length (n - length bytes) kept) at 1. apply firstn_all. }
  assert (Ov : overwrite c kept bytes = of_le_bytes (le_bytes (n - length bytes) kept ++ rev bytes)) by (unfold overwrite; rewrite Be; fold n; now rewrite Rest).
  assert (Fa : Forall (fun x => x < 256) (le_bytes (n - length bytes) kept ++ rev bytes)).
  { apply Forall_app. split; [apply Forall_forall; intros x; apply le_bytes_bound | apply Forall_rev, F]. }
  assert (La : length (le_bytes (n - length bytes) kept ++ rev bytes) = n) by (rewrite app_length, le_bytes_length, rev_length; lia).
  split; [|split; [|split]].
  - cbn [tptr_step set_tag]. unfold set_tag, pod_tag. rewrite Em, (tag_bits_ok c k C). cbn [option_bind tag_size].
    replace (k + t_free c <? 8 * N.of_nat (length bytes)) with false by (symmetry; apply N.ltb_ge; exact Hl). reflexivity.
  - unfold get_tag_object. rewrite (tag_bits_ok c k C). cbn [option_bind].
    replace (k + t_free c <? 8 * N.of_nat (length bytes)) with false by (symmetry; apply N.ltb_ge; exact Hl). rewrite Be. fold n. f_equal.
    rewrite Ov. assert (Inv : le_bytes n (of_le_bytes (le_bytes (n - length bytes) kept ++ rev bytes)) = le_bytes (n - length bytes) kept ++ rev bytes).
    { rewrite <- La at 1. now apply le_bytes_of_le_bytes. }
    rewrite Inv, rev_app_distr, rev_involutive, firstn_app, Nat.sub_diag, firstn_O, app_nil_r. apply firstn_all.
  - unfold kept. destruct (_ <? _); [right; now exists pm | now left].
  - intros i. rewrite Ov, (of_le_app c k), le_bytes_length, of_le_bytes_le_bytes. set (s := 8 * N.of_nat (n - length bytes)).
    replace (t_w c - 8 * N.of_nat (length bytes)) with s by (unfold s; lia). pose proof (pow2_pos s) as Ps.
    pose proof (N.mod_lt kept (2 ^ s) ltac:(lia)) as Lt.
    destruct (N.ltb_spec i s) as [H|H].
    + rewrite <- (N.mod_pow2_bits_low _ s i H), <- (N.mod_pow2_bits_low kept s i H). f_equal. symmetry. apply (N.mod_unique _ _ (of_le_bytes (rev bytes))); [exact Lt|lia].
    + replace i with ((i - s) + s) at 1 by lia. rewrite <- testbit_shiftr, N.shiftr_div_pow2. f_equal. symmetry.
      apply (N.div_unique _ _ _ (kept mod 2 ^ s)); [exact Lt|lia].
Qed.
Print Assumptions C37_big_endian_refuted.

(** AMD64 with 48-bit pointers: a kernel-half address, an enumerator, an object of two bytes. *)
Definition c48 : tcfg := {| t_w := 64; t_free := 16; t_amd64 := true; t_be := false; t_align := 16 |}.
Example C37_witness : cfg_ok c48 4 /\
  Forall (op_ok c48 4) [OResetBoth 0xFFFF800012345670 (TEnum 32 0x9ABCD); OSetBit 1 true; OSetPtr 0x7FFF00001110; OSetTag (TPod [0xEF; 0xBE])] /\
  fold_left (spec_step c48) [OResetBoth 0xFFFF800012345670 (TEnum 32 0x9ABCD); OSetBit 1 true] (0, 0) = (0xFFFF800012345670, 0x9ABCF).
Proof.
  split; [|split].
  - split; [right; reflexivity|]. split; reflexivity.
  - assert (A : pointer c48 4 0xFFFF800012345670) by (split; [split; [reflexivity|right; right; vm_compute; discriminate]|reflexivity]).
    assert (A' : pointer c48 4 0x7FFF00001110) by (split; [split; [reflexivity|right; left; reflexivity]|reflexivity]).
    repeat constructor; try exact A; try exact A'; vm_compute; try reflexivity; discriminate.
  - reflexivity.
Qed.
