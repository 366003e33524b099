(** Theorems about sha1, fnv1a and hash_combiner: C28-C32 and C71-C74. *)
From Verif Require Import Words WordsProofs BitsModel UtfModel UtfSpec HashModel HashSpec HashProofs HashProofs2.
From Coq Require Import ZifyBool ZifyNat ZifyN.
Local Open Scope N_scope.

Ltac scalars := repeat (apply Forall_cons; [unfold scalar; lia|]); apply Forall_nil.

Definition abc : list N := [0x61; 0x62; 0x63].
Definition junk : list N := repeat 0xAA 64.

(* ------------------------------------------------------------------------ C28 *)

(** Any way of adding bytes, then [finish]: FIPS 180-4. *)
Theorem C28_sha1_fips be fs buf : length buf = 64%nat -> bytes (flat_map feed_bytes fs) ->
  N.of_nat (length (flat_map feed_bytes fs)) < 2 ^ 38 ->
  exists s, sha_steps be (map feed_sha fs ++ [ShaFinish]) (sha_init buf) = Some s /\ sha_finished s = true /\
            sha_hash s = sha1_spec (flat_map feed_bytes fs).
Proof.
  intros Hl Hb Hn. destruct (history_digest be fs buf Hl Hb) as (s & E & F & D). exists s. split; [exact E|]. split; [exact F|].
  rewrite D. unfold code_digest. rewrite code_pad_spec by exact Hn. reflexivity.
Qed.
Print Assumptions C28_sha1_fips.

(** One block of the compression function, on either kind of machine. *)
Theorem C28_process_block be block a b c d e : bytes block -> length block = 64%nat -> Forall (fun x => x < 2 ^ 32) [a; b; c; d; e] ->
  exists a' b' c' d' e', compress (a, b, c, d, e) (words block) = (a', b', c', d', e') /\
    process_block be block [a; b; c; d; e] = Some [a'; b'; c'; d'; e'].
Proof.
  intros Hb Hl Hw. rewrite !Forall_cons_iff in Hw. destruct Hw as (Ha & Hbb & Hc & Hd & He & _).
  pose proof (process_block_ok be block (a, b, c, d, e) Hb Hl (conj Ha (conj Hbb (conj Hc (conj Hd He))))) as P. cbn [vl] in P.
  destruct (compress (a, b, c, d, e) (words block)) as [[[[a' b'] c'] d'] e']. exists a', b', c', d', e'. split; [reflexivity|exact P].
Qed.
Print Assumptions C28_process_block.

(** The specification itself, on the "abc" example of FIPS 180: a9993e36 4706816a ba3e2571 7850c26c 9cd0d89d. *)
Example C28_witness :
  sha1_spec abc = be_bytes 20 0xa9993e364706816aba3e25717850c26c9cd0d89d /\
  bytes (flat_map feed_bytes [OneByte 0x61; Blob [0x62; 0x63]]) /\
  option_map sha_hash (sha_steps false (map feed_sha [OneByte 0x61; Blob [0x62; 0x63]] ++ [ShaFinish]) (sha_init junk)) = Some (sha1_spec abc).
Proof. split; [vm_compute; reflexivity|]. split; [repeat constructor|]. vm_compute. reflexivity. Qed.

(* ------------------------------------------------------------------------ C29 *)

Theorem C29_sha1_chunking be fs fs' buf buf' : length buf = 64%nat -> length buf' = 64%nat -> bytes (flat_map feed_bytes fs) ->
  flat_map feed_bytes fs = flat_map feed_bytes fs' ->
  exists s s', sha_steps be (map feed_sha fs ++ [ShaFinish]) (sha_init buf) = Some s /\
    sha_steps be (map feed_sha fs' ++ [ShaFinish]) (sha_init buf') = Some s' /\ sha_hash s = sha_hash s' /\ length (sha_hash s) = 20%nat.
Proof.
  intros Hl Hl' Hb E. assert (Hb' : bytes (flat_map feed_bytes fs')) by (rewrite <- E; exact Hb).
  destruct (history_digest be fs buf Hl Hb) as (s & E1 & _ & D1). destruct (history_digest be fs' buf' Hl' Hb') as (s' & E2 & _ & D2).
  exists s, s'. split; [exact E1|]. split; [exact E2|]. rewrite D1, D2, E. split; [reflexivity|].
  unfold code_digest, digest_bytes. destruct (fold_left _ _ _) as [[[[a b] c] d] e]. rewrite !app_length, !be_bytes_length. reflexivity.
Qed.
Print Assumptions C29_sha1_chunking.

Example C29_witness : let m := repeat 0x41 70 in
  flat_map feed_bytes [Blob (firstn 3 m); OneByte 0x41; Blob []; Blob (skipn 4 m)] = m /\ bytes m /\
  option_map sha_hash (sha_steps true (map feed_sha [Blob (firstn 3 m); OneByte 0x41; Blob []; Blob (skipn 4 m)] ++ [ShaFinish]) (sha_init junk))
  = option_map sha_hash (sha_steps true (map feed_sha [Blob m] ++ [ShaFinish]) (sha_init junk)).
Proof. split; [vm_compute; reflexivity|]. split; [repeat constructor|]. vm_compute. reflexivity. Qed.

(* ------------------------------------------------------------------------ C30 *)

(** After [finish] succeeded, further calls of any kind change nothing at all. *)
Theorem C30_sha1_frozen be ops s s' : sha_finish be s = Some s' -> Forall op_ok ops ->
  sha_finished s' = true /\ sha_steps be ops s' = Some s'.
Proof.
  intros E Ho. pose proof (finish_finishes be s s' E) as F. split; [exact F|]. apply steps_frozen; assumption.
Qed.
Print Assumptions C30_sha1_frozen.

(** ... and [finish] does succeed after any additions, so that this says something. *)
Theorem C30_sha1_finish_total be fs buf : length buf = 64%nat -> bytes (flat_map feed_bytes fs) ->
  exists s s', sha_steps be (map feed_sha fs) (sha_init buf) = Some s /\ sha_finished s = false /\ sha_finish be s = Some s' /\
    forall ops, Forall op_ok ops -> exists s'', sha_steps be ops s' = Some s'' /\ sha_finished s'' = true /\ sha_hash s'' = sha_hash s'.
Proof.
  intros Hl Hb. destruct (Rep_feeds be fs _ [] (Rep_init buf Hl) Hb) as (s & E & H). destruct (finish_ok be s _ H) as (s' & E' & F & _).
  exists s, s'. split; [exact E|]. split; [exact (rep_fin _ _ H)|]. split; [exact E'|]. intros ops Ho. exists s'.
  split; [apply steps_frozen; assumption|]. split; [exact F|reflexivity].
Qed.
Print Assumptions C30_sha1_finish_total.

Example C30_witness :
  Forall op_ok [ShaData abc; ShaFinish; ShaByte 7; ShaWide 4 [0x1F600]] /\
  exists s, sha_finish false (sha_init junk) = Some s /\
    sha_steps false [ShaData abc; ShaFinish; ShaByte 7; ShaWide 4 [0x1F600]] s = Some s /\
    sha_hash s = be_bytes 20 0xda39a3ee5e6b4b0d3255bfef95601890afd80709.
Proof.
  split; [repeat (apply Forall_cons; [exact I || (split; [right; reflexivity|repeat constructor])|]); apply Forall_nil|]. eexists. split; [vm_compute; reflexivity|]. split; vm_compute; reflexivity.
Qed.

(* ------------------------------------------------------------------------ C31 *)

Theorem C31_fnv1a be bits fs : fnv_size bits ->
  fnv1a be bits (map feed_fnv fs) = Some (fnv1a_spec bits (flat_map feed_bytes fs)).
Proof.
  intros Hb. unfold fnv1a. rewrite fnv_traits_ok by exact Hb. cbn [option_bind]. rewrite fnv_feeds. reflexivity.
Qed.
Print Assumptions C31_fnv1a.

(** The offset basis is by definition the FNV-0 hash of a fixed text; the primes and bases in the specification are
    the published ones. *)
Theorem C31_fnv1a_chunking be bits fs fs' : fnv_size bits -> flat_map feed_bytes fs = flat_map feed_bytes fs' ->
  fnv1a be bits (map feed_fnv fs) = fnv1a be bits (map feed_fnv fs') /\ fnv1a be bits (map feed_fnv fs) <> None.
Proof. intros Hb E. rewrite !C31_fnv1a by exact Hb. rewrite E. split; [reflexivity|discriminate]. Qed.
Print Assumptions C31_fnv1a_chunking.

(** Published test vectors for "foobar". *)
Example C31_witness : let foobar := [0x66; 0x6f; 0x6f; 0x62; 0x61; 0x72] in
  fnv1a_spec 32 foobar = 0xbf9cf968 /\ fnv1a_spec 64 foobar = 0x85944171f73967e8 /\
  fnv1a false 32 (map feed_fnv [OneByte 0x66; Blob [0x6f; 0x6f]; Blob [0x62; 0x61; 0x72]]) = Some 0xbf9cf968.
Proof. vm_compute. repeat split. Qed.

(* ------------------------------------------------------------------------ C32 *)

(** Wide text read correctly (see [reads]) whose scalar values are single units hashes like its UTF-8 bytes, whatever
    was added before and is added after. *)
Theorem C32_fnv1a_wide_partial be bits sz l cps before after : fnv_size bits -> single sz cps -> Forall scalar cps -> reads be sz l cps ->
  fnv1a be bits (map feed_fnv before ++ [FnvWide sz l] ++ map feed_fnv after)
  = Some (fnv1a_spec bits (flat_map feed_bytes before ++ text 1 cps ++ flat_map feed_bytes after)).
Proof.
  intros Hb Hw Hs Hr. unfold fnv1a. rewrite fnv_traits_ok by exact Hb. cbn [option_bind].
  rewrite fnv_steps_app, fnv_feeds. cbn [option_bind]. rewrite fnv_steps_app. cbn [fnv_steps fnv_step].
  rewrite (fnv_wide_ok be bits _ sz _ l cps) by assumption. cbn [option_bind]. rewrite fnv_feeds, <- fnv_bytes_spec, !fnv_bytes_app. reflexivity.
Qed.
Print Assumptions C32_fnv1a_wide_partial.

(** Surrogate pairs: not the hash of the UTF-8 text. *)
Theorem C32_surrogates_refuted : exists cps, Forall scalar cps /\
  fnv1a false 64 [FnvWide 2 (text 2 (0xFEFF :: cps))] <> Some (fnv1a_spec 64 (text 1 cps)).
Proof. exists [0x1F601]. split; [scalars|]. vm_compute. discriminate. Qed.
Print Assumptions C32_surrogates_refuted.

(** Text in the machine's own order without a mark that is taken for the other order. *)
Theorem C32_native_refuted : exists cps, Forall scalar cps /\ single 2 cps /\
  fnv1a false 64 [FnvWide 2 (text 2 cps)] <> Some (fnv1a_spec 64 (text 1 cps)).
Proof.
  exists [0x4E2D; 0x6587]. split; [scalars|]. split; [right; split; [reflexivity|repeat constructor]|]. vm_compute. discriminate.
Qed.
Print Assumptions C32_native_refuted.

Example C32_witness :
  single 2 [0x48; 0; 0x4E2D] /\ Forall scalar [0x48; 0; 0x4E2D] /\ reads false 2 (text 2 [0x48; 0x69; 0x4E2D]) [0x48; 0x69; 0x4E2D] /\
  fnv1a false 32 [FnvWide 2 [0x48; 0x69; 0x4E2D]] = Some (fnv1a_spec 32 [0x48; 0x69; 0xE4; 0xB8; 0xAD]).
Proof.
  split; [right; split; [reflexivity|repeat constructor]|]. split; [scalars|]. split.
  - apply reads_native; [intros (r & [E|E]); vm_compute in E; discriminate|vm_compute; reflexivity].
  - vm_compute. reflexivity.
Qed.

(* ------------------------------------------------------------------------ C71 *)

(** hash_combiner: for a given accumulated value, combining is a bijection of the hash being added. *)
Theorem C71_combiner_bijective bits v : combiner_size bits -> v < 2 ^ bits ->
  (forall h, h < 2 ^ bits -> exists r, combine bits v h = Some r /\ r < 2 ^ bits) /\
  (forall h1 h2, h1 < 2 ^ bits -> h2 < 2 ^ bits -> combine bits v h1 = combine bits v h2 -> h1 = h2) /\
  (forall r, r < 2 ^ bits -> exists h, h < 2 ^ bits /\ combine bits v h = Some r).
Proof. apply combine_bij. Qed.
Print Assumptions C71_combiner_bijective.
Example C71_witness : combiner_size 64 /\ combine 64 1 2 = Some 0x9e3779b97f4a8c16 /\ combine 16 0xFFFF 1 = Some 0xE1D0.
Proof. split; [unfold combiner_size; tauto|]. vm_compute. split; reflexivity. Qed.

(** The constant that keeps combining zeros from sticking at zero is [floor (2^bits / phi)], for 16, 32 and 64 bits; the
    128-bit one (bits above 92 aside) is not. *)
Definition golden (bits c : N) : Prop := c * c + 2 ^ bits * c <= 2 ^ bits * 2 ^ bits < (c + 1) * (c + 1) + 2 ^ bits * (c + 1).
Theorem C71_golden bits : bits = 16 \/ bits = 32 \/ bits = 64 -> exists c, combine bits 0 0 = Some c /\ golden bits c.
Proof. intros [->|[->| ->]]; eexists; (split; [vm_compute; reflexivity|]); split; vm_compute; first [discriminate|reflexivity]. Qed.
Print Assumptions C71_golden.
Theorem C71_golden128_refuted : exists c, combine 128 0 0 = Some c /\ ~ golden 128 c /\ golden 64 (c / 2 ^ 64).
Proof.
  eexists. split; [vm_compute; reflexivity|]. split; [intros [A _]; vm_compute in A; apply A; reflexivity|]. split; vm_compute; first [discriminate|reflexivity].
Qed.
Print Assumptions C71_golden128_refuted.

(* ------------------------------------------------------------------------ C72 *)

(** Texts of the same length that differ in exactly one byte never collide. *)
Theorem C72_fnv1a_one_byte be bits p a b q : fnv_size bits -> bytes (a :: b :: q) -> a <> b ->
  fnv1a be bits [FnvData (p ++ a :: q)] <> fnv1a be bits [FnvData (p ++ b :: q)].
Proof.
  intros Hb Hm Hab. rewrite (C31_fnv1a be bits [Blob (p ++ a :: q)] Hb : fnv1a be bits [FnvData (p ++ a :: q)] = _).
  rewrite (C31_fnv1a be bits [Blob (p ++ b :: q)] Hb : fnv1a be bits [FnvData (p ++ b :: q)] = _).
  cbn [flat_map feed_bytes]. rewrite !app_nil_r. intros [= E]. revert E. apply fnv_one_byte; assumption.
Qed.
Print Assumptions C72_fnv1a_one_byte.
Example C72_witness : bytes [0x61; 0x62; 0x63] /\ fnv1a false 32 [FnvData [0x61; 0x63]] = Some 0x4e25075d.
Proof. split; [repeat constructor|vm_compute]. reflexivity. Qed.

(* ------------------------------------------------------------------------ C73 *)

(** The bytes [operator<<] prints (two hex digits each) are the big-endian bytes of the value. *)
Theorem C73_fnv1a_print bits v : fnv_size bits -> v < 2 ^ bits ->
  fnv_print_bytes bits v (N.to_nat (bits / 8)) = Some (be_bytes (N.to_nat (bits / 8)) v) /\
  be_value (be_bytes (N.to_nat (bits / 8)) v) = v.
Proof.
  intros Hb Hv. split.
  - apply fnv_print_ok; [exact Hb|exact Hv|lia].
  - rewrite be_value_rev, be_bytes_rev, rev_involutive, of_le_bytes_le_bytes. apply N.mod_small.
    destruct Hb as [->|[->| ->]]; exact Hv.
Qed.
Print Assumptions C73_fnv1a_print.
Example C73_witness : fnv_print_bytes 32 0x01020304 4 = Some [1; 2; 3; 4].
Proof. reflexivity. Qed.

(* ------------------------------------------------------------------------ C74 *)

(** sha1 of wide text is sha1 of its UTF-8 bytes, under the conditions of C32. *)
Theorem C74_sha1_wide_partial be sz l cps before after buf : length buf = 64%nat ->
  single sz cps -> Forall scalar cps -> reads be sz l cps ->
  bytes (flat_map feed_bytes before) -> bytes (flat_map feed_bytes after) ->
  N.of_nat (length (flat_map feed_bytes before ++ text 1 cps ++ flat_map feed_bytes after)) < 2 ^ 38 ->
  exists s, sha_steps be (map feed_sha before ++ [ShaWide sz l] ++ map feed_sha after ++ [ShaFinish]) (sha_init buf) = Some s /\
    sha_hash s = sha1_spec (flat_map feed_bytes before ++ text 1 cps ++ flat_map feed_bytes after).
Proof.
  intros Hl Hw Hs Hr Hb Ha Hn. destruct (Rep_feeds be before _ [] (Rep_init buf Hl) Hb) as (s1 & E1 & H1). cbn [app] in H1.
  destruct (sha_wide_ok be sz s1 _ l cps Hw Hs Hr H1) as (s2 & E2 & H2).
  destruct (Rep_feeds be after _ _ H2 Ha) as (s3 & E3 & H3). destruct (finish_ok be s3 _ H3) as (s4 & E4 & _ & D).
  exists s4. rewrite sha_steps_app, E1. cbn [option_bind]. rewrite sha_steps_app. cbn [sha_steps sha_step]. rewrite E2. cbn [option_bind].
  rewrite sha_steps_app, E3. cbn [option_bind sha_steps sha_step]. rewrite E4. split; [reflexivity|].
  rewrite D. unfold code_digest. rewrite <- app_assoc, code_pad_spec by exact Hn. reflexivity.
Qed.
Print Assumptions C74_sha1_wide_partial.
Example C74_witness : reads true 4 (map (swapped 4) (text 4 [0xFEFF; 0x1F600])) [0x1F600] /\
  option_map sha_hash (sha_steps true [ShaWide 4 (map (swapped 4) (text 4 [0xFEFF; 0x1F600])); ShaFinish] (sha_init junk))
  = Some (sha1_spec [0xF0; 0x9F; 0x98; 0x80]).
Proof. split; [apply reads_swapped_mark|vm_compute; reflexivity]. Qed.
