From Coq Require Import Lia ZifyBool ZifyNat ZifyN.
From Verif Require Import Words WordsProofs BitsModel BitsSpec BitsProofs BitsProofs2 BitsProofs3 CoreModel CoreSpec CoreProofs.
From Verif Require Import UtfModel UtfSpec UtfProofs UtfProofs2 UtfProofs3 HashModel HashSpec HashProofs HashProofs2.
From Verif Require Import UuidModel UuidSpec UuidProofs UuidProofs2.
Local Open Scope N_scope.
Ltac Zify.zify_post_hook ::= idtac.

Lemma uuid_elems (id : list N) : length id = 16%nat -> exists a0 a1 a2 a3 a4 a5 a6 a7 a8 a9 a10 a11 a12 a13 a14 a15,
  id = [a0; a1; a2; a3; a4; a5; a6; a7; a8; a9; a10; a11; a12; a13; a14; a15].
Proof.
  intros H. do 16 (destruct id as [|? id]; [discriminate|]). destruct id; [|discriminate]. repeat eexists.
Qed.
Ltac elems id H := destruct (uuid_elems id H) as (a0 & a1 & a2 & a3 & a4 & a5 & a6 & a7 & a8 & a9 & a10 & a11 & a12 & a13 & a14 & a15 & ->).

(* -------------------------------------------------------------------- printing *)

Lemma hex_digit_ok up v : v < 16 -> hex_value (hex_digit up v) = Some v.
Proof.
  intros H. unfold hex_digit, hex_value. destruct (N.ltb_spec v 10); [|destruct up].
  - destruct ((48 <=? 48 + v) && (48 + v <=? 57)) eqn:E; [f_equal; lia|lia].
  - destruct ((48 <=? 65 + (v - 10)) && (65 + (v - 10) <=? 57)) eqn:E; [lia|].
    destruct ((65 <=? 65 + (v - 10)) && (65 + (v - 10) <=? 70)) eqn:E2; [f_equal; lia|lia].
  - destruct ((48 <=? 97 + (v - 10)) && (97 + (v - 10) <=? 57)) eqn:E; [lia|].
    destruct ((65 <=? 97 + (v - 10)) && (97 + (v - 10) <=? 70)) eqn:E2; [lia|].
    destruct ((97 <=? 97 + (v - 10)) && (97 + (v - 10) <=? 102)) eqn:E3; [f_equal; lia|lia].
Qed.

Lemma div16 b : b < 256 -> b / 16 < 16 /\ b mod 16 < 16 /\ b = 16 * (b / 16) + b mod 16.
Proof. intros H. Ltac Zify.zify_post_hook ::= Z.div_mod_to_equations. lia. Qed.
Ltac Zify.zify_post_hook ::= idtac.

Lemma hex2_ok cw b i : 8 <= cw -> b < 256 -> hex2 cw b = octet_text (fun _ => true) i b.
Proof.
  intros Hcw Hb. destruct (div16 b Hb) as (H1 & H2 & _). unfold hex2, byte_to_hex, octet_text.
  assert (K : forall v, v < 16 -> dec_to_hex cw v 0x41 = hex_digit true v).
  { intros v Hv. rewrite dec_to_hex_char by (try assumption; right; reflexivity). unfold hex_digit.
    destruct (N.leb_spec 10 v), (N.ltb_spec v 10); lia. }
  rewrite !K by assumption. reflexivity.
Qed.

Lemma print_canonical cw id : 8 <= cw -> uuid_ok id -> uuid_print cw id = canonical (fun _ => true) id.
Proof.
  intros Hcw [Hb Hl]. unfold uuid_print, canonical. cbn [seq Nat.sub flat_map].
  assert (K : forall i, hex2 cw (byte_of id i) = octet_text (fun _ => true) i (nth i id 0)).
  { intros i. apply hex2_ok; [exact Hcw|]. unfold bytes in Hb. rewrite Forall_forall in Hb. destruct (Nat.ltb_spec i (length id)).
    - apply Hb, nth_In, H.
    - unfold byte_of. rewrite nth_overflow by lia. lia. }
  rewrite !K. reflexivity.
Qed.

Lemma octet_last up i b : b < 256 -> octets_text [b] (octet_text up i b).
Proof.
  intros H. destruct (div16 b H) as (H1 & H2 & E). rewrite E at 1. apply ot_last; apply hex_digit_ok; assumption.
Qed.
Lemma octet_more up i b seps os t : b < 256 -> Forall separator seps -> octets_text os t -> octets_text (b :: os) (octet_text up i b ++ seps ++ t).
Proof.
  intros H Hs T. destruct (div16 b H) as (H1 & H2 & E). rewrite E at 1.
  apply (ot_more (hex_digit (up (2 * i)%nat) (b / 16)) (hex_digit (up (2 * i + 1)%nat) (b mod 16)) (b / 16) (b mod 16) seps os t); try assumption; apply hex_digit_ok; assumption.
Qed.

Lemma canonical_octets up id : uuid_ok id -> octets_text id (canonical up id).
Proof.
  intros [Hb Hl]. elems id Hl. unfold bytes in Hb. rewrite !Forall_cons_iff in Hb.
  destruct Hb as (B0 & B1 & B2 & B3 & B4 & B5 & B6 & B7 & B8 & B9 & B10 & B11 & B12 & B13 & B14 & B15 & _).
  unfold canonical. cbn [flat_map nth].
  assert (Hy : Forall separator [0x2D]) by (constructor; [left; reflexivity|constructor]).
  assert (P : forall up i b os t, b < 256 -> octets_text os t -> octets_text (b :: os) (octet_text up i b ++ t)).
  { intros u i b os t Hb T. apply (octet_more u i b [] os t Hb); [constructor|exact T]. }
  rewrite !app_nil_r, <- !app_assoc.
  apply P; [exact B0|]. apply P; [exact B1|]. apply P; [exact B2|].
  apply octet_more; [exact B3|exact Hy|]. apply P; [exact B4|]. apply octet_more; [exact B5|exact Hy|].
  apply P; [exact B6|]. apply octet_more; [exact B7|exact Hy|]. apply P; [exact B8|]. apply octet_more; [exact B9|exact Hy|].
  apply P; [exact B10|]. apply P; [exact B11|]. apply P; [exact B12|]. apply P; [exact B13|]. apply P; [exact B14|].
  apply octet_last, B15.
Qed.

(* ------------------------------------------------------------------ wide ASCII text *)

Lemma ascii_units sz t : Forall (fun c => 0 < c < 128) t -> unit_size sz -> units sz t.
Proof.
  intros H Hs. unfold units. eapply Forall_impl; [|exact H]. intros c Hc. cbn beta in Hc.
  destruct Hs as [->|[->| ->]]; [change (2 ^ (8 * 1)) with 256|change (2 ^ (8 * 2)) with 65536|change (2 ^ (8 * 4)) with 4294967296]; lia.
Qed.

Lemma ascii_swapped sz c : sz = 2 \/ sz = 4 -> 0 < c < 128 -> swapped sz c = c * 2 ^ (8 * (sz - 1)) /\ 128 <= swapped sz c.
Proof.
  intros Hs Hc. assert (E : swapped sz c = c * 2 ^ (8 * (sz - 1))).
  { unfold swapped. destruct Hs as [-> | ->]; [change (N.to_nat 2) with 2%nat|change (N.to_nat 4) with 4%nat]; cbn [le_bytes rev app of_le_bytes];
      rewrite (N.mod_small c 256) by lia; rewrite (N.div_small c 256) by lia.
    - change (0 mod 256) with 0. change (2 ^ (8 * (2 - 1))) with 256. lia.
    - change (0 / 256) with 0. change (0 mod 256) with 0. change (0 / 256) with 0. change (0 mod 256) with 0. change (2 ^ (8 * (4 - 1))) with 16777216. lia. }
  split; [exact E|]. rewrite E. destruct Hs as [-> | ->]; [change (2 ^ (8 * (2 - 1))) with 256|change (2 ^ (8 * (4 - 1))) with 16777216]; lia.
Qed.

Lemma ascii_native be sz t : sz = 2 \/ sz = 4 -> Forall (fun c => 0 < c < 128) t -> t <> [] -> looks_native be sz t = negb be.
Proof.
  intros Hs Ht Hne. unfold looks_native, low_zeros, high_zeros.
  assert (Hf : Forall (fun c => 0 < c < 128) (firstn 16 t)).
  { rewrite Forall_forall in *. intros x Hx. apply Ht. rewrite <- (firstn_skipn 16 t). apply in_or_app. left; exact Hx. }
  assert (Hn : firstn 16 t <> []) by (destruct t; [congruence|discriminate]).
  set (l := firstn 16 t) in *. clearbody l. clear Ht Hne t.
  assert (Z : filter (fun u => u mod 256 =? 0) l = []).
  { clear Hn. induction Hf as [|c l Hc Hl IH]; [reflexivity|]. cbn [filter]. rewrite N.mod_small by lia. destruct (N.eqb_spec c 0); [lia|exact IH]. }
  assert (H : filter (fun u => u / 2 ^ (8 * (sz - 1)) mod 256 =? 0) l = l).
  { clear Hn Z. induction Hf as [|c l Hc Hl IH]; [reflexivity|]. cbn [filter]. rewrite IH. rewrite N.div_small; [reflexivity|].
    destruct Hs as [-> | ->]; [change (2 ^ (8 * (2 - 1))) with 256|change (2 ^ (8 * (4 - 1))) with 16777216]; lia. }
  rewrite Z, H. assert (0 < length l)%nat by (destruct l; [congruence|cbn; lia]). destruct be; cbn [negb length]; [apply Nat.ltb_ge; lia|apply Nat.ltb_lt; lia].
Qed.

Lemma ascii_read be sz t : sz = 2 \/ sz = 4 -> Forall (fun c => 0 < c < 128) t -> as_read be sz t = if be then map (swapped sz) t else t.
Proof.
  intros Hs Ht. destruct t as [|c t]; [destruct be; reflexivity|]. unfold as_read.
  assert (Hc : 0 < c < 128) by (apply Forall_cons_iff in Ht; apply Ht).
  assert (E1 : (c =? swapped sz 0xFEFF) = false).
  { apply N.eqb_neq. destruct Hs as [-> | ->]; [change (swapped 2 0xFEFF) with 0xFFFE|change (swapped 4 0xFEFF) with 0xFFFE0000]; lia. }
  assert (E2 : (c =? 0xFEFF) = false) by (apply N.eqb_neq; lia).
  rewrite E1, E2, ascii_native by (try assumption; discriminate). destruct be; reflexivity.
Qed.

Lemma mark_read be sz t : sz = 2 \/ sz = 4 -> as_read be sz (0xFEFF :: t) = t.
Proof. intros [-> | ->]; reflexivity. Qed.
Lemma swapped_mark_read be sz t : sz = 2 \/ sz = 4 -> units sz t -> as_read be sz (map (swapped sz) (0xFEFF :: t)) = t.
Proof.
  intros Hs Hu. cbn [map]. unfold as_read. rewrite N.eqb_refl. apply map_swapped_swapped; assumption.
Qed.

(* ------------------------------------------------------------- integers and fields *)

Lemma concat_bytes l : concat_value (map (fun b => (8, b)) l) = be_value l.
Proof.
  assert (S : forall l, fold_right (fun (a : N * N) s => fst a + s) 0 (map (fun b => (8, b)) l) = 8 * N.of_nat (length l)).
  { clear l. induction l as [|b l IH]; [reflexivity|]. cbn [map fold_right fst length]. rewrite IH. lia. }
  assert (G : forall l, of_le_bytes (rev l) = concat_value (map (fun b => (8, b)) l)).
  { clear l. induction l as [|b l IH]; [reflexivity|]. cbn [map rev concat_value]. rewrite S.
    rewrite of_le_bytes_snoc, rev_length, IH. lia. }
  rewrite be_value_rev. symmetry. apply G.
Qed.

Lemma pack_bytes_ok l : bytes l -> l <> [] -> pack_bytes l = Some (be_value l).
Proof.
  intros Hb Hne. unfold pack_bytes. rewrite bit_pack_ok; [rewrite concat_bytes; reflexivity| | | |].
  - destruct l; [congruence|discriminate].
  - unfold args_ok. rewrite Forall_map. exact Hb.
  - rewrite Forall_map. apply Forall_forall. intros x _. cbn. lia.
  - clear. apply N.eq_le_incl. induction l as [|b l IH]; [reflexivity|]. cbn [map length]. unfold total_bits in *. cbn [fold_right fst]. rewrite IH. lia.
Qed.

Lemma bytes_rev l : bytes l -> bytes (rev l).
Proof. apply Forall_rev. Qed.

Lemma slice_ok be id n first : bytes id -> (0 < n)%nat -> (first + n <= 16)%nat -> (first + n <= length id)%nat ->
  slice be id n first = Some (be_value (if be then rev (firstn n (skipn first id)) else firstn n (skipn first id))).
Proof.
  intros Hb Hn Hf Hl. unfold slice. destruct (Nat.ltb_spec 16 (first + n)); [lia|].
  assert (B : bytes (firstn n (skipn first id))) by (apply bytes_firstn, bytes_skipn, Hb).
  assert (L : length (firstn n (skipn first id)) = n) by (rewrite firstn_length, skipn_length; lia).
  assert (Ne : firstn n (skipn first id) <> []) by (intros E; rewrite E in L; cbn in L; lia).
  destruct be; apply pack_bytes_ok; try assumption.
  - apply bytes_rev, B.
  - intros E. apply Ne. rewrite <- (rev_involutive (firstn n (skipn first id))), E. reflexivity.
Qed.

Lemma be_bytes_value l : bytes l -> be_bytes (length l) (be_value l) = l.
Proof.
  intros Hb. rewrite be_bytes_rev, be_value_rev, <- (rev_length l). rewrite le_bytes_of_le_bytes; [apply rev_involutive|]. apply Forall_rev, Hb.
Qed.
Lemma be_value_bytes n x : x < 2 ^ (8 * N.of_nat n) -> be_value (be_bytes n x) = x.
Proof. intros H. rewrite be_bytes_rev, be_value_rev, rev_involutive, of_le_bytes_le_bytes. apply N.mod_small, H. Qed.

(* ------------------------------------------------------------------- constructors *)

Lemma byte_at_div i x : byte_at i x = x / 256 ^ i mod 256.
Proof. unfold byte_at. rewrite N.pow_mul_r. reflexivity. Qed.

Lemma selects_ok w x is : std_width w -> x < 2 ^ w -> Forall (fun i => i < w / 8) is -> selects w x is = Some (map (fun i => byte_at i x) is).
Proof.
  intros Hw Hx. induction 1 as [|i is Hi His IH]; [reflexivity|]. cbn [selects map]. rewrite byte_select_static_ok by assumption.
  cbn [option_bind]. rewrite IH. reflexivity.
Qed.

Lemma be_bytes_at n : forall x, be_bytes n x = map (fun i => byte_at (N.of_nat i) x) (rev (seq 0 n)).
Proof.
  induction n as [|n IH]; intros x; [reflexivity|]. cbn [be_bytes seq rev]. rewrite map_app. cbn [map]. rewrite <- seq_shift, map_rev, map_map.
  rewrite IH, map_rev. f_equal; [|rewrite byte_at_div; change (N.of_nat 0) with 0; rewrite N.pow_0_r, N.div_1_r; reflexivity].
  f_equal. apply map_ext. intros i. rewrite !byte_at_div, N.div_div; [|discriminate|apply N.pow_nonzero; discriminate]. f_equal. f_equal.
  rewrite Nat2N.inj_succ, N.pow_succ_r'. reflexivity.
Qed.

Lemma sw32 : std_width 32. Proof. unfold std_width; tauto. Qed.
Lemma sw16 : std_width 16. Proof. unfold std_width; tauto. Qed.
Lemma sw64 : std_width 64. Proof. unfold std_width; tauto. Qed.
Lemma sw128 : std_width 128. Proof. unfold std_width; tauto. Qed.

Ltac lt_list := repeat (apply Forall_cons; [reflexivity|]); apply Forall_nil.

Lemma fields_le tl tm th ch cl nd : tl < 2 ^ 32 -> tm < 2 ^ 16 -> th < 2 ^ 16 -> nd < 2 ^ 64 ->
  uuid_fields false tl tm th ch cl nd = Some (rfc_bytes tl tm th ch cl nd).
Proof.
  intros H1 H2 H3 H4. unfold uuid_fields, rfc_bytes. rewrite (selects_ok 32 tl) by (try exact sw32; try exact H1; lt_list). cbn [option_bind].
  rewrite (selects_ok 16 tm) by (try exact sw16; try exact H2; lt_list). cbn [option_bind].
  rewrite (selects_ok 16 th) by (try exact sw16; try exact H3; lt_list). cbn [option_bind].
  rewrite (selects_ok 64 nd) by (try exact sw64; try exact H4; lt_list). cbn [option_bind]. rewrite !be_bytes_at. reflexivity.
Qed.

Lemma fields16_le tl tm th cs nd : tl < 2 ^ 32 -> tm < 2 ^ 16 -> th < 2 ^ 16 -> cs < 2 ^ 16 -> nd < 2 ^ 64 ->
  uuid_fields16 false tl tm th cs nd = Some (rfc_bytes tl tm th (cs / 256) (cs mod 256) nd).
Proof.
  intros H1 H2 H3 H5 H4. unfold uuid_fields16, rfc_bytes. rewrite (selects_ok 32 tl) by (try exact sw32; try exact H1; lt_list). cbn [option_bind].
  rewrite (selects_ok 16 tm) by (try exact sw16; try exact H2; lt_list). cbn [option_bind].
  rewrite (selects_ok 16 th) by (try exact sw16; try exact H3; lt_list). cbn [option_bind].
  rewrite (selects_ok 16 cs) by (try exact sw16; try exact H5; lt_list). cbn [option_bind].
  rewrite (selects_ok 64 nd) by (try exact sw64; try exact H4; lt_list). cbn [option_bind]. rewrite !be_bytes_at.
  replace (cs / 256) with (byte_at 1 cs).
  2:{ rewrite byte_at_div. change (256 ^ 1) with 256. apply N.mod_small. change (2 ^ 16) with (256 * 256) in H5. apply N.div_lt_upper_bound; [discriminate|exact H5]. }
  replace (cs mod 256) with (byte_at 0 cs) by (rewrite byte_at_div; change (256 ^ 0) with 1; rewrite N.div_1_r; reflexivity). reflexivity.
Qed.

(** The node accessor keeps the low 48 bits of the last eight bytes. *)
Lemma be_value_app a b : be_value (a ++ b) = be_value a * 256 ^ N.of_nat (length b) + be_value b.
Proof.
  induction b as [|x b IH] using rev_ind; [cbn; rewrite app_nil_r; change (be_value []) with 0; lia|].
  rewrite app_assoc, !be_value_snoc, IH, app_length. cbn [length]. rewrite Nat2N.inj_add, N.pow_add_r. change (256 ^ N.of_nat 1) with 256. lia.
Qed.
Lemma be_value_bound l : bytes l -> be_value l < 256 ^ N.of_nat (length l).
Proof.
  induction l as [|b l IH] using rev_ind; intros H; [reflexivity|]. apply Forall_app in H. destruct H as [H Hb]. apply Forall_cons_iff in Hb. destruct Hb as [Hb _].
  rewrite be_value_snoc, app_length. cbn [length]. rewrite Nat2N.inj_add, N.pow_add_r. change (256 ^ N.of_nat 1) with 256. specialize (IH H). nia.
Qed.

Lemma node_le id : uuid_ok id -> node false id = Some (be_value (skipn 10 id)).
Proof.
  intros [Hb Hl]. unfold node. rewrite slice_ok by (try assumption; lia). cbn [option_bind]. f_equal.
  change 0xFFFFFFFFFFFF with (N.ones 48). rewrite N.land_ones.
  replace (firstn 8 (skipn 8 id)) with (firstn 2 (skipn 8 id) ++ skipn 10 id).
  - rewrite be_value_app. assert (L : length (skipn 10 id) = 6%nat) by (rewrite skipn_length; lia). rewrite L.
    change (256 ^ N.of_nat 6) with (2 ^ 48). rewrite N.add_comm, N.mod_add by discriminate. apply N.mod_small.
    pose proof (be_value_bound (skipn 10 id) (bytes_skipn 10 id Hb)) as K. rewrite L in K. exact K.
  - elems id Hl. reflexivity.
Qed.

Lemma of_u128 be x : x < 2 ^ 128 -> uuid_of_u128 be x = Some (be_bytes 16 x).
Proof.
  intros Hx. unfold uuid_of_u128. rewrite be_bytes_rev. destruct be; [reflexivity|].
  destruct (byte_reverse_bytes 16 128 x eq_refl ltac:(discriminate) sw128 Hx) as (r & -> & _ & E). cbn [option_bind mem128]. rewrite E. reflexivity.
Qed.

Lemma to_u128_cast be id : uuid_ok id -> uuid_to_u128 true be id = Some (be_value id).
Proof.
  intros [Hb Hl]. unfold uuid_to_u128, of_mem128. destruct be; [rewrite be_value_rev; reflexivity|].
  assert (Hx : of_le_bytes id < 2 ^ 128). { pose proof (of_le_bytes_bound id Hb) as K. rewrite Hl in K. exact K. }
  destruct (byte_reverse_bytes 16 128 (of_le_bytes id) eq_refl ltac:(discriminate) sw128 Hx) as (r & -> & Hr & E). f_equal.
  rewrite be_value_rev. rewrite <- Hl in E at 2. rewrite le_bytes_of_le_bytes in E by exact Hb. rewrite <- E.
  rewrite of_le_bytes_le_bytes. symmetry. apply N.mod_small. exact Hr.
Qed.
Lemma to_u128_pack_le id : uuid_ok id -> uuid_to_u128 false false id = Some (be_value id).
Proof. intros [Hb Hl]. unfold uuid_to_u128. apply pack_bytes_ok; [exact Hb|]. destruct id; discriminate. Qed.
Lemma to_u128_pack_be id : uuid_ok id -> uuid_to_u128 false true id = Some (be_value (rev id)).
Proof.
  intros [Hb Hl]. unfold uuid_to_u128. apply pack_bytes_ok; [apply bytes_rev, Hb|]. intros E. apply (f_equal (@length N)) in E.
  rewrite rev_length, Hl in E. discriminate.
Qed.

(* -------------------------------------------------------------------------- order *)

Lemma lex_value a : forall b, bytes a -> bytes b -> length a = length b -> be_value a < be_value b <-> lex a b.
Proof.
  induction a as [|x a IH]; intros [|y b] Ha Hb L; try discriminate.
  - split; [intros H; cbv in H; discriminate|intros H; inversion H].
  - injection L as L. apply Forall_cons_iff in Ha, Hb. destruct Ha as [Hx Ha], Hb as [Hy Hb].
    change (x :: a) with ([x] ++ a). change (y :: b) with ([y] ++ b). rewrite !be_value_app, <- L.
    change (be_value [x]) with x. change (be_value [y]) with y. pose proof (be_value_bound a Ha) as Ba. pose proof (be_value_bound b Hb) as Bb. rewrite <- L in Bb.
    set (P := 256 ^ N.of_nat (length a)) in *. cbn [app]. specialize (IH b Ha Hb L).
    destruct (N.lt_trichotomy x y) as [H|[->|H]].
    + split; [intros _; apply lex_here, H|intros _]. assert (x + 1 <= y) by lia. assert ((x + 1) * P <= y * P) by (apply N.mul_le_mono_r; assumption). lia.
    + split.
      * intros E. apply lex_there, IH. lia.
      * intros E. inversion E; subst; [lia|]. match goal with H : lex a b |- _ => apply IH in H; lia end.
    + split.
      * intros E. assert ((y + 1) * P <= x * P) by (apply N.mul_le_mono_r; lia). lia.
      * intros E. inversion E; subst; lia.
Qed.
Lemma value_inj a b : bytes a -> bytes b -> length a = length b -> be_value a = be_value b -> a = b.
Proof. intros Ha Hb L E. rewrite <- (be_bytes_value a Ha), <- (be_bytes_value b Hb), E, L. reflexivity. Qed.

Lemma compare_bytes a : forall b, bytes a -> bytes b -> length a = length b ->
  ((bytes_compare a b < 0)%Z <-> lex a b) /\ ((bytes_compare a b = 0)%Z <-> a = b) /\ ((0 < bytes_compare a b)%Z <-> lex b a).
Proof.
  induction a as [|x a IH]; intros [|y b] Ha Hb L; try discriminate.
  - cbn. repeat split; intros H; try lia; try inversion H.
  - injection L as L. apply Forall_cons_iff in Ha, Hb. destruct Ha as [Hx Ha], Hb as [Hy Hb]. destruct (IH b Ha Hb L) as (I1 & I2 & I3).
    cbn [bytes_compare]. destruct (N.eqb_spec x y) as [->|Hn]; cbn [negb].
    + split; [|split].
      * rewrite I1. split; [apply lex_there|intros E; inversion E; subst; [lia|assumption]].
      * rewrite I2. split; [intros ->; reflexivity|intros [= ->]; reflexivity].
      * rewrite I3. split; [apply lex_there|intros E; inversion E; subst; [lia|assumption]].
    + destruct (N.ltb_spec x y).
      * split; [|split]; (split; [try lia|]); [intros _; apply lex_here; assumption|lia|intros [= ]; congruence|intros E; inversion E; subst; lia].
      * split; [|split]; (split; [try lia|]); [intros E; inversion E; subst; lia|intros [= ]; congruence|intros _; apply lex_here; lia|lia].
Qed.

Definition sign_ok (c : Z) (a b : list N) : Prop := ((c < 0)%Z <-> lex a b) /\ ((c = 0)%Z <-> a = b) /\ ((0 < c)%Z <-> lex b a).

Lemma compare_ok int128 cast be a b : uuid_ok a -> uuid_ok b -> int128 = false \/ cast = true \/ be = false ->
  exists c, uuid_compare int128 cast be a b = Some c /\ sign_ok c a b.
Proof.
  intros [Ha La] [Hb Lb] H. assert (L : length a = length b) by congruence. unfold uuid_compare. destruct int128.
  2:{ eexists. split; [reflexivity|]. apply compare_bytes; assumption. }
  assert (E : forall id, uuid_ok id -> uuid_to_u128 cast be id = Some (be_value id)).
  { intros id Hid. destruct H as [H|[->|H]]; [discriminate|apply to_u128_cast, Hid|subst be; destruct cast; [apply to_u128_cast, Hid|apply to_u128_pack_le, Hid]]. }
  rewrite !E by (split; assumption). cbn [option_bind]. eexists. split; [reflexivity|]. unfold sign_ok.
  rewrite <- !lex_value by (try assumption; congruence).
  assert (I : a = b <-> be_value a = be_value b) by (split; [intros ->; reflexivity|apply value_inj; assumption]). rewrite I.
  destruct (N.eqb_spec (be_value a) (be_value b)); cbn [negb]; [lia|]. destruct (N.ltb_spec (be_value a) (be_value b)); lia.
Qed.

Lemma eqb_ok cast be a b : uuid_ok a -> uuid_ok b -> uuid_eqb cast be a b = true <-> a = b.
Proof.
  intros [Ha La] [Hb Lb]. unfold uuid_eqb. destruct cast.
  - rewrite N.eqb_eq. split; [|intros ->; reflexivity]. unfold of_mem128. destruct be; rewrite <- ?be_value_rev; intros E.
    + apply value_inj; try assumption. congruence.
    + rewrite <- (le_bytes_of_le_bytes a Ha), <- (le_bytes_of_le_bytes b Hb), E, La, Lb. reflexivity.
  - assert (L : length a = length b) by congruence. clear La Lb Ha Hb. revert b L. induction a as [|x a IH]; intros [|y b] L; try discriminate; cbn [bytes_eqb]; [tauto|].
    destruct (N.eqb_spec x y) as [->|Hn]; cbn [negb].
    + rewrite IH by (injection L as L; exact L). split; [intros ->; reflexivity|intros [= ->]; reflexivity].
    + split; [discriminate|intros [= ]; congruence].
Qed.

Lemma bool_ok cast be id : uuid_ok id -> uuid_bool cast be id = true <-> id <> repeat 0 16.
Proof.
  intros [Hb Hl]. assert (U : uuid_ok (repeat 0 16)) by (split; [apply Forall_forall; intros x Hx; apply repeat_spec in Hx; subst x; reflexivity|reflexivity]).
  unfold uuid_bool. destruct cast.
  - rewrite negb_true_iff, N.eqb_neq. rewrite <- (eqb_ok true be id (repeat 0 16)) by (try exact U; split; assumption). unfold uuid_eqb.
    replace (of_mem128 be (repeat 0 16)) with 0 by (destruct be; reflexivity). rewrite N.eqb_eq. reflexivity.
  - clear Hb. elems id Hl. cbn [existsb repeat]. split.
    + intros H [= -> -> -> -> -> -> -> -> -> -> -> -> -> -> -> ->]. discriminate.
    + intros H. destruct (_ || _) eqn:E; [reflexivity|]. exfalso. apply H.
      repeat (apply orb_false_iff in E; destruct E as [E0 E]; apply negb_false_iff, N.eqb_eq in E0; subst). reflexivity.
Qed.

(* ------------------------------------------------------------------- generation *)

Lemma stamp_ok v id : bytes id -> (9 <= length id)%nat -> v < 16 -> stamp (16 * v) id = stamped v id.
Proof.
  intros Hb Hl Hv. do 9 (destruct id as [|? id]; [cbn in Hl; lia|]). unfold bytes in Hb. rewrite !Forall_cons_iff in Hb.
  unfold stamp, stamped, upd, byte_of. cbn [firstn skipn nth app].
  change 0x0F with (N.ones 4). change 0x3F with (N.ones 6). rewrite !N.land_ones. change (2 ^ 4) with 16. change (2 ^ 6) with 64.
  rewrite (lor_add (16 * v) _ 4), (lor_add 0x80 _ 6); [reflexivity|apply N.mod_lt; discriminate|reflexivity|apply N.mod_lt; discriminate|].
  change (2 ^ 4) with 16. rewrite N.mul_comm. apply N.mod_mul. discriminate.
Qed.

Lemma stamped_facts v id : bytes id -> length id = 16%nat -> v < 16 ->
  uuid_ok (stamped v id) /\ rfc_version (stamped v id) = v /\ rfc_variant (stamped v id).
Proof.
  intros Hb Hl Hv. elems id Hl. unfold stamped, rfc_version, rfc_variant, uuid_ok. cbn [firstn skipn nth app].
  unfold bytes in *. rewrite !Forall_cons_iff in *.
  assert (M6 : a6 mod 16 < 16) by (apply N.mod_lt; discriminate). assert (M8 : a8 mod 64 < 64) by (apply N.mod_lt; discriminate).
  split; [|split].
  - split; [|reflexivity]. repeat split; try lia; apply Hb.
  - symmetry. apply (N.div_unique _ _ _ (a6 mod 16)); lia.
  - symmetry. apply (N.div_unique _ _ _ (a8 mod 64)); lia.
Qed.

Lemma version_sweep : forallb (fun b => (uuid_version (repeat 0 6 ++ [b]) =? if b / 16 <=? 5 then b / 16 else 15)) bytes256 = true.
Proof. vm_compute. reflexivity. Qed.
Lemma version_ok id : uuid_ok id -> uuid_version id = if rfc_version id <=? 5 then rfc_version id else 15.
Proof.
  intros [Hb Hl]. elems id Hl. unfold bytes in Hb. rewrite !Forall_cons_iff in Hb. pose proof version_sweep as T. rewrite forallb_forall in T.
  specialize (T a6 (in_bytes256 a6 ltac:(apply Hb))). apply N.eqb_eq in T. exact T.
Qed.

Definition name_of (v : variant) : variant_name :=
  match v with VNone => NoVariant | VStandard => Rfc | VNcs => Ncs | VMicrosoft => Microsoft | VFuture => Future end.
Definition vn_eqb (a b : variant_name) : bool :=
  match a, b with NoVariant, NoVariant | Ncs, Ncs | Rfc, Rfc | Microsoft, Microsoft | Future, Future => true | _, _ => false end.
Lemma variant_sweep : forallb (fun b => vn_eqb (name_of (uuid_variant (repeat 0 8 ++ [b]))) (variant_of (repeat 0 8 ++ [b]))) bytes256 = true.
Proof. vm_compute. reflexivity. Qed.
Lemma variant_ok id : uuid_ok id -> name_of (uuid_variant id) = variant_of id.
Proof.
  intros [Hb Hl]. elems id Hl. unfold bytes in Hb. rewrite !Forall_cons_iff in Hb. pose proof variant_sweep as T. rewrite forallb_forall in T.
  specialize (T a8 (in_bytes256 a8 ltac:(apply Hb))).
  change (vn_eqb (name_of (uuid_variant [a0; a1; a2; a3; a4; a5; a6; a7; a8; a9; a10; a11; a12; a13; a14; a15]))
                 (variant_of [a0; a1; a2; a3; a4; a5; a6; a7; a8; a9; a10; a11; a12; a13; a14; a15]) = true) in T.
  destruct (name_of _), (variant_of _); (reflexivity || discriminate).
Qed.
Lemma rfc_variant_of id : uuid_ok id -> rfc_variant id <-> variant_of id = Rfc.
Proof.
  intros [Hb Hl]. elems id Hl. unfold rfc_variant, variant_of. cbn [nth]. set (b := a8). clearbody b.
  assert (E : b / 64 = 2 <-> 128 <= b < 192).
  { pose proof (N.div_mod b 64 ltac:(discriminate)). pose proof (N.mod_lt b 64 ltac:(discriminate)). set (q := b / 64) in *. set (r := b mod 64) in *. clearbody q r. lia. }
  rewrite E. destruct (N.ltb_spec b 32); [split; [lia|discriminate]|]. destruct (N.ltb_spec b 128); [split; [lia|discriminate]|].
  destruct (N.ltb_spec b 192); [split; [reflexivity|lia]|]. destruct (N.ltb_spec b 224); (split; [lia|discriminate]).
Qed.

Lemma named_ok be junk ns name : length junk = 64%nat -> bytes ns -> bytes name ->
  uuid_named be junk ns name = Some (stamped 5 (firstn 16 (code_digest (ns ++ name)))).
Proof.
  intros Hj Hn Hm. unfold uuid_named. destruct (Rep_data be _ [] ns (Rep_init junk Hj) Hn) as (s1 & -> & R1). cbn [option_bind app] in *.
  assert (E : exists s2, (match name with [] => Some s1 | _ => sha_data be s1 name end) = Some s2 /\ Rep s2 (ns ++ name)).
  { destruct name as [|x name]; [exists s1; rewrite app_nil_r; split; [reflexivity|exact R1]|]. apply Rep_data; assumption. }
  destruct E as (s2 & -> & R2). cbn [option_bind]. destruct (finish_ok be s2 _ R2) as (s3 & -> & _ & D). cbn [option_bind]. rewrite D.
  f_equal. change 0x50 with (16 * 5).
  assert (B : bytes (code_digest (ns ++ name)) /\ length (code_digest (ns ++ name)) = 20%nat).
  { unfold code_digest, digest_bytes. destruct (fold_left _ _ _) as [[[[a b] c] d] e]. split.
    - unfold bytes. rewrite !Forall_app. repeat split; apply be_bytes_bytes.
    - rewrite !app_length, !be_bytes_length. reflexivity. }
  destruct B as [B L]. apply stamp_ok; [apply bytes_firstn, B|rewrite firstn_length; lia|reflexivity].
Qed.

(* ----------------------------------------------------------------- hex digits of a text *)

Lemma hex_values_app a b : hex_values (a ++ b) = hex_values a ++ hex_values b.
Proof. apply flat_map_app. Qed.
Lemma hex_values_none l : Forall (fun c => hex_value c = None) l -> hex_values l = [].
Proof. induction 1 as [|c l H Hl IH]; [reflexivity|]. cbn. rewrite H. exact IH. Qed.
Lemma octets_nibbles os t : octets_text os t -> hex_values t = nibbles os.
Proof.
  assert (V : forall c v, hex_value c = Some v -> v < 16).
  { intros c v H. pose proof (hex_ok c (hex_ascii c v H)) as K. rewrite H in K. apply K. }
  assert (D : forall h l a b, hex_value h = Some a -> hex_value l = Some b -> (16 * a + b) / 16 = a /\ (16 * a + b) mod 16 = b).
  { intros h l a b Hh Hl. apply V in Hh, Hl. split; symmetry; [apply (N.div_unique _ _ _ b)|apply (N.mod_unique _ _ a)]; lia. }
  induction 1 as [h l a b Hh Hl|h l a b seps os t Hh Hl Hs T IH]; destruct (D h l a b Hh Hl) as [D1 D2].
  - cbn [hex_values nibbles flat_map app]. rewrite Hh, Hl, D1, D2. reflexivity.
  - cbn [hex_values nibbles flat_map app]. fold (hex_values (seps ++ t)). fold (nibbles os). rewrite Hh, Hl, D1, D2, hex_values_app, IH.
    rewrite (hex_values_none seps); [reflexivity|]. eapply Forall_impl; [|exact Hs]. apply sep_not_hex.
Qed.
Lemma text_nibbles u t : uuid_text u t -> hex_values t = nibbles u /\ length u = 16%nat.
Proof.
  assert (W : forall w, Forall blank w -> hex_values w = []).
  { intros w H. apply hex_values_none. eapply Forall_impl; [|exact H]. apply blank_not_hex. }
  intros [w1 t' w2 L T H1 H2|w1 w2 t' w3 w4 L T H1 H2 H3 H4]; (split; [|exact L]);
    rewrite !hex_values_app, (octets_nibbles _ _ T), (W w1), (W w2) by assumption;
    change (hex_values [0x7B]) with (@nil N); change (hex_values [0x7D]) with (@nil N); cbn [app]; rewrite ?(W w2), ?(W w3), ?(W w4) by assumption; cbn [app]; rewrite ?app_nil_r; reflexivity.
Qed.
Lemma high_not_hex c : 128 <= c -> hex_value c = None.
Proof. intros H. destruct (hex_value c) as [v|] eqn:E; [|reflexivity]. apply hex_ascii in E. lia. Qed.
Lemma cut_high l : cut_short l -> Forall (fun c => 128 <= c < 256) l /\ (1 <= length l <= 3)%nat.
Proof.
  intros [Hn (ext & He & W)].
  assert (K : forall s, wf_seq s -> (2 <= length s)%nat -> Forall (fun c => 128 <= c < 256) s /\ (length s <= 4)%nat).
  { intros s. destruct 1; unfold rng in *; cbn [length]; intros; try lia; (split; [|lia]); repeat (apply Forall_cons; [lia|]); apply Forall_nil. }
  assert (L : (2 <= length (l ++ ext))%nat) by (rewrite app_length; destruct l; [congruence|]; destruct ext; [congruence|cbn; lia]).
  destruct (K _ W L) as [F L4]. apply Forall_app in F. split; [apply F|]. rewrite app_length in L4. destruct l; [congruence|]. destruct ext; [congruence|]. cbn [length] in *. lia.
Qed.

Lemma octets_inv h l a b r : hex_value h = Some a -> hex_value l = Some b -> forall os, octets_text os (h :: l :: r) ->
  (os = [16 * a + b] /\ r = []) \/ exists seps t os', r = seps ++ t /\ Forall separator seps /\ octets_text os' t /\ os = (16 * a + b) :: os'.
Proof.
  intros Hh Hl os H. inversion H; subst; [left; split; [f_equal; congruence|reflexivity]|]. right. eexists _, _, _. split; [reflexivity|]. split; [eassumption|].
  split; [eassumption|]. f_equal. congruence.
Qed.

(** Changing the case of letters does not matter. *)
Lemma same_letter_hex a b : same_letter a b -> hex_value a = hex_value b.
Proof.
  intros [->|(k & Hk & H)]; [reflexivity|].
  assert (U : hex_value (0x41 + k) = Some (10 + k) /\ hex_value (0x61 + k) = Some (10 + k)).
  { split; unfold hex_value.
    - destruct ((48 <=? 65 + k) && (65 + k <=? 57)) eqn:E; [lia|]. destruct ((65 <=? 65 + k) && (65 + k <=? 70)) eqn:E2; [f_equal; lia|lia].
    - destruct ((48 <=? 97 + k) && (97 + k <=? 57)) eqn:E; [lia|]. destruct ((65 <=? 97 + k) && (97 + k <=? 70)) eqn:E2; [lia|].
      destruct ((97 <=? 97 + k) && (97 + k <=? 102)) eqn:E3; [f_equal; lia|lia]. }
  destruct U as [U1 U2]. destruct H as [[-> ->]|[-> ->]]; congruence.
Qed.
Lemma same_letter_sep a b : same_letter a b -> (separator a \/ a = 0x7B \/ a = 0x7D) -> b = a.
Proof. intros [->|(k & Hk & H)]; [reflexivity|]. unfold separator, blank. cbn [In]. intros K. exfalso. lia. Qed.
Lemma same_seps s s' : Forall2 same_letter s s' -> Forall separator s -> s' = s.
Proof.
  induction 1 as [|a b s s' Hab H IH]; intros F; [reflexivity|]. apply Forall_cons_iff in F. destruct F as [Ha F].
  rewrite (IH F), (same_letter_sep a b Hab) by (left; exact Ha). reflexivity.
Qed.
Lemma same_octets os t : octets_text os t -> forall t', Forall2 same_letter t t' -> octets_text os t'.
Proof.
  induction 1 as [h l a b Hh Hl|h l a b seps os t Hh Hl Hs T IH]; intros t' H.
  - inversion H as [|? h' ? r Hh' H']; subst. inversion H' as [|? l' ? r2 Hl' H2]; subst. inversion H2; subst.
    apply ot_last; rewrite <- ?(same_letter_hex _ _ Hh'), <- ?(same_letter_hex _ _ Hl'); assumption.
  - inversion H as [|? h' ? r Hh' H']; subst. inversion H' as [|? l' ? r2 Hl' H2]; subst.
    apply Forall2_app_inv_l in H2. destruct H2 as (s' & t2 & Fs & Ft & ->). rewrite (same_seps _ _ Fs Hs).
    apply ot_more; [rewrite <- (same_letter_hex _ _ Hh'); exact Hh|rewrite <- (same_letter_hex _ _ Hl'); exact Hl|exact Hs|apply IH, Ft].
Qed.
Lemma same_blank w w' : Forall2 same_letter w w' -> Forall blank w -> w' = w.
Proof. intros H F. apply same_seps; [exact H|]. eapply Forall_impl; [|exact F]. intros c Hc. right. exact Hc. Qed.
Lemma same_text u t : uuid_text u t -> forall t', Forall2 same_letter t t' -> uuid_text u t'.
Proof.
  intros [w1 t0 w2 L T H1 H2|w1 w2 t0 w3 w4 L T H1 H2 H3 H4] t' F.
  - apply Forall2_app_inv_l in F. destruct F as (x1 & y & F1 & F & ->). apply Forall2_app_inv_l in F. destruct F as (x2 & x3 & F2 & F3 & ->).
    rewrite (same_blank _ _ F1 H1), (same_blank _ _ F3 H2). apply ut_plain; try assumption. apply (same_octets _ _ T _ F2).
  - apply Forall2_app_inv_l in F. destruct F as (x1 & y & F1 & F & ->). apply Forall2_app_inv_l in F. destruct F as (b1 & y2 & Fb1 & F & ->).
    apply Forall2_app_inv_l in F. destruct F as (x2 & y3 & F2 & F & ->). apply Forall2_app_inv_l in F. destruct F as (x3 & y4 & F3 & F & ->).
    apply Forall2_app_inv_l in F. destruct F as (x4 & y5 & F4 & F & ->). apply Forall2_app_inv_l in F. destruct F as (b2 & x5 & Fb2 & F5 & ->).
    inversion Fb1 as [|? c1 ? r1 Hc1 Fr1]; subst. inversion Fr1; subst. inversion Fb2 as [|? c2 ? r2 Hc2 Fr2]; subst. inversion Fr2; subst.
    rewrite (same_letter_sep _ _ Hc1), (same_letter_sep _ _ Hc2) by tauto.
    rewrite (same_blank _ _ F1 H1), (same_blank _ _ F2 H2), (same_blank _ _ F4 H3), (same_blank _ _ F5 H4).
    apply ut_braced; try assumption. apply (same_octets _ _ T _ F3).
Qed.
