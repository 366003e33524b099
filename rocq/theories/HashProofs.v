(** Proofs about sha1: the compression function and the block buffer. *)
From Verif Require Import Words WordsProofs BitsModel BitsSpec BitsProofs3 UtfModel UtfProofs HashModel HashSpec.
From Coq Require Import ZifyBool ZifyNat ZifyN.
Local Open Scope N_scope.

Definition w32 (x : N) : Prop := x < 2 ^ 32.

Lemma rol_ROTL n x : n <= 32 -> w32 x -> rol x n = ROTL n x.
Proof.
  intros Hn Hx. unfold rol, ROTL, trunc. rewrite N.shiftl_mul_pow2, N.shiftr_div_pow2.
  assert (P : 2 ^ 32 = 2 ^ (32 - n) * 2 ^ n) by (rewrite <- N.pow_add_r; f_equal; lia).
  assert (Z1 : 2 ^ n <> 0) by (apply N.pow_nonzero; discriminate).
  assert (Z2 : 2 ^ (32 - n) <> 0) by (apply N.pow_nonzero; discriminate).
  rewrite N.lor_comm. apply lor_add with (k := n).
  - unfold w32 in Hx. apply N.div_lt_upper_bound; [exact Z2|]. rewrite <- P. exact Hx.
  - rewrite P. rewrite N.mul_mod_distr_r by assumption. apply N.mod_mul, Z1.
Qed.

Lemma rol_lt x n : n <= 32 -> w32 x -> w32 (rol x n).
Proof.
  intros Hn Hx. unfold w32, rol. apply lt_pow2_bits. intros i Hi. rewrite N.lor_spec, testbit_trunc, testbit_shiftr.
  rewrite (testbit_high 32 x) by (try exact Hx; lia). destruct (N.ltb_spec i 32); [lia|reflexivity].
Qed.

Lemma w32_bits x i : w32 x -> 32 <= i -> N.testbit x i = false.
Proof. intros. apply testbit_high with 32; assumption. Qed.

Lemma lxor_w32 x y : w32 x -> w32 y -> w32 (N.lxor x y).
Proof. intros Hx Hy. apply lt_pow2_bits. intros i Hi. rewrite N.lxor_spec, !w32_bits by assumption. reflexivity. Qed.

Lemma mix_w32 k x y z : w32 x -> w32 y -> w32 z -> w32 (mix k x y z).
Proof.
  intros Hx Hy Hz. apply lt_pow2_bits. intros i Hi.
  destruct k; cbn [mix]; rewrite ?N.lxor_spec, ?N.lor_spec, ?N.land_spec, ?N.lxor_spec, ?N.lor_spec, !w32_bits by assumption; reflexivity.
Qed.

Lemma mix_ch x y z : w32 x -> w32 y -> w32 z -> N.lxor (N.land x (N.lxor y z)) z = Ch x y z.
Proof.
  intros Hx Hy Hz. unfold Ch, NOT32. change (2 ^ 32 - 1) with (N.ones 32).
  replace (N.ones 32 - x) with (N.lnot x 32).
  2:{ apply N.lnot_sub_low. destruct (N.eq_dec x 0) as [->|Hn]; [reflexivity|]. apply N.log2_lt_pow2; [lia|exact Hx]. }
  apply N.bits_inj. intros i. rewrite !N.lxor_spec, !N.land_spec, !N.lxor_spec. destruct (N.ltb_spec i 32) as [Hi|Hi].
  - rewrite N.lnot_spec_low by exact Hi. destruct (N.testbit x i), (N.testbit y i), (N.testbit z i); reflexivity.
  - rewrite !w32_bits by assumption. rewrite !andb_false_r. reflexivity.
Qed.

Lemma mix_maj x y z : N.lor (N.land (N.lor x y) z) (N.land x y) = Maj x y z.
Proof.
  unfold Maj. apply N.bits_inj. intros i.
  rewrite !N.lxor_spec, !N.lor_spec, !N.land_spec, !N.lor_spec.
  destruct (N.testbit x i), (N.testbit y i), (N.testbit z i); reflexivity.
Qed.

(** The calls, by formula. *)
Definition kind_of (t : nat) : rkind :=
  if (t <? 16)%nat then R0 else if (t <? 20)%nat then R1 else if (t <? 40)%nat then R2 else if (t <? 60)%nat then R3 else R4.
Definition call_of (t : nat) : rcall :=
  let k := (t mod 5)%nat in
  (kind_of t, ((5 - k) mod 5, (6 - k) mod 5, (7 - k) mod 5, (8 - k) mod 5, (9 - k) mod 5)%nat, (t mod 16)%nat).
Lemma calls_formula : calls = map call_of (seq 0 80).
Proof. vm_compute. reflexivity. Qed.

Lemma kind_f t x y z : w32 x -> w32 y -> w32 z -> mix (kind_of t) x y z = sha_f t x y z /\ rconst (kind_of t) = sha_K t.
Proof.
  intros Hx Hy Hz. unfold kind_of, sha_f, sha_K.
  destruct (Nat.ltb_spec t 16); [destruct (Nat.ltb_spec t 20); [|lia]|].
  - split; [apply mix_ch; assumption|reflexivity].
  - destruct (Nat.ltb_spec t 20); [split; [apply mix_ch; assumption|reflexivity]|].
    destruct (Nat.ltb_spec t 40); [split; reflexivity|]. destruct (Nat.ltb_spec t 60); [split; [apply mix_maj|reflexivity]|split; reflexivity].
Qed.

(* ----------------------------------------------------- the message schedule *)

Lemma sched_length m n : length (sched m n) = (length m + n)%nat.
Proof. induction n as [|n IH]; cbn [sched]; [lia|]. rewrite app_length, IH. cbn. lia. Qed.

Lemma sched_stable m n k t : (t < length m + n)%nat -> nth t (sched m (n + k)) 0 = nth t (sched m n) 0.
Proof.
  intros Ht. induction k as [|k IH]; [rewrite Nat.add_0_r; reflexivity|]. rewrite Nat.add_succ_r. cbn [sched].
  rewrite app_nth1 by (rewrite sched_length; lia). exact IH.
Qed.

Lemma W_low m t : length m = 16%nat -> (t < 16)%nat -> sha_W m t = nth t m 0.
Proof. intros Hm Ht. unfold sha_W. change 64%nat with (0 + 64)%nat. rewrite sched_stable by lia. reflexivity. Qed.

Lemma W_step m t : length m = 16%nat -> (16 <= t < 80)%nat ->
  sha_W m t = ROTL 1 (N.lxor (N.lxor (N.lxor (sha_W m (t - 3)) (sha_W m (t - 8))) (sha_W m (t - 14))) (sha_W m (t - 16))).
Proof.
  intros Hm Ht. remember (t - 16)%nat as k eqn:Hk.
  assert (G : forall s, (s < t)%nat -> sha_W m s = nth s (sched m k) 0).
  { intros s Hs. unfold sha_W. replace 64%nat with (k + (64 - k))%nat by lia. apply sched_stable. lia. }
  replace (t - 3)%nat with (k + 13)%nat by lia. replace (t - 8)%nat with (k + 8)%nat by lia. replace (t - 14)%nat with (k + 2)%nat by lia.
  rewrite (G (k + 13)%nat), (G (k + 8)%nat), (G (k + 2)%nat), (G k) by lia. unfold sha_W. replace 64%nat with (S k + (64 - S k))%nat by lia.
  rewrite sched_stable by lia. cbn [sched]. rewrite app_nth2 by (rewrite sched_length; lia).
  rewrite sched_length. replace (t - (length m + k))%nat with 0%nat by lia. cbn [nth].
  replace (16 + k - 3)%nat with (k + 13)%nat by lia. replace (16 + k - 8)%nat with (k + 8)%nat by lia. replace (16 + k - 14)%nat with (k + 2)%nat by lia. replace (16 + k - 16)%nat with k by lia. reflexivity.
Qed.

Lemma ROTL_w32 n x : n <= 32 -> w32 x -> w32 (ROTL n x).
Proof. intros. rewrite <- rol_ROTL by assumption. apply rol_lt; assumption. Qed.

Lemma W_w32 m : length m = 16%nat -> Forall w32 m -> forall t, (t < 80)%nat -> w32 (sha_W m t).
Proof.
  intros Hm Hw t. induction t as [t IH] using lt_wf_ind. intros Ht. destruct (Nat.ltb_spec t 16).
  - rewrite W_low by assumption. rewrite Forall_forall in Hw. apply Hw, nth_In. lia.
  - rewrite W_step by lia. apply ROTL_w32; [lia|]. repeat apply lxor_w32; apply IH; lia.
Qed.

(** The circular buffer holds the last sixteen schedule words. *)
Definition Inv (m : list N) (t : nat) (bl : list N) : Prop :=
  length bl = 16%nat /\
  forall s, (Nat.max 16 t - 16 <= s < Nat.max 16 t)%nat -> nth (s mod 16) bl 0 = sha_W m s.

Lemma upd_length {A} (l : list A) i x : (i < length l)%nat -> length (upd l i x) = length l.
Proof. intros H. unfold upd. rewrite app_length, firstn_length. cbn [length]. rewrite skipn_length. lia. Qed.

Lemma skipn_skipn {A} x : forall y (l : list A), skipn x (skipn y l) = skipn (x + y) l.
Proof.
  intros y. induction y as [|y IH]; intros l; [rewrite Nat.add_0_r; reflexivity|]. rewrite Nat.add_succ_r.
  destruct l as [|a l]; [rewrite !skipn_nil; reflexivity|]. cbn [skipn]. apply IH.
Qed.

Lemma nth_upd (l : list N) i j x : (i < length l)%nat -> nth j (upd l i x) 0 = if (j =? i)%nat then x else nth j l 0.
Proof.
  intros H. unfold upd. destruct (Nat.eqb_spec j i) as [->|Hn].
  - rewrite app_nth2 by (rewrite firstn_length; lia). rewrite firstn_length. replace (i - Nat.min i (length l))%nat with 0%nat by lia. reflexivity.
  - rewrite <- (firstn_skipn i l) at 3. destruct (Nat.ltb_spec j i).
    + rewrite !app_nth1 by (rewrite firstn_length; lia). reflexivity.
    + rewrite !app_nth2 by (rewrite firstn_length; lia). rewrite firstn_length.
      replace (j - Nat.min i (length l))%nat with (S (j - i - 1)) by lia. cbn [nth].
      rewrite <- (firstn_skipn 1 (skipn i l)) at 1. rewrite app_nth2; rewrite firstn_length, skipn_length; [|lia].
      replace (S (j - i - 1) - Nat.min 1 (length l - i))%nat with (j - i - 1)%nat by lia.
      rewrite skipn_skipn. reflexivity.
Qed.

Lemma land15 x : Nat.land x 15 = (x mod 16)%nat.
Proof. change 15%nat with (Nat.ones 4). rewrite Nat.land_ones. reflexivity. Qed.

Ltac Zify.zify_post_hook ::= Z.div_mod_to_equations.
Lemma Inv_step m t bl : length m = 16%nat -> Forall w32 m -> (16 <= t < 80)%nat -> Inv m t bl ->
  Inv m (S t) (upd bl (t mod 16) (blk bl (t mod 16))) /\ nth (t mod 16) (upd bl (t mod 16) (blk bl (t mod 16))) 0 = sha_W m t.
Proof.
  intros Hm Hw Ht [Hl H].
  assert (B : blk bl (t mod 16) = sha_W m t).
  { unfold blk. rewrite !land15.
    replace ((t mod 16 + 13) mod 16)%nat with ((t - 3) mod 16)%nat by lia.
    replace ((t mod 16 + 8) mod 16)%nat with ((t - 8) mod 16)%nat by lia.
    replace ((t mod 16 + 2) mod 16)%nat with ((t - 14) mod 16)%nat by lia.
    replace (t mod 16)%nat with ((t - 16) mod 16)%nat by lia.
    rewrite !H by lia. rewrite rol_ROTL; [|lia|repeat apply lxor_w32; apply W_w32; try assumption; lia].
    symmetry. apply W_step; assumption. }
  assert (Hi : (t mod 16 < length bl)%nat) by lia.
  split.
  - split; [rewrite upd_length; assumption|]. intros s Hs. rewrite nth_upd by exact Hi. destruct (Nat.eqb_spec (s mod 16) (t mod 16)) as [E|E].
    + assert (s = t) as -> by lia. exact B.
    + apply H. lia.
  - rewrite nth_upd by exact Hi. rewrite Nat.eqb_refl. exact B.
Qed.
Ltac Zify.zify_post_hook ::= idtac.

(* ---------------------------------------------------------------- the rounds *)

Definition vl (r : vars) : list N := let '(a, b, c, d, e) := r in [a; b; c; d; e].
Definition vw (r : vars) : Prop := let '(a, b, c, d, e) := r in w32 a /\ w32 b /\ w32 c /\ w32 d /\ w32 e.
(** Where the five variables are after [t] rounds: the code renames them instead of moving them. *)
Definition arr (k : nat) (r : vars) : list N :=
  let '(a, b, c, d, e) := r in
  match k with
  | 0 => [a; b; c; d; e] | 1 => [b; c; d; e; a] | 2 => [c; d; e; a; b] | 3 => [d; e; a; b; c] | _ => [e; a; b; c; d]
  end%nat.

Lemma sum32 z f W K r : add_wrap 32 z (add_wrap 32 (add_wrap 32 (add_wrap 32 f W) K) r) = (r + f + z + K + W) mod 2 ^ 32.
Proof.
  unfold add_wrap, trunc. assert (Z : 2 ^ 32 <> 0) by discriminate.
  rewrite (N.add_mod_idemp_l (f + W) K), (N.add_mod_idemp_l (f + W + K) r), N.add_mod_idemp_r by exact Z. f_equal. lia.
Qed.

Lemma rstep_round m t bl r : length m = 16%nat -> Forall w32 m -> (t < 80)%nat -> Inv m t bl -> vw r ->
  exists bl', rstep (arr (t mod 5) r, bl) (call_of t) = (arr (S t mod 5) (sha_round m r t), bl') /\
    Inv m (S t) bl' /\ vw (sha_round m r t).
Proof.
  intros Hm Hw Ht HI Hr. destruct r as [[[[a b] c] d] e]. destruct Hr as (Ha & Hb & Hc & Hd & He).
  unfold call_of, rstep.
  set (bl' := match kind_of t with R0 => bl | _ => upd bl (t mod 16) (blk bl (t mod 16)) end).
  assert (HB : Inv m (S t) bl' /\ nth (t mod 16) bl' 0 = sha_W m t).
  { subst bl'. destruct (Nat.ltb_spec t 16) as [Hlt|Hge].
    - unfold kind_of. destruct (Nat.ltb_spec t 16); [|lia]. split.
      + destruct HI as [Hl HH]. split; [exact Hl|]. intros s Hs. apply HH. lia.
      + apply (proj2 HI). lia.
    - assert (E : (match kind_of t with R0 => bl | _ => upd bl (t mod 16) (blk bl (t mod 16)) end) = upd bl (t mod 16) (blk bl (t mod 16))).
      { unfold kind_of. destruct (Nat.ltb_spec t 16); [lia|]. destruct (t <? 20)%nat; [reflexivity|]. destruct (t <? 40)%nat; [reflexivity|].
        destruct (t <? 60)%nat; reflexivity. }
      rewrite E. apply Inv_step; [assumption|assumption|lia|exact HI]. }
  destruct HB as [HI' HW]. clearbody bl'. exists bl'.
  assert (Main : forall x1 x2, rol b 30 = x1 -> x2 = sha_W m t ->
    add_wrap 32 e (add_wrap 32 (add_wrap 32 (add_wrap 32 (mix (kind_of t) b c d) x2) (rconst (kind_of t))) (rol a 5))
    = (ROTL 5 a + sha_f t b c d + e + sha_K t + sha_W m t) mod 2 ^ 32).
  { intros x1 x2 _ ->. rewrite sum32. destruct (kind_f t b c d Hb Hc Hd) as [-> ->]. rewrite rol_ROTL by (try exact Ha; lia). reflexivity. }
  assert (R30 : rol b 30 = ROTL 30 b) by (apply rol_ROTL; [lia|exact Hb]).
  pose proof (Nat.mod_upper_bound t 5 ltac:(lia)) as Hk.
  assert (HS : (S t mod 5 = if t mod 5 =? 4 then 0 else S (t mod 5))%nat).
  { destruct (Nat.eqb_spec (t mod 5) 4) as [E|E].
    - symmetry. apply (Nat.mod_unique _ _ (S (t / 5))); [lia|]. pose proof (Nat.div_mod t 5). lia.
    - symmetry. apply (Nat.mod_unique _ _ (t / 5)); [lia|]. pose proof (Nat.div_mod t 5). lia. }
  rewrite HS. split; [|split; [exact HI'|]].
  - set (ti := (t mod 16)%nat) in *. clearbody ti. destruct (t mod 5)%nat as [|[|[|[|[|k]]]]]; [..|lia];
      cbn [Nat.sub Nat.modulo Nat.divmod snd fst arr upd firstn skipn app nth Nat.eqb];
      rewrite HW, (Main _ _ eq_refl eq_refl), R30; reflexivity.
  - cbn [sha_round vw]. repeat split; try assumption.
    + apply N.mod_lt. discriminate.
    + apply ROTL_w32; [lia|exact Hb].
Qed.

Lemma rounds_ok m n : length m = 16%nat -> Forall w32 m -> forall t bl r, (t + n <= 80)%nat -> Inv m t bl -> vw r ->
  exists bl', fold_left rstep (map call_of (seq t n)) (arr (t mod 5) r, bl) = (arr ((t + n) mod 5) (fold_left (sha_round m) (seq t n) r), bl') /\
    vw (fold_left (sha_round m) (seq t n) r).
Proof.
  intros Hm Hw. induction n as [|n IH]; intros t bl r Ht HI Hr.
  - exists bl. cbn [seq map fold_left]. rewrite Nat.add_0_r. split; [reflexivity|exact Hr].
  - cbn [seq map fold_left]. destruct (rstep_round m t bl r Hm Hw ltac:(lia) HI Hr) as (bl1 & E & HI1 & Hr1). rewrite E.
    destruct (IH (S t) bl1 (sha_round m r t) ltac:(lia) HI1 Hr1) as (bl2 & E2 & Hr2). exists bl2.
    replace (t + S n)%nat with (S t + n)%nat by lia. split; [exact E2|exact Hr2].
Qed.

(* ------------------------------------------------------------ reading blocks *)

Lemma be_value_snoc l b : be_value (l ++ [b]) = be_value l * 256 + b.
Proof. unfold be_value. rewrite fold_left_app. reflexivity. Qed.

Lemma be_value_rev l : be_value l = of_le_bytes (rev l).
Proof.
  induction l as [|b l IH] using rev_ind; [reflexivity|]. rewrite be_value_snoc, rev_app_distr, IH. cbn [rev app of_le_bytes]. lia.
Qed.

Lemma bytes_firstn n l : bytes l -> bytes (firstn n l).
Proof. unfold bytes. rewrite !Forall_forall. intros H x Hx. apply H. rewrite <- (firstn_skipn n l). apply in_or_app. left; exact Hx. Qed.
Lemma bytes_skipn n l : bytes l -> bytes (skipn n l).
Proof. unfold bytes. rewrite !Forall_forall. intros H x Hx. apply H. rewrite <- (firstn_skipn n l). apply in_or_app. right; exact Hx. Qed.

Lemma of_le_bytes_rev4 l : bytes l -> length l = 4%nat -> byte_reverse 32 (of_le_bytes l) = Some (of_le_bytes (rev l)).
Proof.
  intros Hb Hl. pose proof (of_le_bytes_bound l Hb) as B. rewrite Hl in B.
  destruct (byte_reverse_bytes 4 32 (of_le_bytes l)) as (r & E & Hr & R); [reflexivity|discriminate|unfold std_width; tauto|exact B|].
  rewrite E. f_equal. rewrite <- Hl in R. rewrite le_bytes_of_le_bytes in R by exact Hb.
  rewrite <- R. rewrite of_le_bytes_le_bytes. rewrite Hl. symmetry. apply N.mod_small. exact Hr.
Qed.

Lemma load_words_ok n : forall l, bytes l -> length l = (4 * n)%nat ->
  load_words true n l = map be_value (group 4 n l) /\ reverse_words (load_words false n l) = Some (map be_value (group 4 n l)).
Proof.
  induction n as [|n IH]; intros l Hb Hl; [split; reflexivity|]. cbn [load_words group map reverse_words].
  destruct (IH (skipn 4 l)) as [E1 E2]; [apply bytes_skipn, Hb|rewrite skipn_length; lia|]. rewrite E1, E2.
  unfold load32. rewrite be_value_rev. rewrite of_le_bytes_rev4; [|apply bytes_firstn, Hb|rewrite firstn_length; lia].
  split; reflexivity.
Qed.

Lemma words_ok block : bytes block -> length block = 64%nat -> length (words block) = 16%nat /\ Forall w32 (words block).
Proof.
  intros Hb Hl. assert (K : forall n l, bytes l -> length l = (4 * n)%nat -> length (map be_value (group 4 n l)) = n /\ Forall w32 (map be_value (group 4 n l))).
  { induction n as [|n IH]; intros l Hl1 Hl2; [split; [reflexivity|constructor]|]. cbn [group map length].
    destruct (IH (skipn 4 l)) as [E1 E2]; [apply bytes_skipn, Hl1|rewrite skipn_length; lia|]. split; [lia|]. constructor; [|exact E2].
    rewrite be_value_rev. unfold w32. pose proof (of_le_bytes_bound (rev (firstn 4 l))) as B. rewrite rev_length, firstn_length in B.
    replace (Nat.min 4 (length l)) with 4%nat in B by lia. apply B, Forall_rev, bytes_firstn, Hl1. }
  apply (K 16%nat block Hb Hl).
Qed.

Lemma compress_vw h m : length m = 16%nat -> Forall w32 m -> vw h -> vw (compress h m).
Proof.
  intros Hm Hw Hh. destruct h as [[[[h0 h1] h2] h3] h4]. unfold compress.
  destruct (fold_left (sha_round m) (seq 0 80) (h0, h1, h2, h3, h4)) as [[[[a b] c] d] e].
  cbn [vw]. unfold w32. repeat split; apply N.mod_lt; discriminate.
Qed.

Lemma process_block_ok be block h : bytes block -> length block = 64%nat -> vw h ->
  process_block be block (vl h) = Some (vl (compress h (words block))).
Proof.
  intros Hb Hl Hh. destruct (words_ok block Hb Hl) as [Hm Hw].
  destruct (load_words_ok 16 block Hb Hl) as [E1 E2]. unfold process_block.
  replace (if be then Some (load_words be 16 block) else reverse_words (load_words be 16 block)) with (Some (words block))
    by (destruct be; [rewrite E1|rewrite E2]; reflexivity).
  cbn [option_bind]. rewrite calls_formula.
  destruct (rounds_ok (words block) 80 Hm Hw 0 (words block) h ltac:(lia)) as (bl & E & Hr).
  - split; [exact Hm|]. intros s Hs. rewrite Nat.mod_small by lia. symmetry. apply W_low; [exact Hm|lia].
  - exact Hh.
  - change (0 mod 5)%nat with 0%nat in E. change ((0 + 80) mod 5)%nat with 0%nat in E.
    replace (vl h) with (arr 0 h) by (destruct h as [[[[? ?] ?] ?] ?]; reflexivity).
    rewrite E. destruct h as [[[[h0 h1] h2] h3] h4]. unfold compress.
    destruct (fold_left (sha_round (words block)) (seq 0 80) (h0, h1, h2, h3, h4)) as [[[[a b] c] d] e].
    cbn [arr List.combine map fst snd vl]. unfold add_wrap, trunc. rewrite (N.add_comm h0), (N.add_comm h1), (N.add_comm h2), (N.add_comm h3), (N.add_comm h4). reflexivity.
Qed.

(* ------------------------------------------------------------ the block buffer *)

Lemma group_app k n : forall l1 l2, (k * n <= length l1)%nat -> group k n (l1 ++ l2) = group k n l1.
Proof.
  induction n as [|n IH]; intros l1 l2 H; [reflexivity|]. cbn [group]. rewrite firstn_app, skipn_app.
  replace (k - length l1)%nat with 0%nat by lia. cbn [firstn skipn]. rewrite app_nil_r. f_equal. apply IH. rewrite skipn_length. lia.
Qed.

Lemma group_snoc k n : forall l, group k (S n) l = group k n l ++ [firstn k (skipn (k * n) l)].
Proof.
  induction n as [|n IH]; intros l.
  - cbn [group app]. rewrite Nat.mul_0_r. reflexivity.
  - cbn [group]. rewrite <- app_comm_cons. f_equal. specialize (IH (skipn k l)). cbn [group] in IH. rewrite IH. f_equal. f_equal. f_equal.
    rewrite skipn_skipn. f_equal. lia.
Qed.

Definition hashed (msg : list N) (n : nat) : vars := fold_left compress (map words (group 64 n msg)) sha_H0.

Lemma hashed_vw msg n : bytes msg -> (64 * n <= length msg)%nat -> vw (hashed msg n).
Proof.
  intros Hb. unfold hashed. induction n as [|n IH]; intros Hn.
  - cbn. repeat split; reflexivity.
  - rewrite group_snoc, map_app, fold_left_app. cbn [map fold_left].
    assert (Bb : bytes (firstn 64 (skipn (64 * n) msg))) by (apply bytes_firstn, bytes_skipn, Hb).
    assert (Bl : length (firstn 64 (skipn (64 * n) msg)) = 64%nat) by (rewrite firstn_length, skipn_length; lia).
    destruct (words_ok _ Bb Bl). apply compress_vw; [assumption|assumption|]. apply IH. lia.
Qed.

(** What the object knows after the bytes [msg] have been added. *)
Record Rep (s : sha) (msg : list N) : Prop := {
  rep_fin : sha_finished s = false;
  rep_bytes : bytes msg;
  rep_digest : sha_digest s = vl (hashed msg (length msg / 64));
  rep_blocks : sha_blocks s = N.of_nat (length msg / 64) mod 2 ^ 32;
  rep_len : sha_len s = N.of_nat (length msg mod 64);
  rep_buflen : length (sha_buf s) = 64%nat;
  rep_buf : firstn (length msg mod 64) (sha_buf s) = skipn (64 * (length msg / 64)) msg }.

Lemma Rep_init junk : length junk = 64%nat -> Rep (sha_init junk) [].
Proof. intros H. split; try reflexivity; [constructor|exact H]. Qed.

Lemma Rep_add be s msg bs : Rep s msg -> bytes bs -> (0 < length bs <= 64 - length msg mod 64)%nat ->
  exists s', sha_flush be (sha_write s bs) = Some s' /\ Rep s' (msg ++ bs).
Proof.
  intros [Fin Bm Dig Blk Len BufL Buf] Bb Hn.
  set (q := (length msg / 64)%nat) in *. set (r := (length msg mod 64)%nat) in *.
  assert (Hr : (r < 64)%nat) by (apply Nat.mod_upper_bound; lia).
  assert (Hq : length msg = (64 * q + r)%nat) by (apply Nat.div_mod; lia).
  assert (Bmb : bytes (msg ++ bs)) by (apply Forall_app; split; assumption).
  assert (WL : sha_len (sha_write s bs) = N.of_nat (r + length bs)).
  { cbn [sha_write sha_len]. rewrite Len. unfold trunc. rewrite N.mod_small by (change (2 ^ 8) with 256; lia). lia. }
  assert (WB : firstn (r + length bs) (sha_buf (sha_write s bs)) = skipn (64 * q) (msg ++ bs)).
  { cbn [sha_write sha_buf]. rewrite Len, Nat2N.id. rewrite skipn_app. replace (64 * q - length msg)%nat with 0%nat by lia. cbn [skipn].
    rewrite <- Buf. rewrite app_assoc. replace (r + length bs)%nat with (length (firstn r (sha_buf s) ++ bs) + 0)%nat.
    - rewrite firstn_app_2. cbn [firstn]. apply app_nil_r.
    - rewrite app_length, firstn_length. lia. }
  assert (WBL : length (sha_buf (sha_write s bs)) = 64%nat).
  { cbn [sha_write sha_buf]. rewrite Len, Nat2N.id, !app_length, firstn_length, skipn_length. lia. }
  unfold sha_flush. rewrite WL. destruct (Nat.ltb_spec (r + length bs) 64) as [Hlt|Hge].
  - destruct (N.eqb_spec (N.of_nat (r + length bs)) 64); [lia|]. eexists. split; [reflexivity|].
    assert (Lq : (length (msg ++ bs) / 64 = q)%nat) by (symmetry; apply (Nat.div_unique _ _ _ (r + length bs)); rewrite ?app_length; lia).
    assert (Lr : (length (msg ++ bs) mod 64 = r + length bs)%nat) by (symmetry; apply (Nat.mod_unique _ _ q); rewrite ?app_length; lia).
    split; rewrite ?Lq, ?Lr.
    + exact Fin.
    + exact Bmb.
    + cbn [sha_write sha_digest]. rewrite Dig. unfold hashed. rewrite group_app by lia. reflexivity.
    + exact Blk.
    + exact WL.
    + exact WBL.
    + exact WB.
  - assert (E64 : (r + length bs = 64)%nat) by lia. rewrite E64. change (N.of_nat 64 =? 64) with true. cbn iota.
    rewrite E64 in WB. rewrite firstn_all2 in WB by lia.
    assert (Blk64 : bytes (sha_buf (sha_write s bs))) by (rewrite WB; apply bytes_skipn, Bmb).
    cbn [sha_write sha_digest sha_buf] in *. rewrite Dig. rewrite process_block_ok; [|exact Blk64|exact WBL|apply hashed_vw; [exact Bm|lia]].
    cbn [option_bind]. eexists. split; [reflexivity|].
    assert (Lq : (length (msg ++ bs) / 64 = S q)%nat) by (symmetry; apply (Nat.div_unique _ _ _ 0); rewrite ?app_length; lia).
    assert (Lr : (length (msg ++ bs) mod 64 = 0)%nat) by (symmetry; apply (Nat.mod_unique _ _ (S q)); rewrite ?app_length; lia).
    split; rewrite ?Lq, ?Lr; cbn [sha_write sha_finished sha_digest sha_blocks sha_len sha_buf].
    + exact Fin.
    + exact Bmb.
    + rewrite WB. f_equal. unfold hashed. rewrite group_snoc, map_app, fold_left_app. cbn [map fold_left]. rewrite group_app by lia.
      f_equal. rewrite firstn_all2; [reflexivity|]. rewrite skipn_length, app_length. lia.
    + rewrite Blk. unfold add_wrap, trunc. rewrite N.add_mod_idemp_l by discriminate. f_equal. lia.
    + reflexivity.
    + exact WBL.
    + cbn [firstn]. symmetry. apply skipn_all2. rewrite app_length. lia.
Qed.

Lemma Rep_add1 be s msg b : Rep s msg -> b < 256 -> exists s', sha_add1 be s b = Some s' /\ Rep s' (msg ++ [b]).
Proof.
  intros H Hb. pose proof (Nat.mod_upper_bound (length msg) 64 ltac:(lia)) as Hr.
  unfold sha_add1. rewrite (rep_fin _ _ H), (rep_len _ _ H).
  destruct (N.ltb_spec (N.of_nat (length msg mod 64)) 64); [|lia]. cbn [orb negb].
  apply Rep_add; [exact H| |cbn [length]; lia]. unfold bytes. apply Forall_cons; [exact Hb|apply Forall_nil].
Qed.

Lemma Rep_addn be s msg bs : Rep s msg -> bytes bs -> (0 < length bs <= 64 - length msg mod 64)%nat ->
  exists s', sha_addn be s bs = Some s' /\ Rep s' (msg ++ bs).
Proof.
  intros H Hb Hn. pose proof (Nat.mod_upper_bound (length msg) 64 ltac:(lia)) as Hr.
  unfold sha_addn. rewrite (rep_fin _ _ H), (rep_len _ _ H).
  destruct (N.ltb_spec (N.of_nat (length msg mod 64)) 64); [|lia]. destruct (N.eqb_spec (N.of_nat (length bs)) 0); [lia|].
  destruct (N.leb_spec (N.of_nat (length bs)) (64 - N.of_nat (length msg mod 64))); [|lia]. cbn [orb negb].
  apply Rep_add; assumption.
Qed.

Lemma Rep_loop be fuel : forall s msg data, Rep s msg -> bytes data -> (length data <= fuel)%nat -> (length msg mod 64 = 0)%nat \/ data = [] ->
  exists s', sha_loop be fuel s data = Some s' /\ Rep s' (msg ++ data).
Proof.
  induction fuel as [|f IH]; intros s msg data H Hb Hf Hm.
  - destruct data; [|cbn in Hf; lia]. exists s. rewrite app_nil_r. split; [reflexivity|exact H].
  - cbn [sha_loop]. destruct data as [|x data']; [exists s; rewrite app_nil_r; split; [reflexivity|exact H]|]. set (data := x :: data') in *.
    destruct Hm as [Hm|Hm]; [|discriminate].
    assert (L1 : length (firstn (Nat.min 64 (length data)) data) = Nat.min 64 (length data)) by (rewrite firstn_length; lia).
    assert (L0 : (0 < length data)%nat) by (cbn; lia).
    destruct (Rep_addn be s msg (firstn (Nat.min 64 (length data)) data) H (bytes_firstn _ _ Hb)) as (s1 & E1 & H1); [lia|].
    rewrite E1. cbn [option_bind].
    destruct (IH s1 _ (skipn (Nat.min 64 (length data)) data) H1 (bytes_skipn _ _ Hb)) as (s2 & E2 & H2).
    + rewrite skipn_length. lia.
    + destruct (Nat.leb_spec (length data) 64).
      * right. apply skipn_all2. lia.
      * left. rewrite app_length, L1. replace (Nat.min 64 (length data)) with 64%nat by lia.
        rewrite <- Nat.add_mod_idemp_l, Hm by lia. reflexivity.
    + exists s2. split; [exact E2|]. rewrite <- app_assoc, firstn_skipn in H2. exact H2.
Qed.

Lemma Rep_data be s msg data : Rep s msg -> bytes data -> exists s', sha_data be s data = Some s' /\ Rep s' (msg ++ data).
Proof.
  intros H Hb. unfold sha_data. destruct data as [|x data']; [exists s; rewrite app_nil_r; split; [reflexivity|exact H]|]. set (data := x :: data') in *.
  rewrite (rep_fin _ _ H), (rep_len _ _ H). pose proof (Nat.mod_upper_bound (length msg) 64 ltac:(lia)) as Hr.
  assert (L0 : (0 < length data)%nat) by (cbn; lia).
  destruct (N.eqb_spec (N.of_nat (length msg mod 64)) 0) as [E|E].
  - apply Rep_loop; [exact H|exact Hb|lia|left; lia].
  - set (r := (length msg mod 64)%nat) in *. replace (N.to_nat (64 - N.of_nat r)) with (64 - r)%nat by lia.
    set (delta := Nat.min (64 - r) (length data)).
    assert (L1 : length (firstn delta data) = delta) by (rewrite firstn_length; lia).
    destruct (Rep_addn be s msg (firstn delta data) H (bytes_firstn _ _ Hb)) as (s1 & E1 & H1); [fold r; lia|].
    rewrite E1. cbn [option_bind].
    destruct (Rep_loop be (length data) s1 _ (skipn delta data) H1 (bytes_skipn _ _ Hb)) as (s2 & E2 & H2).
    + rewrite skipn_length. lia.
    + destruct (Nat.leb_spec (length data) (64 - r)).
      * right. apply skipn_all2. lia.
      * left. rewrite app_length, L1. replace delta with (64 - r)%nat by lia.
        rewrite <- Nat.add_mod_idemp_l by lia. fold r. replace (r + (64 - r))%nat with 64%nat by lia. reflexivity.
    + exists s2. split; [exact E2|]. rewrite <- app_assoc, firstn_skipn in H2. exact H2.
Qed.
