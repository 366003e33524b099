From Coq Require Import Lia ZifyBool ZifyNat ZifyN.
From Verif Require Import Words WordsProofs BitsModel BitsProofs3 EarrProofs BlobModel BlobSpec.
Local Open Scope N_scope.
Ltac Zify.zify_post_hook ::= idtac.

(* ------------------------------------------------------------------ agreement *)
Lemma agrees_refl l : agrees l l.
Proof. unfold agrees. induction l; constructor; [right; reflexivity|assumption]. Qed.
Lemma agrees_length m l : agrees m l -> length m = length l.
Proof. intros F. induction F; cbn; congruence. Qed.
Lemma agrees_app m l m' l' : agrees m l -> agrees m' l' -> agrees (m ++ m') (l ++ l').
Proof. apply Forall2_app. Qed.
Lemma agrees_firstn n : forall m l, agrees m l -> agrees (firstn n m) (firstn n l).
Proof. unfold agrees. induction n as [|n IH]; intros m l F; [constructor|]. destruct F; cbn; constructor; [assumption|apply IH; assumption]. Qed.
Lemma agrees_skipn n : forall m l, agrees m l -> agrees (skipn n m) (skipn n l).
Proof. unfold agrees. induction n as [|n IH]; intros m l F; [exact F|]. destruct F; cbn; [constructor|apply IH; assumption]. Qed.
Lemma agrees_none m : agrees m (repeat None (length m)).
Proof. unfold agrees. induction m; cbn; constructor; [left; reflexivity|assumption]. Qed.
Lemma agrees_upd m l : agrees m l -> forall k v, agrees (upd m k v) (upd l k v).
Proof. unfold agrees. intros F. induction F; intros [|k] v; cbn; constructor; try assumption; [right; reflexivity|apply IHF]. Qed.
Lemma upd_split {A} (l : list A) : forall k x, (k < length l)%nat -> upd l k x = firstn k l ++ [x] ++ skipn (k + 1) l.
Proof. induction l as [|y l IH]; intros [|k] x H; cbn in *; [lia|lia|reflexivity|]. f_equal. apply IH. lia. Qed.

Lemma upd_self {A} (l : list A) : forall i x, nth_error l i = Some x -> upd l i x = l.
Proof. induction l as [|y l IH]; intros [|i] x H; cbn in *; try congruence. f_equal. apply IH, H. Qed.
Lemma skipn_repeat' {A} (x : A) n : forall k, skipn k (repeat x n) = repeat x (n - k).
Proof. induction n as [|n IH]; intros [|k]; cbn; [reflexivity..|]. apply IH. Qed.

Section P.
  Variables (sw ma : N).
  Hypothesis (Hsw : 16 <= sw) (Hma : pow2 ma) (HmaB : ma + 128 < 2 ^ (sw - 1)).
  Let lim := 2 ^ (sw - 1).
  Lemma lim2 : 2 ^ sw = 2 * lim.
  Proof. unfold lim. rewrite <- N.pow_succ_r'. f_equal. lia. Qed.
  Lemma lim_big : 32768 <= lim.
  Proof. unfold lim. change 32768 with (2 ^ 15). apply N.pow_le_mono_r; lia. Qed.
  Lemma ma_pos : 1 <= ma.
  Proof. destruct Hma as [k ->]. pose proof (pow2_pos k). lia. Qed.

  Definition good (a : N) : Prop := pow2 a /\ ma <= a /\ a + 128 < lim.
  Lemma pow2_64 : pow2 64. Proof. exists 6. reflexivity. Qed.
  Lemma actual_good size align : (align = 0 \/ pow2 align) -> align + 128 < lim -> good (actual_alignment ma size align) /\ N.max ma align <= actual_alignment ma size align.
  Proof.
    intros A B. fold lim in HmaB. pose proof lim_big. pose proof ma_pos. pose proof pow2_64 as P64. unfold actual_alignment, big_align, good.
    destruct (size <? 2048); [|destruct (N.ltb_spec 64 ma)];
    match goal with |- context [if ?x <? align then _ else _] => destruct (N.ltb_spec x align) end; (split; [split; [|lia]|lia]);
    first [exact Hma|exact P64|destruct A as [A|A]; [lia|exact A]].
  Qed.
  Lemma pow2_divide a b : pow2 a -> pow2 b -> a <= b -> (a | b).
  Proof.
    intros [i ->] [j ->] H. assert (i <= j) as K by (apply (N.pow_le_mono_r_iff 2); [lia|exact H]). exists (2 ^ (j - i)). rewrite <- N.pow_add_r. f_equal. lia.
  Qed.

  Lemma alloc_ok h size al : good al -> size <> 0 -> size + 128 < lim -> exists c, aligned_alloc sw ma h size al = Some (h ++ [Some {| k_bytes := repeat None c; k_align := al |}], length h) /\ (N.to_nat size <= c)%nat.
  Proof.
    intros ([k Ek] & G2 & G3) S0 SB. pose proof lim2. pose proof ma_pos. unfold aligned_alloc. replace ((size =? 0) || (al =? 0)) with false by lia.
    replace (if ma <? al then al else ma) with al by (destruct (N.ltb_spec ma al); lia). eexists. split; [reflexivity|].
    assert (T : trunc sw (size + al - 1) = size + al - 1) by (apply trunc_small; lia). rewrite T. unfold compl. rewrite Ek.
    assert (k <= sw) as Hk. { destruct (N.le_gt_cases k sw) as [K|K]; [exact K|]. assert (2 ^ sw <= 2 ^ k) by (apply N.pow_le_mono_r; lia). lia. }
    rewrite land_align_mask; [|exact Hk|lia]. rewrite <- Ek. pose proof (N.mod_lt (size + al - 1) al). lia.
  Qed.
  Lemma free_ok h k d : nth_error h k = Some (Some d) -> aligned_free h k = Some (upd h k None).
  Proof. intros E. unfold aligned_free. rewrite E. reflexivity. Qed.
  Lemma poke_ok h b l d : nth_error h b = Some (Some d) -> (length l <= length (k_bytes d))%nat ->
    poke h b 0 l = Some (upd h b (Some {| k_bytes := l ++ skipn (length l) (k_bytes d); k_align := k_align d |})).
  Proof.
    intros E L. unfold poke. rewrite E. replace (0 + N.of_nat (length l) <=? N.of_nat (length (k_bytes d))) with true by (symmetry; apply N.leb_le; lia). reflexivity.
  Qed.

  (* ---------------------------------------------------------------- one blob *)
  Definition rel (h : heap) (b : blob) (x : sblob) : Prop :=
    b_size b = N.of_nat (length (s_bytes x)) /\ b_size b + 128 < lim /\ good (b_align b) /\ pow2 (s_promise x) /\ ma <= s_promise x /\ s_promise x <= b_align b /\
    match b_data b with
    | None => b_size b = 0
    | Some k => b_size b <> 0 /\ exists m rest, nth_error h k = Some (Some {| k_bytes := m ++ rest; k_align := b_align b |}) /\ agrees m (s_bytes x)
    end.
  (** The operation touched no block but the blob's own and new ones. *)
  Definition local (h : heap) (d : option nat) (h' : heap) (d' : option nat) : Prop :=
    (forall k, (k < length h)%nat -> d <> Some k -> nth_error h' k = nth_error h k) /\
    (forall k, d' = Some k -> d = Some k \/ (length h <= k)%nat) /\
    (forall k c, nth_error h' k = Some (Some c) -> d' = Some k \/ (d <> Some k /\ (k < length h)%nat)).

  (** The source's bytes survive whatever happens to block [d]. *)
  Definition steady (h : heap) (d : option nat) (s : source) (n : N) (l : list byte) : Prop :=
    (s = Null /\ l = repeat None (N.to_nat n)) \/
    (s <> Null /\ length l = N.to_nat n /\ (forall b off, s = At b off -> (b < length h)%nat /\ d <> Some b) /\
     exists m, agrees m l /\ forall h', (forall k, (k < length h)%nat -> d <> Some k -> nth_error h' k = nth_error h k) -> peek h' s n = Some m).

  Lemma copy_in h d s n l (h1 : heap) k dst : steady h d s n l -> s <> Null ->
    (forall k', (k' < length h)%nat -> d <> Some k' -> nth_error h1 k' = nth_error h k') ->
    nth_error h1 k = Some (Some dst) -> (N.to_nat n <= length (k_bytes dst))%nat -> (d = Some k \/ (length h <= k)%nat) ->
    exists m, memcpy h1 k s n = Some (upd h1 k (Some {| k_bytes := m ++ skipn (length m) (k_bytes dst); k_align := k_align dst |})) /\ agrees m l /\ length m = N.to_nat n.
  Proof.
    intros [[E _]|(_ & L & A & m & AG & P)] NN K E1 LD KD; [congruence|]. pose proof (agrees_length _ _ AG) as LM. exists m. split; [|split; [exact AG|congruence]].
    specialize (P h1 K). unfold memcpy. destruct s as [|x|b off]; [congruence| |].
    - rewrite P. cbn [option_bind]. apply poke_ok; [exact E1|lia].
    - destruct (A b off eq_refl) as [A1 A2]. replace (Nat.eqb k b) with false. 2:{ symmetry. apply Nat.eqb_neq. intros ->. destruct KD; [congruence|lia]. }
      cbn [andb]. rewrite P. cbn [option_bind]. apply poke_ok; [exact E1|lia].
  Qed.

  Lemma local_alloc h c : local h None (h ++ [c]) (Some (length h)).
  Proof.
    split; [|split].
    - intros k H _. apply nth_error_app1, H.
    - intros k [= <-]. right. lia.
    - intros k c' H. apply nth_snoc in H. destruct H as [[-> _]|H]; [left; reflexivity|right]. split; [discriminate|apply (nth_len _ _ _ H)].
  Qed.
  Lemma local_upd h d h' k c : local h d h' (Some k) -> local h d (upd h' k (Some c)) (Some k).
  Proof.
    intros (A & B & C). split; [|split].
    - intros k' H D. rewrite upd_other; [apply A; assumption|]. intros <-. destruct (B k eq_refl); [congruence|lia].
    - exact B.
    - intros k' c' H. apply upd_cases in H. destruct H as [[<- _]|[_ H]]; [left; reflexivity|apply (C _ _ H)].
  Qed.

  Lemma new_ok h size src align l : fits sw size align -> steady h None src size l -> length l = N.to_nat size ->
    exists b h', blob_new sw ma h size src align = Some (b, h') /\ rel h' b {| s_promise := N.max ma align; s_bytes := l |} /\ local h None h' (b_data b).
  Proof.
    intros (F1 & F2 & F3) ST LL. fold lim in F2, F3. destruct (actual_good size align F1 F2) as [G P]. unfold blob_new. set (al := actual_alignment ma size align) in *.
    assert (PM : pow2 (N.max ma align)). { destruct (N.max_spec ma align) as [[X ->]|[X ->]]; [|exact Hma]. destruct F1 as [->|F1]; [pose proof ma_pos; lia|exact F1]. }
    assert (PM' : ma <= N.max ma align) by lia.
    destruct (N.eqb_spec size 0) as [Z|NZ].
    - do 2 eexists. split; [reflexivity|]. split.
      + unfold rel. cbn [b_size b_align b_data s_bytes s_promise]. rewrite LL, N2Nat.id. repeat (split; [first [assumption|reflexivity]|]). exact Z.
      + cbn [b_data]. split; [reflexivity|]. split; [discriminate|]. intros k c H. right. split; [discriminate|apply (nth_len _ _ _ H)].
    - destruct (alloc_ok h size al G NZ F3) as (c & A & C). rewrite A. cbn [option_bind fst snd]. pose proof (local_alloc h (Some {| k_bytes := repeat None c; k_align := al |})) as LA.
      assert (N1 : nth_error (h ++ [Some {| k_bytes := repeat None c; k_align := al |}]) (length h) = Some (Some {| k_bytes := repeat None c; k_align := al |})) by apply nth_app_mid.
      assert (R : forall m rest h', nth_error h' (length h) = Some (Some {| k_bytes := m ++ rest; k_align := al |}) -> agrees m l -> rel h' {| b_align := al; b_size := size; b_data := Some (length h) |} {| s_promise := N.max ma align; s_bytes := l |}).
      { intros m rest h' E AG. unfold rel. cbn [b_size b_align b_data s_bytes s_promise]. rewrite LL, N2Nat.id. repeat (split; [first [assumption|reflexivity]|]). exists m, rest. split; assumption. }
      destruct (is_null src) eqn:NU.
      + do 2 eexists. split; [reflexivity|]. split; [|exact LA]. destruct ST as [[-> EL]|(NN & _)]; [|destruct src; [congruence|discriminate|discriminate]].
        apply (R (repeat None (N.to_nat size)) (repeat None (c - N.to_nat size))).
        * rewrite <- repeat_app. replace (N.to_nat size + (c - N.to_nat size))%nat with c by lia. exact N1.
        * rewrite EL. apply agrees_refl.
      + assert (NN : src <> Null) by (intros ->; discriminate).
        destruct (copy_in h None src size l _ (length h) _ ST NN (proj1 LA) N1 ltac:(cbn [k_bytes]; rewrite repeat_length; exact C) ltac:(right; lia)) as (m & M & AG & LM).
        rewrite M. cbn [option_bind]. do 2 eexists. split; [reflexivity|]. split.
        * apply (R m (skipn (length m) (repeat None c))); [apply upd_same; rewrite app_length; cbn; lia|exact AG].
        * apply local_upd, LA.
  Qed.

  Lemma resize_ok h b x sz : rel h b x -> sz + 128 < lim ->
    exists b' h', blob_resize sw ma h b sz = Some (b', h') /\ rel h' b' {| s_promise := s_promise x; s_bytes := resized (s_bytes x) sz |} /\ local h (b_data b) h' (b_data b') /\ b_align b' = b_align b /\ b_size b' = sz.
  Proof.
    intros R SB. pose proof R as (R1 & R2 & R3 & R4 & R4' & R5 & R6). unfold blob_resize.
    assert (LR : length (resized (s_bytes x) sz) = N.to_nat sz) by (unfold resized; rewrite app_length, firstn_length, repeat_length; lia).
    destruct (N.eqb_spec (b_size b) sz) as [E|NE].
    - do 2 eexists. split; [reflexivity|]. split; [|split; [|split; [reflexivity|exact E]]].
      + replace (resized (s_bytes x) sz) with (s_bytes x); [destruct x; exact R|]. unfold resized. rewrite firstn_all2 by lia. replace (N.to_nat sz - length (s_bytes x))%nat with 0%nat by lia. symmetry. apply app_nil_r.
      + split; [reflexivity|]. split; [intros k Hk; left; exact Hk|]. intros k c H. destruct (option_eq_dec_nat (b_data b) (Some k)) as [D|D]; [left; exact D|right; split; [exact D|apply (nth_len _ _ _ H)]].
    - destruct (N.eqb_spec (b_size b) 0) as [Z|NZ]; cbn [negb].
      + destruct (b_data b) as [k|] eqn:D; [destruct R6; contradiction|]. destruct (alloc_ok h sz (b_align b) R3 ltac:(congruence) SB) as (c & A & C). rewrite A. cbn [option_bind fst snd].
        do 2 eexists. split; [reflexivity|]. split; [|split; [apply local_alloc|split; reflexivity]].
        unfold rel. cbn [b_size b_align b_data s_bytes s_promise]. rewrite LR, N2Nat.id. repeat (split; [first [assumption|reflexivity]|]). split; [congruence|].
        exists (repeat None (N.to_nat sz)), (repeat None (c - N.to_nat sz)). rewrite <- repeat_app. replace (N.to_nat sz + (c - N.to_nat sz))%nat with c by lia. split; [apply nth_app_mid|].
        unfold resized. destruct (s_bytes x); [|cbn in R1; lia]. rewrite firstn_nil. cbn [app length]. rewrite Nat.sub_0_r. apply agrees_refl.
      + destruct (b_data b) as [k|] eqn:D; [|contradiction]. destruct R6 as (_ & m & rest & E & AG). pose proof (agrees_length _ _ AG) as LM. pose proof (nth_len _ _ _ E) as LK.
        destruct (N.eqb_spec sz 0) as [SZ|SZ].
        * rewrite (free_ok _ _ _ E). cbn [option_bind]. do 2 eexists. split; [reflexivity|]. split; [|split; [|split; reflexivity]].
          -- unfold rel. cbn [b_size b_align b_data s_bytes s_promise]. rewrite LR, N2Nat.id. repeat (split; [first [assumption|reflexivity]|]). exact SZ.
          -- cbn [b_data]. split; [intros k' H N'; apply upd_other; congruence|]. split; [discriminate|]. intros k' c H. apply upd_cases in H. destruct H as [[_ H]|[N' H]]; [discriminate|]. right. split; [congruence|apply (nth_len _ _ _ H)].
        * destruct (alloc_ok h sz (b_align b) R3 SZ SB) as (c & A & C). rewrite A. cbn [option_bind fst snd]. set (h1 := h ++ [Some {| k_bytes := repeat None c; k_align := b_align b |}]) in *.
          assert (N1 : nth_error h1 (length h) = Some (Some {| k_bytes := repeat None c; k_align := b_align b |})) by apply nth_app_mid.
          assert (N2 : nth_error h1 k = Some (Some {| k_bytes := m ++ rest; k_align := b_align b |})) by (unfold h1; rewrite nth_error_app1 by exact LK; exact E).
          set (n := N.min sz (b_size b)). set (q := firstn (N.to_nat n) m). assert (LQ : length q = N.to_nat n) by (unfold q; rewrite firstn_length; unfold n; lia).
          unfold memcpy. replace (Nat.eqb (length h) k) with false by (symmetry; apply Nat.eqb_neq; lia). cbn [andb]. unfold peek. rewrite N2. cbn [k_bytes].
          replace (0 + n <=? N.of_nat (length (m ++ rest))) with true by (symmetry; apply N.leb_le; rewrite app_length; unfold n; lia). cbn [option_bind N.to_nat skipn].
          replace (firstn (N.to_nat n) (m ++ rest)) with q. 2:{ unfold q. rewrite firstn_app. replace (N.to_nat n - length m)%nat with 0%nat by (unfold n; lia). cbn [firstn]. symmetry. apply app_nil_r. }
          rewrite (poke_ok h1 (length h) q _ N1) by (cbn [k_bytes]; rewrite repeat_length, LQ; unfold n; lia). cbn [option_bind k_bytes k_align].
          set (h2 := upd h1 (length h) _).
          assert (N3 : nth_error h2 k = Some (Some {| k_bytes := m ++ rest; k_align := b_align b |})) by (unfold h2; rewrite upd_other by lia; exact N2).
          rewrite (free_ok _ _ _ N3). cbn [option_bind]. do 2 eexists. split; [reflexivity|]. split; [|split; [|split; reflexivity]].
          -- unfold rel. cbn [b_size b_align b_data s_bytes s_promise]. rewrite LR, N2Nat.id. repeat (split; [first [assumption|reflexivity]|]).
             exists (q ++ repeat None (N.to_nat sz - length m)), (repeat None (c - N.to_nat sz)). split.
             ++ rewrite upd_other by lia. unfold h2. rewrite upd_same by (unfold h1; rewrite app_length; cbn; lia). f_equal. f_equal. f_equal.
                rewrite <- app_assoc. f_equal. rewrite <- repeat_app. rewrite skipn_repeat'. f_equal. rewrite LQ. unfold n. lia.
             ++ unfold resized. rewrite LM. apply agrees_app; [|apply agrees_refl]. unfold q. replace (firstn (N.to_nat sz) (s_bytes x)) with (firstn (N.to_nat n) (s_bytes x)); [apply agrees_firstn, AG|].
                unfold n. destruct (N.min_spec sz (b_size b)) as [[X ->]|[X ->]]; [reflexivity|]. rewrite !firstn_all2 by lia. reflexivity.
          -- cbn [b_data]. split; [|split].
             ++ intros k' H N'. rewrite upd_other by congruence. unfold h2. rewrite upd_other by lia. unfold h1. apply nth_error_app1, H.
             ++ intros k' [= <-]. right. lia.
             ++ intros k' c' H. apply upd_cases in H. destruct H as [[_ H]|[N' H]]; [discriminate|]. apply upd_cases in H. destruct H as [[<- _]|[N'' H]]; [left; reflexivity|].
                right. split; [congruence|]. unfold h1 in H. apply nth_snoc in H. destruct H as [[-> _]|H]; [congruence|apply (nth_len _ _ _ H)].
  Qed.

  Lemma assign_ok h b x sz src align l : rel h b x -> fits sw sz align -> steady h (b_data b) src sz l -> length l = N.to_nat sz ->
    exists b' h', blob_assign sw ma h b sz src align = Some (b', h') /\ rel h' b' {| s_promise := N.max ma align; s_bytes := l |} /\ local h (b_data b) h' (b_data b').
  Proof.
    intros R (F1 & F2 & F3) ST LL. fold lim in F2, F3. destruct (actual_good sz align F1 F2) as [G P]. unfold blob_assign. set (al := actual_alignment ma sz align) in *.
    assert (PM : pow2 (N.max ma align)). { destruct (N.max_spec ma align) as [[X ->]|[X ->]]; [|exact Hma]. destruct F1 as [->|F1]; [pose proof ma_pos; lia|exact F1]. }
    assert (PM' : ma <= N.max ma align) by lia. pose proof R as (R1 & R2 & R3 & R4 & R4' & R5 & R6).
    destruct (N.leb_spec al (b_align b)) as [LE|GT].
    - destruct (resize_ok h b x sz R F3) as (b' & h' & E & R' & LO & EA & ES). rewrite E. cbn [option_bind]. pose proof R' as (Q1 & Q2 & Q3 & Q4 & Q4' & Q5 & Q6).
      destruct (b_data b') as [k|] eqn:D.
      + destruct Q6 as (Q6 & m & rest & N1 & AG). pose proof (agrees_length _ _ AG) as LM.
        cbn [s_bytes] in LM, Q1. destruct (is_null src) eqn:NU; cbn [negb andb].
        * do 2 eexists. split; [reflexivity|]. rewrite D. split; [|exact LO]. unfold rel. cbn [s_promise s_bytes]. rewrite D, LL, N2Nat.id, ES, EA in *. repeat (split; [first [assumption|reflexivity|lia]|]).
          exists m, rest. split; [exact N1|]. destruct ST as [[-> ->]|(NN & _)]; [|destruct src; [congruence|discriminate|discriminate]].
          replace (N.to_nat sz) with (length m) by lia. apply agrees_none.
        * assert (NN : src <> Null) by (intros ->; discriminate).
          assert (SP : same_place src (Some k) = false).
          { destruct ST as [[-> _]|(_ & _ & A & _)]; [congruence|]. destruct src as [|q|b0 off]; [congruence|reflexivity|]. cbn [same_place]. destruct (A b0 off eq_refl) as [A1 A2].
            replace (Nat.eqb b0 k) with false; [reflexivity|]. symmetry. apply Nat.eqb_neq. intros ->. destruct (proj1 (proj2 LO) k eq_refl); [congruence|lia]. }
          rewrite SP. cbn [negb]. rewrite ES in *.
          destruct (copy_in h (b_data b) src sz l h' k _ ST NN (proj1 LO) N1 ltac:(cbn [k_bytes]; rewrite app_length; lia) ltac:(exact (proj1 (proj2 LO) k eq_refl))) as (m' & M & AG' & LM').
          rewrite M. cbn [option_bind k_bytes k_align]. do 2 eexists. split; [reflexivity|]. rewrite D. split; [|apply local_upd, LO].
          unfold rel. cbn [s_promise s_bytes]. rewrite D, LL, N2Nat.id, ES, EA in *. repeat (split; [first [assumption|reflexivity|lia]|]).
          eexists m', _. split; [apply upd_same, (nth_len _ _ _ N1)|exact AG'].
      + do 2 eexists. split; [reflexivity|]. rewrite D. split; [|exact LO]. unfold rel. cbn [s_promise s_bytes]. rewrite D, LL, N2Nat.id, ES, EA in *. repeat (split; [first [assumption|reflexivity|lia]|]). exact Q6.
    - assert (HF : exists h1, (match b_data b with Some k => aligned_free h k | None => Some h end) = Some h1 /\ length h1 = length h /\
        (forall k, (k < length h)%nat -> b_data b <> Some k -> nth_error h1 k = nth_error h k) /\ (forall k c, nth_error h1 k = Some (Some c) -> b_data b <> Some k /\ (k < length h)%nat)).
      { destruct (b_data b) as [k|].
        - destruct R6 as (_ & m & rest & E & _). rewrite (free_ok _ _ _ E). eexists. split; [reflexivity|]. split; [apply upd_length|]. split; [intros k' H N'; apply upd_other; congruence|].
          intros k' c H. apply upd_cases in H. destruct H as [[_ H]|[N' H]]; [discriminate|split; [congruence|apply (nth_len _ _ _ H)]].
        - exists h. split; [reflexivity|]. split; [reflexivity|]. split; [reflexivity|]. intros k c H. split; [discriminate|apply (nth_len _ _ _ H)]. }
      destruct HF as (h1 & EF & LH & KP & LV). rewrite EF. cbn [option_bind]. destruct (N.eqb_spec sz 0) as [Z|NZ].
      + do 2 eexists. split; [reflexivity|]. split.
        * unfold rel. cbn [b_size b_align b_data s_bytes s_promise]. rewrite LL, N2Nat.id. repeat (split; [first [assumption|reflexivity]|]). exact Z.
        * cbn [b_data]. split; [exact KP|]. split; [discriminate|]. intros k c H. right. apply (LV _ _ H).
      + destruct (alloc_ok h1 sz al G NZ F3) as (c & A & C). rewrite A. cbn [option_bind fst snd]. set (h2 := h1 ++ _) in *.
        assert (N1 : nth_error h2 (length h1) = Some (Some {| k_bytes := repeat None c; k_align := al |})) by apply nth_app_mid.
        assert (KP2 : forall k, (k < length h)%nat -> b_data b <> Some k -> nth_error h2 k = nth_error h k) by (intros k H N'; unfold h2; rewrite nth_error_app1 by lia; apply KP; assumption).
        assert (LO : local h (b_data b) h2 (Some (length h1))).
        { split; [exact KP2|]. split; [intros k [= <-]; right; lia|]. intros k c' H. apply nth_snoc in H. destruct H as [[-> _]|H]; [left; reflexivity|right; apply (LV _ _ H)]. }
        assert (RR : forall m rest h', nth_error h' (length h1) = Some (Some {| k_bytes := m ++ rest; k_align := al |}) -> agrees m l -> rel h' {| b_align := al; b_size := sz; b_data := Some (length h1) |} {| s_promise := N.max ma align; s_bytes := l |}).
        { intros m rest h' E AG. unfold rel. cbn [b_size b_align b_data s_bytes s_promise]. rewrite LL, N2Nat.id. repeat (split; [first [assumption|reflexivity]|]). exists m, rest. split; assumption. }
        destruct (is_null src) eqn:NU.
        * do 2 eexists. split; [reflexivity|]. split; [|exact LO]. destruct ST as [[-> EL]|(NN & _)]; [|destruct src; [congruence|discriminate|discriminate]].
          apply (RR (repeat None (N.to_nat sz)) (repeat None (c - N.to_nat sz))); [|rewrite EL; apply agrees_refl]. rewrite <- repeat_app. replace (N.to_nat sz + (c - N.to_nat sz))%nat with c by lia. exact N1.
        * assert (NN : src <> Null) by (intros ->; discriminate).
          destruct (copy_in h (b_data b) src sz l h2 (length h1) _ ST NN KP2 N1 ltac:(cbn [k_bytes]; rewrite repeat_length; exact C) ltac:(right; lia)) as (m & M & AG & LM).
          rewrite M. cbn [option_bind]. do 2 eexists. split; [reflexivity|]. split; [|apply local_upd, LO].
          apply (RR m (skipn (length m) (repeat None c))); [apply upd_same; unfold h2; rewrite app_length; cbn; lia|exact AG].
  Qed.

  (* ---------------------------------------------------------------- whole states *)
  Definition dat (b : option blob) : option nat := match b with Some b => b_data b | None => None end.
  Definition orel (h : heap) (a : option blob) (x : option sblob) : Prop :=
    match a, x with None, None => True | Some a, Some x => rel h a x | _, _ => False end.
  Definition owns (vs : list (option blob)) (i k : nat) : Prop := exists b, nth_error vs i = Some b /\ dat b = Some k.
  Definition sim (s : state) (t : sstate) : Prop :=
    length (vars s) = length t /\
    (forall i a x, nth_error (vars s) i = Some a -> nth_error t i = Some x -> orel (mem s) a x) /\
    (forall i j k, owns (vars s) i k -> owns (vars s) j k -> i = j) /\
    (forall k c, nth_error (mem s) k = Some (Some c) -> exists i, owns (vars s) i k).

  Lemma rel_owned h b x k : rel h b x -> b_data b = Some k -> (k < length h)%nat.
  Proof. intros (_ & _ & _ & _ & _ & _ & R) D. rewrite D in R. destruct R as (_ & m & rest & E & _). apply (nth_len _ _ _ E). Qed.
  Lemma rel_frame h h' b x : rel h b x -> (forall k, b_data b = Some k -> nth_error h' k = nth_error h k) -> rel h' b x.
  Proof.
    intros (R1 & R2 & R3 & R4 & R5 & R6 & R7) F. repeat (split; [assumption|]). destruct (b_data b) as [k|]; [|exact R7]. rewrite (F k eq_refl). exact R7.
  Qed.
  Lemma sim_owned s t i k : sim s t -> owns (vars s) i k -> (k < length (mem s))%nat.
  Proof.
    intros (L & R & _) (b & Hb & Hk). destruct b as [b|]; [|discriminate]. assert (i < length t)%nat as Hi by (rewrite <- L; apply (nth_len _ _ _ Hb)).
    destruct (nth_error t i) as [x|] eqn:X; [|apply nth_error_None in X; lia]. specialize (R i _ _ Hb X). destruct x as [x|]; [|contradiction]. apply (rel_owned _ _ _ _ R Hk).
  Qed.
  Lemma sim_set s t i ob ox ob' ox' h' : sim s t -> nth_error (vars s) i = Some ob -> nth_error t i = Some ox ->
    local (mem s) (dat ob) h' (dat ob') -> orel h' ob' ox' -> sim {| vars := upd (vars s) i ob'; mem := h' |} (upd t i ox').
  Proof.
    intros S A X (L1 & L2 & L3) O. pose proof S as (L & R & U & K). split; [cbn; rewrite !upd_length; exact L|]. cbn [vars mem].
    assert (NO : forall j k, i <> j -> owns (vars s) j k -> dat ob <> Some k).
    { intros j k N Ow E. apply N. apply (U i j k); [exists ob; split; assumption|exact Ow]. }
    assert (OC : forall j k, owns (upd (vars s) i ob') j k -> (i = j /\ dat ob' = Some k) \/ (i <> j /\ owns (vars s) j k)).
    { intros j k (b & Hb & Hk). apply upd_cases in Hb. destruct Hb as [[-> ->]|[N Hb]]; [left; split; [reflexivity|exact Hk]|right; split; [exact N|exists b; split; assumption]]. }
    split; [|split].
    - intros j a x Ha Hx. apply upd_cases in Ha, Hx. destruct Ha as [[<- ->]|[N Ha]], Hx as [[E ->]|[N' Hx]]; [exact O|congruence|congruence|].
      specialize (R j a x Ha Hx). destruct a as [a|], x as [x|]; cbn [orel] in *; try assumption. apply (rel_frame _ _ _ _ R). intros k Hk.
      assert (Ow : owns (vars s) j k) by (exists (Some a); split; assumption). apply L1; [apply (sim_owned _ _ _ _ S Ow)|apply (NO j k N Ow)].
    - intros j1 j2 k H1 H2. apply OC in H1, H2. destruct H1 as [[<- H1]|[N1 H1]], H2 as [[<- H2]|[N2 H2]].
      + reflexivity.
      + exfalso. destruct (L2 k H1) as [E|E]; [apply (NO j2 k N2 H2 E)|]. pose proof (sim_owned _ _ _ _ S H2). lia.
      + exfalso. destruct (L2 k H2) as [E|E]; [apply (NO j1 k N1 H1 E)|]. pose proof (sim_owned _ _ _ _ S H1). lia.
      + apply (U _ _ _ H1 H2).
    - intros k c H. destruct (L3 k c H) as [E|[E B]].
      + exists i, ob'. split; [apply upd_same, (nth_len _ _ _ A)|exact E].
      + rewrite (L1 k B E) in H. destruct (K k c H) as (j & b & Hb & Hk). exists j, b. split; [|exact Hk]. rewrite upd_other; [exact Hb|]. intros <-. congruence.
  Qed.
  Lemma sim_dead s t : sim s t -> sim {| vars := vars s ++ [None]; mem := mem s |} (t ++ [None]).
  Proof.
    intros (L & R & U & K). split; [cbn; rewrite !app_length, L; reflexivity|]. cbn [vars mem].
    assert (OC : forall j k, owns (vars s ++ [None]) j k -> owns (vars s) j k).
    { intros j k (b & Hb & Hk). apply nth_snoc in Hb. destruct Hb as [[_ ->]|Hb]; [discriminate|exists b; split; assumption]. }
    split; [|split].
    - intros i a x Ha Hx. apply nth_snoc in Ha, Hx. destruct Ha as [[-> ->]|Ha], Hx as [[E ->]|Hx]; [exact I|apply nth_len in Hx; lia|apply nth_len in Ha; lia|apply (R i); assumption].
    - intros i j k Hi Hj. apply (U i j k); apply OC; assumption.
    - intros k c H. destruct (K k c H) as (i & b & Hb & Hk). exists i, b. split; [|exact Hk]. rewrite nth_error_app1; [exact Hb|apply (nth_len _ _ _ Hb)].
  Qed.
  Lemma sim_add s t b x h' : sim s t -> local (mem s) None h' (b_data b) -> rel h' b x -> sim (add_var s (b, h')) (t ++ [Some x]).
  Proof.
    intros S L R. pose proof (sim_set _ _ (length (vars s)) None None (Some b) (Some x) h' (sim_dead _ _ S)) as H. cbn [vars mem dat orel] in H.
    rewrite nth_app_mid in H. rewrite (proj1 S) in H at 1. rewrite nth_app_mid in H. specialize (H eq_refl eq_refl L R). rewrite upd_snoc_last in H. rewrite (proj1 S), upd_snoc_last in H. exact H.
  Qed.
  Lemma sim_var s t i : sim s t -> match var s i, svar t i with Some b, Some x => rel (mem s) b x | None, None => True | _, _ => False end.
  Proof.
    intros (L & R & _). unfold var, svar. destruct (nth_error (vars s) i) as [a|] eqn:A.
    - assert (i < length t)%nat as K by (rewrite <- L; apply (nth_len _ _ _ A)). destruct (nth_error t i) as [x|] eqn:X; [|apply nth_error_Some in X; [contradiction|exact K]].
      specialize (R i a x A X). destruct a, x; cbn [orel] in R; assumption.
    - assert (nth_error t i = None) as X by (apply nth_error_None; rewrite <- L; apply nth_error_None; exact A). rewrite X. exact I.
  Qed.
  Lemma rel_empty h : rel h (blob_empty ma) {| s_promise := ma; s_bytes := [] |}.
  Proof.
    pose proof lim_big. unfold rel, good, blob_empty. cbn [b_size b_align b_data s_promise s_bytes length N.of_nat]. fold lim in HmaB. repeat split; try lia; exact Hma.
  Qed.
  Lemma local_same h : local h None h None.
  Proof. split; [reflexivity|]. split; [discriminate|]. intros k c H. right. split; [discriminate|apply (nth_len _ _ _ H)]. Qed.
  Lemma sim_move s t i j oa ox b x : sim s t -> i <> j -> nth_error (vars s) i = Some oa -> nth_error t i = Some ox -> dat oa = None ->
    nth_error (vars s) j = Some (Some b) -> nth_error t j = Some (Some x) ->
    sim {| vars := upd (upd (vars s) i (Some b)) j (Some (blob_empty ma)); mem := mem s |} (upd (upd t i (Some x)) j (Some {| s_promise := ma; s_bytes := [] |})).
  Proof.
    intros (L & R & U & K) N Ai Xi E Aj Xj. split; [cbn; rewrite !upd_length; exact L|]. cbn [vars mem].
    assert (OO : forall k q, owns (upd (upd (vars s) i (Some b)) j (Some (blob_empty ma))) k q -> (k = i /\ owns (vars s) j q) \/ (k <> i /\ k <> j /\ owns (vars s) k q)).
    { intros k q (a1 & H1 & H2). apply upd_cases in H1. destruct H1 as [[<- ->]|[N1 H1]]; [discriminate|]. apply upd_cases in H1. destruct H1 as [[<- ->]|[N2 H1]].
      - left. split; [reflexivity|]. exists (Some b). split; assumption.
      - right. split; [congruence|]. split; [congruence|]. exists a1. split; assumption. }
    split; [|split].
    - intros k a1 x1 H1 H2. apply upd_cases in H1, H2. destruct H1 as [[<- ->]|[N1 H1]], H2 as [[E2 ->]|[N2 H2]]; [apply rel_empty|congruence|congruence|].
      apply upd_cases in H1, H2. destruct H1 as [[<- ->]|[N1' H1]], H2 as [[E2 ->]|[N2' H2]]; [apply (R j (Some b) (Some x) Aj Xj)|congruence|congruence|apply (R k); assumption].
    - intros k k' q Hk Hk'. apply OO in Hk, Hk'. destruct Hk as [[-> Hk]|(n1 & n2 & Hk)], Hk' as [[-> Hk']|(n1' & n2' & Hk')].
      + reflexivity.
      + exfalso. apply n2'. symmetry. apply (U _ _ _ Hk Hk').
      + exfalso. apply n2. apply (U _ _ _ Hk Hk').
      + apply (U _ _ _ Hk Hk').
    - intros q c H. destruct (K q c H) as (k & a1 & H1 & H2). destruct (Nat.eq_dec k j) as [->|Nj].
      + exists i, a1. split; [|exact H2]. rewrite upd_other by congruence. assert (a1 = Some b) as -> by congruence. apply upd_same, (nth_len _ _ _ Ai).
      + exists k, a1. split; [|exact H2]. rewrite upd_other by congruence. rewrite upd_other; [exact H1|]. intros <-. congruence.
  Qed.
  Lemma destroy_ok h b x : rel h b x -> exists h', blob_destroy h b = Some h' /\ local h (b_data b) h' None.
  Proof.
    intros (_ & _ & _ & _ & _ & _ & R). unfold blob_destroy. destruct (b_data b) as [k|]; [|exists h; split; [reflexivity|apply local_same]].
    destruct R as (_ & m & rest & E & _). rewrite (free_ok _ _ _ E). eexists. split; [reflexivity|]. split; [intros k' _ N'; apply upd_other; congruence|]. split; [discriminate|].
    intros k' c H. apply upd_cases in H. destruct H as [[_ H]|[N' H]]; [discriminate|]. right. split; [congruence|apply (nth_len _ _ _ H)].
  Qed.
  Lemma var_nth s i b : var s i = Some b -> nth_error (vars s) i = Some (Some b).
  Proof. unfold var. destruct (nth_error (vars s) i) as [[]|]; congruence. Qed.
  Lemma svar_nth (t : sstate) i x : svar t i = Some x -> nth_error t i = Some (Some x).
  Proof. unfold svar. destruct (nth_error t i) as [[]|]; congruence. Qed.
  (** Bytes read from another blob, or from outside. *)
  Lemma peek_blob h b x off n : rel h b x -> b_data b <> None -> off + n <= N.of_nat (length (s_bytes x)) ->
    exists k m, b_data b = Some k /\ agrees m (firstn (N.to_nat n) (skipn (N.to_nat off) (s_bytes x))) /\ forall h', nth_error h' k = nth_error h k -> peek h' (At k off) n = Some m.
  Proof.
    intros (R1 & _ & _ & _ & _ & _ & R) D B. destruct (b_data b) as [k|]; [|congruence]. destruct R as (_ & m & rest & E & AG). pose proof (agrees_length _ _ AG) as LM.
    exists k, (firstn (N.to_nat n) (skipn (N.to_nat off) m)). split; [reflexivity|]. split; [apply agrees_firstn, agrees_skipn, AG|].
    intros h' E'. unfold peek. rewrite E', E. cbn [k_bytes]. rewrite app_length. replace (off + n <=? N.of_nat (length m + length rest)) with true by (symmetry; apply N.leb_le; lia).
    f_equal. rewrite skipn_app. replace (N.to_nat off - length m)%nat with 0%nat by lia. cbn [skipn]. rewrite firstn_app, skipn_length. replace (N.to_nat n - (length m - N.to_nat off))%nat with 0%nat by lia. cbn [firstn]. apply app_nil_r.
  Qed.
  Lemma steady_blob h d b x off n : rel h b x -> off + n <= N.of_nat (length (s_bytes x)) -> (forall k, b_data b = Some k -> d <> Some k) ->
    steady h d (match b_data b with Some k => At k off | None => Null end) n (firstn (N.to_nat n) (skipn (N.to_nat off) (s_bytes x))).
  Proof.
    intros R B ND. destruct (b_data b) as [k|] eqn:D.
    - right. split; [discriminate|]. split; [rewrite firstn_length, skipn_length; lia|]. split.
      + intros b0 off0 [= <- <-]. split; [apply (rel_owned _ _ _ _ R D)|apply ND; reflexivity].
      + destruct (peek_blob h b x off n R ltac:(congruence) B) as (k' & m & E & AG & P). rewrite D in E. injection E as <-. exists m. split; [exact AG|].
        intros h' F. apply P, F; [apply (rel_owned _ _ _ _ R D)|apply ND; reflexivity].
    - left. split; [reflexivity|]. pose proof R as (R1 & _ & _ & _ & _ & _ & R2). rewrite D in R2. assert (n = 0) as -> by lia. reflexivity.
  Qed.
  Lemma resolve_ok s t u n l d : sim s t -> sread t u n = Some l -> (match u with UBlob j _ => forall b k, var s j = Some b -> b_data b = Some k -> d <> Some k | _ => True end) ->
    exists p, resolve s u = Some p /\ steady (mem s) d p n l /\ length l = N.to_nat n.
  Proof.
    intros S E H. destruct u as [|l0|j off]; cbn [sread resolve] in *.
    - injection E as <-. exists Null. split; [reflexivity|]. split; [left; split; reflexivity|apply repeat_length].
    - destruct (N.leb_spec n (N.of_nat (length l0))) as [B|B]; [|discriminate]. injection E as <-. exists (Outside l0). split; [reflexivity|].
      assert (LL : length (firstn (N.to_nat n) l0) = N.to_nat n) by (rewrite firstn_length; lia). split; [|exact LL]. right. split; [discriminate|]. split; [exact LL|]. split; [discriminate|].
      eexists. split; [apply agrees_refl|]. intros h' _. cbn [peek]. replace (n <=? N.of_nat (length l0)) with true by (symmetry; apply N.leb_le; exact B). reflexivity.
    - pose proof (sim_var s t j S) as J. destruct (svar t j) as [x|] eqn:X; [|discriminate]. cbn [option_bind] in E. destruct (var s j) as [b|] eqn:V; [|contradiction]. cbn [option_bind].
      destruct (N.leb_spec (off + n) (N.of_nat (length (s_bytes x)))) as [B|B]; [|discriminate]. injection E as <-.
      exists (match b_data b with Some k => At k off | None => Null end). split; [destruct (b_data b); reflexivity|]. split; [|rewrite firstn_length, skipn_length; lia].
      apply (steady_blob _ _ b x); [exact J|exact B|]. intros k Hk. apply (H b k eq_refl Hk).
  Qed.
  (** Copying a whole blob. *)
  Lemma steady_data h d b x : rel h b x -> (forall k, b_data b = Some k -> d <> Some k) -> steady h d (data_of b) (b_size b) (s_bytes x).
  Proof.
    intros R ND. pose proof (steady_blob h d b x 0 (b_size b) R) as H. rewrite (proj1 R) in *. rewrite Nat2N.id in H. cbn [N.to_nat skipn] in H. rewrite firstn_all in H. apply H; [lia|exact ND].
  Qed.
  Lemma rel_promise h b x p : rel h b x -> pow2 p -> ma <= p -> p <= s_promise x -> rel h b {| s_promise := p; s_bytes := s_bytes x |}.
  Proof.
    intros (R1 & R2 & R3 & R4 & R5 & R6 & R7) A B C. unfold rel. cbn [s_promise s_bytes]. repeat (split; [first [assumption|lia]|]). exact R7.
  Qed.
  Lemma step_ok s t t' o : sim s t -> sane sw o -> sstep ma t o = Some t' -> exists s', step sw ma s o = Some s' /\ sim s' t'.
  Proof.
    intros S SA E. pose proof S as (L & R & U & K). pose proof lim_big as LB. fold lim in HmaB. destruct o as [|size src align|j|j align|j|i|i size src align|i j|i j|i size|i k v]; cbn [step sstep sane] in *.
    - injection E as <-. eexists. split; [reflexivity|]. apply sim_add; [exact S|apply local_same|apply rel_empty].
    - destruct (sread t src size) as [l|] eqn:SR; [|discriminate]. cbn [option_bind] in E. injection E as <-.
      destruct (resolve_ok s t src size l None S SR) as (p & P & ST & LL); [destruct src; try exact I; discriminate|]. rewrite P. cbn [option_bind].
      destruct (new_ok (mem s) size p align l SA ST LL) as (b & h' & N & RR & LO). rewrite N. cbn [option_bind]. eexists. split; [reflexivity|]. apply sim_add; assumption.
    - pose proof (sim_var s t j S) as J. destruct (svar t j) as [x|] eqn:X; [|discriminate]. destruct (var s j) as [b|] eqn:V; [|contradiction]. cbn [option_bind] in *. injection E as <-.
      pose proof J as (J1 & J2 & (J3 & J3' & J3'') & J4 & J5 & J6 & _).
      destruct (new_ok (mem s) (b_size b) (data_of b) (b_align b) (s_bytes x) ltac:(split; [right; exact J3|split; assumption]) ltac:(apply steady_data; [exact J|discriminate]) ltac:(lia)) as (b' & h' & N & RR & LO).
      unfold blob_copy. rewrite N. cbn [option_bind]. eexists. split; [reflexivity|]. apply sim_add; [exact S|exact LO|]. pose proof (rel_promise _ _ _ (s_promise x) RR J4 J5 ltac:(cbn [s_promise]; lia)) as Q. destruct x. exact Q.
    - pose proof (sim_var s t j S) as J. destruct (svar t j) as [x|] eqn:X; [|discriminate]. destruct (var s j) as [b|] eqn:V; [|contradiction]. cbn [option_bind] in *. injection E as <-.
      pose proof J as (J1 & J2 & (J3 & J3' & J3'') & J4 & J5 & J6 & _). destruct SA as (SA1 & SA2 & _).
      destruct (new_ok (mem s) (b_size b) (data_of b) (if align =? 0 then b_align b else align) (s_bytes x)) as (b' & h' & N & RR & LO).
      { split; [|split; [|exact J2]]; destruct (N.eqb_spec align 0); [right; exact J3|exact SA1|exact J3''|exact SA2]. }
      { apply steady_data; [exact J|discriminate]. } { lia. }
      unfold blob_copy_align. rewrite N. cbn [option_bind]. eexists. split; [reflexivity|]. apply sim_add; [exact S|exact LO|]. destruct (N.eqb_spec align 0) as [Z|NZ]; [|exact RR].
      exact (rel_promise _ _ _ (s_promise x) RR J4 J5 ltac:(cbn [s_promise]; lia)).
    - pose proof (sim_var s t j S) as J. destruct (svar t j) as [x|] eqn:X; [|discriminate]. destruct (var s j) as [b|] eqn:V; [|contradiction]. cbn [option_bind] in *. injection E as <-. apply var_nth in V. apply svar_nth in X.
      eexists. split; [reflexivity|]. pose proof (nth_len _ _ _ V) as LV. pose proof (nth_len _ _ _ X) as LX.
      pose proof (sim_move _ _ (length (vars s)) j None None b x (sim_dead _ _ S)) as H. cbn [vars mem] in H. assert (T0 : nth_error (t ++ [None]) (length (vars s)) = Some None) by (rewrite L; apply nth_app_mid).
      specialize (H ltac:(lia) (nth_app_mid _ _ _) T0 eq_refl). rewrite !nth_error_app1 in H by assumption. specialize (H V X). rewrite upd_snoc_last in H. rewrite L, upd_snoc_last in H. rewrite !upd_snoc in H by assumption. exact H.
    - pose proof (sim_var s t i S) as J. destruct (svar t i) as [x|] eqn:X; [|discriminate]. destruct (var s i) as [b|] eqn:V; [|contradiction]. cbn [option_bind] in *. injection E as <-. apply var_nth in V. apply svar_nth in X.
      destruct (destroy_ok (mem s) b x J) as (h' & D & LO). rewrite D. cbn [option_bind]. eexists. split; [reflexivity|]. apply (sim_set s t i (Some b) (Some x) None None h' S V X LO). exact I.
    - destruct SA as [SA1 SA2]. pose proof (sim_var s t i S) as J. destruct (svar t i) as [x|] eqn:X; [|discriminate]. destruct (var s i) as [b|] eqn:V; [|contradiction]. cbn [option_bind] in *.
      destruct (sread t src size) as [l|] eqn:SR; [|discriminate]. cbn [option_bind] in E. injection E as <-. apply var_nth in V. apply svar_nth in X.
      destruct (resolve_ok s t src size l (b_data b) S SR) as (p & P & ST & LL).
      { destruct src as [| |j off]; try exact I. intros b' k Hb Hk Hk'. apply var_nth in Hb. apply SA2. apply (U j i k); [exists (Some b'); split; assumption|exists (Some b); split; assumption]. }
      rewrite P. cbn [option_bind]. destruct (assign_ok (mem s) b x size p align l J SA1 ST LL) as (b' & h' & N & RR & LO). rewrite N. cbn [option_bind]. eexists. split; [reflexivity|].
      apply (sim_set s t i (Some b) (Some x) (Some b') (Some _) h' S V X LO RR).
    - pose proof (sim_var s t i S) as J. destruct (svar t i) as [x|] eqn:X; [|discriminate]. destruct (var s i) as [b|] eqn:V; [|contradiction]. cbn [option_bind] in *.
      pose proof (sim_var s t j S) as J'. destruct (svar t j) as [y|] eqn:Y; [|discriminate]. destruct (var s j) as [o|] eqn:W; [|contradiction]. cbn [option_bind] in *. injection E as <-. apply var_nth in V, W. apply svar_nth in X, Y.
      pose proof J' as (J1 & J2 & (J3 & J3' & J3'') & J4 & J5 & J6 & _).
      destruct (assign_ok (mem s) b x (b_size o) (data_of o) (b_align o) (s_bytes y) J) as (b' & h' & N & RR & LO).
      { split; [right; exact J3|split; assumption]. }
      { apply steady_data; [exact J'|]. intros k Hk Hk'. apply SA. apply (U i j k); [exists (Some b); split; assumption|exists (Some o); split; assumption]. }
      { lia. }
      rewrite N. cbn [option_bind]. eexists. split; [reflexivity|]. apply (sim_set s t i (Some b) (Some x) (Some b') (Some y) h' S V X LO).
      pose proof (rel_promise _ _ _ (s_promise y) RR J4 J5 ltac:(cbn [s_promise]; lia)) as Q. destruct y. exact Q.
    - pose proof (sim_var s t i S) as J. destruct (svar t i) as [x|] eqn:X; [|discriminate]. destruct (var s i) as [b|] eqn:V; [|contradiction]. cbn [option_bind] in *.
      pose proof (sim_var s t j S) as J'. destruct (svar t j) as [y|] eqn:Y; [|discriminate]. destruct (var s j) as [o|] eqn:W; [|contradiction]. cbn [option_bind] in *. injection E as <-. apply var_nth in V, W. apply svar_nth in X, Y.
      destruct (Nat.eqb_spec i j) as [EQ|NE]; [eexists; split; [reflexivity|exact S]|].
      destruct (destroy_ok (mem s) b x J) as (h' & D & LO). rewrite D. cbn [option_bind]. eexists. split; [reflexivity|].
      pose proof (sim_set s t i (Some b) (Some x) None None h' S V X LO I) as S1.
      pose proof (sim_move _ _ i j None None o y S1) as H. cbn [vars mem] in H. rewrite !(upd_other _ i j) in H by exact NE. rewrite !(upd_same _ i) in H by (first [apply (nth_len _ _ _ V)|apply (nth_len _ _ _ X)]). rewrite !upd_upd in H.
      exact (H NE eq_refl eq_refl eq_refl W Y).
    - pose proof (sim_var s t i S) as J. destruct (svar t i) as [x|] eqn:X; [|discriminate]. destruct (var s i) as [b|] eqn:V; [|contradiction]. cbn [option_bind] in *. injection E as <-. apply var_nth in V. apply svar_nth in X.
      destruct SA as (_ & _ & SA). destruct (resize_ok (mem s) b x size J SA) as (b' & h' & N & RR & LO & _). rewrite N. cbn [option_bind]. eexists. split; [reflexivity|]. apply (sim_set s t i (Some b) (Some x) (Some b') (Some _) h' S V X LO RR).
    - pose proof (sim_var s t i S) as J. destruct (svar t i) as [x|] eqn:X; [|discriminate]. destruct (var s i) as [b|] eqn:V; [|contradiction]. cbn [option_bind] in *.
      pose proof J as (J1 & J2 & J3 & J4 & J5 & J6 & J7). rewrite J1. destruct (N.ltb_spec k (N.of_nat (length (s_bytes x)))) as [B|B]; [|discriminate]. injection E as <-. apply var_nth in V. apply svar_nth in X.
      destruct (b_data b) as [d|] eqn:D; [|lia]. destruct J7 as (J7 & m & rest & E & AG). pose proof (agrees_length _ _ AG) as LM. unfold poke. rewrite E. cbn [k_bytes k_align length].
      replace (k + N.of_nat 1 <=? N.of_nat (length (m ++ rest))) with true by (symmetry; apply N.leb_le; rewrite app_length; lia). cbn [option_bind]. eexists. split; [reflexivity|].
      rewrite <- (upd_self (vars s) i (Some b) V). apply (sim_set s t i (Some b) (Some x) (Some b) (Some _) _ S V X).
      + cbn [dat]. rewrite D. apply local_upd. split; [reflexivity|]. split; [intros k' H; left; exact H|]. intros k' c H. destruct (option_eq_dec_nat (Some d) (Some k')) as [Q|Q]; [left; exact Q|right; split; [exact Q|apply (nth_len _ _ _ H)]].
      + unfold orel, rel. cbn [s_promise s_bytes]. rewrite upd_length, D. repeat (split; [assumption|]). exists (upd m (N.to_nat k) (Some v)), rest. split; [|apply agrees_upd, AG].
        rewrite upd_same by apply (nth_len _ _ _ E). f_equal. f_equal. f_equal. rewrite (upd_split m) by lia. rewrite firstn_app, skipn_app. replace (N.to_nat k - length m)%nat with 0%nat by lia. replace (N.to_nat k + 1 - length m)%nat with 0%nat by lia. cbn [firstn skipn].
        rewrite app_nil_r, <- !app_assoc. reflexivity.
  Qed.
  Lemma sim_start : sim start [].
  Proof. split; [reflexivity|]. split; [intros [|i] a x H; discriminate|]. split; [intros i j k (b & H & _); destruct i; discriminate|]. intros [|k] c H; discriminate. Qed.
  Lemma run_ok os : forall s t t', sim s t -> Forall (sane sw) os -> srun ma t os = Some t' -> exists s', run sw ma s os = Some s' /\ sim s' t'.
  Proof.
    induction os as [|o os IH]; intros s t t' S F E; cbn [srun run] in *.
    - injection E as <-. exists s. split; [reflexivity|exact S].
    - inversion F as [|? ? F1 F2]; subst. destruct (sstep ma t o) as [t1|] eqn:E1; [|discriminate]. cbn [option_bind] in E. destruct (step_ok s t t1 o S F1 E1) as (s1 & -> & S1). cbn [option_bind]. apply (IH s1 t1 t' S1 F2 E).
  Qed.
End P.
