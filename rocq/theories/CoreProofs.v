(** Proofs about core_utils, chars and integral_range. *)
From Verif Require Import Words CoreModel CoreSpec.
From Coq Require Import ZifyBool ZifyNat ZifyN Sorted Znumtheory.
Local Open Scope N_scope.

(* ------------------------------------------------------------------ order *)

Section Order.
  Context {A : Type} (lt : A -> A -> bool) (H : strict_total lt).
  Let le a b := lt b a = false.

  Lemma le_refl a : le a a.
  Proof. apply (st_irrefl _ H). Qed.

  Lemma lt_le a b : lt a b = true -> le a b.
  Proof.
    intros Hab. unfold le. destruct (lt b a) eqn:E; [|reflexivity].
    rewrite <- (st_irrefl _ H a). symmetry. apply (st_trans _ H a b a); assumption.
  Qed.

  Lemma le_trans a b c : le a b -> le b c -> le a c.
  Proof.
    unfold le. intros Hab Hbc. destruct (lt c a) eqn:E; [|reflexivity].
    destruct (lt a b) eqn:Eab.
    - rewrite <- Hbc. symmetry. apply (st_trans _ H c a b); assumption.
    - rewrite (st_total _ H a b Eab Hab) in E. congruence.
  Qed.

  Lemma min2_spec a b : (min2 lt a b = a \/ min2 lt a b = b) /\ le (min2 lt a b) a /\ le (min2 lt a b) b.
  Proof.
    unfold min2. destruct (lt a b) eqn:E.
    - split; [left; reflexivity|]. split; [apply le_refl|apply lt_le, E].
    - split; [right; reflexivity|]. split; [exact E|apply le_refl].
  Qed.

  Lemma max2_spec a b : (max2 lt a b = a \/ max2 lt a b = b) /\ le a (max2 lt a b) /\ le b (max2 lt a b).
  Proof.
    unfold max2. destruct (lt a b) eqn:E.
    - split; [right; reflexivity|]. split; [apply lt_le, E|apply le_refl].
    - split; [left; reflexivity|]. split; [apply le_refl|exact E].
  Qed.

  Lemma vmin_spec vals : forall v1 v2,
    In (vmin lt v1 v2 vals) (v1 :: v2 :: vals) /\
    (forall x, In x (v1 :: v2 :: vals) -> le (vmin lt v1 v2 vals) x).
  Proof.
    assert (Fold : forall v1 v2 a r m,
      In m (min2 lt v1 v2 :: a :: r) /\ (forall x, In x (min2 lt v1 v2 :: a :: r) -> le m x) ->
      In m (v1 :: v2 :: a :: r) /\ (forall x, In x (v1 :: v2 :: a :: r) -> le m x)).
    { intros v1 v2 a r m (Hin & Hle). destruct (min2_spec v1 v2) as (Hor & H1 & H2). split.
      - destruct Hin as [<-|Hin]; [|right; right; exact Hin].
        destruct Hor as [-> | ->]; [left|right; left]; reflexivity.
      - intros x [<-|[<-|Hx]].
        + apply le_trans with (2 := H1), Hle. left; reflexivity.
        + apply le_trans with (2 := H2), Hle. left; reflexivity.
        + apply Hle. right; exact Hx. }
    induction vals as [|a vals IH]; intros v1 v2.
    - cbn [vmin]. destruct (min2_spec v1 v2) as (Hor & H1 & H2). split.
      + destruct Hor as [-> | ->]; [left|right; left]; reflexivity.
      + intros x [<-|[<-|[]]]; assumption.
    - destruct vals as [|b [|c vals]].
      + apply Fold, IH.
      + cbn [vmin]. destruct (min2_spec v1 v2) as (Hor & H1 & H2).
        destruct (min2_spec a b) as (Hor' & H1' & H2').
        destruct (min2_spec (min2 lt v1 v2) (min2 lt a b)) as (Hor'' & H1'' & H2''). split.
        * destruct Hor'' as [-> | ->]; [destruct Hor as [-> | ->]|destruct Hor' as [-> | ->]]; cbn; tauto.
        * intros x [<-|[<-|[<-|[<-|[]]]]]; eauto using le_trans.
      + apply Fold, IH.
  Qed.

  Lemma vmax_spec vals : forall v1 v2,
    In (vmax lt v1 v2 vals) (v1 :: v2 :: vals) /\
    (forall x, In x (v1 :: v2 :: vals) -> le x (vmax lt v1 v2 vals)).
  Proof.
    assert (Fold : forall v1 v2 a r m,
      In m (max2 lt v1 v2 :: a :: r) /\ (forall x, In x (max2 lt v1 v2 :: a :: r) -> le x m) ->
      In m (v1 :: v2 :: a :: r) /\ (forall x, In x (v1 :: v2 :: a :: r) -> le x m)).
    { intros v1 v2 a r m (Hin & Hle). destruct (max2_spec v1 v2) as (Hor & H1 & H2). split.
      - destruct Hin as [<-|Hin]; [|right; right; exact Hin].
        destruct Hor as [-> | ->]; [left|right; left]; reflexivity.
      - intros x [<-|[<-|Hx]].
        + apply le_trans with (1 := H1), Hle. left; reflexivity.
        + apply le_trans with (1 := H2), Hle. left; reflexivity.
        + apply Hle. right; exact Hx. }
    induction vals as [|a vals IH]; intros v1 v2.
    - cbn [vmax]. destruct (max2_spec v1 v2) as (Hor & H1 & H2). split.
      + destruct Hor as [-> | ->]; [left|right; left]; reflexivity.
      + intros x [<-|[<-|[]]]; assumption.
    - destruct vals as [|b [|c vals]].
      + apply Fold, IH.
      + cbn [vmax]. destruct (max2_spec v1 v2) as (Hor & H1 & H2).
        destruct (max2_spec a b) as (Hor' & H1' & H2').
        destruct (max2_spec (max2 lt v1 v2) (max2 lt a b)) as (Hor'' & H1'' & H2''). split.
        * destruct Hor'' as [-> | ->]; [destruct Hor as [-> | ->]|destruct Hor' as [-> | ->]]; cbn; tauto.
        * intros x [<-|[<-|[<-|[<-|[]]]]]; eauto using le_trans.
      + apply Fold, IH.
  Qed.

  Lemma clamp_spec v lo hi : le lo hi ->
    le lo (clamp lt v lo hi) /\ le (clamp lt v lo hi) hi /\
    (le lo v -> le v hi -> clamp lt v lo hi = v) /\
    (forall c, le lo c -> le c hi ->
       (le v (clamp lt v lo hi) /\ le (clamp lt v lo hi) c) \/
       (le c (clamp lt v lo hi) /\ le (clamp lt v lo hi) v)).
  Proof.
    intros Hlh. unfold clamp. destruct (lt v lo) eqn:E1; [|destruct (lt hi v) eqn:E2].
    - split; [apply le_refl|]. split; [exact Hlh|]. split.
      + intros Hlo _. unfold le in Hlo. congruence.
      + intros c Hc _. left. split; [apply lt_le, E1|exact Hc].
    - split; [exact Hlh|]. split; [apply le_refl|]. split.
      + intros _ Hhi. unfold le in Hhi. congruence.
      + intros c _ Hc. right. split; [exact Hc|apply lt_le, E2].
    - split; [exact E1|]. split; [exact E2|]. split; [reflexivity|].
      intros c _ _. destruct (lt c v) eqn:Ec; [right|left].
      + split; [apply lt_le, Ec|apply le_refl].
      + split; [apply le_refl|exact Ec].
  Qed.

  Lemma clamp_idem v lo hi : le lo hi -> clamp lt (clamp lt v lo hi) lo hi = clamp lt v lo hi.
  Proof.
    intros Hlh. destruct (clamp_spec v lo hi Hlh) as (H1 & H2 & _).
    destruct (clamp_spec (clamp lt v lo hi) lo hi Hlh) as (_ & _ & H3 & _). apply H3; assumption.
  Qed.

  Lemma clamp_mono v v' lo hi : le lo hi -> le v v' -> le (clamp lt v lo hi) (clamp lt v' lo hi).
  Proof.
    intros Hlh Hvv. unfold clamp. destruct (lt v lo) eqn:E1.
    - destruct (lt v' lo) eqn:E1'; [apply le_refl|]. destruct (lt hi v'); [exact Hlh|exact E1'].
    - destruct (lt v' lo) eqn:E1'.
      + exfalso. pose proof (le_trans _ _ _ E1 Hvv) as Hx. unfold le in Hx. congruence.
      + destruct (lt hi v) eqn:E2, (lt hi v') eqn:E2'; [apply le_refl| |exact E2|exact Hvv].
        exfalso. pose proof (le_trans _ _ _ Hvv E2') as Hx. unfold le in Hx. congruence.
  Qed.
End Order.

Lemma Zltb_strict_total : strict_total Z.ltb.
Proof. split; intros; lia. Qed.

Lemma clamp_nearest v lo hi : (lo <= hi)%Z ->
  (lo <= clamp Z.ltb v lo hi <= hi)%Z /\
  (forall c, (lo <= c <= hi)%Z -> (Z.abs (v - clamp Z.ltb v lo hi) <= Z.abs (v - c))%Z /\
     (c <> clamp Z.ltb v lo hi -> (Z.abs (v - clamp Z.ltb v lo hi) < Z.abs (v - c))%Z)).
Proof.
  intros Hlh. unfold clamp. destruct (v <? lo)%Z eqn:E1; [|destruct (hi <? v)%Z eqn:E2]; split; try lia;
  intros c Hc; lia.
Qed.

(* ----------------------------------------------------------------- between *)

Lemma std_bits t : std_ity t -> (8 <= ibits t)%Z.
Proof. unfold std_ity. cbn [In]. lia. Qed.

Lemma conv_id t x : (0 < ibits t)%Z -> in_ity t x -> conv t x = x.
Proof.
  intros Hb [Hlo Hhi]. unfold conv, ity_min, ity_max in *.
  assert (Hp : (2 ^ ibits t = 2 * 2 ^ (ibits t - 1))%Z).
  { rewrite <- Z.pow_succ_r by lia. f_equal. lia. }
  assert (Hpos : (0 < 2 ^ (ibits t - 1))%Z) by (apply Z.pow_pos_nonneg; lia).
  destruct (isigned t); cbn [andb].
  - destruct (Z.leb_spec 0 x) as [H|H].
    + rewrite Z.mod_small by lia. destruct (Z.leb_spec (2 ^ (ibits t - 1)) x); lia.
    + assert (E : (x mod 2 ^ ibits t = x + 2 ^ ibits t)%Z).
      { symmetry. apply Z.mod_unique with (-1)%Z; lia. }
      rewrite E. destruct (Z.leb_spec (2 ^ (ibits t - 1)) (x + 2 ^ ibits t)); lia.
  - rewrite Z.mod_small by lia. reflexivity.
Qed.

Lemma conv_neg_unsigned b x : (0 < b)%Z -> (- 2 ^ b <= x < 0)%Z ->
  conv {| isigned := false; ibits := b |} x = (x + 2 ^ b)%Z.
Proof.
  intros Hb Hx. unfold conv. cbn [isigned ibits andb]. symmetry.
  apply Z.mod_unique with (-1)%Z; lia.
Qed.

Lemma in_promote t x : std_ity t -> in_ity t x -> in_ity (promote t) x.
Proof.
  intros Hs Hx. unfold promote. destruct (Z.ltb_spec (ibits t) 32) as [H|H]; [|exact Hx].
  destruct t as [sg b]. unfold std_ity, in_ity, ity_min, ity_max in *. cbn [isigned ibits] in *.
  assert (Hb : b = 8%Z \/ b = 16%Z) by (cbn [In] in Hs; lia).
  destruct Hb as [-> | ->]; destruct sg; cbn in *; lia.
Qed.

Lemma promote_bits t : std_ity t -> (32 <= ibits (promote t))%Z.
Proof. intros Hs. unfold promote. destruct (Z.ltb_spec (ibits t) 32); cbn [ibits]; lia. Qed.

Lemma in_wider sg b b' x : (0 < b <= b')%Z ->
  in_ity {| isigned := sg; ibits := b |} x -> in_ity {| isigned := sg; ibits := b' |} x.
Proof.
  intros Hb. unfold in_ity, ity_min, ity_max. cbn [isigned ibits].
  assert (2 ^ (b - 1) <= 2 ^ (b' - 1))%Z by (apply Z.pow_le_mono_r; lia).
  assert (2 ^ b <= 2 ^ b')%Z by (apply Z.pow_le_mono_r; lia).
  destruct sg; lia.
Qed.

Lemma in_unsigned_signed b b' x : (0 < b < b')%Z ->
  in_ity {| isigned := false; ibits := b |} x -> in_ity {| isigned := true; ibits := b' |} x.
Proof.
  intros Hb. unfold in_ity, ity_min, ity_max. cbn [isigned ibits].
  assert (2 ^ b <= 2 ^ (b' - 1))%Z by (apply Z.pow_le_mono_r; lia).
  assert (0 < 2 ^ (b' - 1))%Z by (apply Z.pow_pos_nonneg; lia). lia.
Qed.

(** Either both operand types embed in the common type, or it is unsigned, one operand type is signed, and
    that one embeds except for its negative values. *)
Lemma common_type_cases T U : std_ity T -> std_ity U ->
  let C := common_type T U in
  (0 < ibits C)%Z /\
  (((forall x, in_ity T x -> in_ity C x) /\ (forall x, in_ity U x -> in_ity C x)) \/
   (isigned C = false /\ isigned T <> isigned U /\
    (forall x, in_ity T x -> (0 <= x)%Z -> in_ity C x) /\
    (forall x, in_ity U x -> (0 <= x)%Z -> in_ity C x) /\
    (forall x, in_ity U x -> (x < 0)%Z -> (- 2 ^ (ibits C - 1) <= x)%Z) /\
    (forall x, in_ity U x -> isigned U = true -> (x < 2 ^ (ibits C - 1))%Z))).
Proof.
  intros HT HU C. pose proof (promote_bits T HT) as Hbt. pose proof (promote_bits U HU) as Hbu.
  pose proof (in_promote T) as HpT. pose proof (in_promote U) as HpU.
  unfold C, common_type.
  destruct (promote T) as [sT bT] eqn:ET. destruct (promote U) as [sU bU] eqn:EU.
  cbn [isigned ibits] in *.
  destruct (Bool.eqb sT sU) eqn:Es.
  - apply Bool.eqb_prop in Es. subst sU. cbn [ibits]. split; [lia|]. left.
    split; intros x Hx; [apply in_wider with bT|apply in_wider with bU]; try lia; auto.
  - apply Bool.eqb_false_iff in Es.
    assert (Hsig : isigned T <> isigned U \/ (if sT then bT else bU) = 32%Z).
    { unfold promote in ET, EU. destruct (Z.ltb_spec (ibits T) 32); destruct (Z.ltb_spec (ibits U) 32).
      - congruence.
      - right. injection ET as <- <-. destruct sU; [congruence|reflexivity].
      - right. injection EU as <- <-. destruct sT; [congruence|reflexivity].
      - left. rewrite ET, EU. exact Es. }
    set (ub := if sT then bU else bT). set (sb := if sT then bT else bU).
    destruct (Z.leb_spec sb ub) as [Hle|Hlt]; cbn [ibits isigned]; (split; [unfold ub, sb; destruct sT; lia|]).
    + assert (P1 : (2 ^ (sb - 1) <= 2 ^ (ub - 1))%Z) by (apply Z.pow_le_mono_r; lia).
      assert (P2 : (2 ^ ub = 2 * 2 ^ (ub - 1))%Z).
      { rewrite <- Z.pow_succ_r by (unfold ub; destruct sT; lia). f_equal. lia. }
      assert (P3 : (0 < 2 ^ (ub - 1))%Z) by (apply Z.pow_pos_nonneg; unfold ub; destruct sT; lia).
      destruct sT, sU; try congruence; unfold ub, sb in *; clear ub sb.
      * (* T promoted signed, U unsigned *)
        destruct (isigned T) eqn:EsT.
        -- right. split; [reflexivity|]. split.
           { unfold promote in EU. destruct (ibits U <? 32)%Z; [congruence|]. rewrite EU. cbn. congruence. }
           split; [intros x Hx Hp; specialize (HpT x HT Hx); unfold in_ity, ity_min, ity_max in *; cbn [isigned ibits] in *; lia|].
           split; [intros x Hx Hp; specialize (HpU x HU Hx); unfold in_ity, ity_min, ity_max in *; cbn [isigned ibits] in *; lia|].
           split; [intros x Hx Hp; specialize (HpU x HU Hx); unfold in_ity, ity_min, ity_max in *; cbn [isigned ibits] in *; lia|].
           intros x Hx Hs. unfold promote in EU. destruct (ibits U <? 32)%Z; [congruence|]. rewrite EU in Hs. discriminate.
        -- (* T is a narrow unsigned type promoted to int: always embeds *)
           left. split; intros x Hx; [|apply HpU; assumption].
           specialize (HpT x HT Hx). unfold in_ity, ity_min, ity_max in *. rewrite EsT in Hx. cbn [isigned ibits] in *. lia.
      * destruct (isigned U) eqn:EsU.
        -- right. split; [reflexivity|]. split.
           { unfold promote in ET. destruct (ibits T <? 32)%Z; [congruence|]. rewrite ET. cbn. congruence. }
           split; [intros x Hx Hp; specialize (HpT x HT Hx); unfold in_ity, ity_min, ity_max in *; cbn [isigned ibits] in *; lia|].
           split; [intros x Hx Hp; specialize (HpU x HU Hx); unfold in_ity, ity_min, ity_max in *; cbn [isigned ibits] in *; lia|].
           split; intros x Hx Hp; specialize (HpU x HU Hx); unfold in_ity, ity_min, ity_max in *; cbn [isigned ibits] in *; lia.
        -- left. split; intros x Hx; [apply HpT; assumption|].
           specialize (HpU x HU Hx). unfold in_ity, ity_min, ity_max in *. rewrite EsU in Hx. cbn [isigned ibits] in *. lia.
    + left. destruct sT, sU; try congruence; unfold ub, sb in *; clear ub sb; split; intros x Hx.
      * apply HpT; assumption.
      * apply in_unsigned_signed with bU; [lia|]. apply HpU; assumption.
      * apply in_unsigned_signed with bT; [lia|]. apply HpT; assumption.
      * apply HpU; assumption.
Qed.

(** Does mixing [T] and [U] give an unsigned common type although [U] is signed? *)
Lemma unsafe_mix_eq T U : std_ity T -> std_ity U ->
  unsafe_mix T U = negb (isigned T) && isigned U && negb (isigned (common_type T U)).
Proof.
  destruct T as [sT bT], U as [sU bU]. unfold std_ity, unsafe_mix, common_type, promote. cbn [isigned ibits In].
  intros HT HU. destruct sT, sU; cbn [negb andb]; try reflexivity.
  destruct (Z.ltb_spec bT 32), (Z.ltb_spec bU 32); cbn [isigned ibits Bool.eqb];
  destruct (Z.leb_spec 32 bT), (Z.leb_spec bU bT); cbn [andb]; try lia; cbn [isigned negb];
  try destruct (Z.leb_spec 32 bT); try destruct (Z.leb_spec bU bT); cbn [isigned negb]; try reflexivity; try lia.
Qed.

Lemma between_ok T U v lo hi :
  std_ity T -> std_ity U -> in_ity T v -> in_ity U lo -> in_ity U hi ->
  between T U v lo hi = ((lo <=? v) && (v <=? hi))%Z && negb (unsafe_mix T U && (lo <? 0)%Z).
Proof.
  intros HT HU Hv Hlo Hhi. rewrite unsafe_mix_eq by assumption. unfold between.
  assert (NT : isigned T = false -> (0 <= v)%Z).
  { intros E. unfold in_ity, ity_min in Hv. rewrite E in Hv. lia. }
  assert (NU : isigned U = false -> (0 <= lo)%Z /\ (0 <= hi)%Z).
  { intros E. unfold in_ity, ity_min in Hlo, Hhi. rewrite E in *. lia. }
  destruct (isigned T && negb (isigned U) && (v <? 0)%Z) eqn:E1.
  { destruct (isigned T), (isigned U); try discriminate. specialize (NU eq_refl). cbn in E1. lia. }
  destruct (negb (isigned T) && isigned U && (hi <? 0)%Z) eqn:E2.
  { destruct (isigned T), (isigned U); try discriminate. specialize (NT eq_refl). cbn in E2. lia. }
  destruct (ity_eqb T U) eqn:E3; cbn [negb].
  - unfold ity_eqb in E3. apply andb_true_iff in E3. destruct E3 as [E3 _]. apply Bool.eqb_prop in E3.
    rewrite E3. destruct (isigned U); cbn [negb andb]; rewrite ?andb_true_r; reflexivity.
  - destruct (common_type_cases T U HT HU) as (Hb & [(CT & CU)|(Cs & Hd & CT & CU & CN & CP)]).
    + rewrite !conv_id by auto.
      assert (Hsafe : (negb (isigned T) && isigned U && negb (isigned (common_type T U)) && (lo <? 0)%Z) = false).
      { destruct (isigned (common_type T U)) eqn:EC; [now rewrite !andb_false_r|].
        specialize (CU lo Hlo). unfold in_ity, ity_min in CU. rewrite EC in CU. lia. }
      rewrite Hsafe, andb_true_r. reflexivity.
    + rewrite Cs. destruct (isigned T) eqn:ST, (isigned U) eqn:SU; try congruence; cbn [andb negb] in *.
      * destruct (NU eq_refl) as [N1 N2]. rewrite andb_true_r.
        rewrite !conv_id by (first [assumption | apply CT; [assumption|lia] | apply CU; assumption]). reflexivity.
      * specialize (NT eq_refl). rewrite (conv_id _ v), (conv_id _ hi) by (first [assumption | apply CT; [assumption|lia] | apply CU; [assumption|lia]]).
        destruct (Z.ltb_spec lo 0) as [Hn|Hn]; cbn [negb].
        -- rewrite andb_false_r. destruct (common_type T U) as [sC bC]. cbn [isigned ibits] in *. subst sC.
           specialize (CN lo Hlo Hn). specialize (CP hi Hhi eq_refl).
           assert (P2 : (2 ^ bC = 2 * 2 ^ (bC - 1))%Z).
           { rewrite <- Z.pow_succ_r by lia. f_equal. lia. }
           rewrite conv_neg_unsigned by (try assumption; lia). lia.
        -- rewrite conv_id by (first [assumption | apply CU; assumption]). rewrite andb_true_r. reflexivity.
Qed.

(* ------------------------------------------------------------------- chars *)

Lemma hex_digit_lt c v : hex_digit_value c = Some v -> c < 128.
Proof.
  unfold hex_digit_value.
  destruct ((48 <=? c) && (c <=? 57)) eqn:E1; [lia|].
  destruct ((65 <=? c) && (c <=? 70)) eqn:E2; [lia|].
  destruct ((97 <=? c) && (c <=? 102)) eqn:E3; [lia|discriminate].
Qed.

Lemma hex_to_dec_ok c v : hex_digit_value c = Some v -> hex_to_dec c = v.
Proof.
  intros H. pose proof (hex_digit_lt c v H) as Hlt.
  assert (S : forallb (fun c => match hex_digit_value c with Some v => hex_to_dec c =? v | None => true end)
                      (map N.of_nat (seq 0 128)) = true) by (vm_compute; reflexivity).
  rewrite forallb_forall in S. specialize (S c). rewrite H in S. apply N.eqb_eq, S.
  replace c with (N.of_nat (N.to_nat c)) by lia. apply in_map, in_seq. lia.
Qed.

Lemma dec_to_hex_char cw n a : 8 <= cw -> n < 16 -> a = 97 \/ a = 65 ->
  dec_to_hex cw n a = if 10 <=? n then a + (n - 10) else 48 + n.
Proof.
  intros Hcw Hn Ha. unfold dec_to_hex, trunc.
  assert (P : 256 <= 2 ^ cw) by (change 256 with (2 ^ 8); apply N.pow_le_mono_r; [discriminate|exact Hcw]).
  destruct (N.leb_spec 10 n).
  - rewrite (N.mod_small _ (2 ^ 32)) by (destruct Ha; subst a; change (2 ^ 32) with 4294967296; lia).
    apply N.mod_small. lia.
  - apply N.mod_small. lia.
Qed.

Lemma dec_to_hex_ok cw n a : 8 <= cw -> n < 16 -> a = 97 \/ a = 65 ->
  hex_digit_value (dec_to_hex cw n a) = Some n.
Proof.
  intros Hcw Hn Ha.
  rewrite dec_to_hex_char by assumption.
  assert (S : forallb (fun n => forallb (fun a =>
      match hex_digit_value (if 10 <=? n then a + (n - 10) else 48 + n) with Some v => v =? n | None => false end)
      [97; 65]) (map N.of_nat (seq 0 16)) = true) by (vm_compute; reflexivity).
  rewrite forallb_forall in S. specialize (S n).
  assert (I : In n (map N.of_nat (seq 0 16))).
  { replace n with (N.of_nat (N.to_nat n)) by lia. apply in_map, in_seq. lia. }
  specialize (S I). rewrite forallb_forall in S.
  specialize (S a ltac:(cbn [In]; intuition)).
  destruct (hex_digit_value _); [|discriminate]. apply N.eqb_eq in S. now subst.
Qed.

Lemma byte_to_hex_ok cw b a hi lo : 8 <= cw -> b < 256 -> a = 97 \/ a = 65 ->
  byte_to_hex cw b a = (hi, lo) ->
  exists h l, hex_digit_value hi = Some h /\ hex_digit_value lo = Some l /\ b = 16 * h + l /\
              b = 16 * hex_to_dec hi + hex_to_dec lo.
Proof.
  intros Hcw Hb Ha [= <- <-]. exists (b / 16), (b mod 16).
  assert (H1 : b / 16 < 16) by (apply N.div_lt_upper_bound; lia).
  assert (H2 : b mod 16 < 16) by (apply N.mod_lt; lia).
  pose proof (dec_to_hex_ok cw _ a Hcw H1 Ha) as D1. pose proof (dec_to_hex_ok cw _ a Hcw H2 Ha) as D2.
  pose proof (N.div_mod b 16 ltac:(lia)).
  rewrite (hex_to_dec_ok _ _ D1), (hex_to_dec_ok _ _ D2). tauto.
Qed.

(* ---------------------------------------------------------- integral_range *)
Local Open Scope Z_scope.

Lemma ir_contains_ok r v : ir_contains r v = true <-> iset r v.
Proof. unfold ir_contains, iset. lia. Qed.

Lemma ir_contains_range_ok r o : nonempty o ->
  ir_contains_range r o = true <-> (forall x, iset o x -> iset r x).
Proof.
  unfold ir_contains_range, iset, nonempty. intros Ho. split.
  - intros H x Hx. lia.
  - intros H. pose proof (H (rs o) ltac:(lia)). pose proof (H (re o - 1) ltac:(lia)). lia.
Qed.

Lemma ir_intersects_ok r o : nonempty r -> nonempty o ->
  ir_intersects r o = true <-> (exists x, iset r x /\ iset o x).
Proof.
  unfold ir_intersects, iset, nonempty. intros Hr Ho. split.
  - intros H. exists (Z.max (rs r) (rs o)). lia.
  - intros (x & H1 & H2). lia.
Qed.

Lemma ir_adjacent_ok r o : nonempty r -> nonempty o ->
  ir_adjacent r o = true <-> (meets r o \/ meets o r).
Proof.
  unfold ir_adjacent, meets, iset, nonempty. intros Hr Ho. split.
  - intros H. apply orb_true_iff in H. destruct H as [H|H]; [right; exists (rs r - 1)|left; exists (rs o - 1)]; lia.
  - intros [(x & H)|(x & H)]; lia.
Qed.

Lemma ir_intersects_or_adjacent_ok r o : nonempty r -> nonempty o ->
  ir_intersects_or_adjacent r o = ir_intersects r o || ir_adjacent r o.
Proof. unfold ir_intersects_or_adjacent, ir_intersects, ir_adjacent, nonempty. intros; lia. Qed.

Lemma ir_union_hull r o :
  (forall x, iset r x \/ iset o x -> iset (ir_union r o) x) /\
  (nonempty r -> nonempty o -> forall h, (forall x, iset r x \/ iset o x -> iset h x) ->
     forall x, iset (ir_union r o) x -> iset h x).
Proof.
  unfold ir_union, iset, nonempty, min2, max2. cbn [rs re]. split.
  - intros x Hx. destruct (rs r <? rs o) eqn:E1, (re r <? re o) eqn:E2; lia.
  - intros Hr Ho h Hh x Hx.
    pose proof (Hh (rs r) ltac:(lia)). pose proof (Hh (re r - 1) ltac:(lia)).
    pose proof (Hh (rs o) ltac:(lia)). pose proof (Hh (re o - 1) ltac:(lia)).
    destruct (rs r <? rs o) eqn:E1, (re r <? re o) eqn:E2; lia.
Qed.

Lemma ir_union_exact r o : nonempty r -> nonempty o ->
  ir_intersects_or_adjacent r o = true <->
  (forall x, iset (ir_union r o) x <-> iset r x \/ iset o x).
Proof.
  unfold ir_intersects_or_adjacent, ir_union, iset, nonempty, min2, max2. cbn [rs re]. intros Hr Ho. split.
  - intros H x. destruct (rs r <? rs o) eqn:E1, (re r <? re o) eqn:E2; lia.
  - intros H. pose proof (H (re r)) as A. pose proof (H (re o)) as B.
    destruct (rs r <? rs o) eqn:E1, (re r <? re o) eqn:E2; lia.
Qed.

Lemma diff_embed sw t x : std_ity t -> isigned t = true ->
  in_ity t x -> in_ity {| isigned := true; ibits := diff_bits sw t |} x.
Proof.
  intros Ht Hs Hx. destruct t as [sg b]. cbn [isigned] in Hs. subst sg. pose proof (std_bits _ Ht) as Hb.
  unfold diff_bits. cbn [ibits] in *. apply in_wider with b; [lia|exact Hx].
Qed.

Lemma size_embed sw t x : std_ity t -> isigned t = false ->
  in_ity t x -> in_ity {| isigned := false; ibits := diff_bits sw t |} x.
Proof.
  intros Ht Hs Hx. destruct t as [sg b]. cbn [isigned] in Hs. subst sg. pose proof (std_bits _ Ht) as Hb.
  unfold diff_bits. cbn [ibits] in *. apply in_wider with b; [lia|exact Hx].
Qed.

(** [size()] is the number of elements, except that for signed types the subtraction overflows
    (undefined) exactly when that number exceeds the maximum of [difference_type]. *)
Lemma ir_size_ok sw t r : std_ity t -> in_range_of t r ->
  ir_size sw t r =
    if isigned t && (2 ^ (diff_bits sw t - 1) <=? re r - rs r) then None else Some (re r - rs r).
Proof.
  intros Ht (Hs & He & Hle). unfold ir_size. pose proof (std_bits _ Ht) as Hb.
  assert (Hd : 8 <= diff_bits sw t) by (unfold diff_bits; lia).
  assert (P : 2 ^ diff_bits sw t = 2 * 2 ^ (diff_bits sw t - 1)).
  { rewrite <- Z.pow_succ_r by lia. f_equal. lia. }
  assert (Pp : 0 < 2 ^ (diff_bits sw t - 1)) by (apply Z.pow_pos_nonneg; lia).
  destruct (isigned t) eqn:E; cbn [andb].
  - rewrite !conv_id by (try apply diff_embed; cbn [ibits]; auto; lia).
    unfold ity_min, ity_max. cbn [isigned ibits].
    destruct (Z.leb_spec (2 ^ (diff_bits sw t - 1)) (re r - rs r)) as [H|H].
    + destruct ((- 2 ^ (diff_bits sw t - 1) <=? re r - rs r) && (re r - rs r <=? 2 ^ (diff_bits sw t - 1) - 1)) eqn:C; lia || reflexivity.
    + destruct ((- 2 ^ (diff_bits sw t - 1) <=? re r - rs r) && (re r - rs r <=? 2 ^ (diff_bits sw t - 1) - 1)) eqn:C; [|lia].
      f_equal. rewrite conv_id; [reflexivity|cbn [ibits]; lia|].
      unfold in_ity, ity_min, ity_max. cbn [isigned ibits]. lia.
  - f_equal. pose proof (size_embed sw t _ Ht E Hs) as H1. pose proof (size_embed sw t _ Ht E He) as H2.
    rewrite (conv_id _ (re r)), (conv_id _ (rs r)) by (first [assumption | cbn [ibits]; lia]).
    apply conv_id; [cbn [ibits]; lia|].
    unfold in_ity, ity_min, ity_max in *. cbn [isigned ibits] in *. lia.
Qed.

Lemma in_ity_dec_le t x y : in_ity t x -> in_ity t y -> forall z, x <= z <= y -> in_ity t z.
Proof. unfold in_ity. lia. Qed.

Lemma ir_last_ok t r : std_ity t -> in_range_of t r -> nonempty r ->
  exists l, ir_last t r = Some l /\ iset r l /\ (forall x, iset r x -> x <= l).
Proof.
  intros Ht (Hs & He & _) Hne. unfold ir_last, nonempty, iset in *.
  destruct (Z.ltb_spec (rs r) (re r)) as [_|]; [|lia]. exists (re r - 1).
  pose proof (std_bits _ Ht). rewrite conv_id; [|lia|apply (in_ity_dec_le t _ _ Hs He); lia].
  split; [reflexivity|]. split; [lia|intros x Hx; lia].
Qed.

(** The increasing list of the integers in [s, s+n). *)
Fixpoint zseq (s : Z) (n : nat) : list Z := match n with O => [] | S m => s :: zseq (s + 1) m end.

Lemma zseq_in s n x : In x (zseq s n) <-> s <= x < s + Z.of_nat n.
Proof.
  revert s; induction n as [|n IH]; intros s; cbn [zseq In]; [lia|]. rewrite IH. lia.
Qed.

Lemma zseq_length s n : length (zseq s n) = n.
Proof. revert s; induction n as [|n IH]; intros s; cbn [zseq length]; [|rewrite IH]; reflexivity. Qed.

Lemma zseq_sorted s n : StronglySorted Z.lt (zseq s n).
Proof.
  revert s; induction n as [|n IH]; intros s; cbn [zseq]; constructor; [apply IH|].
  apply Forall_forall. intros x Hx. apply zseq_in in Hx. lia.
Qed.

Lemma ir_iterate_zseq t n s e : std_ity t -> in_ity t s -> in_ity t e -> e = s + Z.of_nat n ->
  ir_iterate n t s e = Some (zseq s n).
Proof.
  intros Ht. pose proof (std_bits _ Ht) as Hb.
  revert s; induction n as [|n IH]; intros s Hs He Heq; cbn [ir_iterate zseq].
  - destruct (Z.eqb_spec s e); [reflexivity|lia].
  - destruct (Z.eqb_spec s e); [lia|].
    assert (Hm : (s =? ity_max t) = false) by (unfold in_ity in *; lia).
    rewrite Hm, andb_false_r. rewrite conv_id; [|lia|apply (in_ity_dec_le t _ _ Hs He); lia].
    rewrite IH; [reflexivity| |exact He|lia]. apply (in_ity_dec_le t _ _ Hs He); lia.
Qed.

(** Iterating visits exactly the members, in increasing order, each once. *)
Lemma ir_iterate_ok t r : std_ity t -> in_range_of t r ->
  exists l, ir_iterate (Z.to_nat (re r - rs r)) t (rs r) (re r) = Some l /\
            (forall x, In x l <-> iset r x) /\ StronglySorted Z.lt l /\ Z.of_nat (length l) = re r - rs r.
Proof.
  intros Ht (Hs & He & Hle). exists (zseq (rs r) (Z.to_nat (re r - rs r))).
  split; [apply ir_iterate_zseq; try assumption; lia|]. split; [|split].
  - intros x. rewrite zseq_in. unfold iset. lia.
  - apply zseq_sorted.
  - rewrite zseq_length. lia.
Qed.

(** Iterator difference, exact: it is [l - r] unless a signed intermediate overflows. *)
Lemma ir_iter_diff_signed sw t l r : std_ity t -> isigned t = true -> in_ity t l -> in_ity t r ->
  ir_iter_diff sw t l r =
    if (- 2 ^ (diff_bits sw t - 1) <=? l - r) && (l - r <? 2 ^ (diff_bits sw t - 1)) then Some (l - r) else None.
Proof.
  intros Ht E Hl Hr. unfold ir_iter_diff. rewrite E. cbn [negb andb]. pose proof (std_bits _ Ht) as Hb.
  assert (Hd : 8 <= diff_bits sw t) by (unfold diff_bits; lia).
  rewrite !conv_id by (try apply diff_embed; cbn [ibits]; auto; lia).
  unfold ity_min, ity_max. cbn [isigned ibits].
  destruct ((- 2 ^ (diff_bits sw t - 1) <=? l - r) && (l - r <=? 2 ^ (diff_bits sw t - 1) - 1)) eqn:C1;
  destruct ((- 2 ^ (diff_bits sw t - 1) <=? l - r) && (l - r <? 2 ^ (diff_bits sw t - 1))) eqn:C2; lia || reflexivity.
Qed.

Lemma conv_signed_high b x : 0 < b -> 2 ^ (b - 1) <= x < 2 ^ b ->
  conv {| isigned := true; ibits := b |} x = x - 2 ^ b.
Proof.
  intros Hb Hx. unfold conv. cbn [isigned ibits].
  assert (0 < 2 ^ (b - 1)) by (apply Z.pow_pos_nonneg; lia).
  rewrite Z.mod_small by lia. destruct (Z.leb_spec (2 ^ (b - 1)) x); cbn [andb]; lia.
Qed.

(** For an unsigned value type the difference [l - r] with [l >= r] is computed by converting both operands
    to the signed type first; the subtraction overflows when [l] is in the upper half, [r] in the lower half
    and the true difference is representable. *)
Lemma ir_iter_diff_unsigned_ge sw t l r : std_ity t -> isigned t = false -> in_ity t l -> in_ity t r -> r <= l ->
  let H := 2 ^ (diff_bits sw t - 1) in
  ir_iter_diff sw t l r =
    if (H <=? l) && (r <? H) then (if l - r <? H then None else Some (l - r - 2 * H))
    else Some (l - r).
Proof.
  intros Ht E Hl Hr Hle H. unfold ir_iter_diff. rewrite E. pose proof (std_bits _ Ht) as Hb.
  destruct (Z.ltb_spec l r) as [|_]; [lia|]. cbn [negb andb].
  assert (Hd : 8 <= diff_bits sw t) by (unfold diff_bits; lia).
  pose proof (size_embed sw t _ Ht E Hl) as Ul. pose proof (size_embed sw t _ Ht E Hr) as Ur.
  unfold in_ity, ity_min, ity_max in Ul, Ur. cbn [isigned ibits] in Ul, Ur.
  assert (P : 2 ^ diff_bits sw t = 2 * H) by (unfold H; rewrite <- Z.pow_succ_r by lia; f_equal; lia).
  assert (Pp : 0 < H) by (apply Z.pow_pos_nonneg; lia).
  assert (Clow : forall x, 0 <= x < H -> conv {| isigned := true; ibits := diff_bits sw t |} x = x).
  { intros x Hx. apply conv_id; [cbn [ibits]; lia|]. unfold in_ity, ity_min, ity_max. cbn [isigned ibits]. fold H. lia. }
  assert (Chigh : forall x, H <= x < 2 * H -> conv {| isigned := true; ibits := diff_bits sw t |} x = x - 2 * H).
  { intros x Hx. rewrite conv_signed_high; unfold H in *; lia. }
  unfold ity_min, ity_max. cbn [isigned ibits]. fold H.
  destruct (Z.leb_spec H l) as [HL|HL]; destruct (Z.ltb_spec r H) as [HR|HR]; cbn [andb negb].
  - rewrite Chigh, Clow by lia. destruct (Z.ltb_spec (l - r) H) as [Q|Q];
    destruct ((- H <=? l - 2 * H - r) && (l - 2 * H - r <=? H - 1)) eqn:C; try lia; f_equal; lia.
  - rewrite !Chigh by lia.
    destruct ((- H <=? l - 2 * H - (r - 2 * H)) && (l - 2 * H - (r - 2 * H) <=? H - 1)) eqn:C; [f_equal; lia|lia].
  - rewrite !Clow by lia.
    destruct ((- H <=? l - r) && (l - r <=? H - 1)) eqn:C; [f_equal; lia|lia].
  - lia.
Qed.

Lemma ir_iter_diff_unsigned_lt sw t l r : std_ity t -> isigned t = false -> in_ity t l -> in_ity t r -> l < r ->
  let H := 2 ^ (diff_bits sw t - 1) in
  ir_iter_diff sw t l r =
    if r - l <? H then Some (l - r) else if r - l =? H then None else Some (l - r + 2 * H).
Proof.
  intros Ht E Hl Hr Hlt H. unfold ir_iter_diff. rewrite E. pose proof (std_bits _ Ht) as Hb.
  destruct (Z.ltb_spec l r) as [_|]; [|lia]. cbn [negb andb].
  assert (Hd : 8 <= diff_bits sw t) by (unfold diff_bits; lia).
  pose proof (size_embed sw t _ Ht E Hl) as Ul. pose proof (size_embed sw t _ Ht E Hr) as Ur.
  rewrite (conv_id _ r), (conv_id _ l) by (first [assumption | cbn [ibits]; lia]).
  rewrite (conv_id {| isigned := false; ibits := diff_bits sw t |} (r - l));
    [|cbn [ibits]; lia|unfold in_ity, ity_min, ity_max in *; cbn [isigned ibits] in *; lia].
  unfold in_ity, ity_min, ity_max in Ul, Ur. cbn [isigned ibits] in Ul, Ur.
  assert (P : 2 ^ diff_bits sw t = 2 * H) by (unfold H; rewrite <- Z.pow_succ_r by lia; f_equal; lia).
  assert (Pp : 0 < H) by (apply Z.pow_pos_nonneg; lia).
  destruct (Z.ltb_spec (r - l) H) as [Q|Q].
  - rewrite conv_id; [|cbn [ibits]; lia|unfold in_ity, ity_min, ity_max; cbn [isigned ibits]; fold H; lia].
    unfold ity_min, ity_max. cbn [isigned ibits]. fold H.
    destruct ((- H <=? - (r - l)) && (- (r - l) <=? H - 1)) eqn:C; [f_equal; lia|lia].
  - rewrite conv_signed_high by (unfold H in *; lia). rewrite P.
    unfold ity_min, ity_max. cbn [isigned ibits]. fold H.
    destruct (Z.eqb_spec (r - l) H);
    destruct ((- H <=? - (r - l - 2 * H)) && (- (r - l - 2 * H) <=? H - 1)) eqn:C; try lia; try reflexivity; f_equal; lia.
Qed.

(** Advancing an iterator by an unsigned offset. *)
Lemma conv_mod t x y : 0 < ibits t -> x mod 2 ^ ibits t = y mod 2 ^ ibits t -> conv t x = conv t y.
Proof. intros Hb E. unfold conv. rewrite E. reflexivity. Qed.

Lemma conv_cong t x : 0 < ibits t -> conv t x mod 2 ^ ibits t = x mod 2 ^ ibits t.
Proof.
  intros Hb. assert (P : 0 < 2 ^ ibits t) by (apply Z.pow_pos_nonneg; lia).
  unfold conv. destruct (isigned t && (2 ^ (ibits t - 1) <=? x mod 2 ^ ibits t)).
  - replace (x mod 2 ^ ibits t - 2 ^ ibits t) with (x mod 2 ^ ibits t + (-1) * 2 ^ ibits t) by lia.
    rewrite Z.mod_add by lia. apply Z.mod_mod. lia.
  - apply Z.mod_mod. lia.
Qed.

Lemma mod_weaken b b' x y : 0 <= b <= b' -> x mod 2 ^ b' = y mod 2 ^ b' -> x mod 2 ^ b = y mod 2 ^ b.
Proof.
  intros Hb E.
  assert (P : 2 ^ b' = 2 ^ b * 2 ^ (b' - b)) by (rewrite <- Z.pow_add_r by lia; f_equal; lia).
  assert (P1 : 0 < 2 ^ b) by (apply Z.pow_pos_nonneg; lia).
  assert (P2 : 0 < 2 ^ b') by (apply Z.pow_pos_nonneg; lia).
  assert (D : forall z, (z mod 2 ^ b') mod 2 ^ b = z mod 2 ^ b).
  { intros z. symmetry. apply Znumtheory.Zmod_div_mod; try assumption. exists (2 ^ (b' - b)). rewrite P. ring. }
  rewrite <- (D x), <- (D y), E. reflexivity.
Qed.

Lemma ir_iter_add_ok sw t v off : std_ity t -> in_ity t v -> in_ity t (v + off) -> ir_iter_add sw t v off = v + off.
Proof.
  intros Ht Hv Ho. pose proof (std_bits _ Ht) as Hb. unfold ir_iter_add.
  set (S := {| isigned := false; ibits := diff_bits sw t |}).
  assert (HS : 0 < ibits S) by (cbn [S ibits]; unfold diff_bits; lia).
  assert (HSt : ibits t <= ibits S) by (cbn [S ibits]; unfold diff_bits; lia).
  transitivity (conv t (v + off)); [|apply conv_id; [lia|assumption]].
  apply conv_mod; [lia|]. apply mod_weaken with (ibits S); [lia|].
  rewrite conv_cong by exact HS. rewrite Z.add_mod by (apply Z.pow_nonzero; lia).
  rewrite conv_cong by exact HS. rewrite <- Z.add_mod by (apply Z.pow_nonzero; lia). reflexivity.
Qed.

Lemma ir_iter_diff_narrow sw t l r : std_ity t -> in_ity t l -> in_ity t r ->
  ibits t < diff_bits sw t -> ir_iter_diff sw t l r = Some (l - r).
Proof.
  intros Ht Hl Hr Hn. pose proof (std_bits _ Ht) as Hb.
  assert (P : 2 ^ ibits t <= 2 ^ (diff_bits sw t - 1)) by (apply Z.pow_le_mono_r; lia).
  assert (P2 : 2 ^ ibits t = 2 * 2 ^ (ibits t - 1)) by (rewrite <- Z.pow_succ_r by lia; f_equal; lia).
  destruct (isigned t) eqn:E.
  - rewrite ir_iter_diff_signed by assumption.
    unfold in_ity, ity_min, ity_max in Hl, Hr. rewrite E in *.
    destruct ((- 2 ^ (diff_bits sw t - 1) <=? l - r) && (l - r <? 2 ^ (diff_bits sw t - 1))) eqn:C; [reflexivity|lia].
  - destruct (Z.ltb_spec l r) as [Q|Q].
    + rewrite ir_iter_diff_unsigned_lt by assumption.
      unfold in_ity, ity_min, ity_max in Hl, Hr. rewrite E in *.
      destruct (Z.ltb_spec (r - l) (2 ^ (diff_bits sw t - 1))); [reflexivity|lia].
    + rewrite ir_iter_diff_unsigned_ge by assumption.
      unfold in_ity, ity_min, ity_max in Hl, Hr. rewrite E in *.
      destruct (Z.leb_spec (2 ^ (diff_bits sw t - 1)) l); [lia|]. reflexivity.
Qed.
