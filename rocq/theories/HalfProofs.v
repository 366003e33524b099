From Coq Require Import Lia ZifyBool ZifyNat ZifyN.
From Verif Require Import Words WordsProofs HalfModel HalfSpec.
Local Open Scope N_scope.
Ltac Zify.zify_post_hook ::= idtac.

(** Short ranges. *)
Fixpoint nseq (n : nat) (a : N) : list N := match n with O => [] | S m => a :: nseq m (a + 1) end.
Lemma in_nseq n : forall a x, a <= x -> x < a + N.of_nat n -> In x (nseq n a).
Proof.
  induction n as [|n IH]; intros a x H1 H2; [lia|]. cbn [nseq]. destruct (N.eq_dec a x) as [E|E]; [left; exact E|]. right. apply IH; lia.
Qed.

Lemma fin_inj s m t n : Fin s m = Fin t n -> s = t /\ m = n.
Proof. intros H. injection H as H1 H2. split; assumption. Qed.
Lemma inf_inj s t : Inf s = Inf t -> s = t.
Proof. intros H. injection H as H1. assumption. Qed.

(** The fields of a binary32 pattern. *)
Definition fs (x : N) := x / 2 ^ 31.
Definition fe (x : N) := (x / 2 ^ 23) mod 2 ^ 8.
Definition fm (x : N) := x mod 2 ^ 23.

Lemma fields x : x < 2 ^ 32 -> fs x < 2 /\ fe x < 256 /\ fm x < 2 ^ 23.
Proof.
  intros H. unfold fs, fe, fm. split; [apply N.div_lt_upper_bound; [discriminate|exact H]|]. split; apply N.mod_lt; discriminate.
Qed.

Lemma sign_bits x : x < 2 ^ 32 -> trunc 16 (N.shiftr (N.land x 0x80000000) 16) = 2 ^ 15 * fs x.
Proof.
  intros H. apply N.bits_inj. intros i. rewrite testbit_trunc, testbit_shiftr, N.land_spec. change 0x80000000 with (2 ^ 31). rewrite N.pow2_bits_eqb.
  unfold fs. rewrite N.mul_comm, <- N.shiftl_mul_pow2, <- N.shiftr_div_pow2, testbit_shiftl, testbit_shiftr.
  destruct (N.eqb_spec 31 (i + 16)) as [E|E].
  - assert (i = 15) as -> by lia. cbn [N.ltb N.leb N.compare]. rewrite andb_true_r. reflexivity.
  - rewrite andb_false_r, andb_false_r. symmetry. destruct (N.leb_spec 15 i) as [L|L]; [|reflexivity]. apply (testbit_high 32); [exact H|lia].
Qed.
Lemma frac_bits x : N.land x 0x007FFFFF = fm x.
Proof. change 0x007FFFFF with (N.ones 23). apply N.land_ones. Qed.
Lemma exp_bits x : N.shiftr (N.land x 0x7F800000) 23 = fe x.
Proof.
  unfold fe. change 0x7F800000 with (N.shiftl (N.ones 8) 23). rewrite N.shiftr_land, N.shiftr_shiftl_l by lia. change (N.shiftl (N.ones 8) (23 - 23)) with (N.ones 8).
  rewrite N.land_ones, N.shiftr_div_pow2. reflexivity.
Qed.

(** [exp16] before the clamping, for exponents 0 to 254. *)
Lemma unbias e : e < 255 -> Z.to_N ((to_int8 (to_int8 (Z.of_N e) - 127) + 15) mod 65536)%Z = (e + (65536 - 112)) mod 65536.
Proof.
  intros H. assert (K : forallb (fun e => Z.to_N ((to_int8 (to_int8 (Z.of_N e) - 127) + 15) mod 65536)%Z =? (e + (65536 - 112)) mod 65536) (nseq 255 0) = true) by (vm_compute; reflexivity).
  apply N.eqb_eq. apply (proj1 (forallb_forall _ _) K e). apply in_nseq; [lia|]. exact H.
Qed.

(** The whole conversion in terms of sign, exponent and fraction. *)
Definition narrow (s e m : N) : N :=
  if e =? 255 then N.lor (N.lor (2 ^ 15 * s) 0x7C00) (if negb (m =? 0) && (m / 2 ^ 13 =? 0) then 0x200 else m / 2 ^ 13)
  else if e =? 0 then 2 ^ 15 * s
  else
    let exp16 := (e + (65536 - 112)) mod 65536 in
    let frac := if exp16 =? 31 then 0 else if exp16 =? 0 then N.lor 0x100 (m / 2 ^ 13 / 4) else m / 2 ^ 13 in
    N.lor (N.lor (2 ^ 15 * s) (trunc 16 (N.shiftl exp16 10))) frac.

Lemma narrow_ok x : x < 2 ^ 32 -> f32_to_u16 x = narrow (fs x) (fe x) (fm x).
Proof.
  intros H. destruct (fields x H) as (Hs & He & Hm). unfold f32_to_u16. rewrite sign_bits by exact H. rewrite frac_bits, exp_bits.
  set (s := fs x) in *. set (e := fe x) in *. set (m := fm x) in *. clearbody s e m. clear x H.
  assert (Hf : trunc 16 (N.shiftr m 13) = m / 2 ^ 13).
  { rewrite N.shiftr_div_pow2. apply trunc_small. apply N.div_lt_upper_bound; [discriminate|]. apply N.lt_trans with (2 ^ 23); [exact Hm|reflexivity]. }
  rewrite Hf. unfold narrow. change 0xFF with 255. destruct (N.eqb_spec e 255) as [E|E].
  - subst e. cbn [N.eqb Pos.eqb andb orb negb]. rewrite ?andb_false_r, ?orb_false_r. change (trunc 16 (N.shiftl 31 10)) with 0x7C00.
    change (31 =? 0) with false. cbn [andb]. reflexivity.
  - cbn [andb]. destruct (N.eqb_spec e 0) as [E0|E0].
    + subst e. cbn [N.eqb Pos.eqb andb orb negb]. change (trunc 16 (N.shiftl 0 10)) with 0. rewrite !N.lor_0_r. reflexivity.
    + rewrite unbias by lia. cbn [orb negb]. rewrite !andb_true_r. set (q := (e + (65536 - 112)) mod 65536). change 0x1F with 31.
      rewrite N.shiftr_div_pow2. change (2 ^ 2) with 4. reflexivity.
Qed.

(** Disjoint [or]. *)
Lemma lor_parts s e m : s < 2 -> e < 32 -> m < 2 ^ 10 -> N.lor (N.lor (2 ^ 15 * s) (trunc 16 (N.shiftl e 10))) m = 2 ^ 15 * s + 2 ^ 10 * e + m.
Proof.
  intros Hs He Hm. assert (T : trunc 16 (N.shiftl e 10) = 2 ^ 10 * e).
  { rewrite N.shiftl_mul_pow2, N.mul_comm. apply trunc_small. change (2 ^ 16) with (2 ^ 10 * 64). apply N.mul_lt_mono_pos_l; [reflexivity|lia]. }
  rewrite T. assert (D : forall a b n, b < 2 ^ n -> N.lor (2 ^ n * a) b = 2 ^ n * a + b).
  { clear. intros a b n H. rewrite <- N.lxor_lor.
    - symmetry. apply N.add_nocarry_lxor. apply N.bits_inj_0. intros i. rewrite N.land_spec. destruct (N.lt_ge_cases i n) as [L|L].
      + rewrite N.mul_comm, N.mul_pow2_bits_low by exact L. reflexivity.
      + rewrite (testbit_high n b i H L). apply andb_false_r.
    - apply N.bits_inj_0. intros i. rewrite N.land_spec. destruct (N.lt_ge_cases i n) as [L|L].
      + rewrite N.mul_comm, N.mul_pow2_bits_low by exact L. reflexivity.
      + rewrite (testbit_high n b i H L). apply andb_false_r. }
  rewrite (D s (2 ^ 10 * e) 15). 2:{ change (2 ^ 15) with (2 ^ 10 * 32). apply N.mul_lt_mono_pos_l; [reflexivity|exact He]. }
  replace (2 ^ 15 * s + 2 ^ 10 * e) with (2 ^ 10 * (32 * s + e)). 2:{ change (2 ^ 15) with (2 ^ 10 * 32). lia. }
  apply D. exact Hm.
Qed.

(** Meaning of an assembled binary16 pattern. *)
Lemma f16_fields s e m : s < 2 -> e < 32 -> m < 2 ^ 10 ->
  f16_value (2 ^ 15 * s + 2 ^ 10 * e + m) =
  if e =? 31 then (if m =? 0 then Inf (s =? 1) else NaN) else Fin (s =? 1) (2 ^ 125 * (if e =? 0 then m else (2 ^ 10 + m) * 2 ^ (e - 1))).
Proof.
  intros Hs He Hm. unfold f16_value, value. change (10 + 5) with 15. change (2 ^ 5 - 1) with 31.
  assert (A : (2 ^ 15 * s + 2 ^ 10 * e + m) / 2 ^ 15 = s). { symmetry. apply (N.div_unique _ _ _ (2 ^ 10 * e + m)); [|lia]. change (2 ^ 15) with 32768. change (2 ^ 10) with 1024 in *. lia. }
  assert (B : (2 ^ 15 * s + 2 ^ 10 * e + m) / 2 ^ 10 = 32 * s + e). { symmetry. apply (N.div_unique _ _ _ m); [exact Hm|]. change (2 ^ 15) with 32768. change (2 ^ 10) with 1024 in *. lia. }
  assert (D : (2 ^ 15 * s + 2 ^ 10 * e + m) mod 2 ^ 10 = m). { symmetry. apply (N.mod_unique _ _ (32 * s + e)); [exact Hm|]. change (2 ^ 15) with 32768. change (2 ^ 10) with 1024 in *. lia. }
  rewrite A, B, D. assert (F : (32 * s + e) mod 2 ^ 5 = e). { symmetry. apply (N.mod_unique _ _ s); [exact He|]. change (2 ^ 5) with 32. lia. }
  rewrite F. reflexivity.
Qed.
Lemma f32_fields x : f32_value x =
  if fe x =? 255 then (if fm x =? 0 then Inf (fs x =? 1) else NaN) else Fin (fs x =? 1) (if fe x =? 0 then fm x else (2 ^ 23 + fm x) * 2 ^ (fe x - 1)).
Proof.
  unfold f32_value, value. fold (fm x) (fe x). change (23 + 8) with 31. fold (fs x). change (2 ^ 8 - 1) with 255. change (2 ^ 0) with 1.
  destruct (fe x =? 255); [reflexivity|]. rewrite N.mul_1_l. reflexivity.
Qed.
(** Every binary16 pattern has such fields. *)
Lemma split16 h : h < 2 ^ 16 -> exists s e m, h = 2 ^ 15 * s + 2 ^ 10 * e + m /\ s < 2 /\ e < 32 /\ m < 2 ^ 10.
Proof.
  intros H. exists (h / 2 ^ 15), ((h / 2 ^ 10) mod 32), (h mod 2 ^ 10). split.
  - pose proof (N.div_mod' h (2 ^ 10)) as E. pose proof (N.div_mod' (h / 2 ^ 10) 32) as E2. rewrite N.div_div in E2 by discriminate.
    change (2 ^ 10 * 32) with (2 ^ 15) in E2. rewrite E at 1. rewrite E2 at 1. change (2 ^ 15) with (2 ^ 10 * 32). lia.
  - split; [apply N.div_lt_upper_bound; [discriminate|exact H]|]. split; apply N.mod_lt; discriminate.
Qed.

Definition binade (e : N) : N * N := (2 ^ 23 * 2 ^ (e - 1), 2 ^ 24 * 2 ^ (e - 1)).
Lemma binade_of e m a b : m < 2 ^ 23 -> 1 <= a -> 1 <= e -> 2 ^ 23 * 2 ^ (a - 1) <= (2 ^ 23 + m) * 2 ^ (e - 1) -> (2 ^ 23 + m) * 2 ^ (e - 1) < 2 ^ 23 * 2 ^ (b - 1) -> 1 <= b -> a <= e /\ e < b.
Proof.
  intros Hm Ha He H1 H2 Hb. split.
  - destruct (N.le_gt_cases a e) as [L|L]; [exact L|exfalso]. assert (2 ^ (a - 1) = 2 ^ (e - 1) * 2 ^ (a - e)) by (rewrite <- N.pow_add_r; f_equal; lia).
    assert (2 <= 2 ^ (a - e)). { change 2 with (2 ^ 1) at 1. apply N.pow_le_mono_r; lia. }
    pose proof (pow2_pos (e - 1)). rewrite H in H1. clear - H0 H1 Hm H3. change (2 ^ 23) with 8388608 in *. generalize dependent (2 ^ (a - e)). generalize dependent (2 ^ (e - 1)). intros. nia.
  - destruct (N.lt_ge_cases e b) as [L|L]; [exact L|exfalso]. assert (2 ^ (b - 1) <= 2 ^ (e - 1)) by (apply N.pow_le_mono_r; lia).
    clear - H2 H. change (2 ^ 23) with 8388608 in *. generalize dependent (2 ^ (b - 1)). generalize dependent (2 ^ (e - 1)). intros. nia.
Qed.

(** Finite, within half's normal range. *)
Lemma normal_ok x s mag : x < 2 ^ 32 -> f32_value x = Fin s mag -> 2 ^ 135 <= mag -> mag < 2 ^ 165 ->
  fe x < 143 /\ 113 <= fe x /\ mag = (2 ^ 23 + fm x) * 2 ^ (fe x - 1) /\ s = (fs x =? 1) /\
  f32_to_u16 x = 2 ^ 15 * fs x + 2 ^ 10 * (fe x - 112) + fm x / 2 ^ 13.
Proof.
  intros H V L U. destruct (fields x H) as (Hs & He & Hm). rewrite f32_fields in V. destruct (N.eqb_spec (fe x) 255) as [E|E]; [destruct (fm x =? 0); discriminate|].
  apply fin_inj in V. destruct V as [Vs Vm]. destruct (N.eqb_spec (fe x) 0) as [E0|E0].
  { exfalso. subst mag. assert (2 ^ 23 < 2 ^ 135) by reflexivity. lia. }
  assert (B : 113 <= fe x /\ fe x < 143).
  { apply (binade_of (fe x) (fm x)); try lia; try exact Hm; subst mag; [exact L|exact U]. }
  split; [lia|]. split; [lia|]. split; [congruence|]. split; [congruence|]. rewrite narrow_ok by exact H. unfold narrow.
  replace (fe x =? 255) with false by (symmetry; apply N.eqb_neq; exact E). replace (fe x =? 0) with false by (symmetry; apply N.eqb_neq; exact E0).
  assert (Q : (fe x + (65536 - 112)) mod 65536 = fe x - 112). { symmetry. apply (N.mod_unique _ _ 1); lia. }
  rewrite Q. replace (fe x - 112 =? 31) with false by (symmetry; apply N.eqb_neq; lia). replace (fe x - 112 =? 0) with false by (symmetry; apply N.eqb_neq; lia).
  apply lor_parts; [exact Hs|lia|]. apply N.div_lt_upper_bound; [discriminate|exact Hm].
Qed.

(** Truncation: the result is the largest binary16 magnitude not above. *)
Lemma normal_trunc x s mag : x < 2 ^ 32 -> f32_value x = Fin s mag -> 2 ^ 135 <= mag -> mag < 2 ^ 165 ->
  f32_to_u16 x < 2 ^ 16 /\ exists mag', f16_value (f32_to_u16 x) = Fin s mag' /\ mag' <= mag /\
    forall h t n, h < 2 ^ 16 -> f16_value h = Fin t n -> n <= mag -> n <= mag'.
Proof.
  intros H V L U. destruct (fields x H) as (Hs & _ & Hm). destruct (normal_ok x s mag H V L U) as (E1 & E2 & EM & ES & ER). rewrite ER.
  set (e := fe x - 112) in *. assert (Hf : fm x / 2 ^ 13 < 2 ^ 10) by (apply N.div_lt_upper_bound; [discriminate|exact Hm]).
  assert (Pe : fe x - 1 = 112 + (e - 1)) by (unfold e; lia). rewrite Pe, N.pow_add_r in EM. assert (He : 1 <= e /\ e < 31) by (unfold e; lia). clearbody e. clear Pe E1 E2.
  split. { change (2 ^ 16) with 65536. change (2 ^ 15) with 32768. change (2 ^ 10) with 1024 in *. lia. }
  rewrite f16_fields by (assumption || lia). replace (e =? 31) with false by (symmetry; apply N.eqb_neq; lia). replace (e =? 0) with false by (symmetry; apply N.eqb_neq; lia).
  eexists. split; [rewrite ES; reflexivity|]. set (f := fm x / 2 ^ 13) in *. pose proof (N.div_mod' (fm x) (2 ^ 13)) as D. fold f in D.
  pose proof (N.mod_lt (fm x) (2 ^ 13) ltac:(discriminate)) as R. set (r := fm x mod 2 ^ 13) in *.
  assert (EM' : mag = 2 ^ 112 * ((2 ^ 13 * (2 ^ 10 + f) + r) * 2 ^ (e - 1))). { rewrite EM, D. change (2 ^ 23) with (2 ^ 13 * 2 ^ 10). rewrite !N.mul_add_distr_r, !N.mul_add_distr_l, !N.mul_add_distr_r. nia. }
  split.
  - rewrite EM'. change (2 ^ 125) with (2 ^ 112 * 2 ^ 13). rewrite <- N.mul_assoc. apply N.mul_le_mono_l. rewrite N.mul_assoc. apply N.mul_le_mono_r. lia.
  - intros h t n Hh Vh Hn. destruct (split16 h Hh) as (s2 & e2 & m2 & -> & A1 & A2 & A3). rewrite f16_fields in Vh by assumption.
    destruct (N.eqb_spec e2 31) as [Q|Q]; [destruct (m2 =? 0); discriminate|]. apply fin_inj in Vh. destruct Vh as [_ Vn]. subst n. rewrite EM' in Hn.
    apply N.mul_le_mono_l. change (2 ^ 125) with (2 ^ 112 * 2 ^ 13) in Hn. rewrite <- N.mul_assoc in Hn. apply N.mul_le_mono_pos_l in Hn; [|reflexivity].
    destruct (N.eqb_spec e2 0) as [Q0|Q0].
    + pose proof (pow2_pos (e - 1)) as P. clear - A3 P. change (2 ^ 10) with 1024 in *. generalize dependent (2 ^ (e - 1)). intros. nia.
    + destruct (N.lt_trichotomy e2 e) as [T|[T|T]].
      * assert (2 ^ (e - 1) = 2 ^ (e2 - 1) * 2 ^ (e - e2)) as -> by (rewrite <- N.pow_add_r; f_equal; lia).
        assert (2 <= 2 ^ (e - e2)). { change 2 with (2 ^ 1) at 1. apply N.pow_le_mono_r; lia. }
        clear - A3 H0. change (2 ^ 10) with 1024 in *. generalize dependent (2 ^ (e - e2)). generalize (2 ^ (e2 - 1)). intros. nia.
      * subst e2. pose proof (pow2_pos (e - 1)) as P. rewrite N.mul_assoc in Hn. apply N.mul_le_mono_pos_r in Hn; [|exact P]. apply N.mul_le_mono_r.
        change (2 ^ 13) with 8192 in *. lia.
      * exfalso. assert (E : 2 ^ (e2 - 1) = 2 ^ (e - 1) * 2 ^ (e2 - e)) by (rewrite <- N.pow_add_r; f_equal; lia). rewrite E in Hn.
        assert (2 <= 2 ^ (e2 - e)). { change 2 with (2 ^ 1) at 1. apply N.pow_le_mono_r; lia. }
        pose proof (pow2_pos (e - 1)) as P. clear - Hn H0 P Hf R. change (2 ^ 10) with 1024 in *. change (2 ^ 13) with 8192 in *. generalize dependent (2 ^ (e2 - e)). generalize dependent (2 ^ (e - 1)). intros. nia.
Qed.

(** The other classes. *)
Lemma special_ok x : x < 2 ^ 32 ->
  (forall s, f32_value x = Inf s -> f32_to_u16 x < 2 ^ 16 /\ f16_value (f32_to_u16 x) = Inf s) /\
  (f32_value x = NaN -> f32_to_u16 x < 2 ^ 16 /\ f16_value (f32_to_u16 x) = NaN /\ (f32_to_u16 x / 2 ^ 15 = 1 <-> x / 2 ^ 31 = 1)) /\
  (forall s mag, f32_value x = Fin s mag -> mag < 2 ^ 23 -> f32_to_u16 x < 2 ^ 16 /\ f16_value (f32_to_u16 x) = Fin s 0) /\
  (forall s mag, f32_value x = Fin s mag -> 2 ^ 165 <= mag -> mag < 2 ^ 166 -> f32_to_u16 x < 2 ^ 16 /\ f16_value (f32_to_u16 x) = Inf s).
Proof.
  intros H. destruct (fields x H) as (Hs & He & Hm). rewrite f32_fields, narrow_ok by exact H. unfold narrow.
  assert (A : forall s e m, s < 2 -> e < 32 -> m < 2 ^ 10 -> 2 ^ 15 * s + 2 ^ 10 * e + m < 2 ^ 16).
  { clear. intros. change (2 ^ 16) with 65536. change (2 ^ 15) with 32768. change (2 ^ 10) with 1024 in *. lia. }
  assert (S0 : 2 ^ 15 * fs x = 2 ^ 15 * fs x + 2 ^ 10 * 0 + 0) by lia. assert (Hd : fm x / 2 ^ 13 < 2 ^ 10) by (apply N.div_lt_upper_bound; [discriminate|exact Hm]).
  destruct (N.eqb_spec (fe x) 255) as [E|E].
  - assert (X : forall f, f < 2 ^ 10 -> N.lor (N.lor (2 ^ 15 * fs x) 0x7C00) f = 2 ^ 15 * fs x + 2 ^ 10 * 31 + f).
    { intros f Hf. change 0x7C00 with (trunc 16 (N.shiftl 31 10)). apply lor_parts; [exact Hs|lia|exact Hf]. }
    destruct (N.eqb_spec (fm x) 0) as [Z|Z].
    + rewrite Z. cbn [negb andb]. change (0 / 2 ^ 13) with 0. rewrite X by reflexivity. split; [|split; [discriminate|split; intros; discriminate]].
      intros s V. apply inf_inj in V. subst s. split; [apply A; (assumption || reflexivity)|]. rewrite f16_fields by (assumption || reflexivity). reflexivity.
    + cbn [negb andb]. set (f := if fm x / 2 ^ 13 =? 0 then 512 else fm x / 2 ^ 13).
      assert (Hf : f < 2 ^ 10 /\ f <> 0). { unfold f. destruct (N.eqb_spec (fm x / 2 ^ 13) 0); [split; [reflexivity|discriminate]|split; assumption]. }
      rewrite X by apply Hf. split; [intros; discriminate|]. split; [|split; intros; discriminate]. intros _.
      split; [apply A; (apply Hf || assumption || reflexivity)|]. rewrite f16_fields by (apply Hf || assumption || reflexivity). cbn [N.eqb Pos.eqb].
      replace (f =? 0) with false by (symmetry; apply N.eqb_neq, Hf). split; [reflexivity|]. fold (fs x).
      replace ((2 ^ 15 * fs x + 2 ^ 10 * 31 + f) / 2 ^ 15) with (fs x); [reflexivity|]. apply (N.div_unique _ _ _ (2 ^ 10 * 31 + f)); [|lia].
      change (2 ^ 15) with 32768. change (2 ^ 10) with 1024 in *. lia.
  - split; [intros; discriminate|]. split; [discriminate|]. destruct (N.eqb_spec (fe x) 0) as [E0|E0].
    + split.
      * intros s mag V _. apply fin_inj in V. destruct V as [Vs _]. subst s. rewrite S0. split; [apply A; (assumption || reflexivity)|]. rewrite f16_fields by (assumption || reflexivity). reflexivity.
      * intros s mag V L. apply fin_inj in V. destruct V as [_ Vm]. subst mag. exfalso. assert (2 ^ 23 < 2 ^ 165) by reflexivity. lia.
    + split.
      * intros s mag V L. apply fin_inj in V. destruct V as [_ Vm]. subst mag. exfalso. pose proof (pow2_pos (fe x - 1)) as P. clear - L P. change (2 ^ 23) with 8388608 in *. generalize dependent (2 ^ (fe x - 1)). intros. nia.
      * intros s mag V L U. apply fin_inj in V. destruct V as [Vs Vm].
        assert (B : 143 <= fe x /\ fe x < 144). { apply (binade_of (fe x) (fm x)); try lia; try exact Hm; rewrite Vm; [exact L|exact U]. }
        assert (fe x = 143) as -> by lia. change ((143 + (65536 - 112)) mod 65536) with 31. change (31 =? 31) with true. cbn iota.
        rewrite lor_parts by (assumption || reflexivity). split; [apply A; (assumption || reflexivity)|]. rewrite f16_fields by (assumption || reflexivity). rewrite <- Vs. reflexivity.
Qed.

(** A float other than NaN is determined by its value. *)
Lemma f32_join x : x < 2 ^ 32 -> x = 2 ^ 31 * fs x + 2 ^ 23 * fe x + fm x.
Proof.
  intros H. unfold fs, fe, fm. pose proof (N.div_mod' x (2 ^ 23)) as E. pose proof (N.div_mod' (x / 2 ^ 23) (2 ^ 8)) as E2. rewrite N.div_div in E2 by discriminate.
  change (2 ^ 23 * 2 ^ 8) with (2 ^ 31) in E2. rewrite E at 1. rewrite E2 at 1. change (2 ^ 31) with (2 ^ 23 * 2 ^ 8).
  generalize (x / (2 ^ 23 * 2 ^ 8)) ((x / 2 ^ 23) mod 2 ^ 8) (x mod 2 ^ 23). intros a b c. change (2 ^ 8) with 256. generalize (2 ^ 23). intros d. nia.
Qed.
Lemma bit_eq a b : a < 2 -> b < 2 -> (a =? 1) = (b =? 1) -> a = b.
Proof. intros Ha Hb E. destruct (N.eqb_spec a 1), (N.eqb_spec b 1); try discriminate; lia. Qed.
Lemma f32_value_inj x y : x < 2 ^ 32 -> y < 2 ^ 32 -> f32_value x = f32_value y -> f32_value y <> NaN -> x = y.
Proof.
  intros Hx Hy E N. destruct (fields x Hx) as (Sx & Ex & Mx). destruct (fields y Hy) as (Sy & Ey & My).
  rewrite (f32_join x Hx), (f32_join y Hy). rewrite !f32_fields in E. rewrite f32_fields in N.
  set (s := fs x) in *. set (s' := fs y) in *. set (e := fe x) in *. set (e' := fe y) in *. set (m := fm x) in *. set (m' := fm y) in *.
  clearbody s s' e e' m m'. clear x y Hx Hy. destruct (N.eqb_spec e' 255) as [E'|E'].
  - destruct (N.eqb_spec m' 0) as [M'|M']; [|congruence]. destruct (N.eqb_spec e 255) as [E1|E1]; [|discriminate].
    destruct (N.eqb_spec m 0) as [M1|M1]; [|discriminate]. apply inf_inj in E. apply bit_eq in E; [|assumption|assumption]. congruence.
  - destruct (N.eqb_spec e 255) as [E1|E1]; [destruct (m =? 0); discriminate|]. apply fin_inj in E. destruct E as [E2 E3].
    apply bit_eq in E2; [|assumption|assumption]. subst s'. assert (e = e' /\ m = m') as [-> ->]; [|reflexivity].
    clear N. destruct (N.eqb_spec e 0) as [Z|Z], (N.eqb_spec e' 0) as [Z'|Z'].
    + split; [congruence|exact E3].
    + exfalso. pose proof (pow2_pos (e' - 1)) as P. clear - E3 Mx P. change (2 ^ 23) with 8388608 in *. generalize dependent (2 ^ (e' - 1)). intros. nia.
    + exfalso. pose proof (pow2_pos (e - 1)) as P. clear - E3 My P. change (2 ^ 23) with 8388608 in *. generalize dependent (2 ^ (e - 1)). intros. nia.
    + assert (B : forall a b n n', n < 2 ^ 23 -> n' < 2 ^ 23 -> 1 <= a -> 1 <= b -> (2 ^ 23 + n) * 2 ^ (a - 1) = (2 ^ 23 + n') * 2 ^ (b - 1) -> a < b -> False).
      { clear. intros a b n n' Hn Hn' Ha Hb E L. assert (2 ^ (b - 1) = 2 ^ (a - 1) * 2 ^ (b - a)) as R by (rewrite <- N.pow_add_r; f_equal; lia). rewrite R in E. clear R.
        assert (2 <= 2 ^ (b - a)) as T. { change 2 with (2 ^ 1) at 1. apply N.pow_le_mono_r; lia. }
        pose proof (pow2_pos (a - 1)) as P. clear L Ha Hb. change (2 ^ 23) with 8388608 in *. generalize dependent (2 ^ (b - a)). generalize dependent (2 ^ (a - 1)). intros. nia. }
      destruct (N.lt_trichotomy e e') as [T|[T|T]].
      * exfalso. apply (B e e' m m'); try lia; assumption.
      * split; [exact T|]. subst e'. apply N.mul_cancel_r in E3; [lia|]. apply N.pow_nonzero. discriminate.
      * exfalso. apply (B e' e m' m); first [exact T|exact Mx|exact My|symmetry; exact E3|lia].
Qed.

(** One binade of floats. *)
Lemma in_binade x s mag k : x < 2 ^ 32 -> f32_value x = Fin s mag -> 1 <= k -> 2 ^ 23 * 2 ^ (k - 1) <= mag -> mag < 2 ^ 23 * 2 ^ (k + 1 - 1) ->
  fe x = k /\ mag = (2 ^ 23 + fm x) * 2 ^ (k - 1) /\ s = (fs x =? 1).
Proof.
  intros H V K L U. destruct (fields x H) as (Hs & He & Hm). rewrite f32_fields in V. destruct (N.eqb_spec (fe x) 255) as [E|E]; [destruct (fm x =? 0); discriminate|].
  apply fin_inj in V. destruct V as [Vs Vm]. destruct (N.eqb_spec (fe x) 0) as [E0|E0].
  { exfalso. subst mag. pose proof (pow2_pos (k - 1)) as P. clear - L P Hm. generalize dependent (2 ^ (k - 1)). generalize dependent (2 ^ 23). intros. nia. }
  assert (B : k <= fe x /\ fe x < k + 1). { apply (binade_of (fe x) (fm x)); try lia; try exact Hm; rewrite Vm; assumption. }
  assert (F : fe x = k) by lia. rewrite F in Vm. split; [exact F|]. split; symmetry; assumption.
Qed.
Lemma frac16 m : m < 2 ^ 23 -> m / 2 ^ 13 < 2 ^ 10.
Proof. intros H. apply N.div_lt_upper_bound; [discriminate|exact H]. Qed.

Lemma overflow_wrong x s mag : x < 2 ^ 32 -> f32_value x = Fin s mag -> 2 ^ 166 <= mag -> mag < 2 ^ 167 ->
  exists mag', f16_value (f32_to_u16 x) = Fin true mag' /\ mag' < 2 ^ 135.
Proof.
  intros H V L U. destruct (fields x H) as (Hs & _ & Hm). destruct (in_binade x s mag 144 H V) as (E & _ & _); [discriminate|exact L|exact U|].
  rewrite narrow_ok by exact H. rewrite E. unfold narrow. change (144 =? 255) with false. change (144 =? 0) with false.
  change ((144 + (65536 - 112)) mod 65536) with 32. change (32 =? 31) with false. change (32 =? 0) with false. cbn iota. cbv zeta.
  pose proof (frac16 _ Hm) as F. set (f := fm x / 2 ^ 13) in *. clearbody f.
  assert (X : N.lor (2 ^ 15 * fs x) (trunc 16 (N.shiftl 32 10)) = N.lor (2 ^ 15 * 1) (trunc 16 (N.shiftl 0 10))).
  { assert (D : fs x = 0 \/ fs x = 1) by lia. destruct D as [-> | ->]; reflexivity. }
  rewrite X, lor_parts by (assumption || reflexivity). rewrite f16_fields by (assumption || reflexivity). cbn [N.eqb Pos.eqb]. eexists. split; [reflexivity|].
  change (2 ^ 135) with (2 ^ 125 * 2 ^ 10). apply N.mul_lt_mono_pos_l; [reflexivity|exact F].
Qed.

Lemma small_wrong x s mag : x < 2 ^ 32 -> f32_value x = Fin s mag -> 2 ^ 133 <= mag -> mag < 2 ^ 134 ->
  f16_value (f32_to_u16 x) = Inf true \/ f16_value (f32_to_u16 x) = NaN.
Proof.
  intros H V L U. destruct (fields x H) as (Hs & _ & Hm). destruct (in_binade x s mag 111 H V) as (E & _ & _); [discriminate|exact L|exact U|].
  rewrite narrow_ok by exact H. rewrite E. unfold narrow. change (111 =? 255) with false. change (111 =? 0) with false.
  change ((111 + (65536 - 112)) mod 65536) with 65535. change (65535 =? 31) with false. change (65535 =? 0) with false. cbn iota. cbv zeta.
  pose proof (frac16 _ Hm) as F. set (f := fm x / 2 ^ 13) in *. clearbody f.
  assert (X : N.lor (2 ^ 15 * fs x) (trunc 16 (N.shiftl 65535 10)) = N.lor (2 ^ 15 * 1) (trunc 16 (N.shiftl 31 10))).
  { assert (D : fs x = 0 \/ fs x = 1) by lia. destruct D as [-> | ->]; reflexivity. }
  rewrite X, lor_parts by (assumption || reflexivity). rewrite f16_fields by (assumption || reflexivity). cbn [N.eqb Pos.eqb].
  destruct (f =? 0); [left|right]; reflexivity.
Qed.

Lemma halved_wrong x s mag : x < 2 ^ 32 -> f32_value x = Fin s mag -> 2 ^ 134 <= mag -> mag < 2 ^ 135 ->
  exists mag', f16_value (f32_to_u16 x) = Fin s mag' /\ 2 * mag' <= mag /\ mag < 2 * mag' + 4 * 2 ^ 125.
Proof.
  intros H V L U. destruct (fields x H) as (Hs & _ & Hm). destruct (in_binade x s mag 112 H V) as (E & M & S); [discriminate|exact L|exact U|].
  rewrite narrow_ok by exact H. rewrite E. unfold narrow. change (112 =? 255) with false. change (112 =? 0) with false.
  change ((112 + (65536 - 112)) mod 65536) with 0. change (0 =? 31) with false. change (0 =? 0) with true. cbn iota. cbv zeta.
  assert (O : N.lor 256 (fm x / 2 ^ 13 / 4) = 256 + fm x / 2 ^ 13 / 4).
  { pose proof (frac16 _ Hm) as F. set (f := fm x / 2 ^ 13) in *. clearbody f. assert (Q : f / 4 < 256) by (apply N.div_lt_upper_bound; [discriminate|exact F]).
    set (q := f / 4) in *. clearbody q. clear - Q.
    assert (K : forallb (fun q => N.lor 256 q =? 256 + q) (nseq 256 0) = true) by (vm_compute; reflexivity).
    apply N.eqb_eq. apply (proj1 (forallb_forall _ _) K q). apply in_nseq; [lia|]. exact Q. }
  rewrite O. rewrite N.div_div by discriminate. change (2 ^ 13 * 4) with (2 ^ 15).
  assert (Q : fm x / 2 ^ 15 < 256) by (apply N.div_lt_upper_bound; [discriminate|exact Hm]).
  pose proof (N.div_mod' (fm x) (2 ^ 15)) as D. pose proof (N.mod_lt (fm x) (2 ^ 15) ltac:(discriminate)) as R.
  set (q := fm x / 2 ^ 15) in *. set (r := fm x mod 2 ^ 15) in *. clearbody q r.
  rewrite lor_parts. 2: exact Hs. 2: reflexivity. 2:{ change (2 ^ 10) with 1024. lia. }
  rewrite f16_fields. 2: exact Hs. 2: reflexivity. 2:{ change (2 ^ 10) with 1024. lia. }
  change (0 =? 31) with false. change (0 =? 0) with true. cbn iota. eexists. split; [rewrite S; reflexivity|].
  rewrite M, D. change (2 ^ (112 - 1)) with (2 ^ 111). change (2 ^ 125) with (2 ^ 14 * 2 ^ 111). change (2 ^ 23) with 8388608. change (2 ^ 15) with 32768 in *. change (2 ^ 14) with 16384.
  pose proof (pow2_pos 111) as P. clear - P R. generalize dependent (2 ^ 111). intros p P. nia.
Qed.

(** The fields of a binary16 pattern. *)
Definition hs (h : N) := h / 2 ^ 15.
Definition he (h : N) := (h / 2 ^ 10) mod 2 ^ 5.
Definition hm (h : N) := h mod 2 ^ 10.
Lemma fields16 h : h < 2 ^ 16 -> hs h < 2 /\ he h < 32 /\ hm h < 2 ^ 10.
Proof.
  intros H. unfold hs, he, hm. split; [apply N.div_lt_upper_bound; [discriminate|exact H]|]. split; apply N.mod_lt; discriminate.
Qed.
Lemma f16_of_fields h : f16_value h =
  if he h =? 31 then (if hm h =? 0 then Inf (hs h =? 1) else NaN) else Fin (hs h =? 1) (2 ^ 125 * (if he h =? 0 then hm h else (2 ^ 10 + hm h) * 2 ^ (he h - 1))).
Proof. reflexivity. Qed.
Lemma f16_join h : h = 2 ^ 15 * hs h + 2 ^ 10 * he h + hm h.
Proof.
  unfold hs, he, hm. pose proof (N.div_mod' h (2 ^ 10)) as E. pose proof (N.div_mod' (h / 2 ^ 10) (2 ^ 5)) as E2. rewrite N.div_div in E2 by discriminate.
  change (2 ^ 10 * 2 ^ 5) with (2 ^ 15) in E2. rewrite E at 1. rewrite E2 at 1. change (2 ^ 15) with (2 ^ 10 * 32). change (2 ^ 5) with 32. lia.
Qed.
Lemma parts16 s e m : s < 2 -> e < 32 -> m < 2 ^ 10 ->
  hs (2 ^ 15 * s + 2 ^ 10 * e + m) = s /\ he (2 ^ 15 * s + 2 ^ 10 * e + m) = e /\ hm (2 ^ 15 * s + 2 ^ 10 * e + m) = m /\ 2 ^ 15 * s + 2 ^ 10 * e + m < 2 ^ 16.
Proof.
  intros Hs He Hm. unfold hs, he, hm. change (2 ^ 15) with 32768. change (2 ^ 10) with 1024 in *. change (2 ^ 5) with 32. change (2 ^ 16) with 65536. split.
  { symmetry. apply (N.div_unique _ _ _ (1024 * e + m)); lia. }
  assert (B : (32768 * s + 1024 * e + m) / 1024 = 32 * s + e). { symmetry. apply (N.div_unique _ _ _ m); lia. }
  rewrite B. split. { symmetry. apply (N.mod_unique _ _ s); lia. } split; [|lia]. symmetry. apply (N.mod_unique _ _ (32 * s + e)); lia.
Qed.
Lemma parts32 s e m : s < 2 -> e < 256 -> m < 2 ^ 23 ->
  fs (2 ^ 31 * s + 2 ^ 23 * e + m) = s /\ fe (2 ^ 31 * s + 2 ^ 23 * e + m) = e /\ fm (2 ^ 31 * s + 2 ^ 23 * e + m) = m /\ 2 ^ 31 * s + 2 ^ 23 * e + m < 2 ^ 32.
Proof.
  intros Hs He Hm. unfold fs, fe, fm. change (2 ^ 31) with 2147483648. change (2 ^ 23) with 8388608 in *. change (2 ^ 8) with 256. change (2 ^ 32) with 4294967296. split.
  { symmetry. apply (N.div_unique _ _ _ (8388608 * e + m)); lia. }
  assert (B : (2147483648 * s + 8388608 * e + m) / 8388608 = 256 * s + e). { symmetry. apply (N.div_unique _ _ _ m); lia. }
  rewrite B. split. { symmetry. apply (N.mod_unique _ _ s); lia. } split; [|lia]. symmetry. apply (N.mod_unique _ _ (256 * s + e)); lia.
Qed.

(** Masks. *)
Lemma mask_exp h : N.land h 0x7C00 = 2 ^ 10 * he h.
Proof.
  unfold he. change 0x7C00 with (N.shiftl (N.ones 5) 10). rewrite <- N.land_ones, <- N.shiftr_div_pow2, N.mul_comm, <- N.shiftl_mul_pow2.
  apply N.bits_inj. intros i. rewrite N.land_spec, !testbit_shiftl. destruct (N.leb_spec 10 i) as [L|L]; [|apply andb_false_r].
  rewrite N.land_spec, testbit_shiftr. replace (i - 10 + 10) with i by lia. reflexivity.
Qed.
Lemma mask_exp_shift h : N.shiftr (N.land h 0x7C00) 10 = he h.
Proof. rewrite mask_exp, N.shiftr_div_pow2, N.mul_comm. apply N.div_mul. discriminate. Qed.
Lemma mask_frac h : N.land h 0x03FF = hm h.
Proof. change 0x03FF with (N.ones 10). apply N.land_ones. Qed.
Lemma mask_abs h : h < 2 ^ 16 -> N.land h 0x7FFF = 2 ^ 10 * he h + hm h.
Proof.
  intros H. destruct (fields16 h H) as (A & B & C). change 0x7FFF with (N.ones 15). rewrite N.land_ones. symmetry. apply (N.mod_unique _ _ (hs h)).
  - change (2 ^ 15) with 32768. change (2 ^ 10) with 1024 in *. lia.
  - rewrite (f16_join h) at 1. lia.
Qed.
Lemma mask_sign h : h < 2 ^ 16 -> trunc 32 (N.shiftl (N.land h 0x8000) 16) = 2 ^ 31 * hs h.
Proof.
  intros H. apply N.bits_inj. intros i. rewrite testbit_trunc, testbit_shiftl, N.land_spec. change 0x8000 with (2 ^ 15). rewrite N.pow2_bits_eqb.
  unfold hs. rewrite N.mul_comm, <- N.shiftl_mul_pow2, <- N.shiftr_div_pow2, testbit_shiftl, testbit_shiftr.
  destruct (N.eqb_spec 15 (i - 16)) as [E|E].
  - assert (i = 31) as -> by lia. cbn [N.ltb N.leb N.compare]. rewrite andb_true_r. reflexivity.
  - rewrite andb_false_r, andb_false_r, andb_false_r. symmetry. destruct (N.leb_spec 31 i) as [L|L]; [|reflexivity]. apply (testbit_high 16); [exact H|lia].
Qed.
Lemma lor_add a b n : b < 2 ^ n -> N.lor (2 ^ n * a) b = 2 ^ n * a + b.
Proof.
  intros H. rewrite <- N.lxor_lor.
  - symmetry. apply N.add_nocarry_lxor. apply N.bits_inj_0. intros i. rewrite N.land_spec. destruct (N.lt_ge_cases i n) as [L|L].
    + rewrite N.mul_comm, N.mul_pow2_bits_low by exact L. reflexivity.
    + rewrite (testbit_high n b i H L). apply andb_false_r.
  - apply N.bits_inj_0. intros i. rewrite N.land_spec. destruct (N.lt_ge_cases i n) as [L|L].
    + rewrite N.mul_comm, N.mul_pow2_bits_low by exact L. reflexivity.
    + rewrite (testbit_high n b i H L). apply andb_false_r.
Qed.
Lemma lor_parts32 s e m : s < 2 -> e < 256 -> m < 2 ^ 10 ->
  N.lor (N.lor (2 ^ 31 * s) (trunc 32 (N.shiftl e 23))) (trunc 32 (N.shiftl m 13)) = 2 ^ 31 * s + 2 ^ 23 * e + 2 ^ 13 * m.
Proof.
  intros Hs He Hm.
  assert (T : trunc 32 (N.shiftl e 23) = 2 ^ 23 * e).
  { rewrite N.shiftl_mul_pow2, N.mul_comm. apply trunc_small. change (2 ^ 32) with (2 ^ 23 * 512). apply N.mul_lt_mono_pos_l; [reflexivity|lia]. }
  assert (M : 2 ^ 13 * m < 2 ^ 23). { change (2 ^ 23) with (2 ^ 13 * 2 ^ 10). apply N.mul_lt_mono_pos_l; [reflexivity|exact Hm]. }
  assert (T' : trunc 32 (N.shiftl m 13) = 2 ^ 13 * m).
  { rewrite N.shiftl_mul_pow2, N.mul_comm. apply trunc_small. apply N.lt_trans with (2 ^ 23); [exact M|reflexivity]. }
  rewrite T, T'. rewrite (lor_add s (2 ^ 23 * e) 31). 2:{ change (2 ^ 31) with (2 ^ 23 * 256). apply N.mul_lt_mono_pos_l; [reflexivity|exact He]. }
  replace (2 ^ 31 * s + 2 ^ 23 * e) with (2 ^ 23 * (256 * s + e)). 2:{ change (2 ^ 31) with (2 ^ 23 * 256). lia. }
  apply lor_add. exact M.
Qed.

(** The loop for subnormals, for each of the 1023 fractions; and no subnormal survives a round trip. *)
Definition denormal_check (m : N) : bool :=
  match denormal_loop 32 m 0 with
  | None => false
  | Some (f, off) => (f =? m * 2 ^ off) && (1 <=? off) && (off <=? 10) && (1024 <=? f) && (f <? 2048)
  end.
Definition lost_check (m : N) : bool :=
  match u16_to_f32 m, u16_to_f32 (2 ^ 15 + m) with
  | Some x, Some y => negb (f32_to_u16 x =? m) && negb (f32_to_u16 y =? 2 ^ 15 + m)
  | _, _ => false
  end.
Lemma denormal_all : forallb (fun m => denormal_check m && lost_check m) (nseq 1023 1) = true.
Proof. vm_cast_no_check (eq_refl true). Qed.
Lemma denormal_ok m : 0 < m -> m < 2 ^ 10 -> denormal_check m = true /\ lost_check m = true.
Proof.
  intros H1 H2. apply andb_true_iff. apply (proj1 (forallb_forall _ _) denormal_all m). apply in_nseq; [lia|]. change (1 + N.of_nat 1023) with (2 ^ 10). exact H2.
Qed.

Lemma widen_ok h : h < 2 ^ 16 ->
  exists x, u16_to_f32 h = Some x /\ x < 2 ^ 32 /\ f32_value x = f16_value h /\ (x / 2 ^ 31 = 1 <-> h / 2 ^ 15 = 1) /\
            (f32_to_u16 x = h <-> ~ subnormal16 h).
Proof.
  intros H. destruct (fields16 h H) as (Hs & He & Hm). rewrite f16_of_fields. unfold subnormal16. fold (he h) (hm h) (hs h).
  assert (Z13 : forall m, m < 2 ^ 10 -> 2 ^ 13 * m < 2 ^ 23). { intros m L. change (2 ^ 23) with (2 ^ 13 * 2 ^ 10). apply N.mul_lt_mono_pos_l; [reflexivity|exact L]. }
  assert (D13 : forall m, 2 ^ 13 * m / 2 ^ 13 = m). { intros m. rewrite N.mul_comm. apply N.div_mul. discriminate. }
  (* the common part: result in fields *)
  assert (G : forall E M, E < 256 -> M < 2 ^ 10 -> let x := 2 ^ 31 * hs h + 2 ^ 23 * E + 2 ^ 13 * M in
    x < 2 ^ 32 /\ fs x = hs h /\ fe x = E /\ fm x = 2 ^ 13 * M /\ f32_to_u16 x = narrow (hs h) E (2 ^ 13 * M)).
  { intros E M HE HM x. destruct (parts32 (hs h) E (2 ^ 13 * M) Hs HE (Z13 M HM)) as (A & B & C & D). fold x in A, B, C, D.
    split; [exact D|]. split; [exact A|]. split; [exact B|]. split; [exact C|]. rewrite narrow_ok by exact D. rewrite A, B, C. reflexivity. }
  unfold u16_to_f32. rewrite mask_sign by exact H. rewrite mask_exp_shift, mask_frac.
  pose proof (f16_join h) as J. set (s := hs h) in *. set (m := hm h) in *. set (e := he h) in *. clearbody s m e.
  destruct (N.eqb_spec e 0) as [E0|E0].
  - destruct (N.eqb_spec m 0) as [M0|M0]; cbn [negb andb].
    + subst e m. cbn [option_bind]. destruct (G 0 0 ltac:(reflexivity) ltac:(reflexivity)) as (G1 & G2 & G3 & G4 & G5).
      eexists. split; [reflexivity|]. rewrite lor_parts32 by (assumption || reflexivity). split; [exact G1|].
      rewrite f32_fields, G2, G3, G4. split; [reflexivity|]. fold (fs (2 ^ 31 * s + 2 ^ 23 * 0 + 2 ^ 13 * 0)). rewrite G2. split; [reflexivity|].
      rewrite G5. unfold narrow. change (0 =? 255) with false. change (0 =? 0) with true. cbn iota. split; [intros _ [_ X]; apply X; reflexivity|]. intros _. rewrite J. lia.
    + destruct (denormal_ok m ltac:(lia) Hm) as [Q1 Q2]. unfold denormal_check in Q1. unfold lost_check in Q2.
      assert (LOST : forall x, u16_to_f32 h = Some x -> f32_to_u16 x <> h).
      { intros x Ex Y. assert (h = m \/ h = 2 ^ 15 + m) as [V|V] by (rewrite J, E0; assert (s = 0 \/ s = 1) as [->| ->] by lia; lia); rewrite <- ?V in Q2; rewrite Ex in Q2.
        - destruct (u16_to_f32 (2 ^ 15 + h)); [|discriminate]. rewrite Y, N.eqb_refl in Q2. discriminate.
        - destruct (u16_to_f32 m); [|discriminate]. rewrite Y, N.eqb_refl, andb_false_r in Q2. discriminate. }
      unfold u16_to_f32 in LOST. rewrite mask_sign in LOST by exact H. rewrite mask_exp_shift, mask_frac in LOST.
      pose proof (parts16 s e m Hs He Hm) as PP. rewrite <- J in PP. destruct PP as (P1 & P2 & P3 & _). rewrite P1, P2, P3 in LOST.
      replace (e =? 0) with true in LOST by (symmetry; apply N.eqb_eq, E0). replace (m =? 0) with false in LOST by (symmetry; apply N.eqb_neq, M0). cbn [negb andb] in LOST.
      destruct (denormal_loop 32 m 0) as [[f off]|]; [|discriminate]. rewrite !andb_true_iff, N.eqb_eq, !N.leb_le, N.ltb_lt in Q1. destruct Q1 as ((((F & O1) & O2) & F1) & F2).
      cbn [option_bind fst snd] in *. rewrite mask_frac in LOST. rewrite mask_frac. unfold hm in *. set (g := f mod 2 ^ 10) in *.
      assert (FG : f = 2 ^ 10 + g /\ g < 2 ^ 10).
      { unfold g. split; [|apply N.mod_lt; discriminate]. change (2 ^ 10) with 1024. rewrite (N.div_mod' f 1024) at 1. assert (f / 1024 = 1) as ->; [|reflexivity]. symmetry. apply (N.div_unique _ _ _ (f - 1024)); lia. }
      destruct FG as [FG Hg]. clearbody g. rewrite lor_parts32 in LOST by (assumption || lia).
      destruct (G (113 - off) g ltac:(lia) Hg) as (G1 & G2 & G3 & G4 & G5).
      eexists. split; [reflexivity|]. rewrite lor_parts32 by (assumption || lia). split; [exact G1|].
      rewrite f32_fields, G2, G3, G4. replace (113 - off =? 255) with false by (symmetry; apply N.eqb_neq; lia). replace (113 - off =? 0) with false by (symmetry; apply N.eqb_neq; lia).
      rewrite E0. change (0 =? 31) with false. change (0 =? 0) with true. cbn iota. split.
      { f_equal. replace (2 ^ 23 + 2 ^ 13 * g) with (2 ^ 13 * f) by (rewrite FG; change (2 ^ 23) with (2 ^ 13 * 2 ^ 10); first [apply N.mul_add_distr_l|symmetry; apply N.mul_add_distr_l|lia]).
        rewrite F. replace (2 ^ 125) with (2 ^ 13 * (2 ^ off * 2 ^ (113 - off - 1))). 2:{ rewrite <- !N.pow_add_r. f_equal. lia. }
        clear. generalize (2 ^ 13) (2 ^ off) (2 ^ (113 - off - 1)). intros. lia. }
      fold (fs (2 ^ 31 * s + 2 ^ 23 * (113 - off) + 2 ^ 13 * g)). rewrite G2. split; [reflexivity|]. split.
      * intros X. exfalso. exact (LOST _ eq_refl X).
      * intros X. exfalso. apply X. split; [reflexivity|exact M0].
  - replace (e =? 0) with false in * by (symmetry; apply N.eqb_neq; exact E0). cbn [andb]. destruct (N.eqb_spec e 31) as [E31|E31].
    + assert (R : (if true && (m =? 0) then Some (255, m) else if true && negb (m =? 0) then Some (255, m) else Some (e + 112, m)) = Some (255, m)) by (destruct (m =? 0); reflexivity).
      rewrite R. cbn [option_bind]. destruct (G 255 m ltac:(reflexivity) Hm) as (G1 & G2 & G3 & G4 & G5).
      eexists. split; [reflexivity|]. rewrite lor_parts32 by (assumption || reflexivity). split; [exact G1|].
      rewrite f32_fields, G2, G3, G4. change (255 =? 255) with true. cbn iota. fold (fs (2 ^ 31 * s + 2 ^ 23 * 255 + 2 ^ 13 * m)). rewrite G2, G5. unfold narrow.
      change (255 =? 255) with true. cbn iota. rewrite D13. assert (ZM : (2 ^ 13 * m =? 0) = (m =? 0)).
      { destruct (N.eqb_spec m 0) as [->|M0]; [reflexivity|]. apply N.eqb_neq. change (2 ^ 13) with 8192. lia. }
      rewrite ZM. split; [reflexivity|]. split; [reflexivity|].
      replace (negb (m =? 0) && (m =? 0)) with false by (destruct (m =? 0); reflexivity). change 0x7C00 with (trunc 16 (N.shiftl 31 10)). rewrite lor_parts by (assumption || reflexivity).
      rewrite J, E31. split; [intros _ [X _]; discriminate|reflexivity].
    + cbn [andb]. cbn [option_bind]. destruct (G (e + 112) m ltac:(lia) Hm) as (G1 & G2 & G3 & G4 & G5).
      eexists. split; [reflexivity|]. rewrite lor_parts32 by (assumption || lia). split; [exact G1|].
      rewrite f32_fields, G2, G3, G4. replace (e + 112 =? 255) with false by (symmetry; apply N.eqb_neq; lia). replace (e + 112 =? 0) with false by (symmetry; apply N.eqb_neq; lia).
      split.
      { f_equal. replace (e + 112 - 1) with (112 + (e - 1)) by lia. rewrite N.pow_add_r. change (2 ^ 125) with (2 ^ 13 * 2 ^ 112). change (2 ^ 23) with (2 ^ 13 * 2 ^ 10). clear.
        generalize (2 ^ 13) (2 ^ 112) (2 ^ (e - 1)) (2 ^ 10). intros. nia. }
      fold (fs (2 ^ 31 * s + 2 ^ 23 * (e + 112) + 2 ^ 13 * m)). rewrite G2. split; [reflexivity|]. rewrite G5. unfold narrow.
      replace (e + 112 =? 255) with false by (symmetry; apply N.eqb_neq; lia). replace (e + 112 =? 0) with false by (symmetry; apply N.eqb_neq; lia).
      assert (Q : (e + 112 + (65536 - 112)) mod 65536 = e). { symmetry. apply (N.mod_unique _ _ 1); lia. }
      rewrite Q. replace (e =? 31) with false by (symmetry; apply N.eqb_neq; lia). replace (e =? 0) with false by (symmetry; apply N.eqb_neq; lia). cbv zeta.
      rewrite D13, lor_parts by assumption. rewrite J. split; [intros _ [X _]; contradiction|reflexivity].
Qed.

(** Sign operations. *)
Lemma neg_fields h : h < 2 ^ 16 -> half_neg h = 2 ^ 15 * (1 - hs h) + 2 ^ 10 * he h + hm h.
Proof.
  intros H. destruct (fields16 h H) as (Hs & He & Hm). unfold half_neg. rewrite (f16_join h) at 1. set (s := hs h) in *. set (m := hm h) in *. set (e := he h) in *. clearbody s m e.
  assert (R : 2 ^ 10 * e + m < 2 ^ 15). { change (2 ^ 15) with 32768. change (2 ^ 10) with 1024 in *. lia. }
  rewrite <- !N.add_assoc. set (r := 2 ^ 10 * e + m) in *. clearbody r. change 0x8000 with (2 ^ 15 * 1).
  rewrite <- (lor_add s r 15 R), <- (lor_add (1 - s) r 15 R).
  apply N.bits_inj. intros i. rewrite N.lxor_spec, !N.lor_spec, !(N.mul_comm (2 ^ 15)), <- !N.shiftl_mul_pow2, !testbit_shiftl.
  destruct (N.leb_spec 15 i) as [L|L]; [|destruct (N.testbit r i); reflexivity]. rewrite (testbit_high 15 r i R L), !orb_false_r.
  assert (s = 0 \/ s = 1) as [-> | ->] by lia; [change (1 - 0) with 1|change (1 - 1) with 0]; rewrite ?N.bits_0; destruct (N.testbit 1 (i - 15)); reflexivity.
Qed.
Lemma signs_ok h : h < 2 ^ 16 ->
  half_neg h < 2 ^ 16 /\ f16_value (half_neg h) = negate (f16_value h) /\ (half_neg h / 2 ^ 15 = 1 <-> h / 2 ^ 15 = 0) /\ half_neg (half_neg h) = h /\
  half_abs h < 2 ^ 16 /\ f16_value (half_abs h) = magnitude (f16_value h) /\
  (half_inf_or_nan h = true <-> (f16_value h = NaN \/ exists s, f16_value h = Inf s)) /\
  (half_bool h = false <-> exists s, f16_value h = Fin s 0).
Proof.
  intros H. destruct (fields16 h H) as (Hs & He & Hm).
  destruct (parts16 (1 - hs h) (he h) (hm h) ltac:(lia) He Hm) as (N1 & N2 & N3 & N4). rewrite <- (neg_fields h H) in N1, N2, N3, N4.
  split; [exact N4|]. split.
  { rewrite !f16_of_fields, N1, N2, N3. assert ((1 - hs h =? 1) = negb (hs h =? 1)) as ->. { assert (hs h = 0 \/ hs h = 1) as [-> | ->] by lia; reflexivity. }
    destruct (he h =? 31); [destruct (hm h =? 0); reflexivity|reflexivity]. }
  split. { fold (hs (half_neg h)) (hs h). rewrite N1. clear - Hs. lia. }
  split. { rewrite (neg_fields (half_neg h) N4), N1, N2, N3. rewrite (f16_join h) at 4. replace (1 - (1 - hs h)) with (hs h) by lia. reflexivity. }
  assert (AB : half_abs h < 2 ^ 16 /\ f16_value (half_abs h) = magnitude (f16_value h)).
  { unfold half_abs. rewrite mask_exp, mask_frac, mask_abs by exact H. rewrite f16_of_fields.
    replace (2 ^ 10 * he h =? 0x7C00) with (he h =? 31). 2:{ change (2 ^ 10) with 1024. destruct (N.eqb_spec (he h) 31) as [->|E]; [reflexivity|]. symmetry. apply N.eqb_neq. lia. }
    destruct (parts16 0 (he h) (hm h) ltac:(reflexivity) He Hm) as (A1 & A2 & A3 & A4). rewrite N.mul_0_r, N.add_0_l in A1, A2, A3, A4.
    destruct (N.eqb_spec (he h) 31) as [E|E]; [destruct (N.eqb_spec (hm h) 0) as [M|M]|]; cbn [andb negb].
    - split; [exact A4|]. rewrite f16_of_fields, A1, A2, A3, E, M. reflexivity.
    - split; [exact H|]. rewrite f16_of_fields, E. replace (hm h =? 0) with false by (symmetry; apply N.eqb_neq, M). reflexivity.
    - split; [exact A4|]. rewrite f16_of_fields, A1, A2, A3. replace (he h =? 31) with false by (symmetry; apply N.eqb_neq, E). reflexivity. }
  destruct AB as [AB1 AB2]. split; [exact AB1|]. split; [exact AB2|]. clear AB1 AB2. split.
  - unfold half_inf_or_nan. rewrite mask_exp, N.eqb_eq, f16_of_fields. change 0x7C00 with (2 ^ 10 * 31). rewrite N.mul_cancel_l by discriminate.
    destruct (N.eqb_spec (he h) 31) as [E|E].
    + split; [|intros _; exact E]. intros _. destruct (hm h =? 0); [right; eexists; reflexivity|left; reflexivity].
    + split; [contradiction|]. intros [A|[t A]]; discriminate.
  - unfold half_bool. rewrite mask_abs by exact H. rewrite negb_false_iff, N.eqb_eq, f16_of_fields. change (2 ^ 10) with 1024 at 1. split.
    + intros A. assert (he h = 0) as -> by lia. assert (hm h = 0) as -> by lia. eexists. reflexivity.
    + intros [t A]. destruct (N.eqb_spec (he h) 31) as [E|E]; [destruct (hm h =? 0); discriminate|]. apply fin_inj in A. destruct A as [_ A].
      apply N.mul_eq_0 in A. destruct A as [A|A]; [discriminate|]. destruct (N.eqb_spec (he h) 0) as [E0|E0]; [lia|]. exfalso.
      apply N.mul_eq_0 in A. destruct A as [A|A]; [change (2 ^ 10) with 1024 in A; lia|]. revert A. apply N.pow_nonzero. discriminate.
Qed.

(** Limits. *)
Lemma finite16 h s n : f16_value h = Fin s n -> h < 2 ^ 16 -> he h < 31 /\ hm h < 2 ^ 10 /\ n = 2 ^ 125 * (if he h =? 0 then hm h else (2 ^ 10 + hm h) * 2 ^ (he h - 1)).
Proof.
  intros V H. destruct (fields16 h H) as (Hs & He & Hm). rewrite f16_of_fields in V. destruct (N.eqb_spec (he h) 31) as [E|E]; [destruct (hm h =? 0); discriminate|].
  apply fin_inj in V. destruct V as [_ V]. split; [lia|]. split; [exact Hm|]. symmetry. exact V.
Qed.
Lemma limits_ok h s n : h < 2 ^ 16 -> f16_value h = Fin s n ->
  (exists top, f16_value half_highest = Fin false top /\ f16_value half_lowest = Fin true top /\ n <= top) /\
  (exists least, f16_value half_denorm_min = Fin false least /\ 0 < least /\ (n = 0 \/ least <= n)) /\
  (exists least, f16_value half_min = Fin false least /\ ~ subnormal16 half_min /\ (n < least <-> n = 0 \/ subnormal16 h)).
Proof.
  intros H V. destruct (finite16 h s n V H) as (He & Hm & Vn). clear V. split; [|split].
  - exists (2 ^ 125 * (2047 * 2 ^ 29)). split; [reflexivity|]. split; [reflexivity|]. rewrite Vn. apply N.mul_le_mono_l.
    destruct (N.eqb_spec (he h) 0) as [E|E]; [apply N.le_trans with (2 ^ 10); [lia|discriminate]|]. apply N.mul_le_mono; [change (2 ^ 10) with 1024 in *; lia|]. apply N.pow_le_mono_r; [discriminate|lia].
  - exists (2 ^ 125). split; [reflexivity|]. split; [reflexivity|]. destruct (N.eqb_spec (he h) 0) as [E|E].
    + destruct (N.eq_dec (hm h) 0) as [M|M]; [left; rewrite Vn, M; reflexivity|right]. rewrite Vn. rewrite <- (N.mul_1_r (2 ^ 125)) at 1. apply N.mul_le_mono_l. lia.
    + right. rewrite Vn. rewrite <- (N.mul_1_r (2 ^ 125)) at 1. apply N.mul_le_mono_l. pose proof (pow2_pos (he h - 1)) as P. change (2 ^ 10) with 1024. generalize dependent (2 ^ (he h - 1)). intros. nia.
  - exists (2 ^ 125 * 2 ^ 10). split; [reflexivity|]. split; [intros [A _]; vm_compute in A; discriminate|]. unfold subnormal16. fold (he h) (hm h). rewrite Vn. rewrite <- N.mul_lt_mono_pos_l by reflexivity.
    destruct (N.eqb_spec (he h) 0) as [E|E].
    + split; [|intros _; exact Hm]. intros _. destruct (N.eq_dec (hm h) 0) as [M|M]; [left; rewrite M; reflexivity|right; split; assumption].
    + pose proof (pow2_pos (he h - 1)) as P. split.
      * intros X. exfalso. change (2 ^ 10) with 1024 in *. clear - X P. generalize dependent (2 ^ (he h - 1)). intros. nia.
      * intros [X|[X _]]; [|contradiction]. exfalso. apply N.mul_eq_0 in X. destruct X as [X|X]; [discriminate|]. apply N.mul_eq_0 in X.
        destruct X as [X|X]; [change (2 ^ 10) with 1024 in X; lia|lia].
Qed.
Lemma epsilon_ok : exists e r, f16_value half_epsilon = Fin false e /\ f16_value half_round_error = Fin false r /\ 0 < e /\
  (exists h, h < 2 ^ 16 /\ f16_value h = Fin false (one_unit + e)) /\
  (forall h n, h < 2 ^ 16 -> f16_value h = Fin false n -> one_unit < n -> one_unit + e <= n) /\ 2 * r = e.
Proof.
  exists (2 ^ 139), (2 ^ 138). split; [reflexivity|]. split; [reflexivity|]. split; [reflexivity|].
  split; [exists 0x3C01; split; reflexivity|]. split; [|reflexivity].
  intros h n H V L. destruct (finite16 h _ n V H) as (He & Hm & Vn). clear V. change one_unit with (2 ^ 125 * 2 ^ 24) in *. change (2 ^ 139) with (2 ^ 125 * 2 ^ 14).
  rewrite Vn in *. rewrite <- N.mul_lt_mono_pos_l in L by reflexivity. rewrite <- N.mul_add_distr_l. apply N.mul_le_mono_l.
  destruct (N.eqb_spec (he h) 0) as [E|E]; [exfalso; apply (N.lt_irrefl (hm h)); apply N.lt_trans with (2 ^ 10); [exact Hm|]; apply N.lt_trans with (2 ^ 24); [reflexivity|exact L]|].
  destruct (N.lt_trichotomy (he h) 15) as [T|[T|T]].
  - exfalso. assert (2 ^ (he h - 1) <= 2 ^ 13) as P by (apply N.pow_le_mono_r; [discriminate|lia]). change (2 ^ 13) with 8192 in P. change (2 ^ 24) with 16777216 in L. change (2 ^ 10) with 1024 in *.
    clear - L P Hm. generalize dependent (2 ^ (he h - 1)). intros. nia.
  - rewrite T in *. change (2 ^ (15 - 1)) with 16384 in *. change (2 ^ 24) with 16777216 in *. change (2 ^ 14) with 16384. change (2 ^ 10) with 1024 in *. lia.
  - assert (2 ^ 15 <= 2 ^ (he h - 1)) as P by (apply N.pow_le_mono_r; [discriminate|lia]). change (2 ^ 15) with 32768 in P. change (2 ^ 24) with 16777216 in *. change (2 ^ 14) with 16384. change (2 ^ 10) with 1024 in *.
    clear - P. generalize dependent (2 ^ (he h - 1)). intros. nia.
Qed.
