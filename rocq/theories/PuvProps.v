(** C109, C110 and C111: packed unit vectors. *)
From Coq Require Import ZArith Bool Reals Lra Lia.
From Flocq Require Import Core BinarySingleNaN.
From Verif Require Import Words WordsProofs FpModel PuvModel PuvSpec PuvProofs PuvProofs2 PuvProofs3 PuvProofs4 PuvProofs5 PuvProofs6 PuvProofs7.
Local Open Scope R_scope.

(* ------------------------------------------------------------------ C109: there and back *)
(** Two components, without rounding of the scalar type: packing is defined, the sign queries tell the signs, and unpacking gives a unit
    vector within 3/R of the direction, R being the largest stored level. *)
Theorem C109_two w x y : std_width w -> 0 < Rabs x + Rabs y ->
  exists b, pack2 exact w x y = Some b /\ (b < 2 ^ w)%N /\ negative x (x_negative w b) /\ negative y (y_negative w b)
  /\ len2 (fst (unpack2 exact w b)) (snd (unpack2 exact w b)) = 1
  /\ off2 (unpack2 exact w b) (x, y) <= 3 / real (levels2 w)
  /\ same_way (fst (unpack2 exact w b)) x /\ not_opposite (snd (unpack2 exact w b)) y.
Proof. intros Hw. apply round_trip2, Hw. Qed.
Print Assumptions C109_two.

(** Three components: the signs ... *)
Theorem C109_signs w x y z : std_width w -> 0 < Rabs x + Rabs y + Rabs z ->
  exists b, pack3 exact w x y z = Some b /\ (b < 2 ^ w)%N
  /\ negative x (x_negative w b) /\ negative y (y_negative w b) /\ negative z (z_negative w b).
Proof.
  intros Hw S. destruct (lay_std w Hw) as (xb & yb & L). destruct (levels_of w xb yb L x y z S) as (Hi & Hj & _ & P & _).
  eexists. split; [exact P|]. destruct (kept_facts w xb yb L (neg x) (neg y) (neg z) _ _ Hi Hj) as (B & X & Y & Z).
  rewrite X, Y, Z. split; [exact B|]. split; [|split]; apply neg_spec.
Qed.
Print Assumptions C109_signs.
(** ... and the direction, within 5.1/R, unless the third component is zero and the first half-way between two levels ... *)
Theorem C109_three_partial w x y z : std_width w -> 0 < Rabs x + Rabs y + Rabs z -> ~ (z = 0 /\ tie (levels3 w) (share3 x y z)) ->
  exists b u1 u2 u3, pack3 exact w x y z = Some b /\ unpack3 exact w b = (u1, u2, u3)
  /\ len3 u1 u2 u3 = 1 /\ off3 (u1, u2, u3) (x, y, z) <= 51 / 10 / real (levels3 w)
  /\ same_way u1 x /\ same_way u2 y /\ not_opposite u3 z.
Proof. intros Hw. destruct (lay_std w Hw) as (xb & yb & L). exact (round_trip3 w xb yb L x y z). Qed.
Print Assumptions C109_three_partial.
(** ... for then the first and the second component are exchanged. *)
Theorem C109_three_refuted w x y : std_width w -> 0 < Rabs x + Rabs y -> tie (levels3 w) (share3 x y 0) ->
  exists b u1 u2 u3, pack3 exact w x y 0 = Some b /\ unpack3 exact w b = (u1, u2, u3) /\ Rabs x < Rabs y /\ Rabs u2 < Rabs u1.
Proof. intros Hw. destruct (lay_std w Hw) as (xb & yb & L). exact (swapped3 w xb yb L x y). Qed.
Print Assumptions C109_three_refuted.

(** The last axis comes back as it was, in the plane ... *)
Theorem C109_last_axis_two w y : std_width w -> y <> 0 ->
  exists b, pack2 exact w 0 y = Some b /\ unpack2 exact w b = (0, y / Rabs y).
Proof.
  intros Hw Y. destruct (levels2_facts w Hw) as (G & _). pose proof (Rabs_pos_lt y Y) as PY.
  assert (T : share2 0 y = 0) by (unfold share2; rewrite Rabs_R0; unfold Rdiv; ring).
  eexists. split; [apply (pack2_exact w Hw); rewrite Rabs_R0; lra|]. rewrite T.
  assert (Z : near (levels2 w) 0 = 0%N) by (apply near_unique; rewrite Rmult_0_l; change (real 0) with 0; lra).
  rewrite Z, (unpack2_exact w Hw) by lia. change (real 0) with 0. unfold Rdiv at 1 2 3. rewrite !Rmult_0_l.
  assert (L1 : len2 0 (1 - 0) = 1) by (unfold len2; replace (0 * 0 + (1 - 0) * (1 - 0)) with 1 by ring; apply sqrt_1).
  unfold Rdiv. rewrite !Rmult_0_l. f_equal; [rewrite Rmult_0_r; ring|]. rewrite L1, Rinv_1. unfold neg, sg.
  destruct (Rlt_bool_spec y 0) as [N|N]; [rewrite Rabs_left by exact N|rewrite Rabs_pos_eq by exact N]; field; lra.
Qed.
Print Assumptions C109_last_axis_two.
(** ... but the first axis does not. *)
Theorem C109_first_axis_refuted w : std_width w ->
  exists b, pack2 exact w 1 0 = Some b /\ fst (unpack2 exact w b) < 1 /\ 0 < snd (unpack2 exact w b).
Proof.
  intros Hw. destruct (levels2_facts w Hw) as (G & _). set (n := levels2 w) in *.
  assert (T : share2 1 0 = 1) by (unfold share2; rewrite Rabs_R0, Rabs_R1; field).
  eexists. split; [apply (pack2_exact w Hw); rewrite Rabs_R0, Rabs_R1; lra|]. rewrite T. fold n.
  assert (R7 : 7 <= real n) by (apply (IZR_le 7); lia).
  assert (Z : near n 1 = (n - 1)%N) by (apply near_unique; rewrite real_pred by lia; lra).
  rewrite Z, (unpack2_exact w Hw) by (fold n; lia). fold n. rewrite real_pred by lia.
  replace (neg 1) with false by (symmetry; apply Rlt_bool_false; lra). replace (neg 0) with false by (symmetry; apply Rlt_bool_false; lra).
  cbn [fst snd sg]. set (q := (real n - 1) / real n). pose proof (Rinv_0_lt_compat (real n) ltac:(lra)) as PI.
  assert (E : 1 - q = / real n) by (unfold q; field; lra).
  assert (Q0 : 0 < q) by (unfold q; apply Rmult_lt_0_compat; lra).
  pose proof (pos_of_sq _ (/ 2) (len2_pos q (1 - q)) ltac:(lra) (len2_part q (1 - q) ltac:(lra))) as PK.
  assert (QL : q < len2 q (1 - q)).
  { apply Rsqr_incrst_0; [|lra|lra]. unfold Rsqr. rewrite len2_sq. assert (0 < (1 - q) * (1 - q)) by (apply Rmult_lt_0_compat; lra). lra. }
  unfold sg. split.
  - apply Rmult_lt_reg_r with (len2 q (1 - q)); [exact PK|]. unfold Rdiv. rewrite Rmult_assoc, Rinv_l by lra. lra.
  - apply Rmult_lt_0_compat; [lra|now apply Rinv_0_lt_compat].
Qed.
Print Assumptions C109_first_axis_refuted.

(** The default types: 32 bits for two components, 64 for three. *)
Example C109_levels : levels2 32 = 1073741823%N /\ levels3 64 = 2147483647%N /\ levels3 8 = 7%N.
Proof. vm_compute. auto. Qed.
Example C109_case : std_width 8 /\ 0 < Rabs (3/5) + Rabs (-4/5) /\ ~ (0 = 0 /\ tie (levels3 8) (share3 3 1 0)).
Proof.
  split; [left; reflexivity|]. split; [rewrite Rabs_pos_eq, Rabs_left by lra; lra|].
  intros (_ & k & K1 & K2). change (levels3 8) with 7%N in *. unfold share3 in K2. rewrite Rabs_R0, !Rabs_pos_eq in K2 by lra.
  change (real 7) with 7 in K2. assert (E : real k = 4) by lra. apply (eq_IZR _ 4) in E. lia.
Qed.
(** In 8 bits (1, 3, 0) is half-way. *)
Example C109_tie_case : tie (levels3 8) (share3 1 3 0).
Proof.
  exists 1%N. change (levels3 8) with 7%N. split; [lia|]. unfold share3. rewrite Rabs_R0, !Rabs_pos_eq by lra. change (real 7) with 7. change (real 1) with 1. lra.
Qed.

(* ------------------------------------------------------------------ C110: packing what was unpacked *)
Definition again2 (w b : N) : option N := let (x, y) := unpack2 exact w b in pack2 exact w x y.
Definition again3 (w b : N) : option N := let '(x, y, z) := unpack3 exact w b in pack3 exact w x y z.

(** What one more cycle makes of a stored value: a level in the upper half loses one, and a zero loses its sign. *)
Theorem C110_two w sx sy i : std_width w -> (i <= levels2 w)%N ->
  again2 w (stored2 w sx sy i)
  = Some (stored2 w (sx && negb (i =? 0)%N) (sy && negb (i =? levels2 w)%N) (lower (levels2 w) i)).
Proof. intros Hw Hi. exact (repack2_spec w Hw sx sy i Hi). Qed.
Print Assumptions C110_two.

Lemma kept_word w sx sy sz i j : kept w sx sy sz i j = word3 w sx sy sz i j.
Proof. unfold kept, word3, fold3. now destruct (levels3 w + 1 <=? 2 * j)%N. Qed.

Theorem C110_three w sx sy sz i j : std_width w -> apart (levels3 w) i j ->
  again3 w (word3 w sx sy sz i j)
  = Some (word3 w (sx && negb (i =? 0)%N) (sy && negb (j =? 0)%N) (sz && negb (i + j =? levels3 w)%N) (lower (levels3 w) i) (lower (levels3 w) j))
  /\ apart (levels3 w) (lower (levels3 w) i) (lower (levels3 w) j).
Proof.
  intros Hw RD. destruct (lay_std w Hw) as (xb & yb & L). rewrite <- !kept_word. exact (repack3_spec w xb yb L sx sy sz i j RD).
Qed.
Print Assumptions C110_three.

(** The stored values that keep: *)
Theorem C110_stable_two w sx sy i : std_width w -> (i <= levels2 w)%N ->
  again2 w (stored2 w sx sy i) = Some (stored2 w sx sy i) <-> (2 * i <= levels2 w)%N /\ (sx = true -> i <> 0%N).
Proof.
  intros Hw Hi. rewrite C110_two by assumption. destruct (levels2_facts w Hw) as (G & F & _).
  assert (LF : (lower (levels2 w) i <= levels2 w)%N) by (unfold lower; destruct (2 * i <=? levels2 w)%N; lia).
  split.
  - intros E. injection E as E.
    assert (E1 := f_equal (x_negative w) E). rewrite !(stored2_x w Hw) in E1 by lia.
    assert (E3 := f_equal (fun b => N.land b (x_range w 2)) E). cbn beta in E3. rewrite !(stored2_i w Hw) in E3 by lia.
    unfold lower in E3. destruct (N.leb_spec (2 * i) (levels2 w)) as [C|C]; [|lia]. split; [exact C|].
    intros -> ->. discriminate E1.
  - intros (C & D). f_equal. unfold lower. rewrite (proj2 (N.leb_le _ _) C). f_equal.
    + destruct sx; [|reflexivity]. specialize (D eq_refl). destruct (N.eqb_spec i 0); [contradiction|reflexivity].
    + destruct (N.eqb_spec i (levels2 w)); [lia|]. apply andb_true_r.
Qed.
Print Assumptions C110_stable_two.

(** A vector on the first axis drifts one level a cycle, until it is half-way to the second axis. *)
Theorem C110_drift_two_refuted w m : std_width w ->
  repeat (again2 w) m (stored2 w false false (levels2 w)) = Some (stored2 w false false (N.max ((levels2 w - 1) / 2) (levels2 w - N.of_nat m))).
Proof.
  intros Hw. change (repeat (again2 w)) with (again (repack2 w)). apply drift2; [exact Hw|apply N.le_refl|].
  apply N.le_trans with (levels2 w - 1)%N; [|lia]. apply N.div_le_upper_bound; lia.
Qed.
Print Assumptions C110_drift_two_refuted.
Theorem C110_drift_three_refuted w m : std_width w ->
  repeat (again3 w) m (word3 w false false false (levels3 w) 0) = Some (word3 w false false false (N.max ((levels3 w - 1) / 2) (levels3 w - N.of_nat m)) 0).
Proof.
  intros Hw. change (repeat (again3 w)) with (again (repack3 w)). destruct (lay_std w Hw) as (xb & yb & L). rewrite <- !kept_word.
  apply (drift3 w xb yb L); [apply N.le_refl|]. apply N.le_trans with (levels3 w - 1)%N; [|lia]. apply N.div_le_upper_bound; lia.
Qed.
Print Assumptions C110_drift_three_refuted.

Example C110_case : apart (levels3 8) 1 5 /\ ~ (2 * 5 <= levels3 8)%N /\ apart (levels3 8) 3 3 /\ (2 * 3 <= levels3 8)%N.
Proof. change (levels3 8) with 7%N. unfold apart. lia. Qed.
(** In 8 bits: the first axis is level 63 of 63, and after 32 cycles level 31. *)
Example C110_drift_case : levels2 8 = 63%N /\ N.max ((63 - 1) / 2) (63 - N.of_nat 32) = 31%N.
Proof. split; reflexivity. Qed.

(* ------------------------------------------------------------------ C111: floating-point numbers *)
Section Fp.
  Variable prec emax : Z.
  Context (prec_gt_0_ : Prec_gt_0 prec).
  Context (prec_lt_emax_ : Prec_lt_emax prec emax).
  Notation float := (binary_float prec emax).
  Notation I := (ieee prec emax _ _).
  Notation u := (bpow radix2 (- prec)).

  (** Vectors of about unit length (the sum of the absolute values between 1/2 and 4), if the levels have four bits less than the scalar
      type: packing is defined and unpacking is within 3/R and 31 roundings of the direction, ... *)
  Theorem C111_two w (x y : float) : (24 <= prec <= 113)%Z -> (128 <= emax)%Z -> std_width w -> (Z.of_N (w - 2) <= prec - 4)%Z ->
    is_finite x = true -> is_finite y = true -> / 2 <= Rabs (B2R x) + Rabs (B2R y) <= 4 ->
    exists b u1 u2, pack2 I w x y = Some b /\ (b < 2 ^ w)%N /\ negative (B2R x) (x_negative w b) /\ negative (B2R y) (y_negative w b)
    /\ unpack2 I w b = (u1, u2) /\ is_finite u1 = true /\ is_finite u2 = true
    /\ off2 (B2R u1, B2R u2) (B2R x, B2R y) <= 3 / real (levels2 w) + 31 * u.
  Proof using. intros P E Hw. now apply round_trip2_ieee. Qed.

  (** ... for three components 5.1/R and 62 roundings, unless the third component is near zero and the second larger than the first. *)
  Theorem C111_three_partial w (x y z : float) : (24 <= prec <= 113)%Z -> (128 <= emax)%Z -> std_width w -> (Z.of_N ((w - 2) / 2) <= prec - 4)%Z ->
    is_finite x = true -> is_finite y = true -> is_finite z = true -> / 2 <= Rabs (B2R x) + Rabs (B2R y) + Rabs (B2R z) <= 4 ->
    19 * u < share3 (B2R z) (B2R x) (B2R y) \/ Rabs (B2R y) <= Rabs (B2R x) ->
    exists b u1 u2 u3, pack3 I w x y z = Some b /\ (b < 2 ^ w)%N
    /\ negative (B2R x) (x_negative w b) /\ negative (B2R y) (y_negative w b) /\ negative (B2R z) (z_negative w b)
    /\ unpack3 I w b = (u1, u2, u3) /\ is_finite u1 = true /\ is_finite u2 = true /\ is_finite u3 = true
    /\ off3 (B2R u1, B2R u2, B2R u3) (B2R x, B2R y, B2R z) <= 51 / 10 / real (levels3 w) + 62 * u.
  Proof using. intros P E Hw. now apply round_trip3_ieee. Qed.

  (** If the levels have three bits more than the scalar type, packing the first axis is undefined behaviour. *)
  Theorem C111_two_refuted w (x y : float) : (24 <= prec <= 113)%Z -> (128 <= emax)%Z -> std_width w -> (prec + 3 <= Z.of_N (w - 2) < emax)%Z ->
    is_finite x = true -> is_finite y = true -> Rabs (B2R x) = 1 -> B2R y = 0 -> pack2 I w x y = None.
  Proof using. intros P E Hw. now apply axis2. Qed.
  Theorem C111_three_refuted w (x y z : float) : (24 <= prec <= 113)%Z -> (128 <= emax)%Z -> std_width w -> (prec + 3 <= Z.of_N ((w - 2) / 2) < emax)%Z ->
    is_finite x = true -> is_finite y = true -> is_finite z = true -> Rabs (B2R x) = 1 -> B2R y = 0 -> B2R z = 0 -> pack3 I w x y z = None.
  Proof using. intros P E Hw. now apply axis3. Qed.
End Fp.
Print Assumptions C111_two.
Print Assumptions C111_three_partial.
Print Assumptions C111_two_refuted.
Print Assumptions C111_three_refuted.

(** The cases: float with two components in 8 or 16 bits, double with two in 32 and three in 64 are covered; float with two in 32 and three
    in 64, the default integer types, and double with two in 64 and three in 128 are not defined. *)
Example C111_covered : (Z.of_N (16 - 2) <= 24 - 4)%Z /\ (Z.of_N ((32 - 2) / 2) <= 24 - 4)%Z /\ (Z.of_N (32 - 2) <= 53 - 4)%Z /\ (Z.of_N ((64 - 2) / 2) <= 53 - 4)%Z.
Proof. vm_compute. repeat split; congruence. Qed.
Example C111_undefined : (24 + 3 <= Z.of_N (32 - 2) < 128)%Z /\ (24 + 3 <= Z.of_N ((64 - 2) / 2) < 128)%Z /\ (53 + 3 <= Z.of_N (64 - 2) < 1024)%Z /\ (53 + 3 <= Z.of_N ((128 - 2) / 2) < 1024)%Z.
Proof. vm_compute. repeat split; congruence. Qed.

Definition f32 (m : Z) (e : Z) : binary_float 24 128 := binary_normalize 24 128 (refl_equal _) (refl_equal _) mode_NE m e false.
Notation single := (ieee 24 128 (refl_equal _) (refl_equal _)).
Example C111_case_two : pack2 single 16 (f32 3 (-2)) (f32 (-1) (-2)) = Some 28671%N.
Proof. vm_compute. reflexivity. Qed.
(** The first axis in the default type of two floats. *)
Example C111_axis_case : pack2 single 32 (f32 1 0) (f32 0 0) = None.
Proof. vm_compute. reflexivity. Qed.
(** (1, 3, 0) in 8 bits: the components come back exchanged. *)
Example C111_swap_case :
  match pack3 single 8 (f32 1 (-2)) (f32 3 (-2)) (f32 0 0) with
  | Some b => let '(x, y, z) := unpack3 single 8 b in Bltb y x
  | None => false
  end = true.
Proof. vm_compute. reflexivity. Qed.
