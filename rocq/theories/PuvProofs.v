(** The layout of the stored integer. *)
From Coq Require Import Reals.
From Verif Require Import Words WordsProofs PuvModel PuvSpec.

Lemma land_disjoint m k a : a < 2 ^ k -> N.land (m * 2 ^ k) a = 0.
Proof.
  intros H. apply N.bits_inj. intros i. rewrite N.land_spec, N.bits_0.
  rewrite <- N.shiftl_mul_pow2, testbit_shiftl.
  destruct (k <=? i) eqn:E; [|reflexivity]. apply N.leb_le in E. rewrite (testbit_high k a i H E). apply Bool.andb_false_r.
Qed.

Lemma lor_add m k a : a < 2 ^ k -> N.lor (m * 2 ^ k) a = m * 2 ^ k + a.
Proof.
  intros H. pose proof (land_disjoint m k a H) as D. rewrite (N.add_nocarry_lxor _ _ D). symmetry. now apply N.lxor_lor.
Qed.

Lemma weight_mul s k : weight s k = (if s then 1 else 0) * 2 ^ k.
Proof. unfold weight. destruct s; lia. Qed.

Lemma lor_weight s k a : a < 2 ^ k -> N.lor (weight s k) a = weight s k + a.
Proof. rewrite weight_mul. apply lor_add. Qed.

Lemma weight_lt s k a : a < 2 ^ k -> weight s k + a < 2 ^ (k + 1).
Proof. intros H. rewrite N.pow_add_r. unfold weight. destruct s; lia. Qed.

Lemma weight_top s k a : a < 2 ^ k -> N.testbit (weight s k + a) k = s.
Proof.
  intros H. rewrite <- lor_weight by assumption. rewrite N.lor_spec, (testbit_high k a k H (N.le_refl k)), Bool.orb_false_r.
  unfold weight. destruct s; [apply N.pow2_bits_true|apply N.bits_0].
Qed.

Lemma weight_low s k a j : a < 2 ^ k -> j < k -> N.testbit (weight s k + a) j = N.testbit a j.
Proof.
  intros H L. rewrite <- lor_weight by assumption. rewrite N.lor_spec.
  replace (N.testbit (weight s k) j) with false; [reflexivity|].
  unfold weight. destruct s; [symmetry; apply N.pow2_bits_false; lia|symmetry; apply N.bits_0].
Qed.

Lemma flag_testbit b k : flag b (N.shiftl 1 k) = N.testbit b k.
Proof.
  unfold flag. rewrite N.shiftl_1_l. destruct (N.testbit b k) eqn:E.
  - destruct (N.land b (2 ^ k) =? 0) eqn:Z; [|reflexivity]. apply N.eqb_eq in Z.
    apply (f_equal (fun n => N.testbit n k)) in Z. rewrite N.land_spec, E, N.pow2_bits_true, N.bits_0 in Z. discriminate.
  - replace (N.land b (2 ^ k)) with 0; [reflexivity|]. symmetry. apply N.bits_inj. intros i.
    rewrite N.land_spec, N.bits_0. destruct (N.eq_dec i k) as [->|D]; [now rewrite E|].
    rewrite N.pow2_bits_false by congruence. apply Bool.andb_false_r.
Qed.

(** ** The widths *)
Record lay (w xb yb : N) : Prop := Lay {
  lay_x2 : x_bits w 2 = w - 2;
  lay_y2 : y_bits w 2 = 0;
  lay_x3 : x_bits w 3 = xb;
  lay_y3 : y_bits w 3 = yb;
  lay_xb : xb = (w - 2) / 2;
  lay_yb : yb = (w - 4) / 2;
  lay_w : w = xb + yb + 3;
  lay_s : xb = yb + 1;
  lay_m : 2 <= yb;
  lay_a : w <= arith_bits w;
  lay_a2 : xb + 1 < arith_bits w
}.

Lemma lay_std w : std_width w -> exists xb yb, lay w xb yb.
Proof.
  intros [->|[->|[->|[->| ->]]]]; [exists 3, 2|exists 7, 6|exists 15, 14|exists 31, 30|exists 63, 62];
    (split; try reflexivity; try (vm_compute; congruence)).
Qed.

Lemma range_ones k : N.shiftl 1 k - 1 = 2 ^ k - 1.
Proof. now rewrite N.shiftl_1_l. Qed.

Lemma land_ones_mod b k : N.land b (2 ^ k - 1) = b mod 2 ^ k.
Proof. rewrite <- N.land_ones, N.ones_equiv, N.sub_1_r. reflexivity. Qed.

(** ** Two components *)
Section Two.
  Variable w : N.
  Hypothesis Hw : std_width w.

  Lemma w_ge : 8 <= w.
  Proof using Hw. destruct Hw as [->|[->|[->|[->| ->]]]]; lia. Qed.

  Lemma range2 : x_range w 2 = levels2 w.
  Proof using Hw.
    destruct (lay_std w Hw) as (xb & yb & L). unfold x_range. rewrite range_ones, (lay_x2 w xb yb L). reflexivity.
  Qed.

  Lemma stored2_low sy i : i < 2 ^ (w - 2) -> weight sy (w - 2) + i < 2 ^ (w - 1).
  Proof using Hw. pose proof w_ge as G. intros H. replace (w - 1) with (w - 2 + 1) by lia. now apply weight_lt. Qed.

  Lemma stored2_assoc sx sy i : stored2 w sx sy i = weight sx (w - 1) + (weight sy (w - 2) + i).
  Proof using. unfold stored2. lia. Qed.

  Lemma stored2_lt sx sy i : i < 2 ^ (w - 2) -> stored2 w sx sy i < 2 ^ w.
  Proof using Hw.
    pose proof w_ge as G. intros H. rewrite stored2_assoc. replace (2 ^ w) with (2 ^ (w - 1 + 1)) by (f_equal; lia).
    apply weight_lt. now apply stored2_low.
  Qed.

  Lemma stored2_x sx sy i : i < 2 ^ (w - 2) -> x_negative w (stored2 w sx sy i) = sx.
  Proof using Hw.
    intros H. unfold x_negative, x_sign_bit. rewrite flag_testbit, stored2_assoc. apply weight_top. now apply stored2_low.
  Qed.

  Lemma stored2_y sx sy i : i < 2 ^ (w - 2) -> y_negative w (stored2 w sx sy i) = sy.
  Proof using Hw.
    pose proof w_ge as G.
    intros H. unfold y_negative, y_sign_bit. rewrite flag_testbit, stored2_assoc.
    rewrite weight_low; [now apply weight_top|now apply stored2_low|lia].
  Qed.

  Lemma stored2_i sx sy i : i < 2 ^ (w - 2) -> N.land (stored2 w sx sy i) (x_range w 2) = i.
  Proof using Hw.
    pose proof w_ge as G. intros H. rewrite range2. unfold levels2. rewrite land_ones_mod. unfold stored2.
    assert (E : 2 ^ (w - 1) = 2 * 2 ^ (w - 2)) by (rewrite <- N.pow_succ_r'; f_equal; lia).
    pose proof (pow2_pos (w - 2)) as P.
    assert (M : exists m, weight sx (w - 1) + weight sy (w - 2) = m * 2 ^ (w - 2)).
    { rewrite !weight_mul, E. exists ((if sx then 1 else 0) * 2 + (if sy then 1 else 0)). lia. }
    destruct M as (m & ->). rewrite N.add_comm, N.mod_add by lia. now apply N.mod_small.
  Qed.

  Lemma stored2_lor sx sy i : i < 2 ^ (w - 2) ->
    N.lor (N.lor (weight sx (w - 1)) (weight sy (w - 2))) i = stored2 w sx sy i.
  Proof using Hw.
    intros H. rewrite <- N.lor_assoc, (lor_weight sy) by assumption. rewrite lor_weight by now apply stored2_low.
    symmetry. apply stored2_assoc.
  Qed.
End Two.

(** ** Three components *)
Section Three.
  Variable w xb yb : N.
  Hypothesis L : lay w xb yb.

  Lemma range3 : x_range w 3 = levels3 w.
  Proof using L. unfold x_range, levels3. rewrite range_ones, (lay_x3 w xb yb L), (lay_xb w xb yb L). reflexivity. Qed.

  Lemma range3_xb : x_range w 3 = 2 ^ xb - 1.
  Proof using L. unfold x_range. rewrite range_ones, (lay_x3 w xb yb L). reflexivity. Qed.

  Lemma yrange3 : y_range w 3 = 2 ^ yb - 1.
  Proof using L. unfold y_range. rewrite range_ones, (lay_y3 w xb yb L). reflexivity. Qed.

  Lemma xb_yb : 2 ^ xb = 2 * 2 ^ yb.
  Proof using L. rewrite (lay_s w xb yb L), N.pow_add_r. lia. Qed.

  Lemma fields_lt i j : i < 2 ^ xb -> j < 2 ^ yb -> i * 2 ^ yb + j < 2 ^ (w - 3).
  Proof using L.
    intros Hi Hj. pose proof (lay_w w xb yb L) as E. replace (w - 3) with (xb + yb) by lia. rewrite N.pow_add_r.
    apply N.lt_le_trans with (i * 2 ^ yb + 1 * 2 ^ yb); [lia|]. rewrite <- N.mul_add_distr_r. apply N.mul_le_mono_r. lia.
  Qed.

  Lemma stored3_assoc sx sy sz i j :
    stored3 w sx sy sz i j = weight sx (w - 1) + (weight sy (w - 2) + (weight sz (w - 3) + (i * 2 ^ yb + j))).
  Proof using L. unfold stored3. rewrite <- (lay_yb w xb yb L). lia. Qed.

  Lemma w_big : 7 <= w.
  Proof using L. pose proof (lay_w w xb yb L); pose proof (lay_m w xb yb L); pose proof (lay_s w xb yb L). lia. Qed.

  Lemma low_z sz a : a < 2 ^ (w - 3) -> weight sz (w - 3) + a < 2 ^ (w - 2).
  Proof using L. pose proof w_big as G. intros H. replace (w - 2) with (w - 3 + 1) by lia. now apply weight_lt. Qed.
  Lemma low_y sy a : a < 2 ^ (w - 2) -> weight sy (w - 2) + a < 2 ^ (w - 1).
  Proof using L. pose proof w_big as G. intros H. replace (w - 1) with (w - 2 + 1) by lia. now apply weight_lt. Qed.
  Lemma low_x sx a : a < 2 ^ (w - 1) -> weight sx (w - 1) + a < 2 ^ w.
  Proof using L.
    pose proof w_big as G. intros H. replace (2 ^ w) with (2 ^ (w - 1 + 1)) by (f_equal; lia). now apply weight_lt.
  Qed.

  Section Word.
    Variables (sx sy sz : bool) (i j : N).
    Hypothesis Hi : i < 2 ^ xb.
    Hypothesis Hj : j < 2 ^ yb.

    Lemma stored3_lt : stored3 w sx sy sz i j < 2 ^ w.
    Proof using L Hi Hj. rewrite stored3_assoc. apply low_x, low_y, low_z, fields_lt; assumption. Qed.

    Lemma stored3_x : x_negative w (stored3 w sx sy sz i j) = sx.
    Proof using L Hi Hj.
      unfold x_negative, x_sign_bit. rewrite flag_testbit, stored3_assoc. apply weight_top. apply low_y, low_z, fields_lt; assumption.
    Qed.
    Lemma stored3_y : y_negative w (stored3 w sx sy sz i j) = sy.
    Proof using L Hi Hj.
      pose proof w_big as G. unfold y_negative, y_sign_bit. rewrite flag_testbit, stored3_assoc.
      rewrite weight_low; [|apply low_y, low_z, fields_lt; assumption|lia]. apply weight_top. apply low_z, fields_lt; assumption.
    Qed.
    Lemma stored3_z : z_negative w (stored3 w sx sy sz i j) = sz.
    Proof using L Hi Hj.
      pose proof w_big as G. unfold z_negative, z_sign_bit. rewrite flag_testbit, stored3_assoc.
      rewrite weight_low; [|apply low_y, low_z, fields_lt; assumption|lia].
      rewrite weight_low; [|apply low_z, fields_lt; assumption|lia].
      apply weight_top. apply fields_lt; assumption.
    Qed.

    Lemma stored3_multiple : exists m, stored3 w sx sy sz i j = m * 2 ^ xb * 2 ^ yb + (i * 2 ^ yb + j).
    Proof using L Hi Hj.
      pose proof w_big as G. pose proof (lay_w w xb yb L) as E.
      rewrite stored3_assoc, !weight_mul.
      replace (w - 1) with (2 + (xb + yb)) by lia. replace (w - 2) with (1 + (xb + yb)) by lia. replace (w - 3) with (xb + yb) by lia.
      rewrite !N.pow_add_r. change (2 ^ 2) with 4. change (2 ^ 1) with 2.
      exists ((if sx then 1 else 0) * 4 + (if sy then 1 else 0) * 2 + (if sz then 1 else 0)). lia.
    Qed.

    Lemma stored3_i : N.shiftr (N.land (stored3 w sx sy sz i j) (x_mask w 3)) (y_bits w 3) = i.
    Proof using L Hi Hj.
      unfold x_mask. rewrite (lay_y3 w xb yb L), range3_xb, N.shiftr_land, N.shiftr_shiftl_l by lia.
      rewrite N.sub_diag, N.shiftl_0_r, land_ones_mod, N.shiftr_div_pow2.
      destruct stored3_multiple as (m & ->).
      pose proof (pow2_pos xb) as PX. pose proof (pow2_pos yb) as PY.
      replace (m * 2 ^ xb * 2 ^ yb + (i * 2 ^ yb + j)) with (j + (m * 2 ^ xb + i) * 2 ^ yb) by lia.
      rewrite N.div_add by lia. rewrite (N.div_small j) by assumption.
      rewrite N.add_0_l, (N.add_comm (m * 2 ^ xb)), N.mod_add by lia. now apply N.mod_small.
    Qed.

    Lemma stored3_j : N.land (stored3 w sx sy sz i j) (y_mask w 3) = j.
    Proof using L Hi Hj.
      unfold y_mask. rewrite yrange3, land_ones_mod. destruct stored3_multiple as (m & ->). pose proof (pow2_pos yb) as PY.
      replace (m * 2 ^ xb * 2 ^ yb + (i * 2 ^ yb + j)) with (j + (m * 2 ^ xb + i) * 2 ^ yb) by lia.
      rewrite N.mod_add by lia. now apply N.mod_small.
    Qed.

    Lemma stored3_lor :
      N.lor (N.lor (N.lor (weight sx (w - 1)) (weight sy (w - 2))) (weight sz (w - 3))) (N.lor (N.shiftl i (y_bits w 3)) j)
      = stored3 w sx sy sz i j.
    Proof using L Hi Hj.
      rewrite (lay_y3 w xb yb L), N.shiftl_mul_pow2, lor_add by assumption.
      pose proof (fields_lt i j Hi Hj) as F.
      rewrite <- !N.lor_assoc. rewrite (lor_weight sz) by exact F. rewrite (lor_weight sy) by now apply low_z.
      rewrite (lor_weight sx) by now apply low_y, low_z. symmetry. apply stored3_assoc.
    Qed.
  End Word.
End Three.
