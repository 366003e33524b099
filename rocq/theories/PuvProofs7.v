(** Packed unit vectors with IEEE numbers: the round trip. *)
From Coq Require Import ZArith Reals Lra Lia Psatz.
From Flocq Require Import Core BinarySingleNaN Relative Plus_error.
From Verif Require Import Words WordsProofs FpModel FpProofs PuvModel PuvSpec PuvProofs PuvProofs2 PuvProofs3 PuvProofs4 PuvProofs5 PuvProofs6.

Local Open Scope R_scope.

Section Fp.
  Variable prec emax : Z.
  Context (prec_gt_0_ : Prec_gt_0 prec).
  Context (prec_lt_emax_ : Prec_lt_emax prec emax).
  Notation float := (binary_float prec emax).
  Notation u := (bpow radix2 (- prec)).
  Hypothesis prec_ok : (24 <= prec <= 113)%Z.
  Hypothesis emax_ok : (128 <= emax)%Z.
  Notation I := (ieee prec emax _ _).

  Lemma slack_over n xb : n = (2 ^ xb - 1)%N -> (7 <= n)%N -> 0 <= slack prec xb / real n <= 8 * u.
  Proof using.
    clear. intros E H. assert (R7 : 7 <= real n) by (apply (IZR_le 7); lia). pose proof (bpow_gt_0 radix2 (- prec)) as U0.
    assert (SL : slack prec xb = 7 * ((real n + 1) * u)) by (apply slack_eq; assumption).
    rewrite SL. unfold Rdiv. pose proof (Rinv_0_lt_compat (real n) ltac:(lra)) as PI.
    assert (0 <= (real n + 1) * u) by (apply Rmult_le_pos; lra). split; [apply Rmult_le_pos; lra|].
    apply Rmult_le_reg_r with (real n); [lra|]. rewrite Rmult_assoc, Rinv_l, Rmult_1_r by lra.
    assert (u * 7 <= u * real n) by (apply Rmult_le_compat_l; lra). lra.
  Qed.

  Lemma level_small n xb : n = (2 ^ xb - 1)%N -> (7 <= n)%N -> (Z.of_N xb <= prec - 4)%Z -> (Z.of_N n < 2 ^ (prec - 4))%Z.
  Proof using.
    clear. intros E H B. assert (P : (Z.of_N (2 ^ xb) <= 2 ^ (prec - 4))%Z).
    { rewrite N2Z.inj_pow. apply Z.pow_le_mono_r; lia. }
    lia.
  Qed.

  Lemma round_trip2_ieee w (Hw : std_width w) (x y : float) : (Z.of_N (w - 2) <= prec - 4)%Z ->
    is_finite x = true -> is_finite y = true -> / 2 <= Rabs (B2R x) + Rabs (B2R y) <= 4 ->
    exists b u1 u2, pack2 I w x y = Some b /\ (b < 2 ^ w)%N /\ negative (B2R x) (x_negative w b) /\ negative (B2R y) (y_negative w b)
    /\ unpack2 I w b = (u1, u2) /\ is_finite u1 = true /\ is_finite u2 = true
    /\ off2 (B2R u1, B2R u2) (B2R x, B2R y) <= 3 / real (levels2 w) + 31 * u.
  Proof using prec_ok emax_ok.
    intros Hb Fx Fy HS. destruct (pack2_ieee prec emax _ _ prec_ok emax_ok w Hw Hb x y Fx Fy HS) as (i & PK & Hi & B).
    destruct (levels2_facts w Hw) as (G & F & A). set (n := levels2 w) in *.
    assert (H7 : (7 <= n)%N) by lia. assert (EN : n = (2 ^ (w - 2) - 1)%N) by reflexivity.
    destruct (vec2_ieee prec emax _ _ prec_ok emax_ok n (neg (B2R x)) (neg (B2R y)) i H7 (level_small n (w - 2) EN H7 Hb) ltac:(lia)) as (u1 & u2 & EU & F1 & F2 & D).
    exists (stored2 w (neg (B2R x)) (neg (B2R y)) i), u1, u2. split; [exact PK|]. split; [apply stored2_lt; [exact Hw|lia]|].
    rewrite (stored2_x w Hw), (stored2_y w Hw) by lia. split; [apply neg_spec|]. split; [apply neg_spec|].
    split; [rewrite (unpack2_stored I w Hw) by (fold n; lia); exact EU|]. split; [exact F1|]. split; [exact F2|].
    assert (S0 : 0 < Rabs (B2R x) + Rabs (B2R y)) by lra.
    pose proof (share2_range (B2R x) (B2R y) S0) as T.
    destruct (share2_dir (B2R x) (B2R y) S0) as (E1 & E2 & E3 & E4 & E5). cbv zeta in *.
    set (t := share2 (B2R x) (B2R y)) in *. set (q := real i / real n) in *.
    pose proof (slack_over n (w - 2) EN H7) as SO. set (sl := slack prec (w - 2)) in *.
    assert (R7 : 7 <= real n) by (apply (IZR_le 7); lia). pose proof (Rinv_0_lt_compat (real n) ltac:(lra)) as PI.
    assert (QT : Rabs (q - t) <= (3 / 2 + sl) / real n).
    { unfold q. replace (real i / real n - t) with ((real i - t * real n) / real n) by (field; lra).
      unfold Rdiv. rewrite Rabs_mult, (Rabs_pos_eq (/ real n)) by lra. apply Rmult_le_compat_r; [lra|]. apply Rabs_le. lra. }
    unfold off2.
    set (k := len2 (B2R x) (B2R y)) in *. set (l := len2 q (1 - q)) in *.
    replace (B2R u1 - B2R x / k) with ((B2R u1 - sg (neg (B2R x)) * q / l) + (sg (neg (B2R x)) * q / l - B2R x / k)) by ring.
    replace (B2R u2 - B2R y / k) with ((B2R u2 - sg (neg (B2R y)) * (1 - q) / l) + (sg (neg (B2R y)) * (1 - q) / l - B2R y / k)) by ring.
    rewrite len2_len3. replace 0 with (0 + 0) by ring. apply Rle_trans with (1 := len3_triang _ _ _ _ _ _). rewrite <- !len2_len3.
    rewrite !sub_sg, len2_sg, <- E3, <- E4.
    assert (NE : 0 <= (3 / 2 + sl) / real n) by (apply Rle_trans with (2 := QT), Rabs_pos).
    pose proof (near2 q t _ NE QT) as N2. fold l in N2.
    replace (2 * ((3 / 2 + sl) / real n)) with (3 / real n + 2 * (sl / real n)) in N2 by (field; lra). lra.
  Qed.

  Lemma round_trip3_ieee w (Hw : std_width w) (x y z : float) : (Z.of_N ((w - 2) / 2) <= prec - 4)%Z ->
    is_finite x = true -> is_finite y = true -> is_finite z = true -> / 2 <= Rabs (B2R x) + Rabs (B2R y) + Rabs (B2R z) <= 4 ->
    19 * u < share3 (B2R z) (B2R x) (B2R y) \/ Rabs (B2R y) <= Rabs (B2R x) ->
    exists b u1 u2 u3, pack3 I w x y z = Some b /\ (b < 2 ^ w)%N
    /\ negative (B2R x) (x_negative w b) /\ negative (B2R y) (y_negative w b) /\ negative (B2R z) (z_negative w b)
    /\ unpack3 I w b = (u1, u2, u3) /\ is_finite u1 = true /\ is_finite u2 = true /\ is_finite u3 = true
    /\ off3 (B2R u1, B2R u2, B2R u3) (B2R x, B2R y, B2R z) <= 51 / 10 / real (levels3 w) + 62 * u.
  Proof using prec_ok emax_ok.
    intros Hb Fx Fy Fz HS RDY. destruct (lay_std w Hw) as (xb & yb & L).
    assert (EX : ((w - 2) / 2 = xb)%N).
    { symmetry. exact (lay_xb w xb yb L). }
    rewrite EX in Hb.
    destruct (pack3_ieee prec emax _ _ prec_ok emax_ok w xb yb L Hb x y z Fx Fy Fz HS) as (i & j & PK & Hi & Hj & Hs & B & C).
    destruct (levels3_facts w xb yb L) as (EN & G & A & X & Y & A2). set (n := levels3 w) in *.
    assert (H7 : (7 <= n)%N) by lia.
    assert (S0 : 0 < Rabs (B2R x) + Rabs (B2R y) + Rabs (B2R z)) by lra.
    destruct (share3_bounds (B2R x) (B2R y) (B2R z) S0) as (T1 & T2 & T3).
    destruct (share3_dir (B2R x) (B2R y) (B2R z) S0) as (D0 & D1 & D2 & D3 & D4). cbv zeta in *.
    set (t := share3 (B2R x) (B2R y) (B2R z)) in *. set (s := share3 (B2R y) (B2R x) (B2R z)) in *.
    pose proof (slack_over n xb EN H7) as SO. pose proof (slack_small prec xb Hb) as SS. pose proof (bpow_gt_0 radix2 (- prec)) as U0. set (sl := slack prec xb) in *.
    assert (R7 : 7 <= real n) by (apply (IZR_le 7); lia). pose proof (Rinv_0_lt_compat (real n) ltac:(lra)) as PI.
    assert (SL : sl <= 8 * u * real n).
    { apply Rmult_le_reg_r with (/ real n); [lra|]. rewrite (Rmult_assoc (8 * u)), Rinv_r by lra. unfold Rdiv in SO. lra. }
    assert (RD : readable w i j).
    { split; [exact Hs|]. fold n. intros DJ. destruct (N.eq_dec (i + j) n) as [Q|Q]; [exfalso|lia].
      apply (f_equal real) in Q. rewrite real_add in Q. destruct RDY as [R|R].
      - rewrite <- D0 in R.
        assert (K1 : (1 - t - s) * (real n - 1) <= 2 * sl) by lra.
        assert (K2 : 19 * u * (real n - 1) < (1 - t - s) * (real n - 1)) by (apply Rmult_lt_compat_r; lra).
        assert (u * 7 <= u * real n) by (apply Rmult_le_compat_l; lra). lra.
      - assert (ST : s <= t).
        { unfold s, t, share3. replace (Rabs (B2R y) + Rabs (B2R x) + Rabs (B2R z)) with (Rabs (B2R x) + Rabs (B2R y) + Rabs (B2R z)) by ring.
          apply Rmult_le_compat_r; [apply Rlt_le, Rinv_0_lt_compat; lra|exact R]. }
        assert (K : 2 * s * (real n - 1) <= 1 * (real n - 1)) by (apply Rmult_le_compat_r; lra).
        pose proof (real_le _ _ DJ) as DR. rewrite real_add in DR.
        replace (real (2 * j)) with (2 * real j) in DR by (unfold real; rewrite N2Z.inj_mul, mult_IZR; reflexivity).
        change (real 1) with 1 in DR. lra. }
    destruct (vec3_ieee prec emax _ _ prec_ok emax_ok n (neg (B2R x)) (neg (B2R y)) (neg (B2R z)) i j H7 (level_small n xb EN H7 Hb) Hs)
      as (u1 & u2 & u3 & EU & F1 & F2 & F3 & D).
    destruct (kept_facts w xb yb L (neg (B2R x)) (neg (B2R y)) (neg (B2R z)) i j ltac:(fold n; lia) ltac:(fold n; lia)) as (KB & KX & KY & KZ).
    exists (kept w (neg (B2R x)) (neg (B2R y)) (neg (B2R z)) i j), u1, u2, u3. split; [exact PK|]. split; [exact KB|].
    rewrite KX, KY, KZ. split; [apply neg_spec|]. split; [apply neg_spec|]. split; [apply neg_spec|].
    split; [rewrite (unpack3_kept I w xb yb L) by exact RD; exact EU|]. split; [exact F1|]. split; [exact F2|]. split; [exact F3|].
    cbv zeta in D. set (q := real i / real n) in *. set (p := real j / real n) in *.
    assert (QT : Rabs (q - t) <= 3 / 2 * ((1 + sl) / real n)).
    { unfold q. replace (real i / real n - t) with ((real i - t * real n) / real n) by (field; lra).
      unfold Rdiv. rewrite Rabs_mult, (Rabs_pos_eq (/ real n)), <- Rmult_assoc by lra. apply Rmult_le_compat_r; [lra|]. apply Rabs_le. lra. }
    assert (PS : Rabs (p - s) <= 3 / 2 * ((1 + sl) / real n)).
    { unfold p. replace (real j / real n - s) with ((real j - s * real n) / real n) by (field; lra).
      unfold Rdiv. rewrite Rabs_mult, (Rabs_pos_eq (/ real n)), <- Rmult_assoc by lra. apply Rmult_le_compat_r; [lra|]. apply Rabs_le. lra. }
    assert (QP : Rabs ((1 - q - p) - (1 - t - s)) <= 2 * ((1 + sl) / real n)).
    { unfold p, q. replace (1 - real i / real n - real j / real n - (1 - t - s)) with (((t + s) * real n - real i - real j) / real n) by (field; lra).
      unfold Rdiv. rewrite Rabs_mult, (Rabs_pos_eq (/ real n)), <- Rmult_assoc by lra. apply Rmult_le_compat_r; [lra|]. apply Rabs_le. lra. }
    unfold off3.
    set (k := len3 (B2R x) (B2R y) (B2R z)) in *. set (l := len3 q p (1 - q - p)) in *.
    replace (B2R u1 - B2R x / k) with ((B2R u1 - sg (neg (B2R x)) * q / l) + (sg (neg (B2R x)) * q / l - B2R x / k)) by ring.
    replace (B2R u2 - B2R y / k) with ((B2R u2 - sg (neg (B2R y)) * p / l) + (sg (neg (B2R y)) * p / l - B2R y / k)) by ring.
    replace (B2R u3 - B2R z / k) with ((B2R u3 - sg (neg (B2R z)) * (1 - q - p) / l) + (sg (neg (B2R z)) * (1 - q - p) / l - B2R z / k)) by ring.
    apply Rle_trans with (1 := len3_triang _ _ _ _ _ _).
    rewrite !sub_sg, len3_sg, <- D1, <- D2, <- D3.
    assert (NE : 0 <= (1 + sl) / real n) by (unfold Rdiv; apply Rmult_le_pos; lra).
    pose proof (near3 q p (1 - q - p) t s (1 - t - s) _ NE ltac:(ring) ltac:(ring) QT PS QP) as N3. fold l in N3.
    replace (51 / 10 * ((1 + sl) / real n)) with (51 / 10 / real n + 51 / 10 * (sl / real n)) in N3 by (field; lra). lra.
  Qed.

  (** ** Too few bits for a level *)
  Notation emin := (3 - emax - prec)%Z.
  Notation fexp := (FLT_exp emin prec).
  Notation rnd := (round radix2 fexp ZnearestE).
  Local Instance fexp_valid7 : Valid_exp fexp := FLT_exp_valid emin prec.

  Section Coarse.
    Variable w d n xb : N.
    Hypothesis Hx : x_range w d = n.
    Hypothesis Hn : n = (2 ^ xb - 1)%N.
    Hypothesis Hc : (prec + 3 <= Z.of_N xb < emax)%Z.
    Notation top := (bpow radix2 (Z.of_N xb)).

    Lemma top_format : generic_format radix2 fexp top.
    Proof using Hc prec_ok emax_ok. clear Hx Hn. apply generic_format_bpow. unfold FLT_exp. lia. Qed.
    Lemma gap : 8 <= bpow radix2 (Z.of_N xb - prec).
    Proof using Hc. clear Hx Hn. apply Rle_trans with (bpow radix2 3); [cbn; lra|apply bpow_le; lia]. Qed.

    (** The largest level but one rounds up to the next power of two. *)
    Lemma rounds_up : rnd (top - 2) = top.
    Proof using Hc prec_ok emax_ok prec_gt_0_.
      clear Hx Hn. pose proof gap as G. apply Rle_antisym.
      - apply round_le_generic; [apply FLT_exp_valid; exact prec_gt_0_|apply valid_rnd_N|apply top_format|lra].
      - apply round_N_ge_midp; [apply FLT_exp_valid; exact prec_gt_0_|apply top_format|].
        rewrite pred_bpow. unfold FLT_exp. rewrite Z.max_l by lia. lra.
    Qed.
    Lemma rounds_down : rnd (top + / 2) = top.
    Proof using Hc prec_ok emax_ok prec_gt_0_.
      clear Hx Hn. pose proof gap as G. apply Rle_antisym.
      - apply round_N_le_midp; [apply FLT_exp_valid; exact prec_gt_0_|apply top_format|].
        rewrite succ_eq_pos by apply bpow_ge_0. rewrite ulp_bpow. unfold FLT_exp. rewrite Z.max_l by lia.
        replace (Z.of_N xb + 1 - prec)%Z with (Z.of_N xb - prec + 1)%Z by lia. rewrite bpow_plus. change (bpow radix2 1) with 2. lra.
      - apply round_ge_generic; [apply FLT_exp_valid; exact prec_gt_0_|apply valid_rnd_N|apply top_format|lra].
    Qed.
    Lemma top_below : Rabs top < bpow radix2 emax.
    Proof using Hc. clear Hx Hn. rewrite Rabs_pos_eq by apply bpow_ge_0. apply bpow_lt. lia. Qed.

    Lemma top_float : is_finite (of_int I (n - 1) : float) = true /\ B2R (of_int I (n - 1) : float) = top.
    Proof using Hn Hc prec_ok emax_ok.
      clear Hx. cbn [of_int ieee]. unfold of_Z. pose proof (binary_normalize_correct prec emax _ _ mode_NE (Z.of_N (n - 1)) 0 false) as C. cbv zeta in C.
      assert (E : F2R (Float radix2 (Z.of_N (n - 1)) 0) = top - 2).
      { unfold F2R. cbn [Fnum Fexp]. change (bpow radix2 0) with 1. rewrite Rmult_1_r. rewrite <- (IZR_Zpower radix2) by lia.
        change (Zpower radix2 (Z.of_N xb)) with (2 ^ Z.of_N xb)%Z. rewrite <- minus_IZR. f_equal. rewrite Hn.
        assert (2 ^ 2 <= 2 ^ xb)%N by (apply N.pow_le_mono_r; lia). change 2%Z with (Z.of_N 2) at 1. rewrite <- N2Z.inj_pow. change (2 ^ 2)%N with 4%N in *. lia. }
      rewrite E in C. assert (RE : round radix2 (SpecFloat.fexp prec emax) (round_mode mode_NE) (top - 2) = top) by exact rounds_up.
      rewrite RE, Rlt_bool_true in C by exact top_below. destruct C as (V & F & _). now split.
    Qed.

    Lemma coarse (r : float) : is_finite r = true -> B2R r = 1 -> quantize I w d r = None.
    Proof using Hx Hn Hc prec_ok emax_ok.
      intros Fr Vr. unfold quantize. rewrite Hx. destruct top_float as (FT & VT).
      destruct (half_ok prec emax _ _ prec_ok emax_ok) as (FH & VH).
      pose proof (Bmult_correct prec emax _ _ mode_NE r (of_int I (n - 1))) as C. rewrite Vr, VT, Rmult_1_l in C.
      assert (R1 : round radix2 (SpecFloat.fexp prec emax) (round_mode mode_NE) top = top)
        by (apply round_generic; [apply valid_rnd_N|exact top_format]).
      rewrite R1, Rlt_bool_true, Fr, FT in C by exact top_below. destruct C as (VM & FM & _). cbn [andb] in FM.
      pose proof (Bplus_correct prec emax _ _ mode_NE _ (half I) FM FH) as C. rewrite VM, VH in C.
      assert (R2 : round radix2 (SpecFloat.fexp prec emax) (round_mode mode_NE) (top + / 2) = top) by exact rounds_down.
      rewrite R2, Rlt_bool_true in C by exact top_below. destruct C as (VP & FP & _).
      cbn [to_int mul add ieee]. rewrite FP. rewrite trunc_eq by exact prec_lt_emax_. rewrite VP.
      rewrite <- (IZR_Zpower radix2) by lia. rewrite Ztrunc_IZR. change (Zpower radix2 (Z.of_N xb)) with (2 ^ Z.of_N xb)%Z. unfold fit.
      destruct ((0 <=? 2 ^ Z.of_N xb)%Z && _)%bool; [|reflexivity]. cbn [option_bind].
      replace (Z.to_N (2 ^ Z.of_N xb)) with (2 ^ xb)%N.
      2: { change 2%Z with (Z.of_N 2). now rewrite <- N2Z.inj_pow, N2Z.id. }
      rewrite (proj2 (N.leb_gt _ _)); [reflexivity|]. rewrite Hn. pose proof (pow2_pos xb). lia.
    Qed.
  End Coarse.

  Lemma near_one (v : float) : is_finite v = true -> B2R v = 1 -> rnd 1 = 1.
  Proof using. intros _ V. rewrite <- V. apply round_generic; [apply valid_rnd_N|apply generic_format_B2R]. Qed.

  Lemma axis2 w (Hw : std_width w) (x y : float) : (prec + 3 <= Z.of_N (w - 2) < emax)%Z ->
    is_finite x = true -> is_finite y = true -> Rabs (B2R x) = 1 -> B2R y = 0 -> pack2 I w x y = None.
  Proof using prec_ok emax_ok.
    intros Hc Fx Fy Vx Vy. pose proof big_10 as B10.
    destruct (take_sign_ieee prec emax _ _ x (w - 1) Fx) as (a & EA & FA & VA). destruct (take_sign_ieee prec emax _ _ y (w - 2) Fy) as (b & EB & FB & VB).
    unfold pack2, x_sign_bit, y_sign_bit. rewrite EA, EB. rewrite Vx in VA. rewrite Vy, Rabs_R0 in VB.
    pose proof (near_one a FA VA) as R1.
    destruct (plus_ok prec emax _ _ prec_ok emax_ok a b FA FB) as (FS & VS); [rewrite VA, VB, Rabs_pos_eq; lra|].
    rewrite VA, VB, Rplus_0_r, R1 in VS.
    destruct (div_ok prec emax _ _ prec_ok emax_ok a (Bplus mode_NE a b) FA) as (FD & VD); [rewrite VS; lra|rewrite VS, VA, Rabs_pos_eq; lra|].
    rewrite VS, VA in VD. replace (1 / 1) with 1 in VD by lra. rewrite R1 in VD.
    cbn [div add ieee]. rewrite (coarse w 2 (levels2 w) (w - 2) (range2 w Hw) eq_refl Hc _ FD VD). reflexivity.
  Qed.

  Lemma axis3 w (Hw : std_width w) (x y z : float) : (prec + 3 <= Z.of_N ((w - 2) / 2) < emax)%Z ->
    is_finite x = true -> is_finite y = true -> is_finite z = true -> Rabs (B2R x) = 1 -> B2R y = 0 -> B2R z = 0 -> pack3 I w x y z = None.
  Proof using prec_ok emax_ok.
    intros Hc Fx Fy Fz Vx Vy Vz. pose proof big_10 as B10. destruct (lay_std w Hw) as (xb & yb & L).
    assert (EX : ((w - 2) / 2 = xb)%N) by (symmetry; exact (lay_xb w xb yb L)). rewrite EX in Hc.
    destruct (levels3_facts w xb yb L) as (EN & _).
    destruct (take_sign_ieee prec emax _ _ x (w - 1) Fx) as (a & EA & FA & VA). destruct (take_sign_ieee prec emax _ _ y (w - 2) Fy) as (b & EB & FB & VB).
    destruct (take_sign_ieee prec emax _ _ z (w - 3) Fz) as (c & EC & FC & VC).
    unfold pack3, x_sign_bit, y_sign_bit, z_sign_bit. rewrite EA, EB, EC. rewrite Vx in VA. rewrite Vy, Rabs_R0 in VB. rewrite Vz, Rabs_R0 in VC.
    pose proof (near_one a FA VA) as R1. destruct (one_ok prec emax _ _ prec_ok emax_ok) as (F1 & V1).
    destruct (plus_ok prec emax _ _ prec_ok emax_ok a b FA FB) as (FS & VS); [rewrite VA, VB, Rabs_pos_eq; lra|].
    rewrite VA, VB, Rplus_0_r, R1 in VS.
    destruct (plus_ok prec emax _ _ prec_ok emax_ok (Bplus mode_NE a b) c FS FC) as (FS2 & VS2); [rewrite VS, VC, Rabs_pos_eq; lra|].
    rewrite VS, VC, Rplus_0_r, R1 in VS2.
    destruct (div_ok prec emax _ _ prec_ok emax_ok (one I) (Bplus mode_NE (Bplus mode_NE a b) c) F1) as (FD & VD); [rewrite VS2; lra|rewrite VS2, V1, Rabs_pos_eq; lra|].
    rewrite VS2, V1 in VD. replace (1 / 1) with 1 in VD by lra. rewrite R1 in VD.
    destruct (mult_ok prec emax _ _ prec_ok emax_ok a _ FA FD) as (FM & VM); [rewrite VA, VD, Rabs_pos_eq; lra|].
    rewrite VA, VD, Rmult_1_l, R1 in VM. cbv zeta.
    cbn [div add mul ieee]. rewrite (coarse w 3 (levels3 w) xb (range3 w xb yb L) EN Hc _ FM VM). reflexivity.
  Qed.
End Fp.
