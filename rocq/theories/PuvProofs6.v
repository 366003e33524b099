(** Packing and unpacking with IEEE numbers. *)
From Coq Require Import ZArith Reals Lra Lia Psatz.
From Flocq Require Import Core BinarySingleNaN Relative Plus_error.
From Verif Require Import Words WordsProofs FpModel FpProofs PuvModel PuvSpec PuvProofs PuvProofs2 PuvProofs3 PuvProofs4 PuvProofs5.

Local Open Scope R_scope.

Definition rel_bounds' v y e R Y := rel_bounds v y e Y R.
Definition rel_trans' v y z e g R R' He Hg := rel_trans v y z e g He Hg R R'.
Definition rel_inv' v y e R He Hy := rel_inv v y e He Hy R.
Definition rel_mult' v y e w z g R R' He Hg := rel_mult v y e w z g He Hg R R'.

(** ** Lengths *)
Lemma cauchy a1 a2 a3 b1 b2 b3 : a1 * b1 + a2 * b2 + a3 * b3 <= len3 a1 a2 a3 * len3 b1 b2 b3.
Proof.
  destruct (Rle_or_lt (a1 * b1 + a2 * b2 + a3 * b3) 0) as [H|H].
  - apply Rle_trans with (1 := H). apply Rmult_le_pos; apply len3_pos.
  - apply Rsqr_incr_0_var; [|apply Rmult_le_pos; apply len3_pos]. unfold Rsqr.
    replace (len3 a1 a2 a3 * len3 b1 b2 b3 * (len3 a1 a2 a3 * len3 b1 b2 b3))
      with ((len3 a1 a2 a3 * len3 a1 a2 a3) * (len3 b1 b2 b3 * len3 b1 b2 b3)) by ring.
    rewrite !len3_sq.
    pose proof (Rle_0_sqr (a1 * b2 - a2 * b1)) as Q1. pose proof (Rle_0_sqr (a1 * b3 - a3 * b1)) as Q2. pose proof (Rle_0_sqr (a2 * b3 - a3 * b2)) as Q3.
    unfold Rsqr in *. lra.
Qed.
Lemma len3_triang a1 a2 a3 b1 b2 b3 : len3 (a1 + b1) (a2 + b2) (a3 + b3) <= len3 a1 a2 a3 + len3 b1 b2 b3.
Proof.
  apply Rsqr_incr_0_var; [|apply Rplus_le_le_0_compat; apply len3_pos]. unfold Rsqr. rewrite len3_sq.
  pose proof (cauchy a1 a2 a3 b1 b2 b3) as C. pose proof (len3_sq a1 a2 a3) as E1. pose proof (len3_sq b1 b2 b3) as E2. lra.
Qed.
Lemma len2_len3 x y : len2 x y = len3 x y 0.
Proof. unfold len2, len3. f_equal. ring. Qed.
Lemma sq_le a c : Rabs a <= c -> 0 <= a * a <= c * c.
Proof.
  intros H. split; [apply Rle_0_sqr|]. replace (a * a) with (Rabs a * Rabs a) by (rewrite <- Rabs_mult; apply Rabs_pos_eq, Rle_0_sqr).
  apply Rmult_le_compat; try apply Rabs_pos; exact H.
Qed.
Lemma len3_le a b c A B C e : Rabs a <= A -> Rabs b <= B -> Rabs c <= C -> 0 <= e -> A * A + B * B + C * C <= e * e -> len3 a b c <= e.
Proof.
  intros HA HB HC He H. unfold len3. apply Rle_trans with (sqrt (e * e)); [|rewrite sqrt_square by exact He; apply Rle_refl].
  apply sqrt_le_1_alt. pose proof (sq_le _ _ HA). pose proof (sq_le _ _ HB). pose proof (sq_le _ _ HC). lra.
Qed.
Lemma abs_le_len a b c : Rabs a <= len3 a b c.
Proof.
  rewrite <- sqrt_Rsqr_abs. unfold len3. apply sqrt_le_1_alt. unfold Rsqr. pose proof (Rle_0_sqr b). pose proof (Rle_0_sqr c). unfold Rsqr in *. lra.
Qed.
Lemma len3_rot a b c : len3 a b c = len3 b c a. Proof. unfold len3. f_equal. ring. Qed.

(** ** The end of packing, and the start of unpacking, in any arithmetic *)
Lemma finish3 w xb yb (L : lay w xb yb) sx sy sz i j : (i <= levels3 w)%N -> (j <= levels3 w)%N ->
  (let (ix, iy) := if (N.shiftl 1 (x_bits w 3) / 2 <=? j)%N then (x_range w 3 - i, x_range w 3 - j)%N else (i, j) in
   if ((ix <=? x_range w 3) && (iy <=? y_range w 3))%N then
     let b := N.lor (N.lor (N.lor (weight sx (w - 1)) (weight sy (w - 2))) (weight sz (w - 3))) (N.lor (N.shiftl ix (y_bits w 3)) iy) in
     if (b <? 2 ^ w)%N then Some (trunc w b) else None
   else None)
  = Some (kept w sx sy sz i j).
Proof.
  intros Hi Hj. destruct (levels3_facts w xb yb L) as (E & G & A & X & Y & A2).
  rewrite (range3 w xb yb L). unfold kept. set (n := levels3 w) in *.
  rewrite N.shiftl_1_l, (lay_x3 w xb yb L), (yrange3 w xb yb L).
  replace (2 ^ xb / 2)%N with (2 ^ yb)%N by (rewrite (xb_yb w xb yb L), N.mul_comm, N.div_mul by lia; reflexivity).
  pose proof (fold3_fits w xb yb L i j Hi Hj) as FF. fold n in FF. unfold fold3 in *.
  replace (2 ^ yb <=? j)%N with (n + 1 <=? 2 * j)%N.
  2: { destruct (N.leb_spec (n + 1) (2 * j)), (N.leb_spec (2 ^ yb) j); trivial; lia. }
  destruct (n + 1 <=? 2 * j)%N eqn:D; cbn [fst snd] in FF; destruct FF as (FI & FJ).
  - rewrite (proj2 (N.leb_le (n - i) n)) by lia. rewrite (proj2 (N.leb_le (n - j) _)) by lia. cbn [andb].
    rewrite (stored3_lor w xb yb L) by assumption.
    pose proof (stored3_lt w xb yb L sx sy sz (n - i) (n - j) FI FJ) as B.
    rewrite (proj2 (N.ltb_lt _ _)) by exact B. now rewrite trunc_small by exact B.
  - rewrite (proj2 (N.leb_le i n)) by lia. rewrite (proj2 (N.leb_le j _)) by lia. cbn [andb].
    rewrite (stored3_lor w xb yb L) by assumption.
    pose proof (stored3_lt w xb yb L sx sy sz i j FI FJ) as B.
    rewrite (proj2 (N.ltb_lt _ _)) by exact B. now rewrite trunc_small by exact B.
Qed.

Definition vec3 (A : arith) (n : N) (sx sy sz : bool) (i j : N) : num A * num A * num A :=
  let x_range_div := div A (one A) (of_int A n) in
  let x := mul A (of_int A i) x_range_div in
  let y := mul A (of_int A j) x_range_div in
  normalize3 A (mul A (sign A sx) x) (mul A (sign A sy) y) (mul A (sign A sz) (sub A (sub A (one A) x) y)).
Definition vec2 (A : arith) (n : N) (sx sy : bool) (i : N) : num A * num A :=
  let x_range_div := div A (one A) (of_int A n) in
  let x := mul A (of_int A i) x_range_div in
  normalize2 A (mul A (sign A sx) x) (mul A (sign A sy) (sub A (one A) x)).

Lemma unpack3_kept A w xb yb (L : lay w xb yb) sx sy sz i j :
  readable w i j -> unpack3 A w (kept w sx sy sz i j) = vec3 A (levels3 w) sx sy sz i j.
Proof.
  intros (Hs & RD). destruct (levels3_facts w xb yb L) as (E & G & Ar & X & Y & A2). set (n := levels3 w) in *.
  pose proof (fold3_fits w xb yb L i j ltac:(fold n; lia) ltac:(fold n; lia)) as FF. fold n in FF. unfold kept. fold n. unfold fold3 in *.
  destruct (n + 1 <=? 2 * j)%N eqn:D; cbn [fst snd] in FF; destruct FF as (FI & FJ); unfold unpack3;
    rewrite (stored3_i w xb yb L), (stored3_j w xb yb L), (stored3_x w xb yb L), (stored3_y w xb yb L), (stored3_z w xb yb L) by assumption;
    rewrite (range3 w xb yb L); fold n; rewrite trunc_small by lia.
  - apply N.leb_le in D. specialize (RD D). rewrite (proj2 (N.ltb_lt _ _)) by lia.
    replace (n - (n - i))%N with i by lia. replace (n - (n - j))%N with j by lia. reflexivity.
  - rewrite (proj2 (N.ltb_ge _ _)) by lia. reflexivity.
Qed.

Lemma unpack2_stored A w (Hw : std_width w) sx sy i : (i <= levels2 w)%N ->
  unpack2 A w (stored2 w sx sy i) = vec2 A (levels2 w) sx sy i.
Proof.
  intros Hi. destruct (levels2_facts w Hw) as (G & F & Ar). unfold unpack2.
  rewrite (stored2_i w Hw), (stored2_x w Hw), (stored2_y w Hw) by lia. rewrite (range2 w Hw). reflexivity.
Qed.

Section Fp.
  Variable prec emax : Z.
  Context (prec_gt_0_ : Prec_gt_0 prec).
  Context (prec_lt_emax_ : Prec_lt_emax prec emax).
  Notation float := (binary_float prec emax).
  Notation emin := (3 - emax - prec)%Z.
  Notation fexp := (FLT_exp emin prec).
  Notation rnd := (round radix2 fexp ZnearestE).
  Notation format := (generic_format radix2 fexp).
  Notation u := (bpow radix2 (- prec)).
  Notation eta := (bpow radix2 (emin - 1)).
  Notation big := (bpow radix2 120).
  Hypothesis prec_ok : (24 <= prec <= 113)%Z.
  Hypothesis emax_ok : (128 <= emax)%Z.
  Local Instance fexp_valid6 : Valid_exp fexp := FLT_exp_valid emin prec.
  Notation I := (ieee prec emax _ _).
  Let mult_ok := mult_ok prec emax _ _ prec_ok emax_ok.
  Let div_ok := div_ok prec emax _ _ prec_ok emax_ok.
  Let plus_ok := plus_ok prec emax _ _ prec_ok emax_ok.
  Let minus_ok := minus_ok prec emax _ _ prec_ok emax_ok.
  Let rnd_any := rnd_any prec emax _.
  Let rnd_normal := rnd_normal prec emax _ prec_ok emax_ok.
  Let rnd_plus := rnd_plus prec emax _.

  Lemma big_10 : 10 <= big.
  Proof using. clear. apply Rle_trans with (bpow radix2 4); [cbn; lra|apply bpow_le; lia]. Qed.
  Lemma small_120 : bpow radix2 (-120) <= 0.0001.
  Proof using. clear. apply Rle_trans with (bpow radix2 (-14)); [apply bpow_le; lia|cbn; lra]. Qed.
  Lemma eta_u : 0 < eta <= 0.0001 * u.
  Proof using prec_ok emax_ok.
    split; [apply bpow_gt_0|]. apply Rle_trans with (1 := eta_small prec emax prec_ok emax_ok). rewrite Rmult_comm. apply Rmult_le_compat_r; [apply bpow_ge_0|exact small_120].
  Qed.

  (** *** The ratios *)
  Section Ratio3.
    Variables a b c : float.
    Hypothesis Fa : is_finite a = true.
    Hypothesis Fb : is_finite b = true.
    Hypothesis Fc : is_finite c = true.
    Hypothesis Pa : 0 <= B2R a.
    Hypothesis Pb : 0 <= B2R b.
    Hypothesis Pc : 0 <= B2R c.
    Let S := B2R a + B2R b + B2R c.
    Hypothesis HS : / 2 <= S <= 4.
    Let proj : float := div I (one I) (add I (add I a b) c).

    Lemma proj_ok : is_finite proj = true /\ rel (B2R proj) (/ S) (3.02 * u).
    Proof using Fa Fb Fc Pa Pb Pc HS prec_ok emax_ok plus_ok div_ok rnd_plus rnd_normal.
      pose proof big_10 as B10. pose proof small_120 as S120.
      pose proof (u_pos prec) as U0. pose proof (u_tiny prec prec_ok) as U1.
      destruct (one_ok prec emax _ _ prec_ok emax_ok) as (F1 & V1).
      destruct (plus_ok a b Fa Fb) as (FS1 & VS1); [rewrite Rabs_pos_eq; unfold S in *; lra|].
      pose proof (rnd_plus (B2R a) (B2R b) (generic_format_B2R _ _ _) (generic_format_B2R _ _ _)) as R1. rewrite <- VS1 in R1.
      pose proof (rel_bounds' _ _ _ R1 ltac:(lra)) as B1.
      assert (UB : 0 <= (B2R a + B2R b) * u <= 0.0001).
      { split; [apply Rmult_le_pos; lra|]. apply Rle_trans with (4 * / 10000000); [|lra]. apply Rmult_le_compat; unfold S in *; lra. }
      destruct (plus_ok (Bplus mode_NE a b) c FS1 Fc) as (FS2 & VS2); [rewrite Rabs_pos_eq; unfold S in *; lra|].
      pose proof (rnd_plus _ (B2R c) (generic_format_B2R _ _ (Bplus mode_NE a b)) (generic_format_B2R _ _ _)) as R2. rewrite <- VS2 in R2.
      assert (R3 : rel (B2R (Bplus mode_NE a b) + B2R c) S u).
      { destruct R1 as (d & D & E). exists ((B2R a + B2R b) * d / S). split.
        - unfold Rdiv. rewrite Rabs_mult, Rabs_mult, (Rabs_pos_eq (B2R a + B2R b)), (Rabs_pos_eq (/ S)) by
            (try (apply Rlt_le, Rinv_0_lt_compat; lra); lra).
          apply Rmult_le_reg_r with S; [lra|]. rewrite Rmult_assoc, Rinv_l, Rmult_1_r by lra.
          apply Rle_trans with ((B2R a + B2R b) * u); [apply Rmult_le_compat_l; lra|]. rewrite Rmult_comm. apply Rmult_le_compat_l; unfold S in *; lra.
        - rewrite E. unfold S. field. unfold S in *; lra. }
      pose proof (rel_trans' _ _ _ _ _ R2 R3 ltac:(lra) ltac:(lra)) as R4.
      pose proof (rel_inv' _ _ _ R4 ltac:(lra) (Rgt_not_eq S 0 ltac:(lra))) as R5.
      pose proof (rel_bounds' _ _ _ R4 ltac:(lra)) as B4.
      set (s := B2R (Bplus mode_NE (Bplus mode_NE a b) c)) in *.
      assert (SU : 0 <= S * (1.00001 * (u + u)) <= 0.0001).
      { split; [apply Rmult_le_pos; lra|]. apply Rle_trans with (4 * (1.00001 * (2 * / 10000000))); [|lra]. apply Rmult_le_compat; lra. }
      assert (s0 : 0.49 <= s <= 4.01) by lra.
      assert (IS : 0.2 <= / s <= 2.1). { split; [apply Rle_trans with (/ 4.01); [lra|apply Rinv_le; lra]|apply Rle_trans with (/ 0.49); [apply Rinv_le; lra|lra]]. }
      destruct (div_ok (one I) (Bplus mode_NE (Bplus mode_NE a b) c) F1) as (FD & VD); [fold s; lra| |].
      { fold s. rewrite V1. unfold Rdiv. rewrite Rmult_1_l, Rabs_pos_eq; lra. }
      fold s in VD. rewrite V1 in VD. unfold Rdiv in VD. rewrite Rmult_1_l in VD.
      split; [exact FD|]. pose proof (rnd_normal (/ s)) as R6. rewrite Rabs_pos_eq in R6 by lra. specialize (R6 ltac:(lra)).
      rewrite <- VD in R6. pose proof (rel_trans' _ _ _ _ _ R6 R5 ltac:(lra) ltac:(lra)) as R7.
      apply rel_le with (1 := R7). lra.
    Qed.

    Lemma ratio3 (v : float) : is_finite v = true -> 0 <= B2R v <= S ->
      is_finite (mul I v proj) = true /\ 0 <= B2R (mul I v proj : float)
      /\ 0 <= B2R v / S <= 1
      /\ exists c e, Rabs c <= 4.1 * u /\ Rabs e <= 2 * eta /\ B2R (mul I v proj : float) = B2R v / S * (1 + c) + e.
    Proof using Fa Fb Fc Pa Pb Pc HS prec_ok emax_ok plus_ok div_ok mult_ok rnd_plus rnd_normal rnd_any.
      intros Fv Pv. destruct proj_ok as (FP & RP). pose proof big_10 as B10.
      pose proof (u_pos prec) as U0. pose proof (u_tiny prec prec_ok) as U1.
      assert (IS : 0 < / S <= 2). { split; [apply Rinv_0_lt_compat; lra|]. replace 2 with (/ / 2) by lra. apply Rinv_le; lra. }
      pose proof (rel_bounds' _ _ _ RP ltac:(lra)) as BP.
      assert (IU : 0 <= / S * (3.02 * u) <= 0.0001).
      { split; [apply Rmult_le_pos; lra|]. apply Rle_trans with (2 * (3.02 * / 10000000)); [|lra]. apply Rmult_le_compat; lra. }
      assert (P0 : 0 <= B2R proj).
      { apply Rle_trans with (2 := proj1 BP). apply Rmult_le_pos; lra. }
      assert (PB : 0 <= B2R v * B2R proj <= 10).
      { split; [apply Rmult_le_pos; lra|]. apply Rle_trans with (4 * 2.1); [|lra]. apply Rmult_le_compat; lra. }
      destruct (mult_ok v proj Fv FP) as (FM & VM); [rewrite Rabs_pos_eq; lra|].
      split; [exact FM|]. split.
      { cbn [mul ieee]. rewrite VM. apply round_ge_generic; [apply FLT_exp_valid; exact prec_gt_0_|apply valid_rnd_N|apply generic_format_0|lra]. }
      split.
      { unfold Rdiv. split; [apply Rmult_le_pos; lra|]. apply Rmult_le_reg_r with S; [lra|]. rewrite Rmult_assoc, Rinv_l by lra. lra. }
      destruct (rnd_any (B2R v * B2R proj)) as (d & e & D & E & RM). destruct RP as (g & G & EP).
      exists (g + d + g * d), e. split; [|split].
      - apply Rle_trans with (1 := Rabs_triang _ _). pose proof (Rabs_triang g d). rewrite Rabs_mult.
        assert (Rabs g * Rabs d <= (3.02 * u) * 0.0001) by (apply Rmult_le_compat; try apply Rabs_pos; lra). lra.
      - pose proof eta_u. lra.
      - cbn [mul ieee]. rewrite VM, RM, EP. unfold Rdiv. ring.
    Qed.
  End Ratio3.

  Lemma ratio2 (a b : float) : is_finite a = true -> is_finite b = true -> 0 <= B2R a -> 0 <= B2R b -> / 2 <= B2R a + B2R b <= 4 ->
    let r := div I a (add I a b) in
    is_finite (r : float) = true /\ 0 <= B2R (r : float) /\ 0 <= B2R a / (B2R a + B2R b) <= 1
    /\ exists c e, Rabs c <= 4.1 * u /\ Rabs e <= 2 * eta /\ B2R (r : float) = B2R a / (B2R a + B2R b) * (1 + c) + e.
  Proof using prec_ok emax_ok plus_ok div_ok rnd_plus rnd_normal rnd_any.
    intros Fa Fb Pa Pb HS r. set (S := B2R a + B2R b) in *. pose proof big_10 as B10.
    pose proof (u_pos prec) as U0. pose proof (u_tiny prec prec_ok) as U1.
    destruct (plus_ok a b Fa Fb) as (FS1 & VS1); [rewrite Rabs_pos_eq; unfold S in *; lra|].
    pose proof (rnd_plus (B2R a) (B2R b) (generic_format_B2R _ _ _) (generic_format_B2R _ _ _)) as R1. rewrite <- VS1 in R1. fold S in R1.
    pose proof (rel_bounds' _ _ _ R1 ltac:(lra)) as B1.
    assert (SU : 0 <= S * u <= 0.0001).
    { split; [apply Rmult_le_pos; lra|]. apply Rle_trans with (4 * / 10000000); [|lra]. apply Rmult_le_compat; lra. }
    set (s := B2R (Bplus mode_NE a b)) in *.
    pose proof (rel_inv' _ _ _ R1 ltac:(lra) (Rgt_not_eq S 0 ltac:(lra))) as R2.
    assert (IS : 0 < / s <= 2.1). { split; [apply Rinv_0_lt_compat; lra|apply Rle_trans with (/ 0.49); [apply Rinv_le; lra|lra]]. }
    assert (AB : 0 <= B2R a / s <= 10).
    { unfold Rdiv. split; [apply Rmult_le_pos; lra|]. apply Rle_trans with (4 * 2.1); [|lra]. apply Rmult_le_compat; unfold S in *; lra. }
    destruct (div_ok a (Bplus mode_NE a b) Fa) as (FD & VD); [fold s; lra|fold s; rewrite Rabs_pos_eq; lra|]. fold s in VD.
    split; [exact FD|]. split.
    { unfold r. cbn [div add ieee]. rewrite VD. apply round_ge_generic; [apply FLT_exp_valid; exact prec_gt_0_|apply valid_rnd_N|apply generic_format_0|lra]. }
    split.
    { unfold Rdiv. pose proof (Rinv_0_lt_compat S ltac:(lra)). split; [apply Rmult_le_pos; lra|]. apply Rmult_le_reg_r with S; [lra|]. rewrite Rmult_assoc, Rinv_l by lra. unfold S. lra. }
    destruct (rnd_any (B2R a / s)) as (d & e & D & E & RM). destruct R2 as (g & G & EP).
    exists (g + d + g * d), e. split; [|split].
    - apply Rle_trans with (1 := Rabs_triang _ _). pose proof (Rabs_triang g d). rewrite Rabs_mult.
      assert (Rabs g * Rabs d <= (1.00002 * u) * 0.0001) by (apply Rmult_le_compat; try apply Rabs_pos; lra). lra.
    - pose proof eta_u. lra.
    - unfold r. cbn [div add ieee]. rewrite VD, RM. unfold Rdiv. rewrite EP. ring.
  Qed.

  (** *** Packing *)
  Section Pack2.
    Variable w : N.
    Hypothesis Hw : std_width w.
    Let n := levels2 w.
    Hypothesis Hb : (Z.of_N (w - 2) <= prec - 4)%Z.
    Notation sl := (slack prec (w - 2)).

    Lemma pack2_ieee (x y : float) : is_finite x = true -> is_finite y = true -> / 2 <= Rabs (B2R x) + Rabs (B2R y) <= 4 ->
      let t := share2 (B2R x) (B2R y) in
      exists i, pack2 I w x y = Some (stored2 w (neg (B2R x)) (neg (B2R y)) i) /\ (i <= n - 1)%N
      /\ t * (real n - 1) - / 2 - sl < real i <= t * (real n - 1) + / 2 + sl.
    Proof using Hw Hb prec_ok emax_ok plus_ok div_ok rnd_plus rnd_normal rnd_any.
      intros Fx Fy HS t. destruct (levels2_facts w Hw) as (G & F & A). fold n in G, F, A.
      destruct (take_sign_ieee prec emax _ _ x (w - 1) Fx) as (a & EA & FA & VA).
      destruct (take_sign_ieee prec emax _ _ y (w - 2) Fy) as (b & EB & FB & VB).
      unfold pack2, x_sign_bit, y_sign_bit. rewrite EA, EB.
      destruct (ratio2 a b FA FB) as (FR & PR & TR & CE); [rewrite VA; apply Rabs_pos|rewrite VB; apply Rabs_pos|rewrite VA, VB; exact HS|].
      rewrite VA, VB in TR, CE. change (Rabs (B2R x) / (Rabs (B2R x) + Rabs (B2R y))) with t in TR, CE.
      destruct (quantize_ieee prec emax _ _ prec_ok emax_ok w 2 n (w - 2) (range2 w Hw) eq_refl ltac:(lia) Hb A _ t FR PR TR CE) as (i & Q & Hi & B).
      exists i. rewrite Q. cbn [option_bind]. rewrite stored2_lor by (try exact Hw; lia).
      pose proof (stored2_lt w Hw (neg (B2R x)) (neg (B2R y)) i ltac:(lia)) as W.
      rewrite (proj2 (N.ltb_lt _ _)) by exact W. rewrite trunc_small by exact W. auto.
    Qed.
  End Pack2.

  Section Pack3.
    Variable w xb yb : N.
    Hypothesis L : lay w xb yb.
    Let n := levels3 w.
    Hypothesis Hb : (Z.of_N xb <= prec - 4)%Z.
    Notation sl := (slack prec xb).

    Lemma pack3_ieee (x y z : float) : is_finite x = true -> is_finite y = true -> is_finite z = true ->
      / 2 <= Rabs (B2R x) + Rabs (B2R y) + Rabs (B2R z) <= 4 ->
      let t := share3 (B2R x) (B2R y) (B2R z) in let s := share3 (B2R y) (B2R x) (B2R z) in
      exists i j, pack3 I w x y z = Some (kept w (neg (B2R x)) (neg (B2R y)) (neg (B2R z)) i j)
      /\ (i <= n - 1)%N /\ (j <= n - 1)%N /\ (i + j <= n)%N
      /\ t * (real n - 1) - / 2 - sl < real i <= t * (real n - 1) + / 2 + sl
      /\ s * (real n - 1) - / 2 - sl < real j <= s * (real n - 1) + / 2 + sl.
    Proof using L Hb prec_ok emax_ok mult_ok plus_ok div_ok rnd_plus rnd_normal rnd_any.
      intros Fx Fy Fz HS t s. destruct (levels3_facts w xb yb L) as (E & G & A & X & Y & A2). fold n in E, G, A, X, Y, A2.
      destruct (take_sign_ieee prec emax _ _ x (w - 1) Fx) as (a & EA & FA & VA).
      destruct (take_sign_ieee prec emax _ _ y (w - 2) Fy) as (b & EB & FB & VB).
      destruct (take_sign_ieee prec emax _ _ z (w - 3) Fz) as (c & EC & FC & VC).
      pose proof (Rabs_pos (B2R x)) as PX. pose proof (Rabs_pos (B2R y)) as PY. pose proof (Rabs_pos (B2R z)) as PZ.
      unfold pack3, x_sign_bit, y_sign_bit, z_sign_bit. rewrite EA, EB, EC.
      assert (SE : / 2 <= B2R a + B2R b + B2R c <= 4) by (rewrite VA, VB, VC; exact HS).
      destruct (ratio3 a b c FA FB FC ltac:(lra) ltac:(lra) ltac:(lra) SE a FA ltac:(lra)) as (FR & PR & TR & CE).
      destruct (ratio3 a b c FA FB FC ltac:(lra) ltac:(lra) ltac:(lra) SE b FB ltac:(lra)) as (FR2 & PR2 & TR2 & CE2).
      rewrite VA, VB, VC in TR, CE, TR2, CE2. change (Rabs (B2R x) / (Rabs (B2R x) + Rabs (B2R y) + Rabs (B2R z))) with t in TR, CE.
      replace (Rabs (B2R y) / (Rabs (B2R x) + Rabs (B2R y) + Rabs (B2R z))) with s in TR2, CE2 by (unfold s, share3; f_equal; ring).
      destruct (quantize_ieee prec emax _ _ prec_ok emax_ok w 3 n xb (range3 w xb yb L) E ltac:(lia) Hb A _ t FR PR TR CE) as (i & Q & Hi & B).
      destruct (quantize_ieee prec emax _ _ prec_ok emax_ok w 3 n xb (range3 w xb yb L) E ltac:(lia) Hb A _ s FR2 PR2 TR2 CE2) as (j & Q2 & Hj & B2).
      exists i, j. cbv zeta. rewrite Q. cbn [option_bind]. rewrite Q2. cbn [option_bind].
      split; [apply (finish3 w xb yb L); fold n; lia|]. split; [exact Hi|]. split; [exact Hj|]. split; [|split; assumption].
      destruct (share3_bounds (B2R x) (B2R y) (B2R z)) as (_ & _ & TS); [lra|]. fold t s in TS.
      pose proof (slack_small prec xb Hb) as SS.
      assert (R7 : 7 <= real n) by (apply (IZR_le 7); lia).
      assert ((t + s) * (real n - 1) <= 1 * (real n - 1)) by (apply Rmult_le_compat_r; lra).
      assert (K : real (i + j) < real (n + 1)) by (rewrite !real_add; change (real 1) with 1; lra).
      unfold real in K. apply lt_IZR in K. lia.
    Qed.
  End Pack3.

  (** *** Unpacking *)
  Lemma sign_mult s (X : float) : is_finite X = true -> Rabs (B2R X) <= big ->
    is_finite (mul I (sign I s) X : float) = true /\ B2R (mul I (sign I s) X : float) = sg s * B2R X.
  Proof using prec_ok emax_ok mult_ok.
    intros FX HX. destruct (one_ok prec emax _ _ prec_ok emax_ok) as (F1 & V1).
    assert (FS : is_finite (sign I s : float) = true /\ B2R (sign I s : float) = sg s).
    { unfold sign. destruct s; cbn [opp ieee]; [rewrite is_finite_Bopp, B2R_Bopp, V1; split; [exact F1|reflexivity]|split; [exact F1|exact V1]]. }
    destruct FS as (FS & VS).
    destruct (mult_ok (sign I s) X FS FX) as (FM & VM).
    { rewrite VS, Rabs_mult. replace (Rabs (sg s)) with 1 by (destruct s; unfold sg; [rewrite Rabs_left by lra|rewrite Rabs_pos_eq by lra]; lra). lra. }
    cbn [mul ieee]. split; [exact FM|]. rewrite VM, VS. apply round_generic; [apply valid_rnd_N|].
    destruct s; unfold sg; [replace (-1 * B2R X) with (- B2R X) by ring; apply generic_format_opp|rewrite Rmult_1_l]; apply generic_format_B2R.
  Qed.

  (** A level as a part of one. *)
  Section Part.
    Variable n : N.
    Hypothesis H7 : (7 <= n)%N.
    Hypothesis Hn : (Z.of_N n < 2 ^ (prec - 4))%Z.
    Let r : float := div I (one I) (of_int I n).

    Lemma part_ok i : (i <= n)%N ->
      is_finite (mul I (of_int I i) r : float) = true /\ rel (B2R (mul I (of_int I i) r : float)) (real i / real n) (2.01 * u).
    Proof using H7 Hn prec_ok emax_ok div_ok mult_ok rnd_normal.
      intros Hi. pose proof big_10 as B10. pose proof small_120 as S120.
      pose proof (u_pos prec) as U0. pose proof (u_tiny prec prec_ok) as U1.
      assert (HP : (2 ^ (prec - 4) <= 2 ^ prec)%Z) by (apply Z.pow_le_mono_r; lia).
      destruct (one_ok prec emax _ _ prec_ok emax_ok) as (F1 & V1).
      destruct (int_ok prec emax _ _ prec_ok emax_ok (Z.of_N n)) as (FN & VN); [lia|].
      destruct (int_ok prec emax _ _ prec_ok emax_ok (Z.of_N i)) as (FI & VI); [lia|].
      change (IZR (Z.of_N n)) with (real n) in VN. change (IZR (Z.of_N i)) with (real i) in VI.
      assert (R7 : 7 <= real n) by (apply (IZR_le 7); lia).
      assert (NB : real n <= bpow radix2 113).
      { unfold real. apply Rle_trans with (IZR (2 ^ prec)); [apply IZR_le; lia|]. change (2 ^ prec)%Z with (Zpower radix2 prec). rewrite IZR_Zpower by lia. apply bpow_le. lia. }
      assert (IN : bpow radix2 (-113) <= / real n <= 0.2).
      { split; [change (-113)%Z with (- (113))%Z; rewrite bpow_opp; apply Rinv_le; lra|apply Rle_trans with (/ 7); [apply Rinv_le; lra|lra]]. }
      assert (B113 : bpow radix2 (-120) <= bpow radix2 (-113) * 0.01).
      { replace (-120)%Z with (-113 + -7)%Z by lia. rewrite bpow_plus. apply Rmult_le_compat_l; [apply bpow_ge_0|cbn; lra]. }
      pose proof (bpow_gt_0 radix2 (-113)) as B0.
      assert (R1 : is_finite r = true /\ rel (B2R r) (/ real n) u).
      { destruct (div_ok (one I) (of_int I n) F1) as (FD & VD); [cbn [of_int ieee]; rewrite VN; lra|cbn [of_int ieee]; rewrite V1, VN; unfold Rdiv; rewrite Rmult_1_l, Rabs_pos_eq; lra|].
        cbn [of_int ieee] in VD. rewrite V1, VN in VD. unfold Rdiv in VD. rewrite Rmult_1_l in VD. split; [exact FD|].
        unfold r. cbn [div ieee]. change (of_int I n) with (of_Z prec emax prec_gt_0_ prec_lt_emax_ (Z.of_N n)). rewrite VD.
        apply rnd_normal. rewrite Rabs_pos_eq; lra. }
      destruct R1 as (FR & RR). pose proof (rel_bounds' _ _ _ RR ltac:(lra)) as BR.
      assert (RU : 0 <= / real n * u <= / real n * 0.01) by (split; [apply Rmult_le_pos; lra|apply Rmult_le_compat_l; lra]).
      pose proof (real_pos i) as PI. pose proof (real_le i n Hi) as UI.
      assert (IB : 0 <= real i * B2R r <= 1.1).
      { split; [apply Rmult_le_pos; lra|]. apply Rle_trans with (real n * (/ real n * 1.01)); [apply Rmult_le_compat; lra|].
        rewrite <- Rmult_assoc, Rinv_r by lra. lra. }
      destruct (mult_ok (of_int I i) r FI FR) as (FM & VM); [cbn [of_int ieee]; rewrite VI, Rabs_pos_eq; lra|].
      cbn [of_int ieee] in VM. rewrite VI in VM. split; [exact FM|]. cbn [mul ieee].
      change (of_int I i) with (of_Z prec emax prec_gt_0_ prec_lt_emax_ (Z.of_N i)). rewrite VM.
      destruct (N.eq_dec i 0) as [->|D].
      - change (real 0) with 0. rewrite Rmult_0_l, round_0 by apply valid_rnd_N. unfold Rdiv. rewrite Rmult_0_l. exists 0. rewrite Rabs_R0. split; [lra|ring].
      - assert (I1 : 1 <= real i) by (apply (IZR_le 1); lia).
        pose proof (rnd_normal (real i * B2R r)) as R2. rewrite Rabs_pos_eq in R2 by lra.
        assert (LB : bpow radix2 (-120) <= real i * B2R r).
        { apply Rle_trans with (1 * (/ real n * 0.99)); [lra|]. apply Rmult_le_compat; lra. }
        specialize (R2 LB). pose proof (rel_mult' _ _ _ _ _ _ (rel_refl (real i)) RR ltac:(lra) ltac:(lra)) as R3.
        pose proof (rel_trans' _ _ _ _ _ R2 R3 ltac:(lra) ltac:(lra)) as R4. apply rel_le with (1 := R4). lra.
    Qed.
  End Part.

  (** The scale factor of [normalize]. *)
  Lemma sqrt_rel v y e : rel v y e -> 0 <= e <= 0.00001 -> 0 <= y -> rel (sqrt v) (sqrt y) e.
  Proof using.
    clear. intros (d & D & ->) He Y. apply Rabs_le_inv in D as D'. exists (sqrt (1 + d) - 1). split.
    - assert (S0 : 0 <= sqrt (1 + d)) by apply sqrt_pos. assert (SS : sqrt (1 + d) * sqrt (1 + d) = 1 + d) by (apply sqrt_sqrt; lra).
      apply Rle_trans with (2 := D). set (q := sqrt (1 + d)) in *.
      replace d with ((q - 1) * (q + 1)) by lra. rewrite Rabs_mult, (Rabs_pos_eq (q + 1)) by lra.
      rewrite <- (Rmult_1_r (Rabs (q - 1))) at 1. apply Rmult_le_compat_l; [apply Rabs_pos|lra].
    - rewrite sqrt_mult by lra. ring.
  Qed.

  Lemma scale_ok (T : float) Q : is_finite T = true -> 0.3 <= Q <= 2.1 -> rel (B2R T) Q (3.2 * u) ->
    let k := div I (one I) (root I T) in is_finite (k : float) = true /\ rel (B2R (k : float)) (/ sqrt Q) (5.3 * u).
  Proof using prec_ok emax_ok div_ok rnd_normal.
    intros FT HQ RT k. pose proof big_10 as B10. pose proof small_120 as S120.
    pose proof (u_pos prec) as U0. pose proof (u_tiny prec prec_ok) as U1.
    destruct (one_ok prec emax _ _ prec_ok emax_ok) as (F1 & V1).
    pose proof (sqrt_rel _ _ _ RT ltac:(lra) ltac:(lra)) as R1.
    pose proof (rel_bounds' _ _ _ RT ltac:(lra)) as BT.
    assert (QU : 0 <= Q * (3.2 * u) <= 0.001) by (split; [apply Rmult_le_pos; lra|apply Rle_trans with (2.1 * (3.2 * / 10000000)); [apply Rmult_le_compat; lra|lra]]).
    assert (SQ : 0.5 <= sqrt Q <= 1.5).
    { split; [rewrite <- (sqrt_square 0.5) by lra; apply sqrt_le_1_alt; lra|rewrite <- (sqrt_square 1.5) by lra; apply sqrt_le_1_alt; lra]. }
    assert (ST : 0.5 <= sqrt (B2R T) <= 1.5).
    { split; [rewrite <- (sqrt_square 0.5) by lra; apply sqrt_le_1_alt; lra|rewrite <- (sqrt_square 1.5) by lra; apply sqrt_le_1_alt; lra]. }
    pose proof (Bsqrt_correct prec emax _ _ mode_NE T) as (VR & FRT & _). 
    assert (FR : is_finite (Bsqrt mode_NE T) = true).
    { rewrite FRT. destruct T as [s|s| |s m e0 b0]; try reflexivity; try discriminate FT.
      destruct s; [|reflexivity]. exfalso. assert (B2R (B754_finite true m e0 b0 : float) < 0); [|lra].
      apply F2R_lt_0. reflexivity. }
    pose proof (rnd_normal (sqrt (B2R T))) as R2. rewrite Rabs_pos_eq in R2 by lra. specialize (R2 ltac:(lra)).
    assert (VR' : B2R (Bsqrt mode_NE T) = rnd (sqrt (B2R T))) by exact VR. rewrite <- VR' in R2.
    pose proof (rel_trans' _ _ _ _ _ R2 R1 ltac:(lra) ltac:(lra)) as R3. set (l := B2R (Bsqrt mode_NE T)) in *.
    pose proof (rel_bounds' _ _ _ R3 ltac:(lra)) as BL.
    assert (LU : 0 <= sqrt Q * (1.00001 * (u + 3.2 * u)) <= 0.001).
    { split; [apply Rmult_le_pos; lra|]. apply Rle_trans with (1.5 * (1.00001 * (4.2 * / 10000000))); [apply Rmult_le_compat; lra|lra]. }
    pose proof (rel_inv' _ _ _ R3 ltac:(lra) (Rgt_not_eq (sqrt Q) 0 ltac:(lra))) as R4.
    assert (L0 : 0.49 <= l <= 1.51) by lra.
    assert (IL : 0.5 <= / l <= 2.1). { split; [apply Rle_trans with (/ 1.51); [lra|apply Rinv_le; lra]|apply Rle_trans with (/ 0.49); [apply Rinv_le; lra|lra]]. }
    destruct (div_ok (one I) (Bsqrt mode_NE T) F1) as (FD & VD); [fold l; lra|fold l; rewrite V1; unfold Rdiv; rewrite Rmult_1_l, Rabs_pos_eq; lra|].
    fold l in VD. rewrite V1 in VD. unfold Rdiv in VD. rewrite Rmult_1_l in VD. split; [exact FD|].
    pose proof (rnd_normal (/ l)) as R5. rewrite Rabs_pos_eq in R5 by lra. specialize (R5 ltac:(lra)). rewrite <- VD in R5.
    pose proof (rel_trans' _ _ _ _ _ R5 R4 ltac:(lra) ltac:(lra)) as R6. apply rel_le with (1 := R6). lra.
  Qed.

  Lemma scaled_ok (v k : float) K : is_finite v = true -> is_finite k = true -> 0 <= K <= 2 -> Rabs (B2R v) * K <= 1.01 -> Rabs (B2R v) <= 2 ->
    rel (B2R k) K (5.3 * u) ->
    is_finite (mul I v k : float) = true /\ Rabs (B2R (mul I v k : float) - B2R v * K) <= 6.5 * u.
  Proof using prec_ok emax_ok mult_ok rnd_any.
    intros Fv Fk HK HV V2 RK. pose proof big_10 as B10. pose proof (u_pos prec) as U0. pose proof (u_tiny prec prec_ok) as U1. pose proof eta_u as EU.
    destruct RK as (g & G & EK). set (x := B2R v) in *.
    assert (XG : Rabs (x * K * g) <= 1.01 * (5.3 * u)).
    { rewrite Rabs_mult. apply Rmult_le_compat; try apply Rabs_pos; [|exact G]. rewrite Rabs_mult, (Rabs_pos_eq K) by lra. exact HV. }
    assert (XK : Rabs (x * K) <= 1.01) by (rewrite Rabs_mult, (Rabs_pos_eq K) by lra; exact HV).
    assert (PB : Rabs (x * B2R k) <= 1.02).
    { rewrite EK. replace (x * (K * (1 + g))) with (x * K + x * K * g) by ring. apply Rle_trans with (1 := Rabs_triang _ _). lra. }
    destruct (mult_ok v k Fv Fk) as (FM & VM); [fold x; lra|]. split; [exact FM|]. cbn [mul ieee]. rewrite VM. fold x.
    destruct (rnd_any (x * B2R k)) as (d & e & D & E & R). rewrite R.
    replace (x * B2R k * (1 + d) + e - x * K) with (x * K * g + x * B2R k * d + e) by (rewrite EK; ring).
    assert (XD : Rabs (x * B2R k * d) <= 1.02 * u) by (rewrite Rabs_mult; apply Rmult_le_compat; try apply Rabs_pos; assumption).
    apply Rle_trans with (1 := Rabs_triang _ _). pose proof (Rabs_triang (x * K * g) (x * B2R k * d)). lra.
  Qed.

  (** The sum of the squares. *)
  Lemma square_ok (v : float) : is_finite v = true -> Rabs (B2R v) <= 2 ->
    is_finite (mul I v v : float) = true /\ 0 <= B2R (mul I v v : float) <= 4.1
    /\ Rabs (B2R (mul I v v : float) - B2R v * B2R v) <= u * (B2R v * B2R v) + eta.
  Proof using prec_ok emax_ok mult_ok rnd_any.
    intros Fv H. pose proof big_10 as B10. pose proof (u_pos prec) as U0. pose proof (u_tiny prec prec_ok) as U1. pose proof eta_u as EU.
    pose proof (sq_le _ _ H) as S4. set (x := B2R v) in *.
    destruct (mult_ok v v Fv Fv) as (FM & VM); [fold x; rewrite Rabs_pos_eq; lra|]. fold x in VM. split; [exact FM|]. cbn [mul ieee]. rewrite VM.
    destruct (rnd_any (x * x)) as (d & e & D & E & R).
    assert (ER : Rabs (rnd (x * x) - x * x) <= u * (x * x) + eta).
    { rewrite R. replace (x * x * (1 + d) + e - x * x) with (d * (x * x) + e) by ring. apply Rle_trans with (1 := Rabs_triang _ _).
      rewrite Rabs_mult, (Rabs_pos_eq (x * x)) by lra. assert (Rabs d * (x * x) <= u * (x * x)) by (apply Rmult_le_compat_r; lra). lra. }
    split; [|exact ER]. split.
    - apply round_ge_generic; [apply FLT_exp_valid; exact prec_gt_0_|apply valid_rnd_N|apply generic_format_0|lra].
    - apply Rabs_le_inv in ER. assert (u * (x * x) <= u * 4) by (apply Rmult_le_compat_l; lra). lra.
  Qed.

  Lemma sum_ok (p q : float) P Q c k : is_finite p = true -> is_finite q = true -> 0 <= B2R p <= 20 -> 0 <= B2R q <= 20 ->
    0 <= c <= 10 -> 0 <= k <= 10 -> 0 <= P -> 0 <= Q ->
    Rabs (B2R p - P) <= c * u * P + k * eta -> Rabs (B2R q - Q) <= c * u * Q + k * eta ->
    is_finite (add I p q : float) = true /\ 0 <= B2R (add I p q : float) <= (B2R p + B2R q) * 1.01
    /\ Rabs (B2R (add I p q : float) - (P + Q)) <= (c + 1.001) * u * (P + Q) + (2 * k + 1) * eta.
  Proof using prec_ok emax_ok plus_ok rnd_plus.
    intros Fp Fq Hp Hq Hc Hk HP HQ EP EQ. pose proof big_10 as B10. pose proof (u_pos prec) as U0. pose proof (u_tiny prec prec_ok) as U1. pose proof eta_u as EU.
    assert (B40 : 40 <= big). { apply Rle_trans with (bpow radix2 6); [cbn; lra|apply bpow_le; lia]. }
    destruct (plus_ok p q Fp Fq) as (FS & VS); [rewrite Rabs_pos_eq; lra|]. split; [exact FS|]. cbn [add ieee]. rewrite VS.
    destruct (rnd_plus (B2R p) (B2R q) (generic_format_B2R _ _ _) (generic_format_B2R _ _ _)) as (d & D & R).
    apply Rabs_le_inv in D as D'. split.
    - rewrite R. split; [apply Rmult_le_pos; lra|apply Rmult_le_compat_l; lra].
    - rewrite R. set (s := B2R p + B2R q) in *.
      assert (E1 : Rabs (s - (P + Q)) <= c * u * (P + Q) + 2 * k * eta).
      { replace (s - (P + Q)) with ((B2R p - P) + (B2R q - Q)) by (unfold s; ring). apply Rle_trans with (1 := Rabs_triang _ _). lra. }
      replace (s * (1 + d) - (P + Q)) with ((s - (P + Q)) + s * d) by ring. apply Rle_trans with (1 := Rabs_triang _ _).
      assert (s0 : 0 <= s) by (unfold s; lra).
      assert (E2 : Rabs (s * d) <= s * u) by (rewrite Rabs_mult, (Rabs_pos_eq s) by lra; apply Rmult_le_compat_l; lra).
      apply Rabs_le_inv in E1 as E1'. set (T := P + Q) in *. assert (T0 : 0 <= T) by (unfold T; lra).
      assert (CU : 0 <= c * u <= 0.0001).
      { split; [apply Rmult_le_pos; lra|]. apply Rle_trans with (10 * / 10000000); [apply Rmult_le_compat; lra|lra]. }
      assert (KU : 0 <= k * u <= 0.0001).
      { split; [apply Rmult_le_pos; lra|]. apply Rle_trans with (10 * / 10000000); [apply Rmult_le_compat; lra|lra]. }
      assert (E3 : s * u <= 1.001 * u * T + eta).
      { assert (SB : s <= T * 1.001 + 2 * k * eta).
        { assert (c * u * T <= 0.0001 * T) by (apply Rmult_le_compat_r; lra). lra. }
        assert (s * u <= (T * 1.001 + 2 * k * eta) * u) by (apply Rmult_le_compat_r; lra).
        assert (CE : 2 * k * eta * u <= eta).
        { replace (2 * k * eta * u) with (2 * (k * u) * eta) by ring. rewrite <- (Rmult_1_l eta) at 2. apply Rmult_le_compat_r; lra. }
        lra. }
      lra.
  Qed.

  (** *** Two components *)
  Lemma vec2_ieee n sx sy i : (7 <= n)%N -> (Z.of_N n < 2 ^ (prec - 4))%Z -> (i <= n)%N ->
    exists u1 u2 : float, vec2 I n sx sy i = (u1, u2) /\ is_finite u1 = true /\ is_finite u2 = true
    /\ let q := real i / real n in
       len2 (B2R u1 - sg sx * q / len2 q (1 - q)) (B2R u2 - sg sy * (1 - q) / len2 q (1 - q)) <= 15 * u.
  Proof using prec_ok emax_ok mult_ok div_ok plus_ok minus_ok rnd_any rnd_normal rnd_plus.
    intros H7 Hn Hi. pose proof big_10 as B10. pose proof (u_pos prec) as U0. pose proof (u_tiny prec prec_ok) as U1. pose proof eta_u as EU.
    destruct (one_ok prec emax _ _ prec_ok emax_ok) as (F1 & V1).
    destruct (part_ok n H7 Hn i Hi) as (FX & RX). unfold vec2. set (X := mul I (of_int I i) (div I (one I) (of_int I n))) in *.
    assert (R7 : 7 <= real n) by (apply (IZR_le 7); lia).
    set (q := real i / real n) in *. pose proof (real_pos i) as PI. pose proof (real_le i n Hi) as UI.
    assert (Q1 : 0 <= q <= 1).
    { pose proof (Rinv_0_lt_compat (real n) ltac:(lra)). unfold q, Rdiv. split; [apply Rmult_le_pos; lra|]. apply Rmult_le_reg_r with (real n); [lra|]. rewrite Rmult_assoc, Rinv_l by lra. lra. }
    pose proof (rel_abs_le _ _ _ RX) as AX. rewrite (Rabs_pos_eq q) in AX by lra.
    assert (AX' : Rabs (B2R (X : float) - q) <= 2.01 * u).
    { apply Rle_trans with (1 := AX). rewrite <- (Rmult_1_r (2.01 * u)) at 2. apply Rmult_le_compat_l; lra. }
    apply Rabs_le_inv in AX' as BX.
    destruct (minus_ok (one I) X F1 FX) as (FY & VY); [rewrite V1; apply Rabs_le; lra|]. rewrite V1 in VY.
    assert (AY : Rabs (B2R (sub I (one I) X : float) - (1 - q)) <= 3.02 * u).
    { cbn [sub ieee]. rewrite VY.
      destruct (rnd_plus 1 (- B2R (X : float))) as (d & D & R); [rewrite <- V1; apply generic_format_B2R|apply generic_format_opp, generic_format_B2R|].
      change (1 - B2R (X : float)) with (1 + - B2R (X : float)). rewrite R.
      replace ((1 + - B2R (X : float)) * (1 + d) - (1 - q)) with (- (B2R (X : float) - q) + (1 + - B2R (X : float)) * d) by ring.
      apply Rle_trans with (1 := Rabs_triang _ _). rewrite Rabs_Ropp, Rabs_mult.
      assert (Rabs (1 + - B2R (X : float)) * Rabs d <= 1.001 * u) by (apply Rmult_le_compat; try apply Rabs_pos; [apply Rabs_le; lra|exact D]). lra. }
    change (Bminus mode_NE (one I) X) with (sub I (one I) X) in FY. set (Y := sub I (one I) X) in *. apply Rabs_le_inv in AY as BY.
    destruct (sign_mult sx X FX) as (FA & VA); [apply Rle_trans with (2 := B10); apply Rabs_le; lra|].
    destruct (sign_mult sy Y FY) as (FB & VB); [apply Rle_trans with (2 := B10); apply Rabs_le; lra|].
    set (a := mul I (sign I sx) X) in *. set (b := mul I (sign I sy) Y) in *.
    assert (AA : Rabs (B2R (a : float)) <= 1.01).
    { rewrite VA, Rabs_mult. replace (Rabs (sg sx)) with 1 by (destruct sx; unfold sg; [rewrite Rabs_left by lra|rewrite Rabs_pos_eq by lra]; lra). rewrite Rmult_1_l. apply Rabs_le. lra. }
    assert (AB : Rabs (B2R (b : float)) <= 1.01).
    { rewrite VB, Rabs_mult. replace (Rabs (sg sy)) with 1 by (destruct sy; unfold sg; [rewrite Rabs_left by lra|rewrite Rabs_pos_eq by lra]; lra). rewrite Rmult_1_l. apply Rabs_le. lra. }
    destruct (square_ok a FA ltac:(lra)) as (FA2 & BA2 & EA2). destruct (square_ok b FB ltac:(lra)) as (FB2 & BB2 & EB2).
    destruct (sum_ok _ _ (B2R (a : float) * B2R (a : float)) (B2R (b : float) * B2R (b : float)) 1 1 FA2 FB2 ltac:(lra) ltac:(lra) ltac:(lra) ltac:(lra)
      ltac:(apply Rle_0_sqr) ltac:(apply Rle_0_sqr) ltac:(lra) ltac:(lra)) as (FT & _ & ET).
    set (Q := B2R (a : float) * B2R (a : float) + B2R (b : float) * B2R (b : float)) in *.
    set (T := add I (mul I a a) (mul I b b)) in *.
    assert (QE : Q = B2R (X : float) * B2R (X : float) + B2R (Y : float) * B2R (Y : float)).
    { unfold Q. rewrite VA, VB. replace (sg sx * B2R (X : float) * (sg sx * B2R (X : float))) with (sg sx * sg sx * (B2R (X : float) * B2R (X : float))) by ring.
      replace (sg sy * B2R (Y : float) * (sg sy * B2R (Y : float))) with (sg sy * sg sy * (B2R (Y : float) * B2R (Y : float))) by ring. rewrite !sg_sq. ring. }
    assert (QL : 0.49 <= Q <= 2.1).
    { rewrite QE. set (x := B2R (X : float)) in *. set (y := B2R (Y : float)) in *. split.
      - pose proof (Rle_0_sqr (x - y)) as SQ. unfold Rsqr in SQ. assert (SS : 0.999 * 0.999 <= (x + y) * (x + y)) by (apply Rmult_le_compat; lra). lra.
      - pose proof (sq_le x 1.01 ltac:(apply Rabs_le; lra)). pose proof (sq_le y 1.01 ltac:(apply Rabs_le; lra)). lra. }
    assert (RT : rel (B2R (T : float)) Q (3.2 * u)).
    { exists ((B2R (T : float) - Q) / Q). split; [|field; lra]. unfold Rdiv. rewrite Rabs_mult, Rabs_inv, (Rabs_pos_eq Q) by lra.
      apply Rmult_le_reg_r with Q; [lra|]. rewrite Rmult_assoc, Rinv_l, Rmult_1_r by lra. apply Rle_trans with (1 := ET).
      assert (u * 0.49 <= u * Q) by (apply Rmult_le_compat_l; lra). lra. }
    destruct (scale_ok T Q FT ltac:(lra) RT) as (FK & RK). set (k := div I (one I) (root I T)) in *.
    assert (SQ : 0.7 <= sqrt Q <= 1.5).
    { split; [rewrite <- (sqrt_square 0.7) by lra; apply sqrt_le_1_alt; lra|rewrite <- (sqrt_square 1.5) by lra; apply sqrt_le_1_alt; lra]. }
    assert (ISQ : 0 <= / sqrt Q <= 2). { split; [apply Rlt_le, Rinv_0_lt_compat; lra|apply Rle_trans with (/ 0.7); [apply Rinv_le; lra|lra]]. }
    assert (LQ : sqrt Q = len3 (B2R (a : float)) (B2R (b : float)) 0) by (unfold len3, Q; f_equal; ring).
    assert (NA : Rabs (B2R (a : float)) * / sqrt Q <= 1.01).
    { apply Rmult_le_reg_r with (sqrt Q); [lra|]. rewrite Rmult_assoc, Rinv_l by lra. pose proof (abs_le_len (B2R (a : float)) (B2R (b : float)) 0). lra. }
    assert (NB : Rabs (B2R (b : float)) * / sqrt Q <= 1.01).
    { apply Rmult_le_reg_r with (sqrt Q); [lra|]. rewrite Rmult_assoc, Rinv_l by lra. pose proof (abs_le_len (B2R (b : float)) 0 (B2R (a : float))). rewrite <- len3_rot in H. lra. }
    destruct (scaled_ok a k (/ sqrt Q) FA FK ltac:(lra) NA ltac:(lra) RK) as (FO1 & EO1).
    destruct (scaled_ok b k (/ sqrt Q) FB FK ltac:(lra) NB ltac:(lra) RK) as (FO2 & EO2).
    exists (mul I a k), (mul I b k). split; [reflexivity|]. split; [exact FO1|]. split; [exact FO2|].
    set (o1 := B2R (mul I a k : float)) in *. set (o2 := B2R (mul I b k : float)) in *. rewrite len2_len3.
    set (l := len2 q (1 - q)).
    replace (o1 - sg sx * q / l) with ((o1 - B2R (a : float) * / sqrt Q) + (B2R (a : float) * / sqrt Q - sg sx * q / l)) by ring.
    replace (o2 - sg sy * (1 - q) / l) with ((o2 - B2R (b : float) * / sqrt Q) + (B2R (b : float) * / sqrt Q - sg sy * (1 - q) / l)) by ring.
    replace 0 with (0 + 0) by ring. apply Rle_trans with (1 := len3_triang _ _ _ _ _ _).
    assert (P1 : len3 (o1 - B2R (a : float) * / sqrt Q) (o2 - B2R (b : float) * / sqrt Q) 0 <= 9.3 * u).
    { apply (len3_le _ _ _ (6.5 * u) (6.5 * u) 0); [exact EO1|exact EO2|rewrite Rabs_R0; lra|lra|]. pose proof (Rle_0_sqr u) as SU. unfold Rsqr in SU. lra. }
    assert (P2 : len3 (B2R (a : float) * / sqrt Q - sg sx * q / l) (B2R (b : float) * / sqrt Q - sg sy * (1 - q) / l) 0 <= 5.7 * u).
    { rewrite VA, VB. replace (sg sx * B2R (X : float) * / sqrt Q - sg sx * q / l) with (sg sx * (B2R (X : float) / sqrt Q - q / l)) by (unfold Rdiv; ring).
      replace (sg sy * B2R (Y : float) * / sqrt Q - sg sy * (1 - q) / l) with (sg sy * (B2R (Y : float) / sqrt Q - (1 - q) / l)) by (unfold Rdiv; ring).
      rewrite <- len2_len3, len2_sg.
      pose proof (len2_part q (1 - q) ltac:(lra)) as LP. fold l in LP.
      pose proof (pos_of_sq _ (/ 2) (len2_pos q (1 - q)) ltac:(lra) LP) as PL. fold l in PL.
      assert (QQ : sqrt Q * sqrt Q = Q) by (apply sqrt_sqrt; lra).
      pose proof (chord (B2R (X : float)) (B2R (Y : float)) 0 q (1 - q) 0 (sqrt Q) l ltac:(lra) PL ltac:(lra) ltac:(unfold l; rewrite len2_sq; ring)) as C.
      pose proof (mul_ge 0.49 (sqrt Q) l ltac:(lra) ltac:(lra) ltac:(lra) ltac:(lra) ltac:(lra)) as M.
      set (E := (B2R (X : float) - q) * (B2R (X : float) - q) + (B2R (Y : float) - (1 - q)) * (B2R (Y : float) - (1 - q)) + (0 - 0) * (0 - 0)) in *.
      assert (EB : 0 <= E <= 14 * (u * u)).
      { pose proof (sq_le _ _ AX') as S1. pose proof (sq_le _ _ AY) as S2. unfold E. lra. }
      assert (EC : E / (sqrt Q * l) <= 29 * (u * u)).
      { apply Rle_trans with (1 := div_le E (sqrt Q * l) 0.49 ltac:(lra) M ltac:(lra)). unfold Rdiv. lra. }
      unfold len2. apply Rle_trans with (sqrt ((5.7 * u) * (5.7 * u))); [|rewrite sqrt_square by lra; apply Rle_refl]. apply sqrt_le_1_alt.
      pose proof (Rle_0_sqr u) as SU. unfold Rsqr in SU.
      replace ((0 / sqrt Q - 0 / l) * (0 / sqrt Q - 0 / l)) with 0 in C by (unfold Rdiv; ring). lra. }
    lra.
  Qed.

  (** *** Three components *)
  Lemma vec3_ieee n sx sy sz i j : (7 <= n)%N -> (Z.of_N n < 2 ^ (prec - 4))%Z -> (i + j <= n)%N ->
    exists u1 u2 u3 : float, vec3 I n sx sy sz i j = (u1, u2, u3) /\ is_finite u1 = true /\ is_finite u2 = true /\ is_finite u3 = true
    /\ let q := real i / real n in let p := real j / real n in let l := len3 q p (1 - q - p) in
       len3 (B2R u1 - sg sx * q / l) (B2R u2 - sg sy * p / l) (B2R u3 - sg sz * (1 - q - p) / l) <= 21 * u.
  Proof using prec_ok emax_ok mult_ok div_ok plus_ok minus_ok rnd_any rnd_normal rnd_plus.
    intros H7 Hn Hs. pose proof big_10 as B10. pose proof (u_pos prec) as U0. pose proof (u_tiny prec prec_ok) as U1. pose proof eta_u as EU.
    destruct (one_ok prec emax _ _ prec_ok emax_ok) as (F1 & V1).
    destruct (part_ok n H7 Hn i ltac:(lia)) as (FX & RX). destruct (part_ok n H7 Hn j ltac:(lia)) as (FY & RY).
    unfold vec3. set (X := mul I (of_int I i) (div I (one I) (of_int I n))) in *. set (Y := mul I (of_int I j) (div I (one I) (of_int I n))) in *.
    assert (R7 : 7 <= real n) by (apply (IZR_le 7); lia).
    set (q := real i / real n) in *. set (p := real j / real n) in *.
    pose proof (real_pos i) as PI. pose proof (real_pos j) as PJ. pose proof (real_le _ _ Hs) as UI. rewrite real_add in UI.
    pose proof (Rinv_0_lt_compat (real n) ltac:(lra)) as IN.
    assert (Q0 : 0 <= q) by (apply Rmult_le_pos; lra). assert (P0 : 0 <= p) by (apply Rmult_le_pos; lra).
    assert (QP : q + p <= 1).
    { unfold q, p, Rdiv. rewrite <- Rmult_plus_distr_r. apply Rmult_le_reg_r with (real n); [lra|]. rewrite Rmult_assoc, Rinv_l by lra. lra. }
    pose proof (rel_abs_le _ _ _ RX) as AX. rewrite (Rabs_pos_eq q) in AX by lra.
    pose proof (rel_abs_le _ _ _ RY) as AY. rewrite (Rabs_pos_eq p) in AY by lra.
    assert (UQ : 2.01 * u * q + 2.01 * u * p <= 2.01 * u).
    { replace (2.01 * u * q + 2.01 * u * p) with (2.01 * u * (q + p)) by ring. rewrite <- (Rmult_1_r (2.01 * u)) at 2. apply Rmult_le_compat_l; lra. }
    assert (UQ0 : 0 <= 2.01 * u * q) by (apply Rmult_le_pos; lra). assert (UP0 : 0 <= 2.01 * u * p) by (apply Rmult_le_pos; lra).
    apply Rabs_le_inv in AX as BX. apply Rabs_le_inv in AY as BY.
    destruct (minus_ok (one I) X F1 FX) as (FD & VD); [rewrite V1; apply Rabs_le; lra|]. rewrite V1 in VD.
    assert (AD : Rabs (B2R (sub I (one I) X : float) - (1 - B2R (X : float))) <= 1.001 * u).
    { cbn [sub ieee]. rewrite VD.
      destruct (rnd_plus 1 (- B2R (X : float))) as (d & D & R); [rewrite <- V1; apply generic_format_B2R|apply generic_format_opp, generic_format_B2R|].
      change (1 - B2R (X : float)) with (1 + - B2R (X : float)). rewrite R.
      replace ((1 + - B2R (X : float)) * (1 + d) - (1 + - B2R (X : float))) with ((1 + - B2R (X : float)) * d) by ring.
      rewrite Rabs_mult. apply Rmult_le_compat; try apply Rabs_pos; [apply Rabs_le; lra|exact D]. }
    change (Bminus mode_NE (one I) X) with (sub I (one I) X) in FD. set (D1 := sub I (one I) X) in *. apply Rabs_le_inv in AD as BD.
    destruct (minus_ok D1 Y FD FY) as (FZ & VZ); [apply Rle_trans with (2 := B10); apply Rabs_le; lra|].
    assert (AZ' : Rabs (B2R (sub I D1 Y : float) - (B2R (D1 : float) - B2R (Y : float))) <= 1.001 * u).
    { cbn [sub ieee]. rewrite VZ.
      destruct (rnd_plus (B2R (D1 : float)) (- B2R (Y : float))) as (d & D & R); [apply generic_format_B2R|apply generic_format_opp, generic_format_B2R|].
      change (B2R (D1 : float) - B2R (Y : float)) with (B2R (D1 : float) + - B2R (Y : float)). rewrite R.
      replace ((B2R (D1 : float) + - B2R (Y : float)) * (1 + d) - (B2R (D1 : float) + - B2R (Y : float))) with ((B2R (D1 : float) + - B2R (Y : float)) * d) by ring.
      rewrite Rabs_mult. apply Rmult_le_compat; try apply Rabs_pos; [apply Rabs_le; lra|exact D]. }
    change (Bminus mode_NE D1 Y) with (sub I D1 Y) in FZ. set (Z := sub I D1 Y) in *. apply Rabs_le_inv in AZ' as BZ'.
    assert (AZ : Rabs (B2R (Z : float) - (1 - q - p)) <= 4.1 * u) by (apply Rabs_le; lra).
    assert (AX2 : Rabs (B2R (X : float) - q) <= 2.01 * u) by lra. assert (AY2 : Rabs (B2R (Y : float) - p) <= 2.01 * u) by lra.
    apply Rabs_le_inv in AZ as BZ. apply Rabs_le_inv in AX2 as BX2. apply Rabs_le_inv in AY2 as BY2.
    destruct (sign_mult sx X FX) as (FA & VA); [apply Rle_trans with (2 := B10); apply Rabs_le; lra|].
    destruct (sign_mult sy Y FY) as (FB & VB); [apply Rle_trans with (2 := B10); apply Rabs_le; lra|].
    destruct (sign_mult sz Z FZ) as (FC & VC); [apply Rle_trans with (2 := B10); apply Rabs_le; lra|].
    set (a := mul I (sign I sx) X) in *. set (b := mul I (sign I sy) Y) in *. set (c := mul I (sign I sz) Z) in *.
    assert (SG : forall s x m, Rabs x <= m -> Rabs (sg s * x) <= m).
    { intros s x m Hx. rewrite Rabs_mult. replace (Rabs (sg s)) with 1 by (destruct s; unfold sg; [rewrite Rabs_left by lra|rewrite Rabs_pos_eq by lra]; lra). lra. }
    assert (AA : Rabs (B2R (a : float)) <= 1.01) by (rewrite VA; apply SG, Rabs_le; lra).
    assert (AB : Rabs (B2R (b : float)) <= 1.01) by (rewrite VB; apply SG, Rabs_le; lra).
    assert (AC : Rabs (B2R (c : float)) <= 1.01) by (rewrite VC; apply SG, Rabs_le; lra).
    destruct (square_ok a FA ltac:(lra)) as (FA2 & BA2 & EA2). destruct (square_ok b FB ltac:(lra)) as (FB2 & BB2 & EB2).
    destruct (square_ok c FC ltac:(lra)) as (FC2 & BC2 & EC2).
    set (a2 := B2R (a : float) * B2R (a : float)) in *. set (b2 := B2R (b : float) * B2R (b : float)) in *. set (c2 := B2R (c : float) * B2R (c : float)) in *.
    assert (A20 : 0 <= a2) by apply Rle_0_sqr. assert (B20 : 0 <= b2) by apply Rle_0_sqr. assert (C20 : 0 <= c2) by apply Rle_0_sqr.
    assert (UC : 0 <= u * c2) by (apply Rmult_le_pos; lra).
    destruct (sum_ok _ _ a2 b2 1 1 FA2 FB2 ltac:(lra) ltac:(lra) ltac:(lra) ltac:(lra) A20 B20 ltac:(lra) ltac:(lra)) as (FT1 & BT1 & ET1).
    destruct (sum_ok _ _ (a2 + b2) c2 2.001 3 FT1 FC2 ltac:(lra) ltac:(lra) ltac:(lra) ltac:(lra) ltac:(lra) C20
      ltac:(lra) ltac:(lra)) as (FT & BT & ET).
    set (T := add I (add I (mul I a a) (mul I b b)) (mul I c c)) in *. set (Q := a2 + b2 + c2) in *.
    assert (QE : Q = B2R (X : float) * B2R (X : float) + B2R (Y : float) * B2R (Y : float) + B2R (Z : float) * B2R (Z : float)).
    { unfold Q, a2, b2, c2. rewrite VA, VB, VC.
      replace (sg sx * B2R (X : float) * (sg sx * B2R (X : float))) with (sg sx * sg sx * (B2R (X : float) * B2R (X : float))) by ring.
      replace (sg sy * B2R (Y : float) * (sg sy * B2R (Y : float))) with (sg sy * sg sy * (B2R (Y : float) * B2R (Y : float))) by ring.
      replace (sg sz * B2R (Z : float) * (sg sz * B2R (Z : float))) with (sg sz * sg sz * (B2R (Z : float) * B2R (Z : float))) by ring. rewrite !sg_sq. ring. }
    assert (QL : 0.33 <= Q <= 2.1).
    { rewrite QE. set (x := B2R (X : float)) in *. set (y := B2R (Y : float)) in *. set (z := B2R (Z : float)) in *. split.
      - pose proof (Rle_0_sqr (x - y)) as S1. pose proof (Rle_0_sqr (x - z)) as S2. pose proof (Rle_0_sqr (y - z)) as S3. unfold Rsqr in *.
        assert (SS : 0.999 * 0.999 <= (x + y + z) * (x + y + z)) by (apply Rmult_le_compat; lra). lra.
      - assert (0 <= x * y + x * z + y * z + 0.01).
        { assert (0 <= (x + 0.001) * (y + 0.001)) by (apply Rmult_le_pos; lra). assert (0 <= (x + 0.001) * (z + 0.001)) by (apply Rmult_le_pos; lra).
          assert (0 <= (y + 0.001) * (z + 0.001)) by (apply Rmult_le_pos; lra). lra. }
        assert (SS : (x + y + z) * (x + y + z) <= 1.01 * 1.01) by (apply Rmult_le_compat; lra). lra. }
    assert (RT : rel (B2R (T : float)) Q (3.2 * u)).
    { exists ((B2R (T : float) - Q) / Q). split; [|field; lra]. unfold Rdiv. rewrite Rabs_mult, Rabs_inv, (Rabs_pos_eq Q) by lra.
      apply Rmult_le_reg_r with Q; [lra|]. rewrite Rmult_assoc, Rinv_l, Rmult_1_r by lra. apply Rle_trans with (1 := ET).
      assert (u * 0.33 <= u * Q) by (apply Rmult_le_compat_l; lra). lra. }
    destruct (scale_ok T Q FT ltac:(lra) RT) as (FK & RK). set (k := div I (one I) (root I T)) in *.
    assert (SQ : 0.57 <= sqrt Q <= 1.5).
    { split; [rewrite <- (sqrt_square 0.57) by lra; apply sqrt_le_1_alt; lra|rewrite <- (sqrt_square 1.5) by lra; apply sqrt_le_1_alt; lra]. }
    assert (ISQ : 0 <= / sqrt Q <= 2). { split; [apply Rlt_le, Rinv_0_lt_compat; lra|apply Rle_trans with (/ 0.57); [apply Rinv_le; lra|lra]]. }
    assert (LQ : sqrt Q = len3 (B2R (a : float)) (B2R (b : float)) (B2R (c : float))) by reflexivity.
    assert (NRM : forall v, Rabs v <= sqrt Q -> Rabs v * / sqrt Q <= 1.01).
    { intros v Hv. apply Rmult_le_reg_r with (sqrt Q); [lra|]. rewrite Rmult_assoc, Rinv_l by lra. lra. }
    pose proof (NRM _ (abs_le_len (B2R (a : float)) (B2R (b : float)) (B2R (c : float)))) as NA.
    assert (LB : Rabs (B2R (b : float)) <= sqrt Q) by (rewrite LQ, len3_rot; apply abs_le_len). pose proof (NRM _ LB) as NB.
    assert (LC : Rabs (B2R (c : float)) <= sqrt Q) by (rewrite LQ, <- len3_rot; apply abs_le_len). pose proof (NRM _ LC) as NC.
    destruct (scaled_ok a k (/ sqrt Q) FA FK ltac:(lra) NA ltac:(lra) RK) as (FO1 & EO1).
    destruct (scaled_ok b k (/ sqrt Q) FB FK ltac:(lra) NB ltac:(lra) RK) as (FO2 & EO2).
    destruct (scaled_ok c k (/ sqrt Q) FC FK ltac:(lra) NC ltac:(lra) RK) as (FO3 & EO3).
    exists (mul I a k), (mul I b k), (mul I c k). split; [reflexivity|]. split; [exact FO1|]. split; [exact FO2|]. split; [exact FO3|].
    set (o1 := B2R (mul I a k : float)) in *. set (o2 := B2R (mul I b k : float)) in *. set (o3 := B2R (mul I c k : float)) in *. cbv zeta.
    set (l := len3 q p (1 - q - p)).
    replace (o1 - sg sx * q / l) with ((o1 - B2R (a : float) * / sqrt Q) + (B2R (a : float) * / sqrt Q - sg sx * q / l)) by ring.
    replace (o2 - sg sy * p / l) with ((o2 - B2R (b : float) * / sqrt Q) + (B2R (b : float) * / sqrt Q - sg sy * p / l)) by ring.
    replace (o3 - sg sz * (1 - q - p) / l) with ((o3 - B2R (c : float) * / sqrt Q) + (B2R (c : float) * / sqrt Q - sg sz * (1 - q - p) / l)) by ring.
    apply Rle_trans with (1 := len3_triang _ _ _ _ _ _). pose proof (Rle_0_sqr u) as SU. unfold Rsqr in SU.
    assert (P1 : len3 (o1 - B2R (a : float) * / sqrt Q) (o2 - B2R (b : float) * / sqrt Q) (o3 - B2R (c : float) * / sqrt Q) <= 11.5 * u).
    { apply (len3_le _ _ _ (6.5 * u) (6.5 * u) (6.5 * u)); [exact EO1|exact EO2|exact EO3|lra|]. lra. }
    assert (P2 : len3 (B2R (a : float) * / sqrt Q - sg sx * q / l) (B2R (b : float) * / sqrt Q - sg sy * p / l) (B2R (c : float) * / sqrt Q - sg sz * (1 - q - p) / l) <= 9 * u).
    { rewrite VA, VB, VC. replace (sg sx * B2R (X : float) * / sqrt Q - sg sx * q / l) with (sg sx * (B2R (X : float) / sqrt Q - q / l)) by (unfold Rdiv; ring).
      replace (sg sy * B2R (Y : float) * / sqrt Q - sg sy * p / l) with (sg sy * (B2R (Y : float) / sqrt Q - p / l)) by (unfold Rdiv; ring).
      replace (sg sz * B2R (Z : float) * / sqrt Q - sg sz * (1 - q - p) / l) with (sg sz * (B2R (Z : float) / sqrt Q - (1 - q - p) / l)) by (unfold Rdiv; ring).
      rewrite len3_sg.
      pose proof (len3_part q p (1 - q - p) ltac:(lra)) as LP. fold l in LP.
      pose proof (pos_of_sq _ (/ 3) (len3_pos q p (1 - q - p)) ltac:(lra) LP) as PL. fold l in PL.
      assert (QQ : sqrt Q * sqrt Q = Q) by (apply sqrt_sqrt; lra).
      pose proof (chord (B2R (X : float)) (B2R (Y : float)) (B2R (Z : float)) q p (1 - q - p) (sqrt Q) l ltac:(lra) PL ltac:(lra) ltac:(unfold l; rewrite len3_sq; ring)) as C.
      pose proof (mul_ge 0.33 (sqrt Q) l ltac:(lra) ltac:(lra) ltac:(lra) ltac:(lra) ltac:(lra)) as M.
      match type of C with _ <= ?E / _ => set (E0 := E) in * end.
      assert (EB : 0 <= E0 <= 25 * (u * u)).
      { pose proof (sq_le _ _ AX2) as S1. pose proof (sq_le _ _ AY2) as S2. pose proof (sq_le _ _ AZ) as S3. unfold E0. lra. }
      assert (EC : E0 / (sqrt Q * l) <= 76 * (u * u)).
      { apply Rle_trans with (1 := div_le E0 (sqrt Q * l) 0.33 ltac:(lra) M ltac:(lra)). unfold Rdiv. lra. }
      unfold len3. apply Rle_trans with (sqrt ((9 * u) * (9 * u))); [|rewrite sqrt_square by lra; apply Rle_refl]. apply sqrt_le_1_alt. lra. }
    lra.
  Qed.
End Fp.
