(** The compile-time arc tangent. *)
From Coq Require Import ZArith Bool List Reals Lra Lia Psatz.
From Flocq Require Import Core BinarySingleNaN Relative Plus_error.
From Verif Require Import FpModel FpProofs FpProofs2 TrigSpec TrigProofs2 TrigProofs3 TrigProofs4 TrigProofs5 TrigProofs7 ArcModel ArcSpec ArcProofs ArcProofs2.
Local Open Scope R_scope.

Lemma atan_lip a b : Rabs (atan a - atan b) <= Rabs (a - b).
Proof.
  assert (G : forall a b, a < b -> Rabs (atan b - atan a) <= Rabs (b - a)).
  { clear. intros a b H. destruct (MVT_cor2 atan (fun x => / (1 + x ^ 2)) a b H (fun x _ => derivable_pt_lim_atan x)) as (x & E & _). rewrite E, Rabs_mult.
    assert (P := sq_pos x). replace (1 + x ^ 2) with (1 + x * x) by ring. rewrite <- (Rmult_1_l (Rabs (b - a))) at 2. apply Rmult_le_compat_r; [apply Rabs_pos|].
    rewrite Rabs_pos_eq by (left; now apply Rinv_0_lt_compat). rewrite <- Rinv_1. apply Rinv_le_contravar; [lra|]. pose proof (Rle_0_sqr x) as S. unfold Rsqr in S. lra. }
  destruct (Rtotal_order a b) as [L|[->|L]]; [rewrite Rabs_minus_sym, (Rabs_minus_sym a); now apply G|rewrite !Rminus_diag_eq by reflexivity; lra|now apply G].
Qed.
Lemma sqrt3 : 1.7320508 < sqrt 3 < 1.7320509.
Proof. split; [rewrite <- (sqrt_square 1.7320508)|rewrite <- (sqrt_square 1.7320509)]; try lra; apply sqrt_lt_1; lra. Qed.
Lemma sqrt3_sq : sqrt 3 * sqrt 3 = 3. Proof. apply sqrt_sqrt. lra. Qed.
(** The reduction *)
Definition shift (w : R) : R := (sqrt 3 * w - 1) / (sqrt 3 + w).
Lemma atan_shift_eq w : 0 <= w <= 1 -> atan w = PI / 6 + atan (shift w).
Proof.
  intros W. pose proof sqrt3 as S. pose proof sqrt3_sq as S2. pose proof PI_bounds as B.
  assert (A6 : atan (/ sqrt 3) = PI / 6). { rewrite <- (atan_tan (PI / 6)) by lra. f_equal. rewrite tan_PI6. field. lra. }
  assert (I : 0 < / sqrt 3 < 1). { split; [apply Rinv_0_lt_compat; lra|]. rewrite <- Rinv_1. apply Rinv_lt_contravar; lra. }
  assert (E : atan_sub w (/ sqrt 3) = shift w). { unfold atan_sub, shift. field. repeat split; try lra. }
  rewrite <- A6, <- E. apply atan_sub_correct.
  - apply Rgt_not_eq. assert (0 <= w * / sqrt 3) by (apply Rmult_le_pos; lra). lra.
  - rewrite A6. assert (0 <= atan w <= PI / 4).
    { split; [rewrite <- atan_0; destruct (Req_dec w 0) as [->|]; [lra|left; apply atan_increasing; lra]|rewrite <- atan_1; destruct (Req_dec w 1) as [->|]; [lra|left; apply atan_increasing; lra]]. }
    lra.
  - apply Ratan.atan_bound.
Qed.
Lemma shift_low w : 0 <= w <= 1 -> shift w + (2 - sqrt 3) = 2 * (w - (2 - sqrt 3)) / (sqrt 3 + w).
Proof. intros W. pose proof sqrt3. pose proof sqrt3_sq as Q. unfold shift. apply Rmult_eq_reg_r with (sqrt 3 + w); [field_simplify; lra|lra]. Qed.
Lemma shift_high w : 0 <= w <= 1 -> (2 - sqrt 3) - shift w = (2 * sqrt 3 - 2) * (1 - w) / (sqrt 3 + w).
Proof. intros W. pose proof sqrt3. pose proof sqrt3_sq as Q. unfold shift. apply Rmult_eq_reg_r with (sqrt 3 + w); [field_simplify; lra|lra]. Qed.

Section Atan.
  Variable prec emax : Z.
  Context (prec_gt_0_ : Prec_gt_0 prec).
  Context (prec_lt_emax_ : Prec_lt_emax prec emax).
  Notation float := (binary_float prec emax).
  Notation emin := (3 - emax - prec)%Z.
  Notation fexp := (FLT_exp emin prec).
  Notation rnd := (round radix2 fexp ZnearestE).
  Notation format := (generic_format radix2 fexp).
  Notation u := (bpow radix2 (- prec)).
  Notation eta := (eta prec emax).
  Notation of_Z := (of_Z prec emax _ _).
  Hypothesis prec_ok : (53 <= prec <= 113)%Z.
  Hypothesis emax_ok : (1024 <= emax)%Z.
  Notation "x -. y" := (Bminus mode_NE x y) (at level 50, left associativity).
  Notation "x +. y" := (Bplus mode_NE x y) (at level 50, left associativity).
  Notation "x *! y" := (Bmult mode_NE x y) (at level 40, left associativity).
  Notation "x /! y" := (Bdiv mode_NE x y) (at level 40, left associativity).
  Notation good := (good prec emax).
  Notation series := (atan_series prec emax _ _).

  (** Tiny arguments come back unchanged. *)
  Lemma series_tiny (x : float) : is_finite x = true -> Rabs (B2R x) <= bpow radix2 (-400) -> is_finite (series x) = true /\ B2R (series x) = B2R x.
  Proof using prec_ok emax_ok.
    intros F L. pose proof (u_pos prec) as U0. pose proof (u_tiny prec prec_ok) as Ut. set (X := B2R x) in *. pose proof (Rabs_pos X) as X0. destruct (one_ok prec emax _ _) as [Fo Vo].
    assert (B : forall v, Rabs v <= 1000 -> Rabs v <= bpow radix2 100). { intros v Hv. apply Rle_trans with (1 := Hv). apply Rle_trans with (bpow radix2 10); [cbn; lra|apply bpow_le; lia]. }
    assert (L2 : Rabs X <= / 1000). { apply Rle_trans with (1 := L). apply Rle_trans with (bpow radix2 (-10)); [apply bpow_le; lia|cbn; lra]. }
    assert (L3 : Rabs X * Rabs X <= u / 1000).
    { apply Rle_trans with (bpow radix2 (-400) * bpow radix2 (-400)); [apply Rmult_le_compat; assumption|].
      apply Rle_trans with (bpow radix2 (-10) * u); [rewrite <- !bpow_plus; apply bpow_le; lia|]. replace (u / 1000) with (/ 1000 * u) by (unfold Rdiv; ring). apply Rmult_le_compat_r; [lra|cbn; lra]. }
    assert (M0 : 0 <= Rabs X * Rabs X) by (now apply Rmult_le_pos).
    destruct (mult_ok prec emax _ _ prec_ok emax_ok x x F F) as [F1 V1]. { apply B. fold X. rewrite Rabs_mult. lra. }
    pose proof (rnd_twice prec emax _ (X * X)) as R1. unfold X in R1 at 1 2. rewrite <- V1, Rabs_mult in R1. set (xs := x *! x) in *. pose proof (Rabs_pos (B2R xs)) as P1.
    assert (A1 : rnd (1 + B2R xs) = 1). { apply (absorb prec emax _ prec_ok emax_ok); [rewrite <- Vo; apply generic_format_B2R|]. rewrite Rabs_R1. lra. }
    destruct (plus_ok prec emax _ _ prec_ok emax_ok Bone xs Fo F1) as [F2 V2]. { apply B. rewrite Vo. apply Rle_trans with (1 := Rabs_triang _ _). rewrite Rabs_R1. lra. }
    destruct (plus_ok prec emax _ _ prec_ok emax_ok xs Bone F1 Fo) as [F3 V3]. { apply B. rewrite Vo. apply Rle_trans with (1 := Rabs_triang _ _). rewrite Rabs_R1. lra. }
    rewrite Vo in V2, V3. rewrite Rplus_comm in V3. rewrite A1 in V2, V3.
    destruct (div_ok prec emax _ _ prec_ok emax_ok x (Bone +. xs) F) as [F4 V4]; [rewrite V2; lra|apply B; rewrite V2; unfold Rdiv; rewrite Rinv_1, Rmult_1_r; fold X; lra|].
    rewrite V2 in V4. unfold Rdiv in V4. rewrite Rinv_1, Rmult_1_r in V4. rewrite (round_generic radix2 fexp ZnearestE (B2R x)) in V4 by apply generic_format_B2R.
    destruct (two_int prec emax _ _ prec_ok emax_ok 1 ltac:(lia)) as [F5 V5]. destruct (two_int_one prec emax _ _ prec_ok emax_ok 1 ltac:(lia)) as [F6 V6]. change (2 * 1)%Z with 2%Z in V5. change (2 * 1 + 1)%Z with 3%Z in V6.
    destruct (mult_ok prec emax _ _ prec_ok emax_ok (of_Z 2 *! of_Z 1) xs F5 F1) as [F7 V7]. { apply B. rewrite V5, Rabs_mult, (Rabs_pos_eq 2) by lra. lra. }
    pose proof (rnd_twice prec emax _ (B2R (of_Z 2 *! of_Z 1) * B2R xs)) as R7. rewrite <- V7, V5, Rabs_mult, (Rabs_pos_eq 2) in R7 by lra. set (a := of_Z 2 *! of_Z 1 *! xs) in *.
    destruct (mult_ok prec emax _ _ prec_ok emax_ok (of_Z 2 *! of_Z 1 +. Bone) (xs +. Bone) F6 F3) as [F8 V8]. { apply B. rewrite V6, V3, Rmult_1_r, Rabs_pos_eq by lra. lra. }
    rewrite V6, V3, Rmult_1_r in V8. rewrite (round_generic radix2 fexp ZnearestE 3) in V8. 2:{ apply (int_format prec emax _ prec_ok emax_ok 3). lia. }
    set (d := (of_Z 2 *! of_Z 1 +. Bone) *! (xs +. Bone)) in *. pose proof (Rabs_pos (B2R a)) as Pa.
    assert (Q1 : Rabs (B2R a / B2R d) <= Rabs (B2R a)). { rewrite V8. unfold Rdiv. rewrite Rabs_mult, (Rabs_pos_eq (/ 3)) by lra. lra. }
    destruct (div_ok prec emax _ _ prec_ok emax_ok a d F7) as [F9 V9]; [rewrite V8; lra|apply B; lra|].
    pose proof (rnd_twice prec emax _ (B2R a / B2R d)) as R9. rewrite <- V9 in R9. set (q := a /! d) in *.
    destruct (mult_ok prec emax _ _ prec_ok emax_ok Bone q Fo F9) as [F10 V10]. { apply B. rewrite Vo, Rmult_1_l. lra. }
    rewrite Vo, Rmult_1_l, (round_generic radix2 fexp ZnearestE (B2R q)) in V10 by apply generic_format_B2R. set (t := Bone *! q) in *.
    destruct (plus_ok prec emax _ _ prec_ok emax_ok Bone t Fo F10) as [F11 V11]. { apply B. rewrite Vo. apply Rle_trans with (1 := Rabs_triang _ _). rewrite Rabs_R1, V10. lra. }
    rewrite Vo, (absorb prec emax _ prec_ok emax_ok 1 (B2R t)) in V11; [|rewrite <- Vo; apply generic_format_B2R|rewrite Rabs_R1, V10; lra].
    unfold atan_series. cbv zeta. change 100%nat with (S 99). generalize 99%nat. intros n. cbn [atan_loop]. cbv zeta. fold xs. fold a. fold d. fold q. fold t.
    rewrite Beqb_correct by assumption. rewrite V11, Vo, Req_bool_true by reflexivity.
    destruct (mult_ok prec emax _ _ prec_ok emax_ok (Bone +. t) (x /! (Bone +. xs)) F11 F4) as [F12 V12]. { apply B. rewrite V11, V4, Rmult_1_l. fold X. lra. }
    split; [exact F12|]. rewrite V12, V11, V4, Rmult_1_l. apply round_generic; [apply valid_rnd_N|apply generic_format_B2R].
  Qed.
  (** An arc tangent near its argument *)
  Lemma atan_near v : 0 <= v -> v / (1 + v * v) <= atan v <= v.
  Proof using.
    clear. intros V. pose proof (atan_series_bound 0 v V) as [A B]. cbn [Sa Ta] in *. pose proof (sq_pos v). split; [lra|].
    apply Rle_trans with (v / (1 + v * v) * 1 + v * 1 * yy v); [lra|]. right. unfold yy. field. lra.
  Qed.
  Lemma atan_tiny v : 0 <= v -> v * v <= 0.1 -> v - atan v <= v * v * v.
  Proof using.
    clear. intros V H. pose proof (atan_near v V) as [A _]. assert (v * (1 - v * v) <= v / (1 + v * v)); [|lra]. unfold Rdiv. apply Rmult_le_compat_l; [exact V|].
    pose proof (Rle_0_sqr v) as S. unfold Rsqr in S. apply Rmult_le_reg_r with (1 + v * v); [lra|]. rewrite Rinv_l by lra. assert (0 <= v * v * (v * v)) by (now apply Rmult_le_pos). lra.
  Qed.
  Lemma series_ok (x : float) : is_finite x = true -> 0 < B2R x <= 0.268 -> is_finite (series x) = true /\ rel (B2R (series x)) (atan (B2R x)) (40 * u).
  Proof using prec_ok emax_ok.
    intros F H. destruct (Rle_lt_dec (bpow radix2 (-400)) (B2R x)) as [L|L]; [exact (atan_series_big prec emax _ _ prec_ok emax_ok x F ltac:(lra))|].
    destruct (series_tiny x F ltac:(rewrite Rabs_pos_eq by lra; lra)) as [Fs Vs]. split; [exact Fs|]. rewrite Vs.
    assert (X2 : B2R x * B2R x <= 0.268 * 0.268) by (apply Rmult_le_compat; lra). pose proof (atan_near (B2R x) ltac:(lra)) as [A1 A2]. pose proof (atan_tiny (B2R x) ltac:(lra) ltac:(lra)) as A3.
    pose proof (u_pos prec) as U0.
    assert (A4 : 0.9 * B2R x <= atan (B2R x)). { apply Rle_trans with (2 := A1). rewrite Rmult_comm. unfold Rdiv. apply Rmult_le_compat_l; [lra|]. apply Rle_trans with (/ 1.1); [lra|]. pose proof (sq_pos (B2R x)). apply Rinv_le_contravar; lra. }
    apply rel_abs; [lra|]. rewrite Rabs_pos_eq by lra. rewrite Rabs_pos_eq by lra. apply Rle_trans with (1 := A3).
    assert (L3 : B2R x * B2R x <= u). { apply Rle_trans with (bpow radix2 (-400) * bpow radix2 (-400)); [apply Rmult_le_compat; lra|]. rewrite <- bpow_plus. apply bpow_le. lia. }
    assert (B2R x * B2R x * B2R x <= u * B2R x) by (apply Rmult_le_compat_r; lra). assert (u * (0.9 * B2R x) <= u * atan (B2R x)) by (apply Rmult_le_compat_l; lra). assert (0 <= u * B2R x) by (apply Rmult_le_pos; lra). lra.
  Qed.

  Variable c : arc_constants prec emax.
  Hypothesis c_ok : right_arc_constants prec emax c.
  Notation S3 := (B2R (arc_sqrt_three c)).
  Notation bound := (atan_bound prec emax _ _ c).
  Notation T := (B2R bound).
  Notation atan_shift := (atan_shift prec emax _ _ c).
  Notation atan_naive := (atan_naive prec emax _ _ c).

  Lemma U_small : 0 < u <= 0.0000000000001. Proof using prec_ok. pose proof (u_pos prec). pose proof (u_tiny prec prec_ok). lra. Qed.
  Lemma S3_ok : is_finite (arc_sqrt_three c) = true /\ Rabs (S3 - sqrt 3) <= 1.7321 * u /\ 1.73205 < S3 < 1.73206.
  Proof using prec_ok emax_ok c_ok prec_gt_0_.
    destruct (arc_sqrt_three_right _ _ _ c_ok) as [F V]. pose proof sqrt3. pose proof U_small as U. pose proof (rnd_rel prec emax _ prec_ok emax_ok (sqrt 3) ltac:(lra)) as R. rewrite <- V in R.
    assert (M : u * sqrt 3 <= u * 1.7320509) by (apply Rmult_le_compat_l; lra). apply Rabs_le_inv in R as R'. split; [exact F|]. split; [|lra]. apply Rle_trans with (1 := R). lra.
  Qed.
  Lemma bound_ok : is_finite bound = true /\ T = 2 - S3 /\ Rabs (T - (2 - sqrt 3)) <= 1.7321 * u /\ 0.26794 < T < 0.26795.
  Proof using prec_ok emax_ok c_ok prec_gt_0_.
    destruct S3_ok as (F & E & B). destruct (int_ok prec emax _ _ prec_ok emax_ok 2 ltac:(lia)) as [F2 V2].
    destruct (minus_sterbenz prec emax _ _ prec_ok emax_ok (of_Z 2) (arc_sqrt_three c) F2 F ltac:(rewrite V2; lra)) as [Fm Vm]. rewrite V2 in Vm.
    split; [exact Fm|]. split; [exact Vm|]. unfold atan_bound. rewrite Vm. split; [|lra]. replace (2 - S3 - (2 - sqrt 3)) with (- (S3 - sqrt 3)) by ring. now rewrite Rabs_Ropp.
  Qed.

  (** The rounded reduction *)
  Lemma shift_ok (w : float) : is_finite w = true -> 0.26 <= B2R w <= 1 -> is_finite (atan_shift w) = true /\ Rabs (B2R (atan_shift w) - shift (B2R w)) <= 3.2 * u.
  Proof using prec_ok emax_ok c_ok.
    intros F H. destruct S3_ok as (Fs & Es & Bs). destruct (one_ok prec emax _ _) as [Fo Vo]. pose proof U_small as U. pose proof sqrt3 as S. set (W := B2R w) in *.
    pose proof (eta_u3 prec emax _ _ prec_ok emax_ok) as Eu.
    assert (B : forall v, Rabs v <= 1000 -> Rabs v <= bpow radix2 100). { intros v Hv. apply Rle_trans with (1 := Hv). apply Rle_trans with (bpow radix2 10); [cbn; lra|apply bpow_le; lia]. }
    assert (Ra : forall v, Rabs v <= 1000 -> exists g, rnd v = v + g /\ Rabs g <= u * Rabs v + u / 1000000).
    { intros v _. destruct (rnd_any prec emax _ v) as (d & e & Hd & He & E). exists (v * d + e). split; [rewrite E; ring|]. apply Rle_trans with (1 := Rabs_triang _ _). rewrite Rabs_mult.
      assert (Rabs v * Rabs d <= Rabs v * u) by (apply Rmult_le_compat_l; [apply Rabs_pos|exact Hd]). lra. }
    assert (P : 0 <= S3 * W <= 1.73206) by (split; [apply Rmult_le_pos; lra|apply Rle_trans with (1.73206 * 1); [apply Rmult_le_compat; lra|lra]]).
    destruct (mult_ok prec emax _ _ prec_ok emax_ok (arc_sqrt_three c) w Fs F) as [F1 V1]. { apply B. fold W. rewrite Rabs_pos_eq by lra. lra. }
    fold W in V1. destruct (Ra (S3 * W)) as (g1 & E1 & G1); [rewrite Rabs_pos_eq by lra; lra|]. rewrite (Rabs_pos_eq (S3 * W)) in G1 by lra. rewrite E1 in V1. set (a := arc_sqrt_three c *! w) in *.
    assert (M1 : u * (S3 * W) <= u * 1.73206) by (apply Rmult_le_compat_l; lra). apply Rabs_le_inv in G1.
    apply Rabs_le_inv in Es as Es'. set (e3 := S3 - sqrt 3) in *. replace S3 with (sqrt 3 + e3) in * by (unfold e3; ring).
    assert (M2 : Rabs (e3 * W) <= 1.7321 * u). { rewrite Rabs_mult, (Rabs_pos_eq W) by lra. apply Rle_trans with (1.7321 * u * 1); [apply Rmult_le_compat; try apply Rabs_pos; lra|lra]. } apply Rabs_le_inv in M2.
    assert (Wq : 0 <= sqrt 3 * W <= 1.7320509). { split; [apply Rmult_le_pos; lra|]. apply Rle_trans with (1.7320509 * 1); [apply Rmult_le_compat; lra|lra]. }
    destruct (minus_ok prec emax _ _ prec_ok emax_ok a Bone F1 Fo) as [F2 V2]. { apply B. rewrite Vo, V1. apply Rabs_le. lra. }
    destruct (Ra (B2R a - 1)) as (g2 & E2 & G2); [rewrite V1; apply Rabs_le; lra|]. rewrite Vo in V2. rewrite E2 in V2. set (b := a -. Bone) in *.
    assert (A2 : Rabs (B2R a - 1) <= 1.01) by (rewrite V1; apply Rabs_le; lra). assert (M3 : u * Rabs (B2R a - 1) <= u * 1.01) by (apply Rmult_le_compat_l; lra). apply Rabs_le_inv in G2.
    assert (Nb : Rabs (B2R b - (sqrt 3 * W - 1)) <= 4.5 * u). { rewrite V2, V1. apply Rabs_le. lra. }
    destruct (plus_ok prec emax _ _ prec_ok emax_ok (arc_sqrt_three c) w Fs F) as [F3 V3]. { apply B. fold W. replace S3 with (sqrt 3 + e3) by (unfold e3; ring). apply Rabs_le. lra. }
    fold W in V3. replace S3 with (sqrt 3 + e3) in V3 by (unfold e3; ring).
    destruct (Ra (sqrt 3 + e3 + W)) as (g3 & E3 & G3); [apply Rabs_le; lra|]. rewrite E3 in V3. rewrite (Rabs_pos_eq (sqrt 3 + e3 + W)) in G3 by lra. assert (M4 : u * (sqrt 3 + e3 + W) <= u * 2.733) by (apply Rmult_le_compat_l; lra). apply Rabs_le_inv in G3.
    set (d := arc_sqrt_three c +. w) in *. assert (Nd : Rabs (B2R d - (sqrt 3 + W)) <= 4.5 * u) by (rewrite V3; apply Rabs_le; lra).
    apply Rabs_le_inv in Nb as Nb'. apply Rabs_le_inv in Nd as Nd'. set (n0 := sqrt 3 * W - 1) in *. set (d0 := sqrt 3 + W) in *.
    assert (D0 : 1.992 <= d0 <= 2.7321) by (unfold d0; lra). assert (D1 : 1.9919 <= B2R d <= 2.733) by lra. assert (N0 : -0.55 <= n0 <= 0.7321). { unfold n0. assert (1.7320508 * 0.26 <= sqrt 3 * W) by (apply Rmult_le_compat; lra). lra. }
    assert (Sh : Rabs (shift W) <= 0.2763).
    { unfold shift. fold n0 d0. apply Rabs_le. split; (apply Rmult_le_reg_r with d0; [lra|]); replace (n0 / d0 * d0) with n0 by (field; lra); unfold n0, d0; [|assert (sqrt 3 * W <= 1.7320509 * W) by (apply Rmult_le_compat_r; lra); lra].
      assert (1.7320508 * 0.26 <= sqrt 3 * W) by (apply Rmult_le_compat; lra). lra. }
    assert (Qd : Rabs (B2R b / B2R d - shift W) <= 2.9 * u).
    { replace (B2R b / B2R d - shift W) with (((B2R b - n0) - shift W * (B2R d - d0)) * / B2R d) by (unfold shift; fold n0 d0; field; lra).
      rewrite Rabs_mult, (Rabs_pos_eq (/ B2R d)) by (left; apply Rinv_0_lt_compat; lra).
      assert (I : / B2R d <= 0.5021). { apply Rle_trans with (/ 1.9919); [apply Rinv_le_contravar; lra|lra]. }
      assert (N : Rabs (B2R b - n0 - shift W * (B2R d - d0)) <= 4.5 * u + 0.2763 * (4.5 * u)).
      { apply Rle_trans with (1 := Rabs_triang _ _). rewrite Rabs_Ropp, Rabs_mult. apply Rplus_le_compat; [exact Nb|]. apply Rmult_le_compat; try apply Rabs_pos; assumption. }
      apply Rle_trans with ((4.5 * u + 0.2763 * (4.5 * u)) * 0.5021); [apply Rmult_le_compat; try apply Rabs_pos; try lra; left; apply Rinv_0_lt_compat; lra|lra]. }
    apply Rabs_le_inv in Qd as Qd'. apply Rabs_le_inv in Sh as Sh'.
    destruct (div_ok prec emax _ _ prec_ok emax_ok b d F2) as [F5 V5]; [lra|apply B, Rabs_le; lra|].
    destruct (Ra (B2R b / B2R d)) as (g5 & E5 & G5); [apply Rabs_le; lra|]. rewrite E5 in V5.
    assert (A5 : Rabs (B2R b / B2R d) <= 0.277) by (apply Rabs_le; lra). assert (M5 : u * Rabs (B2R b / B2R d) <= u * 0.277) by (apply Rmult_le_compat_l; lra). apply Rabs_le_inv in G5.
    split; [exact F5|]. unfold ArcModel.atan_shift. fold a b d. rewrite V5. apply Rabs_le. lra.
  Qed.
End Atan.
