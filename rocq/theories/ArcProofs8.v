(** The compile-time arc sine: small arguments, and those close to one. *)
From Coq Require Import ZArith Bool List Reals Lra Lia Psatz.
From Flocq Require Import Core BinarySingleNaN Relative Plus_error.
From Verif Require Import FpModel FpProofs FpProofs2 SqrtModel SqrtProofs SqrtProofs2 TrigSpec TrigProofs2 TrigProofs4 TrigProofs5 TrigProofs7 ArcModel ArcSpec ArcProofs ArcProofs2 ArcProofs4 ArcProofs7.
Local Open Scope R_scope.

(** The arc sine of real numbers *)
Lemma sqr0 v : 0 <= v * v. Proof. exact (Rle_0_sqr v). Qed.
Lemma asin_flip_eq x : 0 <= x <= 1 -> asin (sqrt (1 - x * x)) = PI / 2 - asin x.
Proof.
  intros H. pose proof (acos_asin x ltac:(lra)) as E. pose proof (acos_bound x) as B. pose proof (asin_bound x) as A.
  assert (0 <= asin x). { apply Rnot_lt_le. intros N. pose proof PI_bounds. pose proof (sin_lt_0_var (asin x) ltac:(lra) N) as L. rewrite sin_asin in L by lra. lra. }
  assert (S : sin (acos x) = sqrt (1 - x * x)). { rewrite sin_acos by lra. reflexivity. }
  rewrite <- S, asin_sin by lra. exact E.
Qed.
Lemma asin_lip x y : 0 <= x <= 0.7072 -> 0 <= y <= 0.7072 -> Rabs (asin x - asin y) <= 1.4146 * Rabs (x - y).
Proof.
  assert (P : forall x y, 0 <= x < y -> y <= 0.7072 -> 0 <= asin y - asin x <= 1.4146 * (y - x)).
  { clear. intros x y H Y. destruct (MVT_cor2 asin (fun c => / sqrt (1 - c * c)) x y ltac:(lra)) as (c & E & C).
    - intros c C. assert (c * c <= 0.7072 * 0.7072) by (apply Rmult_le_compat; lra). apply asin_lim. lra.
    - rewrite E. assert (c * c <= 0.7072 * 0.7072) by (apply Rmult_le_compat; lra). assert (S : 0.70692 <= sqrt (1 - c * c)). { rewrite <- (sqrt_square 0.70692) by lra. apply sqrt_le_1; lra. }
      assert (I : 0 < / sqrt (1 - c * c) <= 1.4146). { split; [apply Rinv_0_lt_compat; lra|]. apply Rle_trans with (/ 0.70692); [apply Rinv_le_contravar; lra|lra]. }
      split; [apply Rmult_le_pos; lra|apply Rmult_le_compat_r; lra]. }
  intros X Y. destruct (Rtotal_order x y) as [L|[->|L]].
  - pose proof (P x y ltac:(lra) ltac:(lra)) as Q. rewrite (Rabs_minus_sym x), (Rabs_minus_sym (asin x)), !Rabs_pos_eq by lra. lra.
  - rewrite !Rminus_diag_eq, Rabs_R0 by reflexivity. lra.
  - pose proof (P y x ltac:(lra) ltac:(lra)) as Q. rewrite !Rabs_pos_eq by lra. lra.
Qed.
Lemma asin_opp' x : asin (- x) = - asin x.
Proof. apply asin_opp. Qed.
(** The square root of a number close to a square *)
Lemma sqrt_near y S e : 0 <= y -> 0 < S -> Rabs (y - S * S) <= e -> Rabs (sqrt y - S) <= e / S.
Proof.
  intros Y P H. pose proof (sqrt_pos y) as Q. pose proof (sqrt_sqrt y Y) as E. replace (sqrt y - S) with ((y - S * S) / (sqrt y + S)) by (rewrite <- E at 1; field; lra).
  unfold Rdiv. rewrite Rabs_mult, (Rabs_pos_eq (/ (sqrt y + S))) by (left; apply Rinv_0_lt_compat; lra). apply Rmult_le_compat; [apply Rabs_pos|left; apply Rinv_0_lt_compat; lra|exact H|]. apply Rinv_le_contravar; lra.
Qed.

Section Asin.
  Variable prec emax : Z.
  Context (prec_gt_0_ : Prec_gt_0 prec).
  Context (prec_lt_emax_ : Prec_lt_emax prec emax).
  Notation float := (binary_float prec emax).
  Notation emin := (3 - emax - prec)%Z.
  Notation fexp := (FLT_exp emin prec).
  Notation rnd := (round radix2 fexp ZnearestE).
  Notation format := (generic_format radix2 fexp).
  Notation u := (bpow radix2 (- prec)).
  Notation of_Z := (of_Z prec emax _ _).
  Hypothesis prec_ok : (53 <= prec <= 113)%Z.
  Hypothesis emax_ok : (1024 <= emax)%Z.
  Notation "x -. y" := (Bminus mode_NE x y) (at level 50, left associativity).
  Notation "x +. y" := (Bplus mode_NE x y) (at level 50, left associativity).
  Notation "x *! y" := (Bmult mode_NE x y) (at level 40, left associativity).
  Notation "x /! y" := (Bdiv mode_NE x y) (at level 40, left associativity).
  Notation series := (asin_series prec emax _ _).
  Notation flip := (asin_flip prec emax _ _).

  (** The series on the smallest numbers *)
  Lemma aloop_stop n i (x t s : float) : let s' := s +. t *! of_Z i /! of_Z (i + 2) in is_finite s = true -> is_finite s' = true -> B2R s' = B2R s -> asin_loop prec emax _ _ (S n) i x t s = s'.
  Proof using. intros s' F F' E. cbn [asin_loop]. cbv zeta. fold s'. rewrite Beqb_correct by assumption. now rewrite Req_bool_true. Qed.
  Lemma aseries_tiny (x : float) : is_finite x = true -> Rabs (B2R x) <= bpow radix2 (-400) -> is_finite (series x) = true /\ B2R (series x) = B2R x.
  Proof using All.
    intros F L. pose proof (u_pos prec) as U0. pose proof (u_tiny prec prec_ok) as Ut. set (X := B2R x) in *. pose proof (Rabs_pos X) as X0.
    assert (B : forall v, Rabs v <= 1000 -> Rabs v <= bpow radix2 100). { intros v Hv. apply Rle_trans with (1 := Hv). apply Rle_trans with (bpow radix2 10); [cbn; lra|apply bpow_le; lia]. }
    assert (L2 : Rabs X <= / 1000). { apply Rle_trans with (1 := L). apply Rle_trans with (bpow radix2 (-10)); [apply bpow_le; lia|cbn; lra]. }
    assert (L3 : Rabs X * Rabs X <= u / 1000).
    { apply Rle_trans with (bpow radix2 (-400) * bpow radix2 (-400)); [apply Rmult_le_compat; assumption|].
      apply Rle_trans with (bpow radix2 (-10) * u); [rewrite <- !bpow_plus; apply bpow_le; lia|]. replace (u / 1000) with (/ 1000 * u) by (unfold Rdiv; ring). apply Rmult_le_compat_r; [lra|cbn; lra]. }
    destruct (mult_ok prec emax _ _ prec_ok emax_ok x x F F) as [F1 V1]. { apply B. fold X. rewrite Rabs_mult. lra. }
    pose proof (rnd_twice prec emax _ (X * X)) as R1. unfold X in R1 at 1 2. rewrite <- V1, Rabs_mult in R1. set (xs := x *! x) in *. pose proof (Rabs_pos (B2R xs)) as P1.
    assert (M2 : Rabs (B2R xs) * Rabs X <= 2 * (u / 1000) * Rabs X) by (apply Rmult_le_compat_r; [exact X0|fold X in R1; lra]).
    assert (M20 : 0 <= Rabs (B2R xs) * Rabs X) by (now apply Rmult_le_pos). assert (Ux : u * Rabs X <= u * / 1000) by (apply Rmult_le_compat_l; lra). assert (Ux0 : 0 <= u * Rabs X) by (apply Rmult_le_pos; lra).
    destruct (mult_ok prec emax _ _ prec_ok emax_ok xs x F1 F) as [F2 V2]. { apply B. fold X. rewrite Rabs_mult. lra. }
    pose proof (rnd_twice prec emax _ (B2R xs * B2R x)) as R2. rewrite <- V2, Rabs_mult in R2. fold X in R2. set (xc := xs *! x) in *.
    destruct (int_ok prec emax _ _ prec_ok emax_ok 2 ltac:(lia)) as [Fi Vi]. destruct (int_ok prec emax _ _ prec_ok emax_ok 1 ltac:(lia)) as [Fj Vj]. destruct (int_ok prec emax _ _ prec_ok emax_ok 3 ltac:(lia)) as [Fk Vk].
    destruct (div_ok prec emax _ _ prec_ok emax_ok xc (of_Z 2) F2) as [F3 V3]; [rewrite Vi; lra|apply B; rewrite Vi; unfold Rdiv; rewrite Rabs_mult, (Rabs_pos_eq (/ 2)) by lra; lra|].
    pose proof (rnd_twice prec emax _ (B2R xc / B2R (of_Z 2))) as R3. rewrite <- V3, Vi in R3. unfold Rdiv in R3. rewrite Rabs_mult, (Rabs_pos_eq (/ 2)) in R3 by lra. set (t := xc /! of_Z 2) in *.
    destruct (mult_ok prec emax _ _ prec_ok emax_ok t (of_Z 1) F3 Fj) as [F4 V4]. { apply B. rewrite Vj, Rmult_1_r. lra. }
    rewrite Vj, Rmult_1_r in V4. rewrite (round_generic radix2 fexp ZnearestE (B2R t)) in V4 by apply generic_format_B2R. set (t1 := t *! of_Z 1) in *.
    destruct (div_ok prec emax _ _ prec_ok emax_ok t1 (of_Z 3) F4) as [F5 V5]; [rewrite Vk; lra|apply B; rewrite Vk, V4; unfold Rdiv; rewrite Rabs_mult, (Rabs_pos_eq (/ 3)) by lra; lra|].
    pose proof (rnd_twice prec emax _ (B2R t1 / B2R (of_Z 3))) as R5. rewrite <- V5, V4, Vk in R5. unfold Rdiv in R5. rewrite Rabs_mult, (Rabs_pos_eq (/ 3)) in R5 by lra. set (a := t1 /! of_Z 3) in *.
    assert (A : rnd (X + B2R a) = X). { apply (absorb prec emax _ prec_ok emax_ok); [apply generic_format_B2R|]. lra. }
    destruct (plus_ok prec emax _ _ prec_ok emax_ok x a F F5) as [F6 V6]. { apply B. fold X. apply Rle_trans with (1 := Rabs_triang _ _). lra. }
    fold X in V6. rewrite A in V6. assert (Q : series x = x +. a) by exact (aloop_stop 99 1 x t x F F6 V6). rewrite Q. now split.
  Qed.
  (** The series on all numbers it is used for *)
  Lemma aseries_ok (x : float) : is_finite x = true -> B2R x * B2R x <= 0.5 * (1 + 4 * u) -> is_finite (series x) = true /\ Rabs (B2R (series x) - asin (B2R x)) <= 122 * u * Rabs (asin (B2R x)).
  Proof using All.
    intros F H. pose proof (u_pos prec) as U0. pose proof (u_tiny prec prec_ok) as Ut.
    assert (T : Rabs (B2R x) <= bpow radix2 (-400) -> is_finite (series x) = true /\ B2R (series x) = B2R x) by exact (aseries_tiny x F).
    assert (G : forall g, g = 1 \/ g = -1 -> bpow radix2 (-400) <= g * B2R x -> g * B2R x * (g * B2R x) <= 0.5 * (1 + 4 * u) -> is_finite (series x) = true /\ Rabs (g * B2R (series x) - asin (g * B2R x)) <= 122 * u * asin (g * B2R x)).
    { intros g Hg. exact (asin_series_big prec emax _ _ prec_ok emax_ok x g Hg F). }
    revert T G. generalize (series x). intros v T G. destruct (Rle_or_lt (Rabs (B2R x)) (bpow radix2 (-400))) as [L|L].
    - destruct (T L) as [Fs Vs]. split; [exact Fs|]. rewrite Vs.
      assert (P : forall v, 0 <= v <= bpow radix2 (-400) -> Rabs (v - asin v) <= 122 * u * Rabs (asin v)).
      { clear - prec_ok U0. intros v V. assert (V2 : v * v <= u / 1000). { apply Rle_trans with (bpow radix2 (-400) * bpow radix2 (-400)); [apply Rmult_le_compat; lra|].
          apply Rle_trans with (bpow radix2 (-10) * u); [rewrite <- !bpow_plus; apply bpow_le; lia|]. replace (u / 1000) with (/ 1000 * u) by (unfold Rdiv; ring). apply Rmult_le_compat_r; [lra|cbn; lra]. }
        pose proof (u_tiny prec prec_ok) as Ut. pose proof (asin_series_bound 0 v ltac:(lra) ltac:(lra)) as B. unfold Sb, pb, bb in B. cbn [INR] in B. replace (v * 1 / (2 * 0 + 1)) with v in B by field.
        rewrite (Rabs_pos_eq (asin v)) by lra. rewrite Rabs_minus_sym, Rabs_pos_eq by lra. assert (4.3 * (v * v) * v <= 122 * u * v) by (apply Rmult_le_compat_r; lra). assert (122 * u * v <= 122 * u * asin v) by (apply Rmult_le_compat_l; lra). lra. }
      destruct (Rle_or_lt 0 (B2R x)) as [N|N].
      + apply P. rewrite Rabs_pos_eq in L by lra. lra.
      + rewrite Rabs_left in L by lra. specialize (P (- B2R x) ltac:(lra)). rewrite asin_opp, Rabs_Ropp in P. replace (B2R x - asin (B2R x)) with (- (- B2R x - - asin (B2R x))) by ring. rewrite Rabs_Ropp. exact P.
    - destruct (Rle_or_lt 0 (B2R x)) as [N|N].
      + rewrite Rabs_pos_eq in L by lra. destruct (G 1 ltac:(now left) ltac:(lra) ltac:(lra)) as [Fs Vs]. rewrite !Rmult_1_l in Vs. split; [exact Fs|]. apply Rle_trans with (1 := Vs). apply Rmult_le_compat_l; [lra|apply Rle_abs].
      + rewrite Rabs_left in L by lra. destruct (G (-1) ltac:(now right) ltac:(lra) ltac:(lra)) as [Fs Vs]. replace (-1 * B2R x) with (- B2R x) in Vs by ring. rewrite asin_opp in Vs.
        split; [exact Fs|]. rewrite <- Rabs_Ropp. replace (- (B2R v - asin (B2R x))) with (-1 * B2R v - - asin (B2R x)) by ring. apply Rle_trans with (1 := Vs). apply Rmult_le_compat_l; [lra|]. rewrite <- Rabs_Ropp. apply Rle_abs.
  Qed.

  (** Half a unit below one *)
  Lemma half_u v : 0 < v < 1 -> bpow radix2 (-20) <= v -> Rabs (rnd v - v) <= u / 2.
  Proof using All.
    intros V L. apply Rle_trans with (1 := error_le_half_ulp radix2 fexp (fun z => negb (Z.even z)) v). rewrite ulp_neq_0 by lra. unfold cexp, FLT_exp. replace (u / 2) with (/ 2 * u) by (unfold Rdiv; ring). apply Rmult_le_compat_l; [lra|]. apply bpow_le.
    assert (M1 : (mag radix2 v <= 0)%Z). { apply mag_le_bpow; [lra|]. rewrite Rabs_pos_eq by lra. cbn. lra. }
    lia.
  Qed.
  Lemma below_one v : format v -> 0 < v < 1 -> v <= 1 - u.
  Proof using All.
    intros F V. assert (F1 : format 1). { change 1 with (bpow radix2 0). apply generic_format_bpow. unfold FLT_exp. lia. }
    pose proof (pred_ge_gt radix2 fexp v 1 F F1 ltac:(lra)) as P. apply Rle_trans with (1 := P). change 1 with (bpow radix2 0). rewrite pred_bpow. unfold FLT_exp. rewrite Z.max_l by lia. right. f_equal.
  Qed.
  Lemma half_format : format (/ 2).
  Proof using All. change (/ 2) with (bpow radix2 (-1)). apply generic_format_bpow. unfold FLT_exp. lia. Qed.
  (** One, less twice a short distance *)
  Lemma twice_format v : format v -> 0.7 <= v < 1 -> 0.5 <= 2 * v - 1 -> format (2 * v - 1).
  Proof using All.
    intros F V H. assert (C : forall w, 0.5 <= w < 1 -> cexp radix2 fexp w = (- prec)%Z).
    { clear - prec_ok emax_ok. intros w W. unfold cexp, FLT_exp. assert (M : (mag radix2 w = 0 :> Z)%Z). { apply mag_unique. rewrite Rabs_pos_eq by lra. cbn. lra. } rewrite M. lia. }
    rewrite F. unfold F2R. cbn [Fnum Fexp]. rewrite C by lra. set (m := Ztrunc _). pose proof (bpow_plus radix2 prec (- prec)) as Q. rewrite Z.add_opp_diag_r in Q. change (bpow radix2 0) with 1 in Q. rewrite <- (IZR_Zpower radix2 prec) in Q by lia.
    set (M := (2 * m - Zpower radix2 prec)%Z). replace (2 * (IZR m * u) - 1) with (F2R (Float radix2 M (- prec))).
    2:{ unfold F2R, M. cbn [Fnum Fexp]. rewrite minus_IZR, mult_IZR. lra. }
    apply generic_format_F2R. intros _. rewrite C; [lia|]. unfold F2R, M. cbn [Fnum Fexp]. rewrite minus_IZR, mult_IZR. 
    assert (E : v = IZR m * u). { rewrite F at 1. unfold F2R. cbn [Fnum Fexp]. rewrite C by lra. reflexivity. } rewrite E in *. lra.
  Qed.

  Variable c : arc_constants prec emax.
  Hypothesis c_ok : right_arc_constants prec emax c.
  Notation r := (1 / sqrt 2).
  Notation T := (B2R (arc_one_over_sqrt_two c)).
  Lemma r_facts : 0.70710678 <= r <= 0.70710679 /\ r * r = 0.5.
  Proof using.
    assert (S : 1.41421356 <= sqrt 2 <= 1.41421357). { split; [rewrite <- (sqrt_square 1.41421356)|rewrite <- (sqrt_square 1.41421357)]; try lra; apply sqrt_le_1; lra. }
    assert (E : r = sqrt 2 / 2). { pose proof (sqrt_sqrt 2 ltac:(lra)) as Q. apply Rmult_eq_reg_r with (2 * sqrt 2); [|lra]. replace (1 / sqrt 2 * (2 * sqrt 2)) with 2 by (field; lra). replace (sqrt 2 / 2 * (2 * sqrt 2)) with (sqrt 2 * sqrt 2) by field. lra. }
    rewrite E. pose proof (sqrt_sqrt 2 ltac:(lra)). split; lra.
  Qed.
  Lemma T_facts : is_finite (arc_one_over_sqrt_two c) = true /\ Rabs (T - r) <= u / 2 /\ T * T <= 0.5 * (1 + 4 * u).
  Proof using All.
    destruct (arc_one_over_sqrt_two_right _ _ _ c_ok) as [F V]. destruct r_facts as [B Q]. pose proof (u_pos prec) as U0. pose proof (u_tiny prec prec_ok) as Ut.
    assert (H : Rabs (T - r) <= u / 2). { rewrite V. apply half_u; [lra|]. apply Rle_trans with (bpow radix2 (-1)); [apply bpow_le; lia|cbn; lra]. }
    split; [exact F|]. split; [exact H|]. apply Rabs_le_inv in H. apply Rle_trans with ((r + u / 2) * (r + u / 2)); [apply Rmult_le_compat; lra|]. assert (Sq : forall a, (a + u / 2) * (a + u / 2) = a * a + a * u + u * u / 4) by (intros; field). rewrite Sq. assert (u * u <= 0.001 * u) by (apply Rmult_le_compat_r; lra). assert (r * u <= 0.71 * u) by (apply Rmult_le_compat_r; lra). lra.
  Qed.
  Lemma above_T v : format v -> T < v -> r <= v.
  Proof using All.
    intros F L. destruct (arc_one_over_sqrt_two_right _ _ _ c_ok) as [_ V]. apply Rnot_lt_le. intros N. destruct (round_N_pt radix2 fexp (fun z => negb (Z.even z)) r) as [_ H]. specialize (H v F). fold rnd in H. rewrite <- V in H.
    rewrite Rabs_left in H by lra. rewrite Rabs_left in H by lra. lra.
  Qed.

  (** The other leg of the triangle *)
  Lemma flip_ok (x : float) : is_finite x = true -> T < Rabs (B2R x) < 1 -> let S := sqrt (1 - B2R x * B2R x) in
    exists s, flip x = Some s /\ is_finite s = true /\ 0 < B2R s /\ 0 < S <= r /\ Rabs (B2R s - S) <= 0.4583 * sqrt (u * sqrt u) + 1.42 * u /\ (0.5 <= S -> B2R s <= S + 2.5 * u) /\ (S <= 0.5 -> B2R s <= 0.51).
  Proof using All.
    intros F H S. destruct r_facts as [Br Qr]. pose proof (u_pos prec) as U0. pose proof (u_tiny prec prec_ok) as Ut. set (a := Rabs (B2R x)) in *.
    assert (Fa : format a) by (apply generic_format_abs, generic_format_B2R). pose proof (above_T a Fa (proj1 H)) as La. assert (Ea : B2R x * B2R x = a * a). { unfold a. rewrite <- Rabs_mult. symmetry. apply Rabs_pos_eq. apply sqr0. }
    assert (A2 : 0.5 <= a * a). { rewrite <- Qr. apply Rmult_le_compat; lra. } pose proof (below_one a Fa ltac:(lra)) as Ha.
    assert (A2h : a * a <= (1 - u) * (1 - u)) by (apply Rmult_le_compat; lra). assert (A2h' : a * a < 1). { assert (u * u <= 0.001 * u) by (apply Rmult_le_compat_r; lra). lra. }
    destruct (mult_ok prec emax _ _ prec_ok emax_ok x x F F) as [F1 V1]. { rewrite Ea, Rabs_pos_eq by lra. apply Rle_trans with (bpow radix2 0); [cbn; lra|apply bpow_le; lia]. }
    rewrite Ea in V1. set (v := B2R (x *! x)) in *. assert (G1 : Rabs (v - a * a) <= u / 2). { rewrite V1. apply half_u; [lra|]. apply Rle_trans with (bpow radix2 (-1)); [apply bpow_le; lia|cbn; lra]. }
    assert (Vl : 0.5 <= v). { rewrite V1. replace 0.5 with (/ 2) by lra. apply round_ge_generic; [apply FLT_exp_valid; exact prec_gt_0_|apply valid_rnd_N|apply half_format|lra]. }
    assert (Vh : v <= 1 - u). { rewrite V1. apply round_le_generic; [apply FLT_exp_valid; exact prec_gt_0_|apply valid_rnd_N| |assert (u * u <= 0.001 * u) by (apply Rmult_le_compat_r; lra); lra].
      assert (F11 : format 1) by (change 1 with (bpow radix2 0); apply generic_format_bpow; unfold FLT_exp; lia).
      replace (1 - u) with (pred radix2 fexp 1); [apply generic_format_pred; [apply FLT_exp_valid; exact prec_gt_0_|exact F11]|]. change 1 with (bpow radix2 0). rewrite pred_bpow. unfold FLT_exp. rewrite Z.max_l by lia. reflexivity. }
    set (d := 1 - a) in *.
    assert (G2 : Rabs (v - a * a) <= d * d).
    { destruct (Rle_or_lt 0.5 (2 * a - 1)) as [K|K].
      - pose proof (twice_format a Fa ltac:(lra) K) as Ft. destruct (round_N_pt radix2 fexp (fun z => negb (Z.even z)) (a * a)) as [_ N]. specialize (N _ Ft). fold rnd in N. rewrite <- V1 in N. apply Rle_trans with (1 := N). replace (2 * a - 1 - a * a) with (- (d * d)) by (unfold d; ring). rewrite Rabs_Ropp, Rabs_pos_eq by apply sqr0. lra.
      - apply Rle_trans with (1 := G1). assert (0.25 * 0.25 <= d * d) by (apply Rmult_le_compat; unfold d; lra). lra. }
    destruct (one_ok prec emax _ _) as [Fo Vo]. destruct (minus_sterbenz prec emax _ _ prec_ok emax_ok Bone (x *! x) Fo F1) as [F2 V2]. { rewrite Vo. fold v. lra. } rewrite Vo in V2. fold v in V2. set (y := Bone -. x *! x) in *.
    destruct (sqrt_naive_ok prec emax _ _ ltac:(lia) ltac:(lia) y F2) as (s & Es & Fs & Ds). { rewrite V2. split; [apply Rle_trans with u; [apply bpow_le; lia|lra]|apply Rle_trans with (bpow radix2 0); [cbn; lra|apply bpow_le; lia]]. }
    exists s. split; [exact Es|]. split; [exact Fs|]. rewrite V2 in Ds.
    assert (Y0 : 0 < 1 - v <= 0.5) by lra. pose proof (sqrt_lt_R0 (1 - v) ltac:(lra)) as Sy0. assert (Sy1 : sqrt (1 - v) <= r). { rewrite <- (sqrt_square r) by lra. apply sqrt_le_1; lra. }
    assert (Dd : 0 < d <= 0.2929) by (unfold d; lra). assert (SS : S * S = 1 - a * a) by (unfold S; rewrite Ea; apply sqrt_sqrt; lra). assert (S0 : 0 < S) by (unfold S; rewrite Ea; apply sqrt_lt_R0; lra).
    assert (S1 : S <= r). { unfold S. rewrite Ea, <- (sqrt_square r) by lra. apply sqrt_le_1; lra. }
    assert (Us : 2 * u * sqrt (1 - v) <= 2 * u * 0.70710679) by (apply Rmult_le_compat_l; lra). assert (Us2 : 2 * u * sqrt (1 - v) <= 0.001 * sqrt (1 - v)) by (apply Rmult_le_compat_r; lra). apply Rabs_le_inv in Ds.
    assert (Gy : Rabs (1 - v - S * S) = Rabs (v - a * a)). { rewrite SS, <- Rabs_Ropp. f_equal. ring. }
    split; [lra|]. split; [lra|]. split; [|split].
    - set (w := sqrt u). assert (w0 : 0 < w) by (apply sqrt_lt_R0; lra). assert (ww : w * w = u) by (apply sqrt_sqrt; lra). set (q := sqrt (u * w)). assert (uw : 0 < u * w) by (apply Rmult_lt_0_compat; lra). assert (q0 : 0 < q) by (apply sqrt_lt_R0; lra). assert (qq : q * q = u * w) by (apply sqrt_sqrt; lra).
      set (e := Rabs (v - a * a)) in *. assert (e0 : 0 <= e) by apply Rabs_pos.
      assert (E1 : e <= 0.70711 * w * d).
      { destruct (Rle_or_lt d (0.70711 * w)) as [K|K]; [apply Rle_trans with (1 := G2); apply Rmult_le_compat_r; lra|]. apply Rle_trans with (1 := G1). rewrite <- ww. assert (w * (0.70711 * w) <= w * d) by (apply Rmult_le_compat_l; lra). assert (0 <= w * w) by (apply Rmult_le_pos; lra). lra. }
      assert (E2 : e * e <= u / 2 * (0.70711 * w * d)) by (apply Rmult_le_compat; lra).
      assert (E3 : 1.7 * d <= S * S). { rewrite SS. replace (1 - a * a) with (d * (2 - d)) by (unfold d; ring). rewrite (Rmult_comm 1.7). apply Rmult_le_compat_l; lra. }
      assert (E4 : e * e <= (0.4583 * q * S) * (0.4583 * q * S)). { replace (0.4583 * q * S * (0.4583 * q * S)) with (0.4583 * 0.4583 * (q * q) * (S * S)) by ring. rewrite qq. assert (u * w * (1.7 * d) <= u * w * (S * S)) by (apply Rmult_le_compat_l; lra).
        assert (0 <= u * w * d) by (apply Rmult_le_pos; lra). lra. }
      assert (E5 : e <= 0.4583 * q * S). { apply Rnot_lt_le. intros K. assert (0 <= 0.4583 * q * S) by (apply Rmult_le_pos; lra). assert (0.4583 * q * S * (0.4583 * q * S) < e * e) by (apply Rmult_le_0_lt_compat; lra). lra. }
      pose proof (sqrt_near (1 - v) S e ltac:(lra) S0 ltac:(rewrite Gy; apply Rle_refl)) as N. assert (E6 : e / S <= 0.4583 * q). { apply Rmult_le_reg_r with S; [exact S0|]. unfold Rdiv. rewrite Rmult_assoc, Rinv_l by lra. lra. }
      apply Rabs_le_inv in N. apply Rabs_le. lra.
    - intros K. pose proof (sqrt_near (1 - v) S (u / 2) ltac:(lra) S0 ltac:(rewrite Gy; exact G1)) as N. assert (u / 2 / S <= u). { apply Rmult_le_reg_r with S; [exact S0|]. unfold Rdiv at 1. rewrite Rmult_assoc, Rinv_l by lra. assert (u * 0.5 <= u * S) by (apply Rmult_le_compat_l; lra). lra. } apply Rabs_le_inv in N. lra.
    - intros K. assert (Q : 1 - v <= 0.505 * 0.505). { apply Rabs_le_inv in G1. assert (S * S <= 0.5 * 0.5) by (apply Rmult_le_compat; lra). lra. } assert (sqrt (1 - v) <= 0.505). { rewrite <- (sqrt_square 0.505) by lra. apply sqrt_le_1; lra. } lra.
  Qed.

  (** The inner call needs no further one. *)
  Definition leg (x : float) : Prop := match flip x with Some s => B2R s <= T | None => False end.
  Lemma leg_far (x : float) : is_finite x = true -> r + 4 * u <= Rabs (B2R x) < 1 -> leg x.
  Proof using All.
    intros F H. destruct r_facts as [Br Qr]. pose proof (u_pos prec) as U0. pose proof (u_tiny prec prec_ok) as Ut. destruct T_facts as (_ & Dt & _). apply Rabs_le_inv in Dt.
    destruct (flip_ok x F ltac:(lra)) as (s & Es & Fs & Ps & Bs & _ & H1 & H2). unfold leg. rewrite Es. set (S := sqrt (1 - B2R x * B2R x)) in *.
    destruct (Rle_or_lt 0.5 S) as [K|K]; [|specialize (H2 ltac:(lra)); lra]. specialize (H1 K). assert (Q : S <= r - 4 * u); [|lra].
    unfold S. rewrite <- (sqrt_square (r - 4 * u)) by lra. apply sqrt_le_1.
    - set (a := Rabs (B2R x)) in *. replace (B2R x * B2R x) with (a * a) by (unfold a; rewrite <- Rabs_mult; apply Rabs_pos_eq, sqr0). assert (a * a <= 1 * 1) by (apply Rmult_le_compat; lra). lra.
    - apply sqr0.
    - set (a := Rabs (B2R x)) in *. replace (B2R x * B2R x) with (a * a) by (unfold a; rewrite <- Rabs_mult; apply Rabs_pos_eq, sqr0). assert ((r + 4 * u) * (r + 4 * u) <= a * a) by (apply Rmult_le_compat; lra). pose proof (sqr0 u). lra.
  Qed.
  (** The numbers just above the bound *)
  Definition next (k : Z) : float := arc_one_over_sqrt_two c +. binary_normalize prec emax _ _ mode_NE k (- prec) false.
  Definition next_ok (k : Z) : bool := match flip (next k) with Some s => Bleb s (arc_one_over_sqrt_two c) && is_finite s | None => false end.
  Lemma next_all (x : float) : is_finite x = true -> T < B2R x < r + 4 * u -> exists k, (1 <= k <= 4)%Z /\ x = next k.
  Proof using All.
    intros F H. destruct r_facts as [Br Qr]. pose proof (u_pos prec) as U0. pose proof (u_tiny prec prec_ok) as Ut. destruct T_facts as (Ft & Dt & _). apply Rabs_le_inv in Dt.
    assert (C : forall w : float, 0.7 <= B2R w <= 0.8 -> exists m, B2R w = IZR m * u).
    { intros w W. destruct (grid prec emax prec_ok emax_ok 0 (B2R w) ltac:(lia) (generic_format_B2R prec emax w)) as [m E]; [cbn; lra|]. now exists m. }
    destruct (C x ltac:(lra)) as [m Em]. destruct (C (arc_one_over_sqrt_two c) ltac:(lra)) as [t Et]. exists (m - t)%Z.
    assert (K : (1 <= m - t <= 4)%Z).
    { assert (L1 : IZR t * u < IZR m * u) by lra. apply Rmult_lt_reg_r in L1; [|exact U0]. apply lt_IZR in L1. assert (L2 : IZR m * u < IZR (t + 5) * u) by (rewrite plus_IZR; lra). apply Rmult_lt_reg_r in L2; [|exact U0]. apply lt_IZR in L2. lia. }
    split; [exact K|]. unfold next. destruct (grid_float prec emax _ _ prec_ok emax_ok 0 (m - t) ltac:(lia)) as [Fg Vg].
    { split; [lia|]. apply Z.lt_le_trans with (2 ^ 53)%Z; [lia|]. apply Z.pow_le_mono_r; lia. }
    change (0 - prec)%Z with (- prec)%Z in *. set (gg := binary_normalize prec emax _ _ mode_NE (m - t) (- prec) false) in *.
    assert (Es : T + B2R gg = B2R x) by (rewrite Vg, minus_IZR, Em, Et; ring).
    destruct (plus_ok prec emax _ _ prec_ok emax_ok (arc_one_over_sqrt_two c) gg Ft Fg) as [Fp Vp]. { rewrite Es. apply Rle_trans with (bpow radix2 10); [cbn; apply Rabs_le; lra|apply bpow_le; lia]. }
    rewrite Es, (round_generic radix2 fexp ZnearestE (B2R x)) in Vp by apply generic_format_B2R. apply (strict_inj prec emax); [exact F|exact Fp|lra|symmetry; exact Vp].
  Qed.
  Lemma flip_abs (x : float) : is_finite x = true -> 0.5 <= Rabs (B2R x) <= 1 -> flip (Babs x) = flip x.
  Proof using All.
    intros F H. unfold asin_flip. f_equal. f_equal. assert (Fa : is_finite (Babs x) = true) by (now rewrite is_finite_Babs).
    assert (E : B2R (Babs x) * B2R (Babs x) = B2R x * B2R x). { rewrite B2R_Babs, <- Rabs_mult. apply Rabs_pos_eq, sqr0. }
    assert (Q : B2R x * B2R x = Rabs (B2R x) * Rabs (B2R x)) by (rewrite <- Rabs_mult; symmetry; apply Rabs_pos_eq, sqr0).
    assert (Bl : 0.5 * 0.5 <= B2R x * B2R x) by (rewrite Q; apply Rmult_le_compat; lra). assert (Bh : B2R x * B2R x <= 1 * 1) by (rewrite Q; apply Rmult_le_compat; lra).
    assert (Bg : Rabs (B2R x * B2R x) <= bpow radix2 100). { rewrite Rabs_pos_eq by lra. apply Rle_trans with (bpow radix2 0); [cbn; lra|apply bpow_le; lia]. }
    destruct (mult_ok prec emax _ _ prec_ok emax_ok x x F F Bg) as [F1 V1]. destruct (mult_ok prec emax _ _ prec_ok emax_ok (Babs x) (Babs x) Fa Fa ltac:(rewrite E; exact Bg)) as [F2 V2]. rewrite E in V2.
    apply (strict_inj prec emax); [exact F2|exact F1| |now rewrite V1, V2]. rewrite V2. apply Rgt_not_eq. apply Rlt_le_trans with (bpow radix2 (-2)); [apply bpow_gt_0|]. apply round_ge_generic; [apply FLT_exp_valid; exact prec_gt_0_|apply valid_rnd_N|apply generic_format_bpow; unfold FLT_exp; lia|cbn; lra].
  Qed.
  Lemma leg_all (x : float) : forallb next_ok (1 :: 2 :: 3 :: 4 :: nil)%Z = true -> is_finite x = true -> T < Rabs (B2R x) < 1 -> leg x.
  Proof using All.
    intros N F H. destruct (Rle_or_lt (r + 4 * u) (Rabs (B2R x))) as [L|L]; [apply leg_far; [exact F|lra]|]. destruct T_facts as (Ft & Dt & _). destruct r_facts as [Br _]. pose proof (u_pos prec). pose proof (u_tiny prec prec_ok). apply Rabs_le_inv in Dt.
    unfold leg. rewrite <- flip_abs by (exact F || lra). assert (Fa : is_finite (Babs x) = true) by (now rewrite is_finite_Babs).
    destruct (next_all (Babs x) Fa ltac:(rewrite B2R_Babs; lra)) as (k & K & E). rewrite E. rewrite forallb_forall in N. assert (I : In k (1 :: 2 :: 3 :: 4 :: nil)%Z) by (cbn [In]; lia). specialize (N k I). unfold next_ok in N.
    destruct (flip (next k)) as [s|]; [|discriminate]. apply andb_prop in N. destruct N as [N1 N2]. rewrite Bleb_correct in N1 by assumption. revert N1. now case Rle_bool_spec.
  Qed.

  (** Both sides together *)
  Notation arcsin := (asin_naive prec emax _ _ c).
  Notation good := (good prec emax).
  Lemma asin_step fuel (y : float) : is_finite y = true ->
    arcsin (S fuel) y = if Req_bool (B2R y) 0 then Some y else if Rlt_bool (B2R y) (-1) || Rlt_bool 1 (B2R y) then None
      else if Req_bool (B2R y) (-1) then Some (Bopp (arc_pi_over_two c)) else if Req_bool (B2R y) 1 then Some (arc_pi_over_two c)
      else if Rlt_bool T (B2R y) then option_map (fun r => arc_pi_over_two c -. r) (bind prec emax (flip y) (arcsin fuel))
      else if Rlt_bool (B2R y) (- T) then option_map (fun r => Bopp (arc_pi_over_two c) +. r) (bind prec emax (flip y) (arcsin fuel)) else Some (series y).
  Proof using All.
    intros F. destruct (one_ok prec emax _ _) as [Fo Vo]. destruct T_facts as (Ft & _). cbn [asin_naive]. assert (Fn : is_finite (Bopp (@Bone prec emax _ _)) = true) by (now rewrite is_finite_Bopp). assert (Fn2 : is_finite (Bopp (arc_one_over_sqrt_two c)) = true) by (now rewrite is_finite_Bopp).
    rewrite !Bltb_correct by assumption. rewrite (Beqb_correct _ _ y (zero prec emax)), (Beqb_correct _ _ y y), (Beqb_correct _ _ y Bone), (Beqb_correct _ _ y (Bopp Bone)) by (assumption || reflexivity).
    rewrite !B2R_Bopp, Vo. cbn [zero B2R]. rewrite (Req_bool_true (B2R y) (B2R y)) by reflexivity. cbn [negb]. rewrite orb_false_r. replace (-(1)) with (-1) by lra. reflexivity.
  Qed.
  Lemma asin_low fuel (y : float) : is_finite y = true -> Rabs (B2R y) <= T -> good (arcsin (S fuel) y) (asin (B2R y)) (122 * u * Rabs (asin (B2R y))).
  Proof using All.
    intros F H. destruct T_facts as (_ & Dt & Qt). destruct r_facts as [Br _]. pose proof (u_pos prec) as U0. pose proof (u_tiny prec prec_ok) as Ut. apply Rabs_le_inv in Dt. apply Rabs_le_inv in H as H'. rewrite asin_step by exact F.
    destruct (Req_bool_spec (B2R y) 0) as [Z|Z]. { exists y. split; [reflexivity|]. split; [exact F|]. rewrite Z, asin_0, Rminus_0_r, Rabs_R0. lra. }
    rewrite !Rlt_bool_false, !Req_bool_false by lra. cbn [orb]. destruct (aseries_ok y F) as [Fs Ds].
    { apply Rle_trans with (2 := Qt). replace (B2R y * B2R y) with (Rabs (B2R y) * Rabs (B2R y)); [apply Rmult_le_compat; try apply Rabs_pos; assumption|]. rewrite <- Rabs_mult. apply Rabs_pos_eq, sqr0. }
    exists (series y). now repeat split.
  Qed.
  Lemma asin_pos v : 0 <= v <= 1 -> 0 <= asin v.
  Proof using. intros H. pose proof (asin_bound v) as A. apply Rnot_lt_le. intros N. pose proof PI_bounds. pose proof (sin_lt_0_var (asin v) ltac:(lra) N) as L. rewrite sin_asin in L by lra. lra. Qed.
  Lemma asin_r v : 0 <= v <= 0.7072 -> asin v <= 0.7901.
  Proof using.
    intros H. assert (v * v <= 0.7072 * 0.7072) by (apply Rmult_le_compat; lra). pose proof (asin_lip v (1 / sqrt 2) H ltac:(pose proof r_facts; lra)) as L. pose proof r_facts as [B Q].
    assert (E : asin (1 / sqrt 2) = PI / 4). { rewrite <- sin_PI4. apply asin_sin. pose proof PI_bounds. lra. } rewrite E in L. pose proof PI_bounds. apply Rabs_le_inv in L.
    assert (Rabs (v - 1 / sqrt 2) <= 0.7072 \/ v <= 1 / sqrt 2) as [K|K] by (destruct (Rle_or_lt v (1 / sqrt 2)); [now right|left; rewrite Rabs_pos_eq by lra; lra]).
    - destruct (Rle_or_lt (1 / sqrt 2) v) as [M|M]; [rewrite Rabs_pos_eq in L by lra; lra|]. assert (asin v <= asin (1 / sqrt 2)); [|lra]. apply Rnot_lt_le. intros N. pose proof (asin_bound v). pose proof (asin_pos v ltac:(lra)). assert (sin (asin (1 / sqrt 2)) < sin (asin v)) by (apply sin_increasing_1; lra). rewrite !sin_asin in * by lra. lra.
    - assert (asin v <= asin (1 / sqrt 2)); [|lra]. apply Rnot_lt_le. intros N. pose proof (asin_bound v). pose proof (asin_pos v ltac:(lra)). assert (sin (asin (1 / sqrt 2)) < sin (asin v)) by (apply sin_increasing_1; lra). rewrite !sin_asin in * by lra. lra.
  Qed.
  (** The inner value, close to the angle between the argument and one *)
  Lemma asin_inner fuel (x : float) : is_finite x = true -> T < Rabs (B2R x) < 1 -> leg x ->
    good (bind prec emax (flip x) (arcsin (S fuel))) (PI / 2 - asin (Rabs (B2R x))) (0.649 * sqrt (u * sqrt u) + 98.7 * u) /\ 0 <= PI / 2 - asin (Rabs (B2R x)) <= 0.7901.
  Proof using All.
    intros F H Lg. destruct T_facts as (Ft & Dt & _). destruct r_facts as [Br _]. pose proof (u_pos prec) as U0. pose proof (u_tiny prec prec_ok) as Ut. apply Rabs_le_inv in Dt. destruct (flip_ok x F H) as (s & Es & Fs & Ps & Bs & Ds & _). unfold leg in Lg. rewrite Es in *. cbn [bind].
    destruct (asin_low fuel s Fs ltac:(rewrite Rabs_pos_eq by lra; exact Lg)) as (y & Ey & Fy & Dy). set (S := sqrt (1 - B2R x * B2R x)) in *.
    assert (E : asin S = PI / 2 - asin (Rabs (B2R x))). { rewrite <- asin_flip_eq by lra. unfold S. do 3 f_equal. rewrite <- Rabs_mult. symmetry. apply Rabs_pos_eq, sqr0. }
    pose proof (asin_lip (B2R s) S ltac:(lra) ltac:(lra)) as Lp. pose proof (asin_r (B2R s) ltac:(lra)) as As. pose proof (asin_pos (B2R s) ltac:(lra)) as As0. rewrite (Rabs_pos_eq (asin (B2R s))) in Dy by lra.
    assert (M : 122 * u * asin (B2R s) <= 122 * u * 0.7901) by (apply Rmult_le_compat_l; lra).
    split; [|rewrite <- E; split; [apply asin_pos; lra|apply asin_r; lra]]. rewrite <- E. exists y. split; [exact Ey|]. split; [exact Fy|]. pose proof (sqrt_pos (u * sqrt u)). apply Rabs_le_inv in Dy, Lp. apply Rabs_le. lra.
  Qed.
  Theorem asin_all fuel (x : float) : is_finite x = true -> Rabs (B2R x) <= 1 -> (T < Rabs (B2R x) < 1 -> leg x) ->
    good (arcsin (S (S fuel)) x) (asin (B2R x)) (if Rle_bool (Rabs (B2R x)) T then 122 * u * Rabs (asin (B2R x)) else 0.65 * sqrt (u * sqrt u) + 102 * u).
  Proof using All.
    intros F H Lg. destruct (Rle_bool_spec (Rabs (B2R x)) T) as [L|L]; [now apply asin_low|]. destruct T_facts as (Ft & Dt & _). destruct r_facts as [Br _]. pose proof (u_pos prec) as U0. pose proof (u_tiny prec prec_ok) as Ut. apply Rabs_le_inv in Dt. pose proof (sqrt_pos (u * sqrt u)) as Q0. pose proof PI_bounds as Bp.
    destruct (arc_pi_over_two_right _ _ _ c_ok) as [F2 V2]. pose proof (rnd_rel prec emax _ prec_ok emax_ok (PI / 2) ltac:(lra)) as R2. rewrite <- V2 in R2. set (q := B2R (arc_pi_over_two c)) in *. assert (M2 : u * (PI / 2) <= u * 1.571) by (apply Rmult_le_compat_l; lra). apply Rabs_le_inv in R2 as R2'.
    assert (Us : sqrt (u * sqrt u) <= 0.001). { rewrite <- (sqrt_square 0.001) by lra. apply sqrt_le_1; [apply Rmult_le_pos; [lra|apply sqrt_pos]|lra|]. assert (sqrt u <= 1). { rewrite <- sqrt_1. apply sqrt_le_1; lra. } assert (u * sqrt u <= u * 1) by (apply Rmult_le_compat_l; lra). lra. }
    rewrite asin_step by exact F. destruct (Req_bool_spec (B2R x) 0) as [Z|Z]; [rewrite Z, Rabs_R0 in L; lra|]. pose proof (Rabs_le_inv _ _ H) as H'. rewrite !Rlt_bool_false by lra. cbn [orb].
    destruct (Req_bool_spec (B2R x) (-1)) as [N1|N1]. { exists (Bopp (arc_pi_over_two c)). split; [reflexivity|]. split; [now rewrite is_finite_Bopp|]. rewrite B2R_Bopp. fold q. rewrite N1. replace (asin (-1)) with (- (PI / 2)). 2:{ rewrite <- asin_1, <- asin_opp. f_equal; lra. } apply Rabs_le. lra. }
    destruct (Req_bool_spec (B2R x) 1) as [P1|P1]. { exists (arc_pi_over_two c). split; [reflexivity|]. split; [exact F2|]. fold q. rewrite P1, asin_1. apply Rabs_le. lra. }
    assert (H1 : T < Rabs (B2R x) < 1). { split; [exact L|]. destruct (Rle_or_lt 0 (B2R x)); [rewrite Rabs_pos_eq by lra|rewrite Rabs_left by lra]; lra. }
    destruct (asin_inner fuel x F H1 (Lg H1)) as [(y & Ey & Fy & Dy) Ba]. rewrite Ey. cbn [option_map]. apply Rabs_le_inv in Dy as Dy'.
    assert (Big : forall v, 0.5 <= v <= 2 -> Rabs v <= bpow radix2 100). { intros v Hv. rewrite Rabs_pos_eq by lra. apply Rle_trans with (bpow radix2 10); [cbn; lra|apply bpow_le; lia]. }
    assert (Bv : 0.5 <= q - B2R y <= 1.58) by lra. pose proof (rnd_rel prec emax _ prec_ok emax_ok (q - B2R y) ltac:(lra)) as R3. assert (M3 : u * (q - B2R y) <= u * 1.58) by (apply Rmult_le_compat_l; lra). apply Rabs_le_inv in R3.
    destruct (Rlt_bool_spec T (B2R x)) as [A|A].
    - destruct (minus_ok prec emax _ _ prec_ok emax_ok (arc_pi_over_two c) y F2 Fy) as [Fm Vm]; [fold q; apply Big; lra|]. exists (arc_pi_over_two c -. y). split; [reflexivity|]. split; [exact Fm|]. rewrite Vm. fold q. rewrite (Rabs_pos_eq (B2R x)) in * by lra. apply Rabs_le. lra.
    - assert (Nx : B2R x < 0). { apply Rnot_le_lt. intros K. rewrite Rabs_pos_eq in L by lra. lra. } rewrite (Rabs_left (B2R x)) in * by lra. rewrite Rlt_bool_true by lra. assert (Fn : is_finite (Bopp (arc_pi_over_two c)) = true) by (now rewrite is_finite_Bopp).
      destruct (plus_ok prec emax _ _ prec_ok emax_ok (Bopp (arc_pi_over_two c)) y Fn Fy) as [Fm Vm]; [rewrite B2R_Bopp; fold q; replace (- q + B2R y) with (- (q - B2R y)) by ring; rewrite Rabs_Ropp; apply Big; lra|].
      exists (Bopp (arc_pi_over_two c) +. y). split; [reflexivity|]. split; [exact Fm|]. rewrite Vm, B2R_Bopp. fold q. replace (- q + B2R y) with (- (q - B2R y)) by ring. rewrite rnd_opp. rewrite asin_opp in *. apply Rabs_le. lra.
  Qed.
End Asin.
