(** The Taylor loops run as the abstract loop of TrigProofs.v does. *)
From Coq Require Import ZArith Bool List Reals Lra Lia Psatz.
From Flocq Require Import Core BinarySingleNaN Relative Plus_error.
From Verif Require Import FpModel FpProofs FpProofs2 TrigModel TrigProofs TrigProofs2.
Local Open Scope R_scope.

Section Loops.
  Variable prec emax : Z.
  Context (prec_gt_0_ : Prec_gt_0 prec).
  Context (prec_lt_emax_ : Prec_lt_emax prec emax).
  Notation float := (binary_float prec emax).
  Notation emin := (3 - emax - prec)%Z.
  Notation fexp := (FLT_exp emin prec).
  Notation rnd := (round radix2 fexp ZnearestE).
  Notation u := (bpow radix2 (- prec)).
  Notation of_Z := (of_Z prec emax _ _).
  Notation eta := (eta prec emax).
  Hypothesis prec_ok : (53 <= prec <= 113)%Z.
  Hypothesis emax_ok : (1024 <= emax)%Z.
  Notation "x -. y" := (Bminus mode_NE x y) (at level 50, left associativity).
  Notation "x +. y" := (Bplus mode_NE x y) (at level 50, left associativity).
  Notation "x *! y" := (Bmult mode_NE x y) (at level 40, left associativity).
  Notation "x /. y" := (Bdiv mode_NE x y) (at level 40, left associativity).
  Notation big := (bpow radix2 100).
  Lemma big_ok : 1000000000000000000 <= big. Proof using. cbn. lra. Qed.
  Ltac ops := first [apply (mult_ok prec emax _ _ prec_ok emax_ok) | apply (div_ok prec emax _ _ prec_ok emax_ok) | apply (plus_ok prec emax _ _ prec_ok emax_ok) | apply (minus_ok prec emax _ _ prec_ok emax_ok)].

  Definition zz : R := 2048 * eta.
  Definition ww : R := bpow radix2 (-600).
  Lemma zz_nonneg : 0 <= zz. Proof using. unfold zz. pose proof (eta_pos prec emax). lra. Qed.
  Lemma ww_ok : zk zz 99 <= ww.
  Proof using prec_ok emax_ok.
    unfold zk, zz, ww. pose proof (eta_small prec emax prec_ok emax_ok) as E. pose proof (eta_pos prec emax) as E0.
    apply Rle_trans with (bpow radix2 428 * (bpow radix2 11 * bpow radix2 (-1075))).
    - apply Rmult_le_compat.
      + pose proof (pow_R1_Rle 20 99 ltac:(lra)). lra.
      + lra.
      + apply Rle_trans with (20 ^ 99); [lra|]. rewrite <- (IZR_Zpower radix2) by lia. rewrite (pow_IZR 20 99). apply IZR_le. vm_compute. discriminate.
      + change 2048 with (bpow radix2 11). apply Rmult_le_compat_l; [apply bpow_ge_0|exact E].
    - rewrite <- !bpow_plus. apply bpow_le. lia.
  Qed.

  Lemma cos_den_ok k : (0 <= k <= 99)%Z -> let D := of_Z 2 *! of_Z (k + 1) *! (of_Z 2 *! of_Z (k + 1) -. Bone) in
    is_finite D = true /\ B2R D = IZR ((2 * k + 1) * (2 * k + 1 + 1)).
  Proof using prec_ok emax_ok.
    intros K. destruct (int_ok prec emax _ _ prec_ok emax_ok 2 ltac:(lia)) as [F2 V2].
    destruct (int_ok prec emax _ _ prec_ok emax_ok (k + 1) ltac:(lia)) as [Fk Vk].
    destruct (int_ok prec emax _ _ prec_ok emax_ok (2 * k + 2) ltac:(lia)) as [Fm Vm].
    destruct (int_ok prec emax _ _ prec_ok emax_ok (2 * k + 1) ltac:(lia)) as [Fn Vn].
    destruct (int_ok prec emax _ _ prec_ok emax_ok ((2 * k + 1) * (2 * k + 1 + 1)) ltac:(nia)) as [Fr Vr].
    destruct (one_ok prec emax _ _) as [F1 V1].
    destruct (mult_exact prec emax _ _ (of_Z 2) (of_Z (k + 1)) (of_Z (2 * k + 2)) F2 Fk) as [F3 V3].
    { rewrite V2, Vk, Vm, <- mult_IZR. f_equal. ring. }
    destruct (minus_exact prec emax _ _ (of_Z 2 *! of_Z (k + 1)) Bone (of_Z (2 * k + 1)) F3 F1) as [F4 V4].
    { rewrite V3, Vm, V1, Vn, <- minus_IZR. f_equal. ring. }
    cbv zeta. rewrite <- Vr. apply mult_exact; [exact F3|exact F4|]. rewrite V3, V4, Vm, Vn, Vr, <- mult_IZR. f_equal. ring.
  Qed.
  Lemma sin_den_ok k : (0 <= k <= 99)%Z -> let D := of_Z (2 * k + 3) *! (of_Z (2 * k + 3) -. Bone) in
    is_finite D = true /\ B2R D = IZR ((2 * k + 2) * (2 * k + 2 + 1)).
  Proof using prec_ok emax_ok.
    intros K.
    destruct (int_ok prec emax _ _ prec_ok emax_ok (2 * k + 3) ltac:(lia)) as [Fm Vm].
    destruct (int_ok prec emax _ _ prec_ok emax_ok (2 * k + 2) ltac:(lia)) as [Fn Vn].
    destruct (int_ok prec emax _ _ prec_ok emax_ok ((2 * k + 2) * (2 * k + 2 + 1)) ltac:(nia)) as [Fr Vr].
    destruct (one_ok prec emax _ _) as [F1 V1].
    destruct (minus_exact prec emax _ _ (of_Z (2 * k + 3)) Bone (of_Z (2 * k + 2)) Fm F1) as [F4 V4].
    { rewrite Vm, V1, Vn, <- minus_IZR. f_equal. ring. }
    cbv zeta. rewrite <- Vr. apply mult_exact; [exact Fm|exact F4|]. rewrite V4, Vm, Vn, Vr, <- mult_IZR. f_equal. ring.
  Qed.

  Variable x : float.
  Hypothesis x_fin : is_finite x = true.
  Notation X := (B2R x).
  Hypothesis x_range : X * X <= 39.9.
  Lemma x_abs : Rabs X <= 6.4.
  Proof using x_range. apply Rabs_le. split; apply Rnot_lt_le; intros H; [pose proof (Rmult_lt_compat (6.4) (- X) 6.4 (- X))|pose proof (Rmult_lt_compat (6.4) X 6.4 X)]; lra. Qed.

  Lemma opp_fin (f : float) : is_finite f = true -> is_finite (Bopp f) = true.
  Proof using. now rewrite is_finite_Bopp. Qed.

  Lemma small_big v b : Rabs v <= b -> b <= 1000000000000000000 -> Rabs v <= big.
  Proof using. intros. pose proof big_ok. lra. Qed.

  Lemma cos_step (t D : float) k : is_finite t = true -> Rabs (B2R t) <= 1000 -> is_finite D = true -> B2R D = d 1 k ->
    let t' := t *! (Bopp x *! x /. D) in is_finite t' = true /\ step 1 X u zz k (B2R t) (B2R t').
  Proof using prec_ok emax_ok x_fin x_range.
    intros Ft Bt FD VD. pose proof (d_pos 1 ltac:(lia) k) as d2. pose proof x_abs as xa. pose proof (u_range prec prec_ok) as U.
    pose proof (eta_pos prec emax) as e0. assert (e1 : eta <= / 1000000).
    { pose proof (eta_small prec emax prec_ok emax_ok). apply Rle_trans with (1 := H). apply Rle_trans with (bpow radix2 (-20)); [apply bpow_le; lia|cbn; lra]. }
    pose proof (Rle_0_sqr X) as xx0. unfold Rsqr in xx0.
    destruct (mult_ok prec emax _ _ prec_ok emax_ok (Bopp x) x (opp_fin x x_fin) x_fin) as [F1 V1].
    { rewrite B2R_Bopp. apply (small_big _ 39.9); [|lra]. rewrite <- Ropp_mult_distr_l, Rabs_Ropp, Rabs_pos_eq by lra. lra. }
    rewrite B2R_Bopp in V1. destruct (rnd_any prec emax _ (- X * X)) as (d1 & g1 & Hd1 & Hg1 & E1). rewrite E1 in V1. clear E1.
    set (v := Bopp x *! x) in *. apply Rabs_le_inv in Hd1 as Hd1'. apply Rabs_le_inv in Hg1 as Hg1'.
    assert (Bv : Rabs (B2R v) <= 40). { rewrite V1. apply Rabs_le. assert (- / 1000 <= X * X * d1 <= / 1000) by nra. lra. }
    assert (D0 : B2R D <> 0) by lra. assert (iD : 0 < / d 1 k <= / 2) by (split; [apply Rinv_0_lt_compat; lra|apply Rinv_le; lra]).
    assert (B2 : Rabs (B2R v / B2R D) <= 20).
    { rewrite VD. unfold Rdiv. rewrite Rabs_mult, (Rabs_pos_eq (/ d 1 k)) by lra. replace 20 with (40 * / 2) by lra. apply Rmult_le_compat; try apply Rabs_pos; lra. }
    destruct (div_ok prec emax _ _ prec_ok emax_ok v D F1 D0) as [F2 V2]; [apply (small_big _ 20); [exact B2|lra]|].
    destruct (rnd_any prec emax _ (B2R v / B2R D)) as (d2' & g2 & Hd2 & Hg2 & E2). rewrite E2 in V2. clear E2.
    set (y := v /. D) in *. apply Rabs_le_inv in Hd2 as Hd2'. apply Rabs_le_inv in Hg2 as Hg2'.
    assert (By : Rabs (B2R y) <= 21).
    { rewrite V2. apply Rabs_le_inv in B2. apply Rabs_le. assert (- / 1000 <= B2R v / B2R D * d2' <= / 1000) by nra. lra. }
    destruct (mult_ok prec emax _ _ prec_ok emax_ok t y Ft F2) as [F3 V3].
    { apply (small_big _ (1000 * 21)); [|lra]. rewrite Rabs_mult. apply Rmult_le_compat; try apply Rabs_pos; assumption. }
    destruct (rnd_any prec emax _ (B2R t * B2R y)) as (d3 & g3 & Hd3 & Hg3 & E3). rewrite E3 in V3. clear E3. apply Rabs_le_inv in Hd3 as Hd3'.
    cbv zeta. split; [exact F3|]. unfold step. rewrite V3, V2, V1, VD. unfold q. set (tt := B2R t) in *.
    replace (tt * ((- X * X * (1 + d1) + g1) / d 1 k * (1 + d2') + g2) * (1 + d3) + g3 + tt * (X * X / d 1 k))
      with (tt * (X * X / d 1 k) * (1 - (1 + d1) * (1 + d2') * (1 + d3)) + (tt * (g1 * ((1 + d2') * (1 + d3) * / d 1 k) + g2 * (1 + d3)) + g3)) by (field; lra).
    pose proof (three_errors d1 d2' d3 u U Hd1 Hd2 Hd3) as H3. set (G := 1 - _) in *.
    assert (Q0 : 0 <= X * X / d 1 k) by (apply Rmult_le_pos; lra).
    apply Rle_trans with (1 := Rabs_triang _ _). apply Rplus_le_compat.
    - rewrite !Rabs_mult, (Rabs_pos_eq (X * X / d 1 k)) by exact Q0. replace (3.1 * u * Rabs tt * (X * X / d 1 k)) with (Rabs tt * (X * X / d 1 k) * (3.1 * u)) by ring.
      apply Rmult_le_compat_l; [|exact H3]. apply Rmult_le_pos; [apply Rabs_pos|exact Q0].
    - apply Rle_trans with (1 := Rabs_triang _ _). unfold zz.
      assert (H4 : Rabs ((1 + d2') * (1 + d3) * / d 1 k) <= 0.6).
      { rewrite !Rabs_mult, (Rabs_pos_eq (/ d 1 k)) by lra. rewrite !Rabs_pos_eq by lra.
        apply Rle_trans with (1.01 * 1.01 * / 2); [|lra]. apply Rmult_le_compat; try lra; [apply Rmult_le_pos; lra|]. apply Rmult_le_compat; lra. }
      assert (H5 : Rabs (g1 * ((1 + d2') * (1 + d3) * / d 1 k)) <= eta * 0.6) by (rewrite Rabs_mult; apply Rmult_le_compat; try apply Rabs_pos; assumption).
      assert (H6 : Rabs (g2 * (1 + d3)) <= eta * 1.01) by (rewrite Rabs_mult; apply Rmult_le_compat; try apply Rabs_pos; [assumption|apply Rabs_le; lra]).
      rewrite Rabs_mult.
      assert (H7 : Rabs tt * Rabs (g1 * ((1 + d2') * (1 + d3) * / d 1 k) + g2 * (1 + d3)) <= 1000 * (eta * 0.6 + eta * 1.01)).
      { apply Rmult_le_compat; try apply Rabs_pos; [assumption|]. apply Rle_trans with (1 := Rabs_triang _ _). lra. }
      lra.
  Qed.

  Lemma sin_step (t D : float) k : is_finite t = true -> Rabs (B2R t) <= 1000 -> is_finite D = true -> B2R D = d 2 k ->
    let t' := Bopp t *! x *! x /. D in is_finite t' = true /\ step 2 X u zz k (B2R t) (B2R t').
  Proof using prec_ok emax_ok x_fin x_range.
    intros Ft Bt FD VD. pose proof (d_pos 2 ltac:(lia) k) as d2. pose proof x_abs as xa. pose proof (u_range prec prec_ok) as U.
    pose proof (eta_pos prec emax) as e0. assert (e1 : eta <= / 1000000).
    { pose proof (eta_small prec emax prec_ok emax_ok). apply Rle_trans with (1 := H). apply Rle_trans with (bpow radix2 (-20)); [apply bpow_le; lia|cbn; lra]. }
    set (tt := B2R t) in *.
    assert (B0 : Rabs (- tt * X) <= 6400). { rewrite <- Ropp_mult_distr_l, Rabs_Ropp, Rabs_mult. replace 6400 with (1000 * 6.4) by lra. apply Rmult_le_compat; try apply Rabs_pos; assumption. }
    destruct (mult_ok prec emax _ _ prec_ok emax_ok (Bopp t) x (opp_fin t Ft) x_fin) as [F1 V1].
    { rewrite B2R_Bopp. apply (small_big _ 6400); [exact B0|lra]. }
    rewrite B2R_Bopp in V1. fold tt in V1. destruct (rnd_any prec emax _ (- tt * X)) as (d1 & g1 & Hd1 & Hg1 & E1). rewrite E1 in V1. clear E1.
    set (v := Bopp t *! x) in *. apply Rabs_le_inv in Hd1 as Hd1'. apply Rabs_le_inv in Hg1 as Hg1'.
    assert (Bv : Rabs (B2R v) <= 6401). { rewrite V1. apply Rabs_le_inv in B0. apply Rabs_le. assert (- / 10 <= - tt * X * d1 <= / 10) by nra. lra. }
    assert (B1 : Rabs (B2R v * X) <= 6401 * 6.4) by (rewrite Rabs_mult; apply Rmult_le_compat; try apply Rabs_pos; assumption).
    destruct (mult_ok prec emax _ _ prec_ok emax_ok v x F1 x_fin) as [F2 V2]; [apply (small_big _ (6401 * 6.4)); [exact B1|lra]|].
    destruct (rnd_any prec emax _ (B2R v * X)) as (d2' & g2 & Hd2 & Hg2 & E2). rewrite E2 in V2. clear E2.
    set (y := v *! x) in *. apply Rabs_le_inv in Hd2 as Hd2'. apply Rabs_le_inv in Hg2 as Hg2'.
    assert (By : Rabs (B2R y) <= 50000).
    { rewrite V2. apply Rabs_le_inv in B1. apply Rabs_le. assert (- 1 <= B2R v * X * d2' <= 1) by nra. lra. }
    assert (D0 : B2R D <> 0) by lra. assert (iD : 0 < / d 2 k <= / 2) by (split; [apply Rinv_0_lt_compat; lra|apply Rinv_le; lra]).
    assert (B2 : Rabs (B2R y / B2R D) <= 25000).
    { rewrite VD. unfold Rdiv. rewrite Rabs_mult, (Rabs_pos_eq (/ d 2 k)) by lra. replace 25000 with (50000 * / 2) by lra. apply Rmult_le_compat; try apply Rabs_pos; lra. }
    destruct (div_ok prec emax _ _ prec_ok emax_ok y D F2 D0) as [F3 V3]; [apply (small_big _ 25000); [exact B2|lra]|].
    destruct (rnd_any prec emax _ (B2R y / B2R D)) as (d3 & g3 & Hd3 & Hg3 & E3). rewrite E3 in V3. clear E3. apply Rabs_le_inv in Hd3 as Hd3'.
    cbv zeta. split; [exact F3|]. unfold step. rewrite V3, V2, V1, VD. unfold q.
    replace (((- tt * X * (1 + d1) + g1) * X * (1 + d2') + g2) / d 2 k * (1 + d3) + g3 + tt * (X * X / d 2 k))
      with (tt * (X * X / d 2 k) * (1 - (1 + d1) * (1 + d2') * (1 + d3)) + ((g1 * (X * (1 + d2')) + g2) * ((1 + d3) * / d 2 k) + g3)) by (field; lra).
    pose proof (three_errors d1 d2' d3 u U Hd1 Hd2 Hd3) as H3. set (G := 1 - _) in *.
    assert (Q0 : 0 <= X * X / d 2 k) by (apply Rmult_le_pos; [pose proof (Rle_0_sqr X) as S; unfold Rsqr in S|]; lra).
    apply Rle_trans with (1 := Rabs_triang _ _). apply Rplus_le_compat.
    - rewrite !Rabs_mult, (Rabs_pos_eq (X * X / d 2 k)) by exact Q0. replace (3.1 * u * Rabs tt * (X * X / d 2 k)) with (Rabs tt * (X * X / d 2 k) * (3.1 * u)) by ring.
      apply Rmult_le_compat_l; [|exact H3]. apply Rmult_le_pos; [apply Rabs_pos|exact Q0].
    - apply Rle_trans with (1 := Rabs_triang _ _). unfold zz.
      assert (H4 : Rabs ((1 + d3) * / d 2 k) <= 0.6).
      { rewrite !Rabs_mult, (Rabs_pos_eq (/ d 2 k)) by lra. rewrite !Rabs_pos_eq by lra.
        apply Rle_trans with (1.01 * / 2); [|lra]. apply Rmult_le_compat; lra. }
      assert (H5 : Rabs (X * (1 + d2')) <= 7). { rewrite Rabs_mult. apply Rle_trans with (6.4 * 1.01); [|lra]. apply Rmult_le_compat; try apply Rabs_pos; [assumption|apply Rabs_le; lra]. }
      assert (H6 : Rabs (g1 * (X * (1 + d2')) + g2) <= 8 * eta).
      { apply Rle_trans with (1 := Rabs_triang _ _). rewrite Rabs_mult.
        assert (Rabs g1 * Rabs (X * (1 + d2')) <= eta * 7) by (apply Rmult_le_compat; try apply Rabs_pos; assumption). lra. }
      rewrite Rabs_mult.
      assert (H7 : Rabs (g1 * (X * (1 + d2')) + g2) * Rabs ((1 + d3) * / d 2 k) <= 8 * eta * 0.6) by (apply Rmult_le_compat; try apply Rabs_pos; assumption).
      lra.
  Qed.

  (** Adding a term, with the test that ends the loop. *)
  Lemma add_ok (s t' : float) : is_finite s = true -> is_finite t' = true -> Rabs (B2R s) <= 1000 -> Rabs (B2R t') <= 1000000 ->
    let s' := s +. t' in is_finite s' = true /\ Rabs (B2R s' - (B2R s + B2R t')) <= u * Rabs (B2R s + B2R t') /\
      if Beqb s' s then B2R s' = B2R s /\ Rabs (B2R t') <= 1.01 * u * Rabs (B2R s) else u / 5 * Rabs (B2R s) < Rabs (B2R t').
  Proof using prec_ok emax_ok.
    intros Fs Ft Bs Bt. pose proof (u_range prec prec_ok) as U.
    destruct (plus_ok prec emax _ _ prec_ok emax_ok s t' Fs Ft) as [F V].
    { apply (small_big _ 1001000); [|lra]. apply Rle_trans with (1 := Rabs_triang _ _). lra. }
    cbv zeta. set (s' := s +. t') in *. assert (E : Rabs (B2R s' - (B2R s + B2R t')) <= u * Rabs (B2R s + B2R t')) by (rewrite V; apply (plus_err prec emax prec_gt_0_); apply fmt).
    split; [exact F|]. split; [exact E|]. rewrite Beqb_correct by assumption. destruct (Req_bool_spec (B2R s') (B2R s)) as [Eq|Ne].
    - split; [exact Eq|]. rewrite Eq in E. replace (B2R s - (B2R s + B2R t')) with (- B2R t') in E by ring. rewrite Rabs_Ropp in E.
      pose proof (Rabs_triang (B2R s) (B2R t')). pose proof (Rabs_pos (B2R t')). pose proof (Rabs_pos (B2R s)).
      assert (u * Rabs (B2R s + B2R t') <= u * Rabs (B2R s) + u * Rabs (B2R t')) by (rewrite <- Rmult_plus_distr_l; apply Rmult_le_compat_l; lra).
      assert (u * Rabs (B2R t') <= / 1000000 * Rabs (B2R t')) by (apply Rmult_le_compat_r; lra).
      assert (0 <= u * Rabs (B2R s)) by (apply Rmult_le_pos; lra). lra.
    - apply Rnot_le_lt. intros H. apply Ne. rewrite V. apply (absorb prec emax _ prec_ok emax_ok); [apply fmt|exact H].
  Qed.

  Section Invariant.
    Variable a : Z.
    Hypothesis a_pos : (1 <= a)%Z.
    Variable sg : R.
    Variable p : nat -> R.
    Hypothesis p_nonneg : forall k, 0 <= p k.
    Hypothesis p_ok : forall k, q a X k * (1 + p (S k)) <= p k.
    Hypothesis tot_bound : tot sg p <= 400.
    Lemma q_bound k : q a X k <= 39.9 / 2.
    Proof using a_pos x_range.
      unfold q. pose proof (d_pos a a_pos k). assert (0 < / d a k <= / 2) by (split; [apply Rinv_0_lt_compat; lra|apply Rinv_le; lra]).
      pose proof (Rle_0_sqr X) as S. unfold Rsqr in S. apply Rmult_le_compat; lra.
    Qed.
    Lemma ww_small : ww <= / 1000000.
    Proof using. apply Rle_trans with (bpow radix2 (-20)); [apply bpow_le; lia|cbn; lra]. Qed.
    Lemma term_bound k t : (k <= 99)%nat -> term_ok a X sg u zz k t -> Rabs t <= 1000.
    Proof using a_pos p_nonneg p_ok tot_bound prec_ok emax_ok.
      intros K H. destruct (term_A a a_pos X sg u zz ww (u_range prec prec_ok) zz_nonneg 99 ltac:(lia) ww_ok k t K H) as [_ B].
      pose proof (sum_A a a_pos X sg p p_ok k) as S. pose proof (Rmult_le_pos _ _ (p_nonneg k) (A_nonneg a X sg k)).
      assert (A a X sg k <= sum_f_R0 (A a X sg) k).
      { destruct k; [cbn; lra|]. cbn [sum_f_R0]. assert (0 <= sum_f_R0 (A a X sg) k) by (apply cond_pos_sum; intros; apply A_nonneg). lra. }
      unfold tot in tot_bound. pose proof ww_small. lra.
    Qed.
    Lemma sum_bound k s : (k <= 99)%nat -> sum_ok a X sg p u ww k s -> Rabs s <= 1000.
    Proof using a_pos p_nonneg p_ok tot_bound prec_ok emax_ok.
      intros K H. unfold sum_ok in H. pose proof (D_bound a a_pos X sg p p_nonneg p_ok u zz ww (u_range prec prec_ok) zz_nonneg 99 ltac:(lia) ww_ok k K) as [_ B].
      pose proof (Sum_bound a a_pos X sg p p_nonneg p_ok k) as S. fold (tot sg p) in S. pose proof ww_small. pose proof (u_range prec prec_ok).
      assert (u * tot sg p <= / 1000000 * 400). { apply Rmult_le_compat; try lra. apply (tot_nonneg sg p p_nonneg). }
      replace s with (Sum a X sg k + (s - Sum a X sg k)) by ring. apply Rle_trans with (1 := Rabs_triang _ _). lra.
    Qed.

    (** What one pass of either loop does. *)
    Lemma pass k (t s t' : float) : (k < 99)%nat -> is_finite s = true -> is_finite t' = true -> term_ok a X sg u zz k (B2R t) -> sum_ok a X sg p u ww k (B2R s) ->
      step a X u zz k (B2R t) (B2R t') ->
      let s' := s +. t' in is_finite s' = true /\ term_ok a X sg u zz (S k) (B2R t') /\ sum_ok a X sg p u ww (S k) (B2R s') /\
        (Beqb s' s = true -> run a X u zz 99 k (B2R t) (B2R s) (B2R s')) /\
        (Beqb s' s = false -> forall v, run a X u zz 99 (S k) (B2R t') (B2R s') v -> run a X u zz 99 k (B2R t) (B2R s) v).
    Proof using a_pos p_nonneg p_ok tot_bound prec_ok emax_ok x_range.
      intros K Fs Ft' Ht Hs St.
      assert (Ht' : term_ok a X sg u zz (S k) (B2R t')) by (apply (term_step a a_pos X sg u zz (u_range prec prec_ok) zz_nonneg 99 ltac:(lia) q_bound k (B2R t)); [lia|exact Ht|exact St]).
      pose proof (term_bound (S k) _ ltac:(lia) Ht') as Bt'. pose proof (sum_bound k _ ltac:(lia) Hs) as Bs.
      destruct (add_ok s t' Fs Ft' Bs ltac:(lra)) as (F & E & B). cbv zeta. set (s' := s +. t') in *. split; [exact F|]. split; [exact Ht'|].
      split; [apply (sum_step_ok a a_pos X sg p p_nonneg p_ok u zz ww (u_range prec prec_ok) zz_nonneg 99 ltac:(lia) ww_ok k (B2R s) (B2R t')); [lia|assumption..]|].
      split; intros Q; rewrite Q in B.
      - destruct B as [-> B]. apply run_exit with (B2R t'); [lia|exact St|exact B].
      - intros v R. apply run_next with (B2R t') (B2R s'); [lia|exact St|exact E|exact B|exact R].
    Qed.
  End Invariant.

  Lemma cos_loop_run p (p_nonneg : forall k, 0 <= p k) (p_ok : forall k, q 1 X k * (1 + p (S k)) <= p k) (tb : tot 1 p <= 400) n : forall k (t s : float),
    (k + n = 99)%nat -> is_finite t = true -> is_finite s = true -> term_ok 1 X 1 u zz k (B2R t) -> sum_ok 1 X 1 p u ww k (B2R s) ->
    let v := cos_loop prec emax _ _ n (Z.of_nat k + 1) x t s in is_finite v = true /\ run 1 X u zz 99 k (B2R t) (B2R s) (B2R v).
  Proof using prec_ok emax_ok x_fin x_range.
    induction n as [|n IH]; intros k t s K Ft Fs Ht Hs; cbn [cos_loop]; cbv zeta.
    - split; [exact Fs|]. replace k with 99%nat by lia. apply run_end.
    - destruct (cos_den_ok (Z.of_nat k) ltac:(lia)) as [FD VD].
      destruct (cos_step t _ k Ft (term_bound 1 ltac:(lia) 1 p p_nonneg p_ok tb k _ ltac:(lia) Ht) FD VD) as [Ft' St].
      set (t' := t *! _) in *.
      destruct (pass 1 ltac:(lia) 1 p p_nonneg p_ok tb k t s t' ltac:(lia) Fs Ft' Ht Hs St) as (Fs' & Ht' & Hs' & Re & Rn).
      destruct (Beqb (s +. t') s) eqn:B; [split; [exact Fs'|now apply Re]|].
      replace (Z.of_nat k + 1 + 1)%Z with (Z.of_nat (S k) + 1)%Z by lia.
      destruct (IH (S k) t' (s +. t') ltac:(lia) Ft' Fs' Ht' Hs') as [Fv Rv]. split; [exact Fv|]. now apply Rn.
  Qed.
  Lemma sin_loop_run p (p_nonneg : forall k, 0 <= p k) (p_ok : forall k, q 2 X k * (1 + p (S k)) <= p k) (tb : tot X p <= 400) n : forall k (t s : float),
    (k + n = 99)%nat -> is_finite t = true -> is_finite s = true -> term_ok 2 X X u zz k (B2R t) -> sum_ok 2 X X p u ww k (B2R s) ->
    let v := sin_loop prec emax _ _ n (2 * Z.of_nat k + 3) x t s in is_finite v = true /\ run 2 X u zz 99 k (B2R t) (B2R s) (B2R v).
  Proof using prec_ok emax_ok x_fin x_range.
    induction n as [|n IH]; intros k t s K Ft Fs Ht Hs; cbn [sin_loop]; cbv zeta.
    - split; [exact Fs|]. replace k with 99%nat by lia. apply run_end.
    - destruct (sin_den_ok (Z.of_nat k) ltac:(lia)) as [FD VD].
      destruct (sin_step t _ k Ft (term_bound 2 ltac:(lia) X p p_nonneg p_ok tb k _ ltac:(lia) Ht) FD VD) as [Ft' St].
      set (t' := _ /. _) in *.
      destruct (pass 2 ltac:(lia) X p p_nonneg p_ok tb k t s t' ltac:(lia) Fs Ft' Ht Hs St) as (Fs' & Ht' & Hs' & Re & Rn).
      destruct (Beqb (s +. t') s) eqn:B; [split; [exact Fs'|now apply Re]|].
      replace (2 * Z.of_nat k + 3 + 2)%Z with (2 * Z.of_nat (S k) + 3)%Z by lia.
      destruct (IH (S k) t' (s +. t') ltac:(lia) Ft' Fs' Ht' Hs') as [Fv Rv]. split; [exact Fv|]. now apply Rn.
  Qed.

  Lemma D_0 a sg p : D a X sg p u ww 0 = 0. Proof using. unfold D. cbn. ring. Qed.
  Lemma zk_0 : zk zz 0 = 0. Proof using. unfold zk. cbn. ring. Qed.
  (** The whole series, from the first term on. *)
  Lemma cos_taylor_run p (p_nonneg : forall k, 0 <= p k) (p_ok : forall k, q 1 X k * (1 + p (S k)) <= p k) (tb : tot 1 p <= 400) :
    let v := cos_taylor prec emax _ _ x in is_finite v = true /\
      exists t s, term_ok 1 X 1 u zz 1 t /\ sum_ok 1 X 1 p u ww 1 s /\ run 1 X u zz 99 1 t s (B2R v).
  Proof using prec_ok emax_ok x_fin x_range.
    destruct (one_ok prec emax _ _) as [F1 V1]. destruct (int_ok prec emax _ _ prec_ok emax_ok 2 ltac:(lia)) as [F2 V2].
    assert (T0 : term_ok 1 X 1 u zz 0 (B2R (Bone : float))).
    { unfold term_ok. rewrite zk_0, V1. cbn [T]. rewrite Rminus_diag_eq by reflexivity. rewrite Rabs_R0. cbn. lra. }
    assert (S0 : sum_ok 1 X 1 p u ww 0 (B2R (Bone : float))).
    { unfold sum_ok. rewrite D_0, V1. cbn. rewrite Rminus_diag_eq by reflexivity. rewrite Rabs_R0. lra. }
    destruct (cos_step Bone (of_Z 2) 0 F1 ltac:(rewrite V1, Rabs_R1; lra) F2) as [_ St0]; [rewrite V2; unfold d; cbn; lra|].
    assert (Ft : is_finite (Bopp x *! x /. of_Z 2) = true /\ step 1 X u zz 0 (B2R (Bone : float)) (B2R (Bopp x *! x /. of_Z 2))).
    { pose proof (Rle_0_sqr X) as xx0. unfold Rsqr in xx0. pose proof (u_range prec prec_ok) as U.
      pose proof (eta_pos prec emax) as e0. assert (e1 : eta <= / 1000000).
      { pose proof (eta_small prec emax prec_ok emax_ok). apply Rle_trans with (1 := H). apply Rle_trans with (bpow radix2 (-20)); [apply bpow_le; lia|cbn; lra]. }
      destruct (mult_ok prec emax _ _ prec_ok emax_ok (Bopp x) x (opp_fin x x_fin) x_fin) as [Fv Vv].
      { rewrite B2R_Bopp. apply (small_big _ 39.9); [|lra]. rewrite <- Ropp_mult_distr_l, Rabs_Ropp, Rabs_pos_eq by lra. lra. }
      rewrite B2R_Bopp in Vv. destruct (rnd_any prec emax _ (- X * X)) as (d1 & g1 & Hd1 & Hg1 & E1).
      set (v := Bopp x *! x) in *. rewrite E1 in Vv. apply Rabs_le_inv in Hd1 as Hd1'. apply Rabs_le_inv in Hg1 as Hg1'.
      assert (Bv : Rabs (B2R v) <= 40). { rewrite Vv. apply Rabs_le. assert (- / 1000 <= X * X * d1 <= / 1000) by nra. lra. }
      destruct (div_ok prec emax _ _ prec_ok emax_ok v (of_Z 2) Fv ltac:(rewrite V2; lra)) as [Fy Vy].
      { rewrite V2. apply Rabs_le_inv in Bv. apply (small_big _ 20); [|lra]. apply Rabs_le. lra. }
      split; [exact Fy|]. clear St0. rewrite Vy, V2. destruct (rnd_any prec emax _ (B2R v / 2)) as (d2 & g2 & Hd2 & Hg2 & E2). rewrite E2, Vv, V1.
      unfold step. apply Rabs_le_inv in Hd2 as Hd2'. rewrite Rabs_R1. assert (Q : q 1 X 0 = X * X / 2) by (unfold q, d; cbn; lra). rewrite Q.
      replace ((- X * X * (1 + d1) + g1) / 2 * (1 + d2) + g2 + 1 * (X * X / 2)) with (X * X / 2 * (1 - (1 + d1) * (1 + d2) * (1 + 0)) + (g1 * ((1 + d2) / 2) + g2)) by field.
      pose proof (three_errors d1 d2 0 u U Hd1 Hd2 ltac:(rewrite Rabs_R0; lra)) as H3. set (G := 1 - _) in *.
      apply Rle_trans with (1 := Rabs_triang _ _). apply Rplus_le_compat.
      - rewrite Rabs_mult, (Rabs_pos_eq (X * X / 2)) by lra. replace (3.1 * u * 1 * (X * X / 2)) with (X * X / 2 * (3.1 * u)) by ring.
        apply Rmult_le_compat_l; lra.
      - apply Rle_trans with (1 := Rabs_triang _ _). rewrite Rabs_mult. unfold zz.
        assert (Rabs g1 * Rabs ((1 + d2) / 2) <= eta * 1) by (apply Rmult_le_compat; try apply Rabs_pos; [assumption|apply Rabs_le; lra]). lra. }
    clear St0. destruct Ft as [Ft St].
    destruct (pass 1 ltac:(lia) 1 p p_nonneg p_ok tb 0 Bone Bone _ ltac:(lia) F1 Ft T0 S0 St) as (Fs' & Ht' & Hs' & _ & _).
    unfold cos_taylor. cbv zeta. set (t := _ /. of_Z 2) in *.
    destruct (cos_loop_run p p_nonneg p_ok tb 98 1 t (Bone +. t) eq_refl Ft Fs' Ht' Hs') as [Fv Rv].
    split; [exact Fv|]. exists (B2R t), (B2R (Bone +. t)). split; [exact Ht'|]. split; [exact Hs'|]. exact Rv.
  Qed.
  Lemma sin_taylor_run p (p_nonneg : forall k, 0 <= p k) (p_ok : forall k, q 2 X k * (1 + p (S k)) <= p k) (tb : tot X p <= 400) :
    let v := sin_taylor prec emax _ _ x in is_finite v = true /\
      exists t s, term_ok 2 X X u zz 0 t /\ sum_ok 2 X X p u ww 0 s /\ run 2 X u zz 99 0 t s (B2R v).
  Proof using prec_ok emax_ok x_fin x_range.
    assert (T0 : term_ok 2 X X u zz 0 X).
    { unfold term_ok. rewrite zk_0. cbn [T]. rewrite Rminus_diag_eq by reflexivity. rewrite Rabs_R0. cbn. lra. }
    assert (S0 : sum_ok 2 X X p u ww 0 X).
    { unfold sum_ok. rewrite D_0. cbn. rewrite Rminus_diag_eq by reflexivity. rewrite Rabs_R0. lra. }
    destruct (sin_loop_run p p_nonneg p_ok tb 99 0 x x eq_refl x_fin x_fin T0 S0) as [Fv Rv]. split; [exact Fv|].
    exists X, X. split; [exact T0|]. split; [exact S0|]. exact Rv.
  Qed.
End Loops.
