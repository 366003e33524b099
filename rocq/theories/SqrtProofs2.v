(** The compile-time square root on IEEE numbers. *)
From Coq Require Import ZArith Bool List Reals Lra Lia Psatz.
From Flocq Require Import Core BinarySingleNaN Relative Mult_error.
From Verif Require Import FpModel FpProofs SqrtModel SqrtProofs.
Import ListNotations.
Local Open Scope R_scope.

Section SqrtFp.
  Variable prec emax : Z.
  Context (prec_gt_0_ : Prec_gt_0 prec).
  Context (prec_lt_emax_ : Prec_lt_emax prec emax).
  Notation float := (binary_float prec emax).
  Notation emin := (3 - emax - prec)%Z.
  Notation fexp := (FLT_exp emin prec).
  Notation rnd := (round radix2 fexp ZnearestE).
  Notation format := (generic_format radix2 fexp).
  Notation u := (bpow radix2 (- prec)).
  Hypothesis prec_ok : (20 <= prec <= 150)%Z.
  Hypothesis emax_ok : (1024 <= emax)%Z.

  Lemma u_pos : 0 < u. Proof using. apply bpow_gt_0. Qed.
  Lemma u_small : u <= / 1000000.
  Proof using prec_ok. apply Rle_trans with (bpow radix2 (-20)); [apply bpow_le; lia|]. cbn. lra. Qed.
  Lemma u_large : / 10 ^ 46 <= u.
  Proof using prec_ok. apply Rle_trans with (bpow radix2 (-150)); [|apply bpow_le; lia]. cbn. lra. Qed.

  Definition L : R := bpow radix2 80.
  Definition l : R := bpow radix2 (-80).
  Lemma L_pow : L = 2 ^ 80. Proof using. unfold L. cbn. lra. Qed.
  Lemma lL : l * L = 1. Proof using. unfold l, L. rewrite <- bpow_plus. reflexivity. Qed.

  (** The rounding of a number in the middle of the range. *)
  Lemma rnd_mid v : bpow radix2 (-300) <= v <= bpow radix2 300 -> exists d, Rabs d <= u /\ rnd v = v * (1 + d) /\ Rabs (rnd v) < bpow radix2 emax.
  Proof using emax_ok prec_gt_0_ prec_ok.
    intros [H1 H2]. pose proof (bpow_gt_0 radix2 (-300)) as P. assert (Hv : Rabs v = v) by (apply Rabs_pos_eq; lra).
    destruct (relative_error_N_FLT_ex radix2 emin prec prec_gt_0_ (fun x => negb (Z.even x)) v) as (d & Hd & E).
    - rewrite Hv. apply Rle_trans with (2 := H1). apply bpow_le. lia.
    - exists d. assert (U : / 2 * bpow radix2 (- prec + 1) = u) by (rewrite bpow_plus; cbn; lra). rewrite U in Hd. split; [exact Hd|]. split; [exact E|].
      rewrite E, Rabs_mult, Hv. apply Rabs_le_inv in Hd. pose proof u_small. rewrite Rabs_pos_eq by lra.
      apply Rle_lt_trans with (bpow radix2 300 * 2); [apply Rmult_le_compat; lra|]. change 2 with (bpow radix2 1). rewrite <- bpow_plus. apply bpow_lt. lia.
  Qed.

  Lemma half_ok : is_finite (one_over_two prec emax _ _) = true /\ B2R (one_over_two prec emax _ _) = / 2.
  Proof using emax_ok prec_gt_0_ prec_ok.
    unfold one_over_two. pose proof (binary_normalize_correct prec emax _ _ mode_NE 1 (-1) false) as C. cbn zeta in C.
    assert (V : F2R (Float radix2 1 (-1)) = / 2) by (unfold F2R; cbn; lra). rewrite V in C.
    assert (E : round radix2 (SpecFloat.fexp prec emax) (round_mode mode_NE) (/ 2) = / 2).
    { apply (rnd_fmt prec emax). rewrite <- V. apply generic_format_F2R. intros _. unfold cexp. rewrite V. change (/ 2) with (bpow radix2 (-1)). rewrite mag_bpow. unfold FLT_exp. lia. }
    rewrite E, Rlt_bool_true in C; [split; [exact (proj1 (proj2 C))|exact (proj1 C)]|].
    rewrite Rabs_pos_eq by lra. change (/ 2) with (bpow radix2 (-1)). apply bpow_lt. lia.
  Qed.

  Variable x : float.
  Hypothesis x_fin : is_finite x = true.
  Hypothesis x_range : bpow radix2 (-160) <= B2R x <= bpow radix2 160.
  Notation s := (sqrt (B2R x)).
  Lemma x_pos : 0 < B2R x. Proof using x_range. pose proof (bpow_gt_0 radix2 (-160)). lra. Qed.
  Lemma ss : s * s = B2R x. Proof using x_range. apply sqrt_sqrt. pose proof x_pos. lra. Qed.
  Lemma s_range : l <= s <= L.
  Proof using x_range.
    unfold l, L. split; (rewrite <- (sqrt_square (bpow radix2 _)) by apply bpow_ge_0); apply sqrt_le_1_alt; rewrite <- bpow_plus; cbn [Z.add Z.opp Pos.add Pos.succ Z.pos_sub]; apply x_range.
  Qed.
  Lemma l_pos : 0 < l. Proof using. apply bpow_gt_0. Qed.
  Lemma L_pos : 0 < L. Proof using. apply bpow_gt_0. Qed.

  (** One iteration. *)
  Lemma newton_ok (c : float) t : is_finite c = true -> B2R c = t * s -> l <= t <= L ->
    is_finite (newton prec emax _ _ x c) = true /\ exists t', B2R (newton prec emax _ _ x c) = t' * s /\ step u t t'.
  Proof using emax_ok prec_ok x_fin x_range.
    intros Fc Ec Ht. pose proof s_range as Hs. pose proof l_pos as Pl. pose proof L_pos as PL. pose proof u_small as Us. pose proof u_pos as Up.
    assert (Pc : 0 < t * s) by (apply Rmult_lt_0_compat; lra).
    assert (Q : B2R x / (t * s) = s / t) by (transitivity (s * s / (t * s)); [rewrite ss; reflexivity|field; lra]).
    assert (It : l <= / t <= L).
    { pose proof lL. split; apply Rmult_le_reg_l with t; try lra; rewrite Rinv_r by lra.
      - apply Rle_trans with (L * l); [apply Rmult_le_compat_r; lra|lra].
      - apply Rle_trans with (l * L); [lra|apply Rmult_le_compat_r; lra]. }
    assert (LL : L * L = bpow radix2 160) by (unfold L; rewrite <- bpow_plus; reflexivity).
    assert (ll : l * l = bpow radix2 (-160)) by (unfold l; rewrite <- bpow_plus; reflexivity).
    assert (Rq : l * l <= s / t <= L * L) by (unfold Rdiv; split; apply Rmult_le_compat; lra).
    assert (Rc : l * l <= t * s <= L * L) by (split; apply Rmult_le_compat; lra).
    assert (B1 : bpow radix2 (-300) <= bpow radix2 (-160)) by (apply bpow_le; lia). assert (B2 : bpow radix2 162 <= bpow radix2 300) by (apply bpow_le; lia).
    assert (B3 : bpow radix2 162 = 4 * bpow radix2 160) by (change 4 with (bpow radix2 2); rewrite <- bpow_plus; reflexivity). assert (P160 : 0 < bpow radix2 160) by apply bpow_gt_0.
    destruct (rnd_mid (s / t) ltac:(lra)) as (d1 & Hd1 & E1 & O1).
    pose proof (Bdiv_correct prec emax _ _ mode_NE x c ltac:(lra)) as C1. rewrite Ec, Q in C1. change (round_mode mode_NE) with ZnearestE in C1. change (SpecFloat.fexp prec emax) with fexp in C1.
    rewrite Rlt_bool_true in C1 by exact O1. destruct C1 as (V1 & F1 & _). rewrite x_fin in F1. rewrite E1 in V1.
    pose proof (Rabs_le_inv _ _ Hd1) as Hd1'.
    assert (Rq' : 0 < s / t * (1 + d1) <= 2 * (L * L)). { split; [apply Rmult_lt_0_compat; [rewrite ll in Rq; pose proof (bpow_gt_0 radix2 (-160)); lra|lra]|]. rewrite (Rmult_comm 2). apply Rmult_le_compat; try lra. pose proof (bpow_gt_0 radix2 (-160)); lra. }
    destruct (rnd_mid (t * s + s / t * (1 + d1)) ltac:(lra)) as (d2 & Hd2 & E2 & O2).
    pose proof (Bplus_correct prec emax _ _ mode_NE c (Bdiv mode_NE x c) Fc F1) as C2. rewrite Ec, V1 in C2. change (round_mode mode_NE) with ZnearestE in C2. change (SpecFloat.fexp prec emax) with fexp in C2.
    rewrite Rlt_bool_true in C2 by exact O2. destruct C2 as (V2 & F2 & _). rewrite E2 in V2. pose proof (Rabs_le_inv _ _ Hd2) as Hd2'.
    destruct half_ok as [Fh Vh]. set (v := Bplus mode_NE c (Bdiv mode_NE x c)) in *.
    assert (Rv : bpow radix2 (-161) <= B2R v).
    { rewrite V2. replace (bpow radix2 (-161)) with (bpow radix2 (-160) * / 2) by (change (/ 2) with (bpow radix2 (-1)); rewrite <- bpow_plus; reflexivity).
      pose proof (bpow_gt_0 radix2 (-160)). apply Rmult_le_compat; lra. }
    assert (Fm : format (/ 2 * B2R v)).
    { rewrite Rmult_comm. change (/ 2) with (bpow radix2 (-1)). apply mult_bpow_exact_FLT; [apply (fmt prec emax)|].
      assert (M : (-161 + 1 <= mag radix2 (B2R v))%Z). { apply mag_ge_bpow. replace (-161 + 1 - 1)%Z with (-161)%Z by lia. rewrite Rabs_pos_eq by (pose proof (bpow_gt_0 radix2 (-161)); lra). exact Rv. } lia. }
    pose proof (Bmult_correct prec emax _ _ mode_NE (one_over_two prec emax _ _) v) as C3. rewrite Vh in C3. change (round_mode mode_NE) with ZnearestE in C3. change (SpecFloat.fexp prec emax) with fexp in C3.
    rewrite (rnd_fmt prec emax _ Fm) in C3. rewrite Rlt_bool_true in C3.
    - destruct C3 as (V3 & F3 & _). rewrite Fh, F2 in F3. split; [exact F3|].
      exists (/ 2 * (t + (1 + d1) / t) * (1 + d2)). split; [|exists d1, d2; repeat split; assumption].
      unfold newton. fold v. rewrite V3, V2. field. lra.
    - rewrite Rabs_mult, (Rabs_pos_eq (/ 2)) by lra. pose proof (abs_B2R_lt_emax prec emax v) as K. pose proof (Rabs_pos (B2R v)). lra.
  Qed.

  Lemma first_step t t' : l <= t <= L -> step u t t' -> 1 - 2 * u <= t' <= bound u 1.
  Proof using prec_ok.
    intros Ht S. pose proof u_small as Us. pose proof u_pos as Up. pose proof l_pos. split; [apply (step_low u Up Us t t'); [lra|exact S]|].
    unfold bound. cbn [Nat.leb Nat.sub pow]. rewrite Rmult_1_r. apply Rle_trans with (2 := Rmax_r _ _).
    assert (L8 : 8 <= L) by (change 8 with (bpow radix2 3); apply bpow_le; lia).
    assert (G : t' <= L); [|rewrite L_pow in G; exact G].
    destruct (Rle_lt_dec 1 t) as [K|K].
    - apply Rle_trans with (1 := step_high u Up Us L t t' ltac:(lra) ltac:(lra) S).
      assert (I : / L <= 1) by (rewrite <- Rinv_1; apply Rinv_le; lra). assert (0 < / L) by (apply Rinv_0_lt_compat; lra).
      apply Rle_trans with (/ 2 * (L + 2) * (1 + / 1000000)); [apply Rmult_le_compat; lra|lra].
    - destruct S as (d1 & d2 & H1 & H2 & ->). apply Rabs_le_inv in H1. apply Rabs_le_inv in H2.
      assert (I : / t <= L). { apply Rmult_le_reg_l with t; [lra|]. rewrite Rinv_r by lra. pose proof lL. apply Rle_trans with (l * L); [lra|apply Rmult_le_compat_r; lra]. }
      assert (I0 : 0 < / t) by (apply Rinv_0_lt_compat; lra).
      assert (Q : 0 <= (1 + d1) / t <= (1 + / 1000000) * L). { unfold Rdiv. split; [apply Rmult_le_pos; lra|apply Rmult_le_compat; lra]. }
      apply Rle_trans with (/ 2 * (1 + (1 + / 1000000) * L) * (1 + / 1000000)); [apply Rmult_le_compat; lra|lra].
  Qed.

  Lemma loop_ok : forall n k (c p : float) t, (k + n = 100)%nat -> is_finite c = true -> B2R c = t * s ->
    (k = 0%nat /\ B2R p = 0 /\ is_finite p = true /\ l <= t <= L \/
     (1 <= k)%nat /\ 1 - 2 * u <= t <= bound u k /\ is_finite p = true /\ exists tp, B2R p = tp * s /\ l <= tp <= L /\ step u tp t) ->
    exists r, sqrt_loop prec emax _ _ n x c p = r /\ is_finite r = true /\ Rabs (B2R r - s) <= 2 * u * s.
  Proof using emax_ok prec_ok x_fin x_range.
    pose proof s_range as Hs. pose proof u_small as Us. pose proof u_pos as Up. pose proof u_large as Ul. pose proof l_pos as Pl.
    assert (Fin : forall t, 1 - 2 * u <= t <= 1 + 2 * u -> Rabs (t * s - s) <= 2 * u * s).
    { intros t Ht. replace (t * s - s) with ((t - 1) * s) by ring. rewrite Rabs_mult, (Rabs_pos_eq s) by lra. apply Rmult_le_compat_r; [lra|]. apply Rabs_le. lra. }
    assert (lhalf : l <= / 2) by (unfold l; change (/ 2) with (bpow radix2 (-1)); apply bpow_le; lia).
    induction n as [|n IH]; intros k c p t Hn Fc Ec H; cbn [sqrt_loop].
    - exists c. split; [reflexivity|]. split; [exact Fc|]. rewrite Ec. apply Fin. destruct H as [(-> & _)|(K & T & _)]; [lia|]. rewrite bound_end in T by lia. exact T.
    - assert (T : l <= t <= L). { destruct H as [(_ & _ & _ & T)|(K & T & _)]; [exact T|]. pose proof (bound_max u Us k) as B. rewrite <- L_pow in B. lra. }
      destruct (newton_ok c t Fc Ec T) as (Fn & t' & En & Sn).
      assert (Go : exists r, sqrt_loop prec emax _ _ n x (newton prec emax _ _ x c) c = r /\ is_finite r = true /\ Rabs (B2R r - s) <= 2 * u * s).
      { apply (IH (S k) (newton prec emax _ _ x c) c t'); [lia|exact Fn|exact En|]. right. split; [lia|]. split; [|split; [exact Fc|]; exists t; auto].
        destruct H as [(-> & _)|(K & T' & _)]; [exact (first_step t t' T Sn)|exact (bound_step u Up Us Ul k t t' K T' Sn)]. }
      destruct H as [(-> & Ep & Fp & _)|(K & T' & Fp & tp & Ep & Tp & Sp)].
      + rewrite Beqb_correct by assumption. rewrite Req_bool_false; [exact Go|]. rewrite Ec, Ep. apply Rgt_not_eq. apply Rmult_lt_0_compat; lra.
      + rewrite Beqb_correct by assumption. destruct (Req_bool_spec (B2R c) (B2R p)) as [Q|Q]; [|exact Go].
        cbn [negb]. exists c. split; [reflexivity|]. split; [exact Fc|]. rewrite Ec. apply Fin. apply (step_fixed u Up Us); [lra|].
        assert (t = tp) by (apply Rmult_eq_reg_r with s; [congruence|lra]). subst tp. exact Sp.
  Qed.

  Lemma sqrt_naive_ok : exists r, sqrt_naive prec emax _ _ x = Some r /\ is_finite r = true /\ Rabs (B2R r - s) <= 2 * u * s.
  Proof using emax_ok prec_ok x_fin x_range.
    pose proof x_pos as Px. pose proof s_range as Hs. pose proof u_pos as Up. pose proof l_pos as Pl. unfold sqrt_naive.
    assert (Fz : is_finite (zero prec emax) = true) by reflexivity. assert (Vz : B2R (zero prec emax) = 0) by reflexivity.
    rewrite !Beqb_correct, Bltb_correct by (assumption || reflexivity || apply is_finite_Bone). rewrite Vz, Req_bool_false by lra. rewrite Req_bool_true by reflexivity. cbn [orb negb].
    rewrite Rlt_bool_false by lra. rewrite Bone_correct. destruct (Req_bool_spec (B2R x) 1) as [E|E].
    - exists Bone. split; [reflexivity|]. split; [apply is_finite_Bone|]. rewrite Bone_correct, E, sqrt_1, Rminus_diag_eq, Rabs_R0 by reflexivity. lra.
    - destruct (loop_ok max_iterations 0 x (zero prec emax) s) as (r & H & F & B).
      + reflexivity. + exact x_fin. + symmetry; exact ss.
      + left. repeat split; try reflexivity; lra.
      + exists r. split; [f_equal; exact H|]. split; [exact F|exact B].
  Qed.
End SqrtFp.
