(** The reduction of the compile-time sine and cosine to one turn. *)
From Coq Require Import ZArith Bool List Reals Lra Lia Psatz.
From Flocq Require Import Core BinarySingleNaN Relative Plus_error.
From Verif Require Import FpModel FpProofs FpProofs2 TrigModel TrigSpec TrigProofs TrigProofs2 TrigProofs3 TrigProofs4 TrigProofs5.
Local Open Scope R_scope.

Lemma fn_period b x n : fn b (x - 2 * PI * IZR n) = fn b x.
Proof.
  assert (N : forall y (k : nat), fn b (y + 2 * INR k * PI) = fn b y) by (intros y k; destruct b; [apply cos_period|apply sin_period]).
  destruct (Z.le_ge_cases 0 n) as [H|H].
  - rewrite <- (N _ (Z.to_nat n)). f_equal. rewrite INR_IZR_INZ, Z2Nat.id by exact H. ring.
  - rewrite <- (N x (Z.to_nat (- n))). f_equal. rewrite INR_IZR_INZ, Z2Nat.id, opp_IZR by lia. ring.
Qed.
Lemma fn_lip b x y : Rabs (fn b x - fn b y) <= Rabs (x - y).
Proof. destruct b; [apply cos_lip|apply sin_lip]. Qed.

Section Reduce.
  Variable prec emax : Z.
  Context (prec_gt_0_ : Prec_gt_0 prec).
  Context (prec_lt_emax_ : Prec_lt_emax prec emax).
  Notation float := (binary_float prec emax).
  Notation emin := (3 - emax - prec)%Z.
  Notation fexp := (FLT_exp emin prec).
  Notation rnd := (round radix2 fexp ZnearestE).
  Notation u := (bpow radix2 (- prec)).
  Hypothesis prec_ok : (53 <= prec <= 113)%Z.
  Hypothesis emax_ok : (1024 <= emax)%Z.
  Variable c : constants prec emax.
  Hypothesis c_ok : right_constants prec emax c.

  Lemma eta_u : eta prec emax <= u / 1000.
  Proof using prec_ok emax_ok.
    apply Rle_trans with (1 := eta_small prec emax prec_ok emax_ok). apply Rle_trans with (bpow radix2 (- prec) * bpow radix2 (-10)); [rewrite <- bpow_plus; apply bpow_le; lia|].
    cbn [bpow]. pose proof (u_pos prec). apply Rmult_le_compat_l; [lra|]. cbn. lra.
  Qed.

  Lemma reduce_outside (x : float) : is_finite x = true -> Rabs (B2R x) <= bpow radix2 40 -> B2R x < 0 \/ B2R (two_pi c) < B2R x ->
    exists y n, reduce prec emax _ _ c x = Some y /\ is_finite y = true /\ - 0.5 <= B2R y <= 6.3 /\
      Rabs (B2R y - (B2R x - 2 * PI * IZR n)) <= 2.2 * u * Rabs (B2R x) + 40 * u.
  Proof using prec_ok emax_ok c_ok.
    intros F R O. set (X := B2R x) in *. pose proof PI_bounds as Pb. pose proof (u_pos prec) as U0. pose proof (u_tiny prec prec_ok) as Ut. pose proof eta_u as Eu. pose proof (eta_pos prec emax) as E0.
    assert (UX : u * Rabs X <= 0.00013).
    { apply Rle_trans with (bpow radix2 (-53) * bpow radix2 40); [apply Rmult_le_compat; [lra|apply Rabs_pos|apply bpow_le; lia|exact R]|]. rewrite <- bpow_plus. cbn. lra. }
    pose proof (Rabs_pos X) as X0. assert (UX0 : 0 <= u * Rabs X) by (apply Rmult_le_pos; lra).
    assert (B40 : bpow radix2 40 <= 2000000000000) by (cbn; lra).
    destruct (c_facts prec emax _ prec_ok emax_ok c c_ok) as [(_ & F2 & _) (H2 & _ & _) (_ & E2 & _) (N1 & _)]. set (T2 := B2R (two_pi c)) in *.
    destruct (one_over_two_pi_right _ _ _ c_ok) as [Fo Vo]. set (o := one_over_two_pi c) in *. set (I := 1 / (2 * PI)) in *.
    assert (Ib : 0.159 <= I <= 0.16).
    { unfold I, Rdiv. rewrite Rmult_1_l. split; [apply Rle_trans with (/ 6.2832); [lra|]|apply Rle_trans with (/ 6.2831); [|lra]]; apply Rinv_le; lra. }
    pose proof (rnd_rel prec emax _ prec_ok emax_ok I ltac:(lra)) as Ro. rewrite <- Vo in Ro.
    assert (Ro' : Rabs (B2R o - I) <= 0.16 * u) by (apply Rle_trans with (1 := Ro); rewrite Rmult_comm; apply Rmult_le_compat_r; lra). clear Ro.
    assert (IP : X = 2 * PI * (X * I)) by (unfold I; field; lra).
    assert (oB : Rabs (B2R o) <= 0.17) by (apply Rabs_le_inv in Ro'; apply Rabs_le; lra).
    assert (XoB : Rabs (X * B2R o) <= 0.17 * Rabs X) by (rewrite Rabs_mult, Rmult_comm; apply Rmult_le_compat_r; assumption).
    destruct (mult_ok prec emax _ _ prec_ok emax_ok x o F Fo) as [Fw Vw]. { fold X. apply (small_big _ (0.17 * Rabs X)); [exact XoB|lra]. }
    fold X in Vw. set (w := Bmult mode_NE x o) in *. destruct (rnd_any prec emax _ (X * B2R o)) as (d & e & Hd & He & E). rewrite E in Vw. clear E.
    assert (Ew : Rabs (B2R w - X * I) <= 0.331 * u * Rabs X + u / 1000).
    { replace (B2R w - X * I) with (X * (B2R o - I) + (X * B2R o * d + e)) by (rewrite Vw; ring).
      apply Rle_trans with (1 := Rabs_triang _ _). pose proof (Rabs_triang (X * B2R o * d) e) as H. rewrite Rabs_mult. rewrite Rabs_mult in H.
      assert (Rabs X * Rabs (B2R o - I) <= Rabs X * (0.16 * u)) by (apply Rmult_le_compat_l; assumption).
      assert (Rabs (X * B2R o) * Rabs d <= 0.17 * Rabs X * u) by (apply Rmult_le_compat; try apply Rabs_pos; assumption). lra. }
    apply Rabs_le_inv in Ew as Ew'.
    assert (XI : Rabs (X * I) <= 0.16 * Rabs X) by (rewrite Rabs_mult, (Rabs_pos_eq I), Rmult_comm by lra; apply Rmult_le_compat_r; lra).
    apply Rabs_le_inv in XI as XI'.
    destruct (floor_ok prec emax _ _ w Fw) as (q & Eq & Fq & Vq). { change (2 ^ 63)%Z with 9223372036854775808%Z. rewrite opp_IZR. lra. }
    set (n := Zfloor (B2R w)) in *. pose proof (Zfloor_lb (B2R w)) as L1. pose proof (Zfloor_ub (B2R w)) as L2. fold n in L1, L2.
    assert (nB : Rabs (IZR n) <= 0.17 * Rabs X + 2) by (apply Rabs_le; lra).
    assert (TnB : Rabs (T2 * IZR n) <= 6.3 * (0.17 * Rabs X + 2)).
    { rewrite Rabs_mult. apply Rmult_le_compat; try apply Rabs_pos; [|exact nB]. apply Rabs_le. lra. }
    destruct (mult_ok prec emax _ _ prec_ok emax_ok (two_pi c) q F2 Fq) as [Fm Vm]. { rewrite Vq. fold T2. apply (small_big _ (6.3 * (0.17 * Rabs X + 2))); [exact TnB|lra]. }
    rewrite Vq in Vm. fold T2 in Vm. set (m := Bmult mode_NE (two_pi c) q) in *. destruct (rnd_any prec emax _ (T2 * IZR n)) as (d2 & e2 & Hd2 & He2 & E). rewrite E in Vm. clear E.
    assert (Em : Rabs (B2R m - 2 * PI * IZR n) <= 2.15 * u * Rabs X + 26 * u).
    { replace (B2R m - 2 * PI * IZR n) with ((T2 - 2 * PI) * IZR n + (T2 * IZR n * d2 + e2)) by (rewrite Vm; ring).
      apply Rle_trans with (1 := Rabs_triang _ _). pose proof (Rabs_triang (T2 * IZR n * d2) e2) as H. rewrite Rabs_mult. rewrite Rabs_mult in H.
      assert (Rabs (T2 - 2 * PI) * Rabs (IZR n) <= 6.3 * u * (0.17 * Rabs X + 2)) by (apply Rmult_le_compat; try apply Rabs_pos; assumption).
      assert (Rabs (T2 * IZR n) * Rabs d2 <= 6.3 * (0.17 * Rabs X + 2) * u) by (apply Rmult_le_compat; try apply Rabs_pos; assumption). lra. }
    apply Rabs_le_inv in Em as Em'.
    assert (Zb : -0.01 <= X - 2 * PI * IZR n <= 6.285).
    { rewrite IP at 1. rewrite IP at 2. replace (2 * PI * (X * I) - 2 * PI * IZR n) with (2 * PI * (X * I - IZR n)) by ring.
      assert (- 0.0001 <= X * I - IZR n <= 1.0001) by lra. split; [|apply Rle_trans with (2 * PI * 1.0001); [apply Rmult_le_compat_l|]; lra].
      apply Rle_trans with (2 * PI * -0.0001); [lra|apply Rmult_le_compat_l; lra]. }
    assert (Zm : Rabs (X - B2R m) <= 6.29) by (apply Rabs_le; lra).
    destruct (minus_ok prec emax _ _ prec_ok emax_ok x m F Fm) as [Fy Vy]. { fold X. apply (small_big _ 6.29); [exact Zm|lra]. }
    fold X in Vy. set (y := Bminus mode_NE x m) in *.
    assert (Ey : Rabs (B2R y - (X - B2R m)) <= 6.29 * u).
    { rewrite Vy. pose proof (plus_err prec emax _ X (- B2R m) (fmt prec emax x) (generic_format_opp _ _ _ (fmt prec emax m))) as H. fold (X - B2R m) in H.
      apply Rle_trans with (1 := H). rewrite Rmult_comm. apply Rmult_le_compat_r; lra. }
    apply Rabs_le_inv in Ey as Ey'.
    exists y, n. split; [|split; [exact Fy|split; [lra|apply Rabs_le; lra]]].
    unfold reduce. rewrite !Bltb_correct by (assumption || reflexivity). cbn [B2R zero]. fold X T2.
    assert (C : Rlt_bool X 0 || Rlt_bool T2 X = true).
    { destruct O as [O|O]; [rewrite (Rlt_bool_true _ _ O); reflexivity|rewrite (Rlt_bool_true _ _ O); apply orb_true_r]. }
    rewrite C. fold o w. rewrite Eq. cbn [option_map]. fold m y. reflexivity.
  Qed.

  (** Everywhere within 2^40 *)
  Lemma wide_trig fuel b x : is_finite x = true -> Rabs (B2R x) <= bpow radix2 40 ->
    good prec emax (trig prec emax _ _ c (S (S (S (S fuel)))) b x) (fn b (B2R x)) ((36100 + 3 * Rabs (B2R x)) * u).
  Proof using prec_ok emax_ok c_ok.
    intros F R. pose proof (u_pos prec) as U0. pose proof (u_tiny prec prec_ok) as Ut. pose proof (Rabs_pos (B2R x)) as X0.
    assert (UX0 : 0 <= u * Rabs (B2R x)) by (apply Rmult_le_pos; lra).
    destruct (c_facts prec emax _ prec_ok emax_ok c c_ok) as [(_ & F2 & _) (H2 & _ & _) (_ & E2 & _) (N1 & _)].
    destruct (Rlt_le_dec (B2R x) 0) as [L|G]; [|destruct (Rle_lt_dec (B2R x) (B2R (two_pi c))) as [L'|G']].
    2:{ apply (trig_body prec emax _ _ prec_ok emax_ok c c_ok); [exact F|lra|lra|].
        apply good_le with (1 := any_body prec emax _ _ prec_ok emax_ok c c_ok fuel b x F ltac:(lra)). rewrite Rminus_diag_eq, Rabs_R0 by reflexivity. lra. }
    all: destruct (reduce_outside x F R ltac:(tauto)) as (y & n & Er & Fy & Ry & Ey).
    all: rewrite trig_S, Er; rewrite !Beqb_correct by (assumption || reflexivity); cbn [B2R zero].
    all: rewrite (Req_bool_false (B2R x) 0), (Req_bool_true (B2R x) (B2R x)) by lra; cbn [orb negb]; rewrite andb_false_r.
    all: apply good_le with (1 := any_body prec emax _ _ prec_ok emax_ok c c_ok fuel b y Fy Ry).
    all: rewrite <- (fn_period b (B2R x) n); pose proof (fn_lip b (B2R y) (B2R x - 2 * PI * IZR n)); lra.
  Qed.
End Reduce.
