(** The recursion of the compile-time arc tangent. *)
From Coq Require Import ZArith Bool List Reals Lra Lia Psatz.
From Flocq Require Import Core BinarySingleNaN Relative Plus_error.
From Verif Require Import FpModel FpProofs FpProofs2 TrigSpec TrigProofs2 TrigProofs3 TrigProofs4 TrigProofs5 TrigProofs7 ArcModel ArcSpec ArcProofs ArcProofs2 ArcProofs3.
Local Open Scope R_scope.

Lemma atan_le a b : a <= b -> atan a <= atan b.
Proof. intros [L| ->]; [left; now apply atan_increasing|lra]. Qed.
Lemma atan_nonneg a : 0 <= a -> 0 <= atan a.
Proof. intros H. rewrite <- atan_0. now apply atan_le. Qed.

Section Atan.
  Variable prec emax : Z.
  Context (prec_gt_0_ : Prec_gt_0 prec).
  Context (prec_lt_emax_ : Prec_lt_emax prec emax).
  Notation float := (binary_float prec emax).
  Notation emin := (3 - emax - prec)%Z.
  Notation fexp := (FLT_exp emin prec).
  Notation rnd := (round radix2 fexp ZnearestE).
  Notation format := (generic_format radix2 fexp).
  Notation u := (bpow radix2 (- prec)).
  Notation eta := (eta prec emax).
  Notation of_Z := (of_Z prec emax _ _).
  Hypothesis prec_ok : (53 <= prec <= 113)%Z.
  Hypothesis emax_ok : (1024 <= emax)%Z.
  Notation "x -. y" := (Bminus mode_NE x y) (at level 50, left associativity).
  Notation "x +. y" := (Bplus mode_NE x y) (at level 50, left associativity).
  Notation "x *! y" := (Bmult mode_NE x y) (at level 40, left associativity).
  Notation "x /! y" := (Bdiv mode_NE x y) (at level 40, left associativity).
  Notation good := (good prec emax).
  Notation series := (atan_series prec emax _ _).
  Variable c : arc_constants prec emax.
  Hypothesis c_ok : right_arc_constants prec emax c.
  Notation S3 := (B2R (arc_sqrt_three c)).
  Notation bound := (atan_bound prec emax _ _ c).
  Notation T := (B2R bound).
  Notation atan_shift := (atan_shift prec emax _ _ c).
  Notation atan_naive := (atan_naive prec emax _ _ c).

  (** [y] needs no reduction. *)
  Definition inside (y : float) : Prop := is_finite y = true /\ Rabs (B2R y) <= T.
  Lemma atan_step fuel (x : float) : is_finite x = true -> atan_naive (S fuel) x =
    if Req_bool (B2R x) 0 then Some x
    else if Req_bool (B2R x) 1 then Some (arc_pi_over_four c)
    else if Rlt_bool (B2R x) 0 then option_map (fun r => Bopp r) (atan_naive fuel (Bopp x))
    else if Rlt_bool 1 (B2R x) then option_map (fun y => arc_pi_over_two c -. y) (atan_naive fuel (Bone /! x))
    else if Rlt_bool T (B2R x) then option_map (fun y => arc_pi_over_six c +. y) (atan_naive fuel (atan_shift x))
    else Some (series x).
  Proof using prec_ok emax_ok c_ok.
    intros F. destruct (one_ok prec emax _ _) as [Fo Vo]. destruct (bound_ok prec emax _ _ prec_ok emax_ok c c_ok) as (Fb & _). cbn [ArcModel.atan_naive].
    rewrite !Beqb_correct, !Bltb_correct by (assumption || reflexivity). rewrite Vo. cbn [B2R zero]. rewrite (Req_bool_true (B2R x) (B2R x)) by reflexivity. rewrite orb_false_r.
    assert (I : forall b, Beqb x (B754_infinity b) = false) by (intros b; destruct x; try discriminate; now destruct b). rewrite !I. rewrite Beqb_correct by assumption. rewrite Vo. reflexivity.
  Qed.
  Ltac decide_ :=
    match goal with
    | |- context [Rlt_bool ?a ?b] => first [rewrite (Rlt_bool_true a b) by lra | rewrite (Rlt_bool_false a b) by lra]
    | |- context [Req_bool ?a ?b] => first [rewrite (Req_bool_true a b) by lra | rewrite (Req_bool_false a b) by lra]
    end.

  Lemma rel_good r v k : 0 <= v -> is_finite r = true -> rel (B2R r) v (k * u) -> good (Some r) v (k * u * v).
  Proof using. intros V F R. exists r. split; [reflexivity|]. split; [exact F|]. pose proof (rel_dist _ _ _ R) as D. rewrite (Rabs_pos_eq v V) in D. exact D. Qed.
  Lemma good_neg fuel (y : float) e : is_finite y = true -> B2R y < 0 -> good (atan_naive fuel (Bopp y)) (atan (- B2R y)) e -> good (atan_naive (S fuel) y) (atan (B2R y)) e.
  Proof using prec_ok emax_ok c_ok.
    intros F N G. rewrite atan_step by exact F. repeat decide_. apply good_opp in G. rewrite atan_opp, Ropp_involutive in G. exact G.
  Qed.

  Lemma inner fuel (y : float) : inside y -> good (atan_naive (S (S fuel)) y) (atan (B2R y)) (40 * u * Rabs (atan (B2R y))).
  Proof using prec_ok emax_ok c_ok.
    intros [F H]. destruct (bound_ok prec emax _ _ prec_ok emax_ok c c_ok) as (Fb & _ & _ & Tb). apply Rabs_le_inv in H as H'.
    assert (P : forall fuel (y : float), is_finite y = true -> 0 < B2R y <= T -> good (atan_naive (S fuel) y) (atan (B2R y)) (40 * u * atan (B2R y))).
    { clear y F H H' fuel. intros fuel y F H. rewrite atan_step by exact F. repeat decide_. destruct (series_ok prec emax _ _ prec_ok emax_ok y F ltac:(lra)) as [Fs Rs].
      apply rel_good; [apply atan_nonneg; lra|exact Fs|exact Rs]. }
    destruct (Rtotal_order (B2R y) 0) as [N|[Z|Q]].
    - apply good_neg; [exact F|exact N|]. rewrite <- (Rabs_Ropp (atan _)), <- atan_opp. rewrite Rabs_pos_eq by (apply atan_nonneg; lra). rewrite <- B2R_Bopp. apply P; [now rewrite is_finite_Bopp|rewrite B2R_Bopp; lra].
    - rewrite atan_step by exact F. rewrite Req_bool_true by exact Z. exists y. split; [reflexivity|]. split; [exact F|]. rewrite Z, atan_0, Rminus_0_r, Rabs_R0. lra.
    - rewrite Rabs_pos_eq by (apply atan_nonneg; lra). apply P; [exact F|lra].
  Qed.

  Lemma atan_abs v : Rabs (atan v) <= Rabs v.
  Proof using. pose proof (atan_lip v 0) as L. now rewrite atan_0, !Rminus_0_r in L. Qed.

  Lemma mid fuel (w : float) : is_finite w = true -> T < B2R w < 1 -> inside (atan_shift w) -> good (atan_naive (S (S (S fuel))) w) (atan (B2R w)) (15.5 * u).
  Proof using prec_ok emax_ok c_ok.
    intros F H I. destruct (bound_ok prec emax _ _ prec_ok emax_ok c c_ok) as (Fb & _ & _ & Tb). rewrite atan_step by exact F. repeat decide_.
    destruct (shift_ok prec emax _ _ prec_ok emax_ok c c_ok w F ltac:(lra)) as [Fs Es]. destruct (inner fuel _ I) as (r & Er & Fr & Br). rewrite Er. cbn [option_map].
    destruct I as [_ I]. set (y := atan_shift w) in *. pose proof (U_small prec prec_ok) as U. pose proof PI_bounds as PB.
    destruct (arc_pi_over_six_right _ _ _ c_ok) as [F6 V6]. pose proof (rnd_rel prec emax _ prec_ok emax_ok (PI / 6) ltac:(lra)) as R6. rewrite <- V6 in R6. set (q := B2R (arc_pi_over_six c)) in *.
    pose proof (atan_abs (B2R y)) as A1. pose proof (atan_lip (B2R y) (shift (B2R w))) as A2. pose proof (atan_shift_eq (B2R w) ltac:(lra)) as A3.
    assert (M1 : 40 * u * Rabs (atan (B2R y)) <= 40 * u * 0.26795) by (apply Rmult_le_compat_l; lra).
    assert (M2 : u * (PI / 6) <= u * 0.5236) by (apply Rmult_le_compat_l; lra).
    apply Rabs_le_inv in Br, R6, A2. apply Rabs_le_inv in Es as Es'. assert (A1' : Rabs (atan (B2R y)) <= 0.26795) by lra. apply Rabs_le_inv in A1'.
    assert (V : Rabs (q + B2R r - atan (B2R w)) <= 14.5 * u). { rewrite A3. apply Rabs_le. assert (Rabs (B2R y - shift (B2R w)) <= 3.2 * u) by (apply Rabs_le; lra). lra. }
    apply Rabs_le_inv in V as V'.
    assert (W4 : atan (B2R w) <= 0.7854). { apply Rle_trans with (atan 1); [apply atan_le; lra|rewrite atan_1; lra]. }
    assert (W0 : 0.24 <= atan (B2R w)). { apply Rle_trans with (atan T); [|apply atan_le; lra]. apply Rle_trans with (T / (1 + T * T)); [|apply atan_near; lra]. assert (T * T <= 0.072) by (apply Rle_trans with (0.268 * 0.268); [apply Rmult_le_compat; lra|lra]).
      apply Rle_trans with (0.26794 * / 1.072); [lra|]. unfold Rdiv. pose proof (sq_pos T). apply Rmult_le_compat; try lra. apply Rinv_le_contravar; lra. }
    destruct (plus_ok prec emax _ _ prec_ok emax_ok (arc_pi_over_six c) r F6 Fr) as [Fp Vp]. { fold q. apply Rle_trans with (bpow radix2 10); [cbn; apply Rabs_le; lra|apply bpow_le; lia]. }
    fold q in Vp. exists (arc_pi_over_six c +. r). split; [reflexivity|]. split; [exact Fp|]. rewrite Vp.
    pose proof (rnd_rel prec emax _ prec_ok emax_ok (q + B2R r) ltac:(lra)) as Rp. apply Rabs_le_inv in Rp. assert (M3 : u * (q + B2R r) <= u * 0.79) by (apply Rmult_le_compat_l; lra). apply Rabs_le. lra.
  Qed.

  Lemma stage fuel (w : float) : is_finite w = true -> 0 <= B2R w <= 1 -> (T < B2R w < 1 -> inside (atan_shift w)) ->
    good (atan_naive (S (S (S fuel))) w) (atan (B2R w)) (64 * u * atan (B2R w)) /\ good (atan_naive (S (S (S fuel))) w) (atan (B2R w)) (15.5 * u).
  Proof using prec_ok emax_ok c_ok.
    intros F H I. destruct (bound_ok prec emax _ _ prec_ok emax_ok c c_ok) as (Fb & _ & _ & Tb). pose proof (U_small prec prec_ok) as U. pose proof PI_bounds as PB.
    assert (A0 := atan_nonneg (B2R w) ltac:(lra)). assert (W : forall v e e', good v (atan (B2R w)) e -> e <= e' -> good v (atan (B2R w)) e').
    { intros v e e' G L. apply (good_le _ _ _ _ _ e e' G). rewrite Rminus_diag_eq, Rabs_R0 by reflexivity. lra. }
    destruct (Rle_lt_dec (B2R w) T) as [L|L].
    - pose proof (inner (S fuel) w) as G. rewrite (Rabs_pos_eq (atan _)) in G by exact A0. specialize (G ltac:(split; [exact F|rewrite Rabs_pos_eq; lra])).
      pose proof (atan_near (B2R w) ltac:(lra)) as [_ A1]. assert (0 <= u * atan (B2R w)) by (apply Rmult_le_pos; lra). assert (u * atan (B2R w) <= u * 0.268) by (apply Rmult_le_compat_l; lra).
      split; (apply W with (1 := G); lra).
    - destruct (Req_dec (B2R w) 1) as [E|E].
      + rewrite atan_step by exact F. repeat decide_. rewrite E, atan_1. destruct (arc_pi_over_four_right _ _ _ c_ok) as [F4 V4]. pose proof (rnd_rel prec emax _ prec_ok emax_ok (PI / 4) ltac:(lra)) as R4. rewrite <- V4 in R4.
        assert (u * (PI / 4) <= u * 0.7854) by (apply Rmult_le_compat_l; lra). assert (0 <= u * (PI / 4)) by (apply Rmult_le_pos; lra).
        split; (exists (arc_pi_over_four c); split; [reflexivity|]; split; [exact F4|apply Rle_trans with (1 := R4); lra]).
      + pose proof (mid fuel w F ltac:(lra) (I ltac:(lra))) as G. split; [|exact G]. apply W with (1 := G).
        assert (W0 : 0.2499 <= atan (B2R w)). { apply Rle_trans with (atan T); [|apply atan_le; lra]. apply Rle_trans with (T / (1 + T * T)); [|apply atan_near; lra]. assert (T * T <= 0.07181) by (apply Rle_trans with (0.26795 * 0.26795); [apply Rmult_le_compat; lra|lra]).
          apply Rle_trans with (0.26794 * / 1.07181); [lra|]. unfold Rdiv. pose proof (sq_pos T). apply Rmult_le_compat; try lra. apply Rinv_le_contravar; lra. }
        assert (u * 0.2499 <= u * atan (B2R w)) by (apply Rmult_le_compat_l; lra). lra.
  Qed.

  Lemma strict_inj (x y : float) : is_finite x = true -> is_finite y = true -> B2R x <> 0 -> B2R x = B2R y -> x = y.
  Proof using.
    intros Fx Fy N E. apply B2R_inj; [| |exact E].
    - destruct x; try discriminate; [cbn in N; lra|reflexivity].
    - rewrite E in N. destruct y; try discriminate; [cbn in N; lra|reflexivity].
  Qed.
  (** The argument of the middle stage *)
  Definition staged (x : float) : float := let a := Babs x in if Rlt_bool 1 (B2R a) then Bone /! a else a.
  Definition settled (x : float) : Prop := T < B2R (staged x) < 1 -> inside (atan_shift (staged x)).
  Lemma staged_ok (x : float) : is_finite x = true -> is_finite (staged x) = true /\ 0 <= B2R (staged x) <= 1.
  Proof using prec_ok emax_ok.
    intros F. unfold staged. destruct (one_ok prec emax _ _) as [Fo Vo]. cbv zeta. assert (Fa : is_finite (Babs x) = true) by (now rewrite is_finite_Babs). pose proof (Rabs_pos (B2R x)) as P.
    destruct (Rlt_bool_spec 1 (B2R (Babs x))) as [L|L]; rewrite B2R_Babs in L; [|split; [exact Fa|rewrite B2R_Babs; lra]].
    assert (I : 0 < / Rabs (B2R x) < 1). { split; [apply Rinv_0_lt_compat; lra|]. rewrite <- Rinv_1. apply Rinv_lt_contravar; lra. }
    destruct (div_ok prec emax _ _ prec_ok emax_ok Bone (Babs x) Fo) as [Fd Vd]; [rewrite B2R_Babs; lra|rewrite Vo, B2R_Babs; unfold Rdiv; rewrite Rmult_1_l, Rabs_pos_eq by lra; apply Rle_trans with (bpow radix2 0); [cbn; lra|apply bpow_le; lia]|].
    split; [exact Fd|]. rewrite Vd, Vo, B2R_Babs. unfold Rdiv. rewrite Rmult_1_l. split.
    - rewrite <- (round_0 radix2 fexp ZnearestE). apply round_le; [apply FLT_exp_valid; exact prec_gt_0_|apply valid_rnd_N|lra].
    - rewrite <- Vo. rewrite <- (round_generic radix2 fexp ZnearestE (B2R Bone)) by apply generic_format_B2R. apply round_le; [apply FLT_exp_valid; exact prec_gt_0_|apply valid_rnd_N|rewrite Vo; lra].
  Qed.
  Lemma atan_positive fuel (x : float) : is_finite x = true -> 0 <= B2R x -> settled x -> good (atan_naive (S (S (S (S fuel)))) x) (atan (B2R x)) (64 * u * atan (B2R x)).
  Proof using prec_ok emax_ok c_ok.
    intros F H I. destruct (staged_ok x F) as [Fw Bw]. pose proof (U_small prec prec_ok) as U. pose proof PI_bounds as PB. destruct (one_ok prec emax _ _) as [Fo Vo].
    assert (A : B2R (Babs x) = B2R x) by (rewrite B2R_Babs; now apply Rabs_pos_eq). destruct (Rle_lt_dec (B2R x) 1) as [L|L].
    - assert (E : B2R (staged x) = B2R x). { unfold staged. rewrite Rlt_bool_false by lra. exact A. }
      destruct (Req_dec (B2R x) 0) as [Z|Z]. { rewrite atan_step by exact F. rewrite Req_bool_true by exact Z. exists x. split; [reflexivity|]. split; [exact F|]. rewrite Z, atan_0, Rminus_0_r, Rabs_R0. lra. }
      assert (X : staged x = x) by (apply strict_inj; [exact Fw|exact F|lra|exact E]).
      apply (stage (S fuel)); [exact F|lra|]. unfold settled in I. rewrite X in I. exact I.
    - assert (E : staged x = Bone /! x). { unfold staged. rewrite Rlt_bool_true by lra. f_equal. apply strict_inj; [now rewrite is_finite_Babs|exact F|lra|exact A]. }
      rewrite atan_step by exact F. repeat decide_. unfold settled in I. rewrite E in *. destruct (stage fuel _ Fw Bw I) as [_ (r & Er & Fr & Br)]. rewrite Er. cbn [option_map].
      set (w := Bone /! x) in *. assert (J : 0 < / B2R x < 1). { split; [apply Rinv_0_lt_compat; lra|]. rewrite <- Rinv_1. apply Rinv_lt_contravar; lra. }
      destruct (div_ok prec emax _ _ prec_ok emax_ok Bone x Fo) as [_ Vd]; [lra|rewrite Vo; unfold Rdiv; rewrite Rmult_1_l, Rabs_pos_eq by lra; apply Rle_trans with (bpow radix2 0); [cbn; lra|apply bpow_le; lia]|].
      rewrite Vo in Vd. unfold Rdiv in Vd. rewrite Rmult_1_l in Vd. fold w in Vd.
      assert (Dw : Rabs (B2R w - / B2R x) <= 1.01 * u).
      { rewrite Vd. destruct (rnd_any prec emax _ (/ B2R x)) as (d & e & Hd & He & Q). rewrite Q. replace (/ B2R x * (1 + d) + e - / B2R x) with (/ B2R x * d + e) by ring. apply Rle_trans with (1 := Rabs_triang _ _). rewrite Rabs_mult, (Rabs_pos_eq (/ B2R x)) by lra.
        assert (/ B2R x * Rabs d <= 1 * u) by (apply Rmult_le_compat; try lra; apply Rabs_pos). pose proof (eta_u3 prec emax _ _ prec_ok emax_ok). lra. }
      pose proof (atan_lip (B2R w) (/ B2R x)) as A2. pose proof (atan_inv (B2R x) ltac:(lra)) as A3.
      destruct (arc_pi_over_two_right _ _ _ c_ok) as [F2 V2]. pose proof (rnd_rel prec emax _ prec_ok emax_ok (PI / 2) ltac:(lra)) as R2. rewrite <- V2 in R2. set (q := B2R (arc_pi_over_two c)) in *.
      assert (M2 : u * (PI / 2) <= u * 1.571) by (apply Rmult_le_compat_l; lra).
      assert (A4 : PI / 4 <= atan (B2R x)) by (rewrite <- atan_1; apply atan_le; lra). pose proof (Ratan.atan_bound (B2R x)) as [_ A5].
      assert (V : Rabs (q - B2R r - atan (B2R x)) <= 18.1 * u). { apply Rabs_le_inv in Br, R2, A2. apply Rabs_le. lra. }
      apply Rabs_le_inv in V as V'.
      destruct (minus_ok prec emax _ _ prec_ok emax_ok (arc_pi_over_two c) r F2 Fr) as [Fp Vp]. { fold q. apply Rle_trans with (bpow radix2 10); [cbn; apply Rabs_le; lra|apply bpow_le; lia]. }
      fold q in Vp. exists (arc_pi_over_two c -. r). split; [reflexivity|]. split; [exact Fp|]. rewrite Vp.
      pose proof (rnd_rel prec emax _ prec_ok emax_ok (q - B2R r) ltac:(lra)) as Rp. apply Rabs_le_inv in Rp. assert (M3 : u * (q - B2R r) <= u * 1.6) by (apply Rmult_le_compat_l; lra).
      assert (M4 : u * (PI / 4) <= u * atan (B2R x)) by (apply Rmult_le_compat_l; lra). assert (M5 : u * 0.785 <= u * (PI / 4)) by (apply Rmult_le_compat_l; lra). apply Rabs_le. lra.
  Qed.
  (** Where the reduction settles, the result is right. *)
  Lemma atan_settled fuel (x : float) : is_finite x = true -> settled x -> good (atan_naive (S (S (S (S (S fuel))))) x) (atan (B2R x)) (64 * u * Rabs (atan (B2R x))).
  Proof using prec_ok emax_ok c_ok.
    intros F I. destruct (Rle_lt_dec 0 (B2R x)) as [L|L].
    - rewrite Rabs_pos_eq by (now apply atan_nonneg). now apply (atan_positive (S fuel)).
    - apply good_neg; [exact F|exact L|]. rewrite <- (Rabs_Ropp (atan _)), <- atan_opp. rewrite Rabs_pos_eq by (apply atan_nonneg; lra). rewrite <- B2R_Bopp. apply atan_positive; [now rewrite is_finite_Bopp|rewrite B2R_Bopp; lra|].
      assert (E : staged (Bopp x) = staged x). { unfold staged. replace (Babs (Bopp x)) with (Babs x) by (destruct x; reflexivity). reflexivity. }
      unfold settled in *. now rewrite E.
  Qed.

  (** Away from the two ends the reduction always settles. *)
  Lemma far (w : float) : is_finite w = true -> T + 10 * u <= B2R w <= 1 - 10 * u -> inside (atan_shift w).
  Proof using prec_ok emax_ok c_ok.
    intros F H. destruct (bound_ok prec emax _ _ prec_ok emax_ok c c_ok) as (Fb & _ & Te & Tb). pose proof (U_small prec prec_ok) as U. destruct (shift_ok prec emax _ _ prec_ok emax_ok c c_ok w F ltac:(lra)) as [Fs Es]. pose proof sqrt3 as S.
    split; [exact Fs|]. pose proof (shift_low (B2R w) ltac:(lra)) as L. pose proof (shift_high (B2R w) ltac:(lra)) as G. apply Rabs_le_inv in Es, Te. set (W := B2R w) in *.
    assert (I : 0.366 <= / (sqrt 3 + W)). { apply Rle_trans with (/ 2.73206); [lra|]. apply Rinv_le_contravar; lra. } unfold Rdiv in L, G.
    assert (L2 : 2 * (8.26 * u) * 0.366 <= 2 * (W - (2 - sqrt 3)) * / (sqrt 3 + W)) by (apply Rmult_le_compat; lra).
    assert (G1 : 1.464 * (10 * u) <= (2 * sqrt 3 - 2) * (1 - W)) by (apply Rmult_le_compat; lra).
    assert (G2 : 1.464 * (10 * u) * 0.366 <= (2 * sqrt 3 - 2) * (1 - W) * / (sqrt 3 + W)) by (apply Rmult_le_compat; lra).
    apply Rabs_le. lra.
  Qed.

  (** The numbers next to the ends *)
  Definition low (k : Z) : float := bound +. binary_normalize prec emax _ _ mode_NE k (- prec - 1) false.
  Definition high (k : Z) : float := Bone -. binary_normalize prec emax _ _ mode_NE k (- prec) false.
  Definition within (y : float) : bool := is_finite y && Bleb (Babs y) bound.
  Definition check (l h : list Z) : bool := forallb (fun k => within (atan_shift (low k))) l && forallb (fun k => within (atan_shift (high k))) h.
  Lemma within_ok y : within y = true -> inside y.
  Proof using prec_ok emax_ok c_ok.
    unfold within. intros H. apply andb_true_iff in H as [F H]. split; [exact F|]. destruct (bound_ok prec emax _ _ prec_ok emax_ok c c_ok) as (Fb & _).
    rewrite Bleb_correct in H by (try rewrite is_finite_Babs; assumption). rewrite B2R_Babs in H. destruct (Rle_bool_spec (Rabs (B2R y)) T); [assumption|discriminate].
  Qed.
  (** Numbers of a binade are multiples of their last place. *)
  Lemma grid (k : Z) v : (-1 <= k <= 2)%Z -> format v -> bpow radix2 (k - 1) <= v < bpow radix2 k -> exists m, v = IZR m * bpow radix2 (k - prec).
  Proof using prec_ok emax_ok.
    intros K Fv B. exists (Ztrunc (scaled_mantissa radix2 fexp v)). rewrite Fv at 1. unfold F2R, cexp. cbn [Fnum Fexp]. f_equal. f_equal.
    rewrite (mag_unique_pos radix2 v k B). unfold FLT_exp. rewrite Z.max_l by lia. reflexivity.
  Qed.
  Lemma grid_float (k m : Z) : (-1 <= k <= 0)%Z -> (0 <= m < 2 ^ prec)%Z -> is_finite (binary_normalize prec emax _ _ mode_NE m (k - prec) false) = true /\ B2R (binary_normalize prec emax _ _ mode_NE m (k - prec) false) = IZR m * bpow radix2 (k - prec).
  Proof using prec_ok emax_ok.
    intros K M. pose proof (binary_normalize_correct prec emax _ _ mode_NE m (k - prec) false) as C. cbv zeta in C.
    assert (Fm : format (F2R (Float radix2 m (k - prec)))). { apply generic_format_FLT. exists (Float radix2 m (k - prec)); [reflexivity|cbn [Fnum]; rewrite Z.abs_eq by lia; exact (proj2 M)|cbn [Fexp]; lia]. }
    assert (Er : round radix2 (SpecFloat.fexp prec emax) (round_mode mode_NE) (F2R (Float radix2 m (k - prec))) = F2R (Float radix2 m (k - prec))). { apply (round_generic radix2 fexp ZnearestE). exact Fm. }
    rewrite Er in C. unfold F2R in C. cbn [Fnum Fexp] in C. rewrite Rlt_bool_true in C; [tauto|].
    rewrite Rabs_pos_eq by (apply Rmult_le_pos; [apply IZR_le; lia|apply bpow_ge_0]). apply Rlt_le_trans with (IZR (2 ^ prec) * bpow radix2 (k - prec)).
    - apply Rmult_lt_compat_r; [apply bpow_gt_0|apply IZR_lt; lia].
    - change 2%Z with (radix_val radix2). rewrite IZR_Zpower by lia. rewrite <- bpow_plus. apply bpow_le. lia.
  Qed.
  Lemma low_ok (w : float) : is_finite w = true -> T < B2R w < T + 10 * u -> exists k, (1 <= k < 20)%Z /\ w = low k.
  Proof using prec_ok emax_ok c_ok.
    intros F H. destruct (bound_ok prec emax _ _ prec_ok emax_ok c c_ok) as (Fb & _ & Te & Tb). pose proof (U_small prec prec_ok) as U.
    assert (Q : bpow radix2 (-1 - 1) = 0.25) by (cbn; lra). assert (Q1 : bpow radix2 (-1) = 0.5) by (cbn; lra).
    destruct (grid (-1) (B2R w) ltac:(lia) (generic_format_B2R _ _ _) ltac:(rewrite Q, Q1; lra)) as (m & Em). destruct (grid (-1) T ltac:(lia) (generic_format_B2R _ _ _) ltac:(rewrite Q, Q1; lra)) as (t & Et).
    replace (-1 - prec)%Z with (- prec - 1)%Z in * by lia. assert (V : bpow radix2 (- prec - 1) = u / 2). { unfold Zminus. rewrite bpow_plus. cbn [bpow]. cbn. lra. }
    assert (K1 : (t < m)%Z). { apply lt_IZR. apply Rmult_lt_reg_r with (u / 2); [lra|]. rewrite <- V, <- Em, <- Et. lra. }
    assert (K2 : (m < t + 20)%Z). { apply lt_IZR. rewrite plus_IZR. apply Rmult_lt_reg_r with (u / 2); [lra|]. rewrite Rmult_plus_distr_r, <- V, <- Em, <- Et, V. lra. }
    exists (m - t)%Z. split; [lia|]. assert (P20 : (2 ^ 53 <= 2 ^ prec)%Z) by (apply Z.pow_le_mono_r; lia). change (2 ^ 53)%Z with 9007199254740992%Z in P20.
    destruct (grid_float (-1) (m - t) ltac:(lia) ltac:(lia)) as [Fg Vg]. replace (-1 - prec)%Z with (- prec - 1)%Z in * by lia.
    assert (Es : T + B2R (binary_normalize prec emax _ _ mode_NE (m - t) (- prec - 1) false) = B2R w) by (rewrite Vg, minus_IZR, Em, Et; ring).
    destruct (plus_ok prec emax _ _ prec_ok emax_ok bound _ Fb Fg) as [Fp Vp]. { rewrite Es. apply Rle_trans with (bpow radix2 10); [cbn; apply Rabs_le; lra|apply bpow_le; lia]. }
    rewrite Es, (round_generic radix2 fexp ZnearestE (B2R w)) in Vp by apply generic_format_B2R. apply strict_inj; [exact F|exact Fp|lra|symmetry; exact Vp].
  Qed.
  Lemma high_ok (w : float) : is_finite w = true -> 1 - 10 * u < B2R w < 1 -> exists k, (1 <= k < 10)%Z /\ w = high k.
  Proof using prec_ok emax_ok c_ok.
    intros F H. pose proof (U_small prec prec_ok) as U. destruct (one_ok prec emax _ _) as [Fo Vo].
    assert (Q : bpow radix2 (0 - 1) = 0.5) by (cbn; lra). assert (Q1 : bpow radix2 0 = 1) by reflexivity.
    destruct (grid 0 (B2R w) ltac:(lia) (generic_format_B2R _ _ _) ltac:(rewrite Q, Q1; lra)) as (m & Em). cbn [Z.sub Z.add] in Em. replace (0 - prec)%Z with (- prec)%Z in * by lia.
    assert (E1 : 1 = IZR (2 ^ prec) * u). { change 2%Z with (radix_val radix2). rewrite IZR_Zpower by lia. rewrite <- bpow_plus. replace (prec + - prec)%Z with 0%Z by lia. reflexivity. }
    assert (K1 : (m < 2 ^ prec)%Z). { apply lt_IZR. apply Rmult_lt_reg_r with u; [lra|]. rewrite <- Em, <- E1. lra. }
    assert (K2 : (2 ^ prec - 10 < m)%Z). { apply lt_IZR. rewrite minus_IZR. apply Rmult_lt_reg_r with u; [lra|]. rewrite Rmult_minus_distr_r, <- Em, <- E1. lra. }
    exists (2 ^ prec - m)%Z. split; [lia|]. assert (P20 : (2 ^ 53 <= 2 ^ prec)%Z) by (apply Z.pow_le_mono_r; lia). change (2 ^ 53)%Z with 9007199254740992%Z in P20.
    destruct (grid_float 0 (2 ^ prec - m) ltac:(lia) ltac:(lia)) as [Fg Vg]. replace (0 - prec)%Z with (- prec)%Z in * by lia.
    assert (Es : B2R (@Bone prec emax _ _) - B2R (binary_normalize prec emax _ _ mode_NE (2 ^ prec - m) (- prec) false) = B2R w) by (rewrite Vg, minus_IZR, Rmult_minus_distr_r, <- E1, <- Em, Vo; ring).
    destruct (minus_ok prec emax _ _ prec_ok emax_ok Bone _ Fo Fg) as [Fp Vp]. { rewrite Es. apply Rle_trans with (bpow radix2 10); [cbn; apply Rabs_le; lra|apply bpow_le; lia]. }
    rewrite Es, (round_generic radix2 fexp ZnearestE (B2R w)) in Vp by apply generic_format_B2R. apply strict_inj; [exact F|exact Fp|lra|symmetry; exact Vp].
  Qed.
  (** Where the numbers next to the ends settle, but for the listed ones, all others do. *)
  Lemma settles (l h : list Z) (w : float) : check l h = true -> (forall k, (1 <= k < 20)%Z -> In k l \/ w <> low k) -> (forall k, (1 <= k < 10)%Z -> In k h \/ w <> high k) ->
    is_finite w = true -> T < B2R w < 1 -> inside (atan_shift w).
  Proof using prec_ok emax_ok c_ok.
    intros C L H F B. apply andb_true_iff in C as [Cl Ch]. rewrite forallb_forall in Cl, Ch.
    destruct (Rlt_le_dec (B2R w) (T + 10 * u)) as [A|A].
    - destruct (low_ok w F ltac:(lra)) as (k & K & E). apply within_ok. rewrite E. apply Cl. destruct (L k K); [assumption|contradiction].
    - destruct (Rlt_le_dec (1 - 10 * u) (B2R w)) as [A'|A']; [|apply far; [exact F|lra]].
      destruct (high_ok w F ltac:(lra)) as (k & K & E). apply within_ok. rewrite E. apply Ch. destruct (H k K); [assumption|contradiction].
  Qed.
End Atan.
