(** Proofs about fitting bounding boxes of floats around points. *)
From Coq Require Import ZArith Bool List Reals Lra Lia.
From Flocq Require Import Core BinarySingleNaN Relative Plus_error.
From Verif Require Import FpModel FpProofs VfltModel VfltSpec VfltProofs VfltProofs3 XfltModel BfltModel BfltSpec BfltProofs.
Import ListNotations.
Local Open Scope R_scope.

(** The least and the greatest of a list of reals. *)
Lemma lowest_unique l x y : lowest l x -> lowest l y -> x = y.
Proof. intros [A B] [C D]. apply Rle_antisym; [apply B | apply D]; assumption. Qed.
Lemma highest_unique l x y : highest l x -> highest l y -> x = y.
Proof. intros [A B] [C D]. apply Rle_antisym; [apply D | apply B]; assumption. Qed.
Lemma lowest_near d xs rs x r : Forall2 (fun a b => Rabs (a - b) <= d) xs rs -> lowest xs x -> lowest rs r -> Rabs (x - r) <= d.
Proof.
  intros F [Ix Lx] [Ir Lr].
  assert (A : exists b, In b rs /\ Rabs (x - b) <= d).
  { clear Lx Lr Ir. induction F as [|a b xs rs H F IH]; [destruct Ix|]. destruct Ix as [<-|Ix]; [exists b; split; [left; reflexivity | exact H]|].
    destruct (IH Ix) as (c & I & J). exists c. split; [right; exact I | exact J]. }
  assert (B : exists a, In a xs /\ Rabs (a - r) <= d).
  { clear Lx Lr Ix A. induction F as [|a b xs rs H F IH]; [destruct Ir|]. destruct Ir as [<-|Ir]; [exists a; split; [left; reflexivity | exact H]|].
    destruct (IH Ir) as (c & I & J). exists c. split; [right; exact I | exact J]. }
  destruct A as (b & Ib & Hb), B as (a & Ia & Ha). specialize (Lx a Ia). specialize (Lr b Ib). apply Rabs_le_inv in Ha, Hb. apply Rabs_le. lra.
Qed.
Lemma highest_near d xs rs x r : Forall2 (fun a b => Rabs (a - b) <= d) xs rs -> highest xs x -> highest rs r -> Rabs (x - r) <= d.
Proof.
  intros F [Ix Lx] [Ir Lr].
  assert (A : exists b, In b rs /\ Rabs (x - b) <= d).
  { clear Lx Lr Ir. induction F as [|a b xs rs H F IH]; [destruct Ix|]. destruct Ix as [<-|Ix]; [exists b; split; [left; reflexivity | exact H]|].
    destruct (IH Ix) as (c & I & J). exists c. split; [right; exact I | exact J]. }
  assert (B : exists a, In a xs /\ Rabs (a - r) <= d).
  { clear Lx Lr Ix A. induction F as [|a b xs rs H F IH]; [destruct Ir|]. destruct Ir as [<-|Ir]; [exists a; split; [left; reflexivity | exact H]|].
    destruct (IH Ir) as (c & I & J). exists c. split; [right; exact I | exact J]. }
  destruct A as (b & Ib & Hb), B as (a & Ia & Ha). specialize (Lx a Ia). specialize (Lr b Ib). apply Rabs_le_inv in Ha, Hb. apply Rabs_le. lra.
Qed.

Section BfltProofs2.
  Variable prec emax : Z.
  Context (prec_gt_0_ : Prec_gt_0 prec).
  Context (prec_lt_emax_ : Prec_lt_emax prec emax).
  Hypothesis prec11 : (11 <= prec)%Z.
  Notation float := (binary_float prec emax).
  Notation emin := (3 - emax - prec)%Z.
  Notation fexp := (FLT_exp emin prec).
  Notation rnd := (round radix2 fexp ZnearestE).
  Notation format := (generic_format radix2 fexp).
  Notation u := (half_ulp_1 prec).
  Notation h := (half_tiny prec emax).
  Notation half := (one_half prec emax _ _).
  Notation min2 := (min2 prec emax).
  Notation max2 := (max2 prec emax).
  Implicit Types x y p c e lo hi a b : float.
  Implicit Types l : list float.

  (* ---------------------------------------------------------------- the least and the greatest *)
  Fixpoint smin_all a l : float := match l with [] => a | b :: r => min2 a (smin_all b r) end.
  Fixpoint smax_all a l : float := match l with [] => a | b :: r => max2 a (smax_all b r) end.
  Definition fin x : Prop := is_finite x = true.

  Lemma min2_val a b : fin a -> fin b -> (min2 a b = a \/ min2 a b = b) /\ B2R (min2 a b) <= B2R a /\ B2R (min2 a b) <= B2R b.
  Proof using.
    intros Fa Fb. unfold BfltModel.min2. rewrite Bltb_correct by assumption. destruct (Rlt_bool_spec (B2R a) (B2R b)).
    - split; [left; reflexivity|]. lra.
    - split; [right; reflexivity|]. lra.
  Qed.
  Lemma max2_val a b : fin a -> fin b -> (max2 a b = a \/ max2 a b = b) /\ B2R a <= B2R (max2 a b) /\ B2R b <= B2R (max2 a b).
  Proof using.
    intros Fa Fb. unfold BfltModel.max2. rewrite Bltb_correct by assumption. destruct (Rlt_bool_spec (B2R a) (B2R b)).
    - split; [right; reflexivity|]. lra.
    - split; [left; reflexivity|]. lra.
  Qed.
  Lemma smin_all_ok a l : Forall fin (a :: l) -> In (smin_all a l) (a :: l) /\ lowest (map B2R (a :: l)) (B2R (smin_all a l)).
  Proof using.
    revert a. induction l as [|b r IH]; intros a F.
    - cbn [smin_all map]. split; [left; reflexivity|]. split; [left; reflexivity|]. intros y [<-|[]]. lra.
    - inversion F as [|? ? Fa Fr]; subst. destruct (IH b Fr) as (I & _ & L). cbn [smin_all].
      assert (Fm : fin (smin_all b r)) by (exact (proj1 (Forall_forall _ _) Fr _ I)).
      destruct (min2_val a (smin_all b r) Fa Fm) as (E & L1 & L2). assert (In (min2 a (smin_all b r)) (a :: b :: r)) by (destruct E as [-> | ->]; [left; reflexivity | right; exact I]).
      split; [assumption|]. split; [apply in_map; assumption|]. intros y [<-|Iy]; [exact L1|]. specialize (L y Iy). lra.
  Qed.
  Lemma smax_all_ok a l : Forall fin (a :: l) -> In (smax_all a l) (a :: l) /\ highest (map B2R (a :: l)) (B2R (smax_all a l)).
  Proof using.
    revert a. induction l as [|b r IH]; intros a F.
    - cbn [smax_all map]. split; [left; reflexivity|]. split; [left; reflexivity|]. intros y [<-|[]]. lra.
    - inversion F as [|? ? Fa Fr]; subst. destruct (IH b Fr) as (I & _ & L). cbn [smax_all].
      assert (Fm : fin (smax_all b r)) by (exact (proj1 (Forall_forall _ _) Fr _ I)).
      destruct (max2_val a (smax_all b r) Fa Fm) as (E & L1 & L2). assert (In (max2 a (smax_all b r)) (a :: b :: r)) by (destruct E as [-> | ->]; [left; reflexivity | right; exact I]).
      split; [assumption|]. split; [apply in_map; assumption|]. intros y [<-|Iy]; [exact L1|]. specialize (L y Iy). lra.
  Qed.
  Lemma smin_fold_ok l a : Forall fin (a :: l) -> In (fold_left min2 l a) (a :: l) /\ lowest (map B2R (a :: l)) (B2R (fold_left min2 l a)).
  Proof using.
    revert a. induction l as [|b r IH]; intros a F.
    - cbn [fold_left map]. split; [left; reflexivity|]. split; [left; reflexivity|]. intros y [<-|[]]. lra.
    - inversion F as [|? ? Fa Fr]; subst. inversion Fr as [|? ? Fb Frr]; subst. destruct (min2_val a b Fa Fb) as (E & L1 & L2). cbn [fold_left].
      assert (Fm : fin (min2 a b)) by (destruct E as [-> | ->]; assumption). destruct (IH (min2 a b) (Forall_cons _ Fm Frr)) as (I & _ & L).
      assert (In (fold_left min2 r (min2 a b)) (a :: b :: r)) by (destruct I as [<- | I]; [destruct E as [-> | ->]; [left | right; left]; reflexivity | right; right; exact I]).
      split; [assumption|]. split; [apply in_map; assumption|]. assert (Lm := L _ (or_introl eq_refl)). intros y [<-|[<-|Iy]]; [lra | lra|]. apply L. right. exact Iy.
  Qed.
  Lemma smax_fold_ok l a : Forall fin (a :: l) -> In (fold_left max2 l a) (a :: l) /\ highest (map B2R (a :: l)) (B2R (fold_left max2 l a)).
  Proof using.
    revert a. induction l as [|b r IH]; intros a F.
    - cbn [fold_left map]. split; [left; reflexivity|]. split; [left; reflexivity|]. intros y [<-|[]]. lra.
    - inversion F as [|? ? Fa Fr]; subst. inversion Fr as [|? ? Fb Frr]; subst. destruct (max2_val a b Fa Fb) as (E & L1 & L2). cbn [fold_left].
      assert (Fm : fin (max2 a b)) by (destruct E as [-> | ->]; assumption). destruct (IH (max2 a b) (Forall_cons _ Fm Frr)) as (I & _ & L).
      assert (In (fold_left max2 r (max2 a b)) (a :: b :: r)) by (destruct I as [<- | I]; [destruct E as [-> | ->]; [left | right; left]; reflexivity | right; right; exact I]).
      split; [assumption|]. split; [apply in_map; assumption|]. assert (Lm := L _ (or_introl eq_refl)). intros y [<-|[<-|Iy]]; [lra | lra|]. apply L. right. exact Iy.
  Qed.

  (* ---------------------------------------------------------------- the middle and half the width *)
  Definition sc lo hi : float := Bmult mode_NE (Bplus mode_NE lo hi) half.
  Definition se lo hi : float := Bmult mode_NE (Bminus mode_NE hi lo) half.

  Lemma half_val : fin half /\ B2R half = / 2.
  Proof using prec11.
    pose proof prec_lt_emax_ as P. red in P. assert (B : bpow radix2 (-1) = / 2) by reflexivity.
    assert (F : format (bpow radix2 (-1))) by (apply generic_format_bpow; unfold FLT_exp; lia).
    unfold one_half, fin. pose proof (binary_normalize_correct prec emax prec_gt_0_ prec_lt_emax_ mode_NE 1 (-1) false) as C.
    cbv zeta in C. assert (E : F2R (Float radix2 1 (-1)) = bpow radix2 (-1)) by (unfold F2R; cbn [Fnum Fexp]; ring). rewrite E in C.
    change (round radix2 (SpecFloat.fexp prec emax) (round_mode mode_NE)) with rnd in C. rewrite (rnd_fmt prec emax _ F) in C.
    rewrite Rlt_bool_true in C; [destruct C as (V & Fi & _); split; [exact Fi | rewrite V; exact B]|].
    rewrite Rabs_pos_eq by apply bpow_ge_0. apply bpow_lt. lia.
  Qed.
  Lemma halve x : fin x -> fin (Bmult mode_NE x half) /\ B2R (Bmult mode_NE x half) = rnd (B2R x * / 2) /\ Rabs (B2R (Bmult mode_NE x half)) <= Rabs (B2R x).
  Proof using prec11.
    intros F. destruct half_val as [Fh Vh].
    assert (A : Rabs (rnd (B2R x * / 2)) <= Rabs (B2R x)).
    { apply abs_round_le_generic; [apply FLT_exp_valid; exact prec_gt_0_ | apply valid_rnd_N | apply generic_format_abs, fmt |].
      rewrite Rabs_mult, (Rabs_pos_eq (/ 2)) by lra. pose proof (Rabs_pos (B2R x)). lra. }
    destruct (mult_ok prec emax _ _ x half F Fh) as [Fm Vm].
    { rewrite Vh. apply Rle_lt_trans with (1 := A). apply abs_lt_emax. exact F. }
    rewrite Vh in Vm. split; [exact Fm|]. split; [exact Vm|]. rewrite Vm. exact A.
  Qed.
  Lemma sum_ok x y : fin x -> fin y -> Rabs (B2R x + B2R y) <= bpow radix2 (emax - 1) -> fin (Bplus mode_NE x y) /\ B2R (Bplus mode_NE x y) = rnd (B2R x + B2R y).
  Proof using prec11.
    intros Fx Fy L. apply plus_ok; [exact Fx | exact Fy|]. pose proof prec_lt_emax_ as P. red in P.
    apply Rle_lt_trans with (bpow radix2 (emax - 1)); [apply (rnd_bound prec emax _ _ (emax - 1)); [lia | exact L] | apply bpow_lt; lia].
  Qed.
  Lemma diff_ok x y : fin x -> fin y -> Rabs (B2R x - B2R y) <= bpow radix2 (emax - 1) -> fin (Bminus mode_NE x y) /\ B2R (Bminus mode_NE x y) = rnd (B2R x - B2R y).
  Proof using prec11.
    intros Fx Fy L. pose proof prec_lt_emax_ as P. red in P. pose proof (Bminus_correct prec emax _ _ mode_NE x y Fx Fy) as C.
    rewrite Rlt_bool_true in C; [destruct C as (V & F & _); split; [exact F | exact V]|].
    apply Rle_lt_trans with (bpow radix2 (emax - 1)); [apply (rnd_bound prec emax _ _ (emax - 1)); [lia | exact L] | apply bpow_lt; lia].
  Qed.
  Lemma twice_bpow : 2 * bpow radix2 (emax - 2) = bpow radix2 (emax - 1).
  Proof using. replace (emax - 1)%Z with (1 + (emax - 2))%Z by ring. rewrite bpow_plus. reflexivity. Qed.

  Lemma middle lo hi (M : R) : fin lo -> fin hi -> Rabs (B2R lo) <= M -> Rabs (B2R hi) <= M -> M <= bpow radix2 (emax - 2) ->
    fin (sc lo hi) /\ fin (se lo hi)
    /\ Rabs (B2R (sc lo hi) - (B2R lo + B2R hi) / 2) <= u * (Rabs (B2R lo + B2R hi) / 2) + h
    /\ Rabs (B2R (se lo hi) - (B2R hi - B2R lo) / 2) <= u * (Rabs (B2R hi - B2R lo) / 2) + h.
  Proof using prec11.
    intros Fl Fh Ll Lh HM. pose proof twice_bpow as T. pose proof (Rabs_triang (B2R lo) (B2R hi)) as T1. pose proof (Rabs_triang (B2R hi) (- B2R lo)) as T2. rewrite Rabs_Ropp in T2.
    destruct (sum_ok lo hi Fl Fh ltac:(lra)) as [F1 V1]. destruct (diff_ok hi lo Fh Fl ltac:(unfold Rminus; lra)) as [F2 V2].
    destruct (halve _ F1) as (F3 & V3 & _). destruct (halve _ F2) as (F4 & V4 & _). unfold sc, se. split; [exact F3|]. split; [exact F4|].
    pose proof (rnd_half prec emax _ _ (fmt prec emax (Bplus mode_NE lo hi))) as H3. pose proof (rnd_half prec emax _ _ (fmt prec emax (Bminus mode_NE hi lo))) as H4.
    rewrite <- V3, V1 in H3. rewrite <- V4, V2 in H4.
    pose proof (proj1 (rel_le prec _ _ (rnd_plus prec emax _ lo hi))) as E1. pose proof (proj1 (rel_le prec _ _ (rnd_minus prec emax _ hi lo))) as E2.
    apply Rabs_le_inv in H3, H4, E1, E2. set (A := Rabs (B2R lo + B2R hi)) in *. set (B := Rabs (B2R hi - B2R lo)) in *. clearbody A B.
    split; apply Rabs_le; lra.
  Qed.
  Lemma sum_diff (a b M : R) : Rabs a <= M -> Rabs b <= M -> Rabs (a + b) / 2 + Rabs (b - a) / 2 <= M.
  Proof using. intros A B. apply Rabs_le_inv in A, B. destruct (Rcase_abs (a + b)), (Rcase_abs (b - a)); rewrite ?Rabs_left, ?Rabs_right by lra; unfold Rabs; repeat destruct (Rcase_abs _); lra. Qed.
  Lemma faces lo hi (M : R) : fin lo -> fin hi -> Rabs (B2R lo) <= M -> Rabs (B2R hi) <= M -> M <= bpow radix2 (emax - 2) ->
    Rabs (B2R (sc lo hi) - B2R (se lo hi) - B2R lo) <= u * M + 2 * h /\ Rabs (B2R (sc lo hi) + B2R (se lo hi) - B2R hi) <= u * M + 2 * h.
  Proof using prec11.
    intros Fl Fh Ll Lh HM. destruct (middle lo hi M Fl Fh Ll Lh HM) as (_ & _ & A & B). pose proof (sum_diff _ _ M Ll Lh) as S. pose proof (u_pos prec) as U.
    apply (Rmult_le_compat_l u) in S; [|lra]. rewrite Rmult_plus_distr_l in S. apply Rabs_le_inv in A, B. split; apply Rabs_le; lra.
  Qed.

  (* ---------------------------------------------------------------- overflow *)
  Lemma overflow_none lo hi p : fin lo -> fin hi -> bpow radix2 emax <= Rabs (B2R lo + B2R hi) -> fin p -> Bleb (abs prec emax (Bminus mode_NE p (sc lo hi))) (se lo hi) = false.
  Proof using prec11.
    intros Fl Fh L Fp. pose proof prec_lt_emax_ as P. red in P. destruct half_val as [Fhf Vhf].
    assert (Fm : format (bpow radix2 emax)) by (apply generic_format_bpow; unfold FLT_exp; lia).
    pose proof (abs_lt_emax prec emax lo Fl) as Al. pose proof (abs_lt_emax prec emax hi Fh) as Ah. pose proof (bpow_gt_0 radix2 emax) as B0.
    assert (F2 : fin (Bminus mode_NE hi lo)).
    { assert (S : Rabs (B2R hi - B2R lo) <= Rabs (B2R hi) \/ Rabs (B2R hi - B2R lo) <= Rabs (B2R lo)).
      { revert L Al Ah. unfold Rabs. repeat destruct (Rcase_abs _); intros; lra. }
      pose proof (Bminus_correct prec emax _ _ mode_NE hi lo Fh Fl) as C. rewrite Rlt_bool_true in C; [exact (proj1 (proj2 C))|].
      destruct S as [S|S]; (eapply Rle_lt_trans; [apply abs_round_le_generic; [apply FLT_exp_valid; exact prec_gt_0_ | apply valid_rnd_N | apply generic_format_abs, fmt | exact S] | assumption]). }
    destruct (halve _ F2) as (F4 & _ & _). fold (se lo hi) in F4.
    destruct (Bleb _ _) eqn:E; [|reflexivity]. exfalso. destruct (contains_finite prec emax _ _ p (sc lo hi) (se lo hi) F4 E) as (_ & Fc & _).
    destruct (VfltProofs.mult_finite prec emax _ _ _ _ Fc) as (Fs & _ & _). destruct (plus_finite prec emax _ _ _ _ Fs) as (_ & _ & V).
    pose proof (abs_lt_emax prec emax _ Fs) as A. rewrite V in A.
    assert (K : bpow radix2 emax <= Rabs (rnd (B2R lo + B2R hi))) by (apply abs_round_ge_generic; [apply FLT_exp_valid; exact prec_gt_0_ | apply valid_rnd_N | exact Fm | exact L]). lra.
  Qed.

  (* ---------------------------------------------------------------- on a grid *)
  Section Grid.
    Variable k : Z.
    Hypothesis k_low : (emin < k)%Z.
    Hypothesis k_high : (k + prec <= emax)%Z.
    Lemma grid_format m j : (Z.abs m <= 2 ^ prec)%Z -> (k - 1 <= j)%Z -> format (IZR m * bpow radix2 j).
    Proof using k_low prec11.
      intros M J. destruct (Z.eq_dec (Z.abs m) (2 ^ prec)) as [E|N].
      - assert (A : Rabs (IZR m * bpow radix2 j) = bpow radix2 (prec + j)).
        { rewrite Rabs_mult, <- abs_IZR, E, (Rabs_pos_eq (bpow _ _)) by apply bpow_ge_0. rewrite bpow_plus. f_equal. apply (IZR_Zpower radix2). lia. }
        apply generic_format_abs_inv. rewrite A. apply generic_format_bpow. unfold FLT_exp. lia.
      - apply generic_format_FLT. exists (Float radix2 m j); [reflexivity | cbn [Fnum]; change (radix_val radix2) with 2%Z; lia | cbn [Fexp]; lia].
    Qed.
    Lemma grid_small m : (Z.abs m <= 2 ^ prec)%Z -> Rabs (IZR m * bpow radix2 (k - 1)) < bpow radix2 emax.
    Proof using k_high prec11.
      intros M. rewrite Rabs_mult, <- abs_IZR, (Rabs_pos_eq (bpow _ _)) by apply bpow_ge_0.
      apply Rle_lt_trans with (bpow radix2 (prec + (k - 1))); [|apply bpow_lt; lia]. rewrite bpow_plus. apply Rmult_le_compat_r; [apply bpow_ge_0|].
      rewrite <- (IZR_Zpower radix2) by lia. apply IZR_le. exact M.
    Qed.
    Definition grid_value x (m : Z) : Prop := fin x /\ B2R x = IZR m * bpow radix2 (k - 1).
    Lemma grid_plus x y m n : grid_value x m -> grid_value y n -> (Z.abs (m + n) <= 2 ^ prec)%Z -> grid_value (Bplus mode_NE x y) (m + n).
    Proof using k_low k_high prec11.
      intros [Fx Vx] [Fy Vy] L. assert (E : B2R x + B2R y = IZR (m + n) * bpow radix2 (k - 1)) by (rewrite Vx, Vy, plus_IZR; ring).
      assert (R : rnd (B2R x + B2R y) = IZR (m + n) * bpow radix2 (k - 1)) by (rewrite E; apply (rnd_fmt prec emax), grid_format; [exact L | lia]).
      destruct (plus_ok prec emax _ _ x y Fx Fy) as [F V]; [rewrite R; apply grid_small; exact L|]. split; [exact F | rewrite V; exact R].
    Qed.
    Lemma grid_opp x m : grid_value x m -> grid_value (Bopp x) (- m).
    Proof using. intros [F V]. split; [unfold fin; rewrite is_finite_Bopp; exact F | rewrite B2R_Bopp, V, opp_IZR; ring]. Qed.
    Lemma grid_minus x y m n : grid_value x m -> grid_value y n -> (Z.abs (m - n) <= 2 ^ prec)%Z -> grid_value (Bminus mode_NE x y) (m - n).
    Proof using k_low k_high prec11.
      intros [Fx Vx] [Fy Vy] L. assert (E : B2R x - B2R y = IZR (m - n) * bpow radix2 (k - 1)) by (rewrite Vx, Vy, minus_IZR; ring).
      assert (R : rnd (B2R x - B2R y) = IZR (m - n) * bpow radix2 (k - 1)) by (rewrite E; apply (rnd_fmt prec emax), grid_format; [exact L | lia]).
      pose proof (Bminus_correct prec emax _ _ mode_NE x y Fx Fy) as C. change (round radix2 (SpecFloat.fexp prec emax) (round_mode mode_NE)) with rnd in C.
      rewrite Rlt_bool_true in C by (rewrite R; apply grid_small; exact L). destruct C as (V & F & _). split; [exact F | rewrite V; exact R].
    Qed.
    Lemma grid_halve x m : grid_value x (2 * m) -> (Z.abs m <= 2 ^ prec)%Z -> grid_value (Bmult mode_NE x half) m.
    Proof using k_low prec11.
      intros [F V] L. destruct (halve x F) as (F' & V' & _). split; [exact F'|]. rewrite V', V, mult_IZR.
      replace (IZR 2 * IZR m * bpow radix2 (k - 1) * / 2) with (IZR m * bpow radix2 (k - 1)) by field. apply (rnd_fmt prec emax), grid_format; [exact L | lia].
    Qed.
    (** Both ends even, and of at most [prec] - 1 bits. *)
    Lemma grid_box lo hi m n : grid_value lo (2 * m) -> grid_value hi (2 * n) -> (Z.abs m <= 2 ^ (prec - 2))%Z -> (Z.abs n <= 2 ^ (prec - 2))%Z ->
      grid_value (sc lo hi) (m + n) /\ grid_value (se lo hi) (n - m).
    Proof using k_low k_high prec11.
      intros Gl Gh Lm Ln. assert (E : (2 ^ prec = 4 * 2 ^ (prec - 2))%Z) by (change 4%Z with (2 ^ 2)%Z; rewrite <- Z.pow_add_r by lia; f_equal; lia).
      split; apply grid_halve; try lia.
      - replace (2 * (m + n))%Z with (2 * m + 2 * n)%Z by ring. apply grid_plus; [exact Gl | exact Gh | lia].
      - replace (2 * (n - m))%Z with (2 * n - 2 * m)%Z by ring. apply grid_minus; [exact Gh | exact Gl | lia].
    Qed.
    Lemma grid_corners c e m n : grid_value c (m + n) -> grid_value e (n - m) -> (Z.abs m <= 2 ^ (prec - 2))%Z -> (Z.abs n <= 2 ^ (prec - 2))%Z ->
      grid_value (Bplus mode_NE c (Bopp e)) (2 * m) /\ grid_value (Bplus mode_NE c e) (2 * n).
    Proof using k_low k_high prec11.
      intros Gc Ge Lm Ln. assert (E : (2 ^ prec = 4 * 2 ^ (prec - 2))%Z) by (change 4%Z with (2 ^ 2)%Z; rewrite <- Z.pow_add_r by lia; f_equal; lia). split.
      - replace (2 * m)%Z with (m + n + - (n - m))%Z by ring. apply grid_plus; [exact Gc | apply grid_opp; exact Ge | lia].
      - replace (2 * n)%Z with (m + n + (n - m))%Z by ring. apply grid_plus; [exact Gc | exact Ge | lia].
    Qed.
    Lemma grid_test p c e m n q : grid_value c (m + n) -> grid_value e (n - m) -> grid_value p (2 * q) -> (Z.abs m <= 2 ^ (prec - 2))%Z -> (Z.abs n <= 2 ^ (prec - 2))%Z ->
      (Z.abs q <= 2 ^ (prec - 2))%Z -> Bleb (abs prec emax (Bminus mode_NE p c)) e = true -> (m <= q <= n)%Z.
    Proof using k_low k_high prec11.
      intros Gc Ge Gp Lm Ln Lq H. assert (E : (2 ^ prec = 4 * 2 ^ (prec - 2))%Z) by (change 4%Z with (2 ^ 2)%Z; rewrite <- Z.pow_add_r by lia; f_equal; lia).
      assert (Gd : grid_value (Bminus mode_NE p c) (2 * q - (m + n))) by (apply grid_minus; [exact Gp | exact Gc | lia]). destruct Gd as [Fd Vd], Ge as [Fe Ve].
      rewrite Bleb_correct in H; [| rewrite abs_finite; exact Fd | exact Fe]. rewrite abs_val, Vd, Ve in H.
      destruct (Rle_bool_spec (Rabs (IZR (2 * q - (m + n)) * bpow radix2 (k - 1))) (IZR (n - m) * bpow radix2 (k - 1))) as [L|L]; [|discriminate H].
      rewrite Rabs_mult, <- abs_IZR, (Rabs_pos_eq (bpow _ _)) in L by apply bpow_ge_0. apply Rmult_le_reg_r in L; [|apply bpow_gt_0]. apply le_IZR in L. lia.
    Qed.
  End Grid.
End BfltProofs2.
