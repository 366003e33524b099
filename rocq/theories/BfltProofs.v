(** Proofs about bounding boxes of floats, one axis at a time. *)
From Coq Require Import ZArith Bool List Reals Lra Lia.
From Flocq Require Import Core BinarySingleNaN Relative Plus_error.
From Verif Require Import FpModel FpProofs VfltModel VfltSpec VfltProofs VfltProofs3 XfltModel BfltModel BfltSpec.
Import ListNotations.
Local Open Scope R_scope.

Section BfltProofs.
  Variable prec emax : Z.
  Context (prec_gt_0_ : Prec_gt_0 prec).
  Context (prec_lt_emax_ : Prec_lt_emax prec emax).
  Notation float := (binary_float prec emax).
  Notation emin := (3 - emax - prec)%Z.
  Notation fexp := (FLT_exp emin prec).
  Notation rnd := (round radix2 fexp ZnearestE).
  Notation format := (generic_format radix2 fexp).
  Notation u := (half_ulp_1 prec).
  Notation h := (half_tiny prec emax).
  Notation half := (one_half prec emax _ _).
  Implicit Types x y p c e lo hi : float.

  Lemma rnd_plus x y : Rabs (rnd (B2R x + B2R y) - (B2R x + B2R y)) <= u / (1 + u) * Rabs (B2R x + B2R y).
  Proof using prec_gt_0_.
    destruct (FLT_plus_error_N_ex radix2 emin prec (fun n => negb (Z.even n)) (B2R x) (B2R y) (fmt prec emax x) (fmt prec emax y)) as (d & Hd & E).
    rewrite (u_ro_eq prec) in Hd. rewrite E. replace ((B2R x + B2R y) * (1 + d) - (B2R x + B2R y)) with (d * (B2R x + B2R y)) by ring.
    rewrite Rabs_mult. apply Rmult_le_compat_r; [apply Rabs_pos | exact Hd].
  Qed.
  Lemma rnd_minus x y : Rabs (rnd (B2R x - B2R y) - (B2R x - B2R y)) <= u / (1 + u) * Rabs (B2R x - B2R y).
  Proof using prec_gt_0_. pose proof (rnd_plus x (Bopp y)) as H. rewrite B2R_Bopp in H. exact H. Qed.
  Lemma rel_le (r z : R) : Rabs (r - z) <= u / (1 + u) * Rabs z -> Rabs (r - z) <= u * Rabs z /\ Rabs z <= (1 + u) * Rabs r.
  Proof using.
    intros H. pose proof (u_pos prec) as U. pose proof (uG_le prec) as L. pose proof (Rabs_pos z) as P. split.
    - apply Rle_trans with (1 := H). apply Rmult_le_compat_r; assumption.
    - pose proof (Rabs_triang r (z - r)) as T. replace (r + (z - r)) with z in T by ring. rewrite (Rabs_minus_sym z r) in T.
      assert (E : u / (1 + u) = 1 - / (1 + u)) by (field; lra). rewrite E in H.
      assert (K : / (1 + u) * Rabs z <= Rabs r) by lra. apply (Rmult_le_compat_l (1 + u)) in K; [|lra]. rewrite <- Rmult_assoc, Rinv_r, Rmult_1_l in K by lra. exact K.
  Qed.
  Lemma rnd_bound z k : (emin <= k)%Z -> Rabs z <= bpow radix2 k -> Rabs (rnd z) <= bpow radix2 k.
  Proof using prec_gt_0_.
    intros K H. apply abs_round_le_generic; [apply FLT_exp_valid; exact prec_gt_0_ | apply valid_rnd_N | | exact H].
    apply generic_format_bpow. unfold FLT_exp. red in prec_gt_0_. lia.
  Qed.
  (** Half of a float: exact unless it underflows. *)
  Lemma rnd_half (z : R) : format z -> Rabs (rnd (z * / 2) - z * / 2) <= h.
  Proof using prec_gt_0_.
    intros F. apply FLT_format_generic in F; [|exact prec_gt_0_]. destruct F as [[m k] E M K]. cbn [Fnum Fexp] in *.
    assert (V : z * / 2 = IZR m * bpow radix2 (k - 1)).
    { rewrite E. unfold F2R. cbn [Fnum Fexp]. replace (k - 1)%Z with (k + (-1))%Z by ring. rewrite (bpow_plus radix2 k (-1)). assert (Q : bpow radix2 (-1) = / 2) by reflexivity. rewrite Q. ring. }
    destruct (Z.le_gt_cases emin (k - 1)) as [G|G].
    - rewrite (rnd_fmt prec emax); [rewrite Rminus_diag_eq by reflexivity; rewrite Rabs_R0; apply Rlt_le, h_pos|].
      rewrite V. apply generic_format_FLT. exists (Float radix2 m (k - 1)); [reflexivity | exact M | exact G].
    - apply Rle_trans with (1 := error_le_half_ulp radix2 fexp (fun n => negb (Z.even n)) (z * / 2)). rewrite ulp_FLT_small; [| exact prec_gt_0_ |].
      + unfold half_tiny. change (/ 2) with (bpow radix2 (-1)). rewrite <- bpow_plus. apply bpow_le. lia.
      + rewrite V, Rabs_mult, (Rabs_pos_eq (bpow _ _)) by apply bpow_ge_0. replace (emin + prec)%Z with (prec + emin)%Z by ring. rewrite bpow_plus.
        apply Rmult_lt_compat; [apply Rabs_pos | apply bpow_ge_0 | | apply bpow_lt; lia].
        rewrite <- abs_IZR. rewrite <- IZR_Zpower by (red in prec_gt_0_; lia). apply IZR_lt. exact M.
  Qed.

  (** A sum of two finite floats, overflow included. *)
  Lemma plus_cases x y : is_finite x = true -> is_finite y = true ->
    (is_finite (Bplus mode_NE x y) = true /\ B2R (Bplus mode_NE x y) = rnd (B2R x + B2R y) /\ Rabs (rnd (B2R x + B2R y)) < bpow radix2 emax)
    \/ (Bplus mode_NE x y = B754_infinity false /\ bpow radix2 emax <= rnd (B2R x + B2R y))
    \/ (Bplus mode_NE x y = B754_infinity true /\ rnd (B2R x + B2R y) <= - bpow radix2 emax).
  Proof using.
    intros Fx Fy. pose proof (Bplus_correct prec emax _ _ mode_NE x y Fx Fy) as C.
    destruct (Rlt_bool_spec (Rabs (round radix2 (SpecFloat.fexp prec emax) (round_mode mode_NE) (B2R x + B2R y))) (bpow radix2 emax)) as [L|L].
    - left. destruct C as (V & F & _). split; [exact F|]. split; [exact V | exact L].
    - right. destruct C as [C S]. change (round radix2 (SpecFloat.fexp prec emax) (round_mode mode_NE)) with rnd in L.
      assert (I : Bplus mode_NE x y = B754_infinity (Bsign x)).
      { apply B2SF_inj. rewrite C. reflexivity. }
      pose proof (bpow_gt_0 radix2 emax) as P.
      assert (Sg : forall z : float, is_finite z = true -> if Bsign z then B2R z <= 0 else 0 <= B2R z).
      { intros [[]|[]| |[] m k B] F; try discriminate F; cbn; try lra; [apply F2R_le_0 | apply F2R_ge_0]; cbn; lia. }
      assert (Sx := Sg x Fx). assert (Sy := Sg y Fy). rewrite <- S in Sy. rewrite I. destruct (Bsign x).
      + right. split; [reflexivity|]. assert (N : rnd (B2R x + B2R y) <= rnd 0) by (apply rnd_mono; [exact _ | lra]). rewrite rnd_0 in N.
        rewrite Rabs_left1 in L by exact N. lra.
      + left. split; [reflexivity|]. assert (N : rnd 0 <= rnd (B2R x + B2R y)) by (apply rnd_mono; [exact _ | lra]). rewrite rnd_0 in N.
        rewrite Rabs_pos_eq in L by exact N. lra.
  Qed.
  Lemma plus_le (a b c d : float) : is_finite a = true -> is_finite b = true -> is_finite c = true -> is_finite d = true -> B2R a + B2R b <= B2R c + B2R d ->
    Bleb (Bplus mode_NE a b) (Bplus mode_NE c d) = true.
  Proof using.
    intros Fa Fb Fc Fd L. apply (rnd_mono prec emax prec_gt_0_) in L. pose proof (bpow_gt_0 radix2 emax) as P.
    destruct (plus_cases a b Fa Fb) as [(F1 & V1 & M1)|[(-> & M1)|(-> & M1)]], (plus_cases c d Fc Fd) as [(F2 & V2 & M2)|[(-> & M2)|(-> & M2)]]; try reflexivity.
    - rewrite Bleb_correct by assumption. rewrite V1, V2. apply Rle_bool_true. exact L.
    - destruct (Bplus mode_NE a b) as [[]|[]| |[] m k B]; try discriminate F1; reflexivity.
    - apply Rabs_def2 in M1. exfalso. lra.
    - apply Rabs_def2 in M2. exfalso. lra.
    - exfalso. lra.
    - destruct (Bplus mode_NE c d) as [[]|[]| |[] m k B]; try discriminate F2; reflexivity.
  Qed.
  Lemma le_plus (a b c d : float) : is_finite (Bplus mode_NE a b) = true -> is_finite (Bplus mode_NE c d) = true -> Bleb (Bplus mode_NE a b) (Bplus mode_NE c d) = true ->
    B2R a + B2R b <= B2R c + B2R d + u * (Rabs (B2R a + B2R b) + Rabs (B2R c + B2R d)).
  Proof using.
    intros F1 F2 L. rewrite Bleb_correct in L by assumption. destruct (plus_finite prec emax _ _ _ _ F1) as (_ & _ & V1). destruct (plus_finite prec emax _ _ _ _ F2) as (_ & _ & V2).
    rewrite V1, V2 in L. destruct (Rle_bool_spec (rnd (B2R a + B2R b)) (rnd (B2R c + B2R d))) as [L'|L']; [|discriminate L].
    pose proof (proj1 (rel_le _ _ (rnd_plus a b))) as E1. pose proof (proj1 (rel_le _ _ (rnd_plus c d))) as E2.
    apply Rabs_le_inv in E1, E2. lra.
  Qed.

  (** The test of a point. *)
  Lemma inside_contains p c e : is_finite p = true -> is_finite c = true -> is_finite e = true -> in_range (B2R c) (B2R e) (B2R p) ->
    Bleb (abs prec emax (Bminus mode_NE p c)) e = true.
  Proof using.
    intros Fp Fc Fe [L1 L2]. assert (A : Rabs (rnd (B2R p - B2R c)) <= B2R e).
    { apply abs_round_le_generic; [apply FLT_exp_valid; exact prec_gt_0_ | apply valid_rnd_N | apply fmt |]. apply Rabs_le. lra. }
    pose proof (abs_lt_emax prec emax e Fe) as M. pose proof (Rle_abs (B2R e)).
    pose proof (Bminus_correct prec emax _ _ mode_NE p c Fp Fc) as C. rewrite Rlt_bool_true in C by (apply Rle_lt_trans with (1 := A); lra).
    destruct C as (V & F & _). rewrite Bleb_correct; [| rewrite abs_finite; exact F | exact Fe]. rewrite abs_val, V. apply Rle_bool_true. exact A.
  Qed.
  Lemma le_finite_any x y : is_finite y = true -> Bleb (Babs x) y = true -> is_finite x = true.
  Proof using. destruct x as [s|s| |s m k B], y as [t|t| |t n l D]; intros F H; try reflexivity; try discriminate F; try discriminate H. Qed.
  Lemma contains_finite p c e : is_finite e = true -> Bleb (abs prec emax (Bminus mode_NE p c)) e = true -> is_finite p = true /\ is_finite c = true /\ Rabs (rnd (B2R p - B2R c)) <= B2R e.
  Proof using.
    intros Fe H. assert (F : is_finite (Bminus mode_NE p c) = true) by (rewrite abs_Babs in H; exact (le_finite_any _ _ Fe H)).
    destruct (minus_finite prec emax _ _ _ _ F) as (Fp & Fc & V). split; [exact Fp|]. split; [exact Fc|].
    rewrite Bleb_correct in H; [| rewrite abs_finite; exact F | exact Fe]. rewrite abs_val, V in H. destruct (Rle_bool_spec (Rabs (rnd (B2R p - B2R c))) (B2R e)); [assumption | discriminate H].
  Qed.
  Lemma contains_near p c e : is_finite e = true -> Bleb (abs prec emax (Bminus mode_NE p c)) e = true -> in_range (B2R c) ((1 + u) * B2R e) (B2R p).
  Proof using.
    intros Fe H. destruct (contains_finite p c e Fe H) as (_ & _ & A). pose proof (proj2 (rel_le _ _ (rnd_minus p c))) as E. pose proof (u_pos prec) as U.
    assert (K : Rabs (B2R p - B2R c) <= (1 + u) * B2R e) by (apply Rle_trans with (1 := E); apply Rmult_le_compat_l; lra).
    apply Rabs_le_inv in K. unfold in_range. lra.
  Qed.
  Lemma nan_not p c e : Bleb (abs prec emax (Bminus mode_NE p c)) e = true -> is_nan p = false /\ is_nan c = false /\ is_nan e = false.
  Proof using.
    intros H. destruct e as [t|t| |t n l D]; cbn [is_nan].
    3: { rewrite abs_Babs in H. destruct (Babs (Bminus mode_NE p c)); discriminate H. }
    all: destruct p as [s|s| |s m k B], c as [s'|s'| |s' m' k' B']; try (repeat split; reflexivity); discriminate H.
  Qed.
End BfltProofs.
