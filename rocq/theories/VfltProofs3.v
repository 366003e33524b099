(** Division by a scalar, distances, and the test for unit length. *)
From Coq Require Import ZArith Bool List Reals Lra Lia Psatz.
From Flocq Require Import Core BinarySingleNaN Relative Plus_error Sterbenz.
From Verif Require Import FpModel FpProofs VfltModel VfltSpec VfltProofs VfltProofs2.
Import ListNotations.
Local Open Scope R_scope.

Section VfltProofs3.
  Variable prec emax : Z.
  Context (prec_gt_0_ : Prec_gt_0 prec).
  Context (prec_lt_emax_ : Prec_lt_emax prec emax).
  Notation float := (binary_float prec emax).
  Notation emin := (3 - emax - prec)%Z.
  Notation fexp := (FLT_exp emin prec).
  Notation rnd := (round radix2 fexp ZnearestE).
  Notation format := (generic_format radix2 fexp).
  Notation u := (half_ulp_1 prec).
  Notation h := (half_tiny prec emax).
  Notation mn := (min_normal emax).
  Notation G := (1 + half_ulp_1 prec).
  Notation s := (1 + half_ulp_1 prec / 8).
  Local Instance fexp_valid3 : Valid_exp fexp := FLT_exp_valid emin prec.

  (* ---------------------------------------------------------------- the reciprocal *)

  Lemma one_strict : exists m e H, (Bone : float) = B754_finite false m e H.
  Proof using.
    assert (F1 := is_finite_strict_Bone prec emax _ _). assert (S1 := Bsign_Bone prec emax _ _).
    destruct (Bone : float) as [s1|s1| |s1 m1 e1 H1]; try discriminate F1. cbn [Bsign] in S1. subst s1. exists m1, e1, H1. reflexivity.
  Qed.
  Lemma finite_nonzero sd md ed Hd : B2R (B754_finite sd md ed Hd : float) <> 0.
  Proof using. destruct sd; [apply Rlt_not_eq, F2R_lt_0 | apply Rgt_not_eq, F2R_gt_0]; reflexivity. Qed.
  Lemma abs_lt_emax (d : float) : is_finite d = true -> Rabs (B2R d) < bpow radix2 emax.
  Proof using. intros _. apply abs_B2R_lt_emax. Qed.
  Lemma recip_large (d : float) : B2R d <> 0 -> bpow radix2 (- emax) < Rabs (/ B2R d).
  Proof using.
    intros N. rewrite Rabs_inv, bpow_opp. apply Rinv_lt_contravar; [|apply abs_B2R_lt_emax].
    apply Rmult_lt_0_compat; [apply Rabs_pos_lt; exact N | apply bpow_gt_0].
  Qed.
  Lemma recip_nonzero (d : float) : (3 <= prec)%Z -> B2R d <> 0 -> rnd (/ B2R d) <> 0.
  Proof using prec_gt_0_.
    intros P3 N E. assert (L := recip_large d N).
    assert (F : format (bpow radix2 (- emax))) by (apply generic_format_bpow; unfold FLT_exp; lia).
    assert (A := abs_round_ge_generic radix2 fexp ZnearestE (bpow radix2 (- emax)) (/ B2R d) F (Rlt_le _ _ L)). rewrite E, Rabs_R0 in A.
    pose proof (bpow_gt_0 radix2 (- emax)). lra.
  Qed.
  Lemma recip_special (x d : float) : (3 <= prec)%Z -> is_finite x && is_finite_strict d = false ->
    Bmult mode_NE x (Bdiv mode_NE Bone d) = Bdiv mode_NE x d.
  Proof using.
    intros P3 H. destruct one_strict as (m1 & e1 & H1 & E). destruct d as [sd|sd| |sd md ed Hd].
    - rewrite E. destruct x as [sx|sx| |sx mx ex Hx]; destruct sd; reflexivity.
    - rewrite E. destruct x as [sx|sx| |sx mx ex Hx]; destruct sd; reflexivity.
    - rewrite E. destruct x; reflexivity.
    - destruct x as [sx|sx| |sx mx ex Hx]; try discriminate H.
      + assert (N := finite_nonzero sd md ed Hd). assert (C := Bdiv_correct prec emax _ _ mode_NE Bone _ N).
        rewrite (Bsign_Bone prec emax _ _), xorb_false_l, is_finite_Bone, Bone_correct in C. unfold Rdiv in C. rewrite Rmult_1_l in C.
        change (Bsign (B754_finite sd md ed Hd)) with sd in C. set (c := Bdiv mode_NE Bone _) in *.
        destruct (Rlt_bool _ _).
        * destruct C as (V & F & S). assert (Z := recip_nonzero _ P3 N). change (round_mode mode_NE) with ZnearestE in V.
          change (SpecFloat.fexp prec emax) with fexp in V. rewrite <- V in Z.
          destruct c as [sc|sc| |sc mc ec Hc]; try discriminate F; [exfalso; apply Z; reflexivity|].
          specialize (S eq_refl). cbn [Bsign] in S. subst sc. reflexivity.
        * destruct c as [sc|sc| |sc mc ec Hc]; try discriminate C. cbn in C. injection C as ->. reflexivity.
      + reflexivity.
  Qed.

  (** If the reciprocal is exact, the product with it is the quotient. *)
  Lemma recip_exact (x d : float) : is_finite x = true -> is_finite (Bdiv mode_NE Bone d) = true -> B2R d <> 0 ->
    B2R (Bdiv mode_NE Bone d) = / B2R d -> Bmult mode_NE x (Bdiv mode_NE Bone d) = Bdiv mode_NE x d.
  Proof using.
    intros Fx Fc N V. assert (S : Bsign (Bdiv mode_NE Bone d) = Bsign d).
    { assert (C := Bdiv_correct prec emax _ _ mode_NE Bone _ N). rewrite (Bsign_Bone prec emax _ _), xorb_false_l in C.
      destruct (Rlt_bool _ _); [|destruct (overflow_not prec emax _ _ Fc C)]. apply C.
      destruct (Bdiv mode_NE Bone d); try discriminate Fc; reflexivity. }
    assert (C := Bmult_correct prec emax _ _ mode_NE x (Bdiv mode_NE Bone d)). rewrite V, S, Fx, Fc in C. fold (B2R x / B2R d) in C.
    assert (D := Bdiv_correct prec emax _ _ mode_NE x d N). rewrite Fx in D. destruct (Rlt_bool _ _).
    - destruct C as (V1 & F1 & S1). destruct D as (V2 & F2 & S2). apply B2R_Bsign_inj; [exact F1 | exact F2 | rewrite V1, V2; reflexivity|].
      rewrite S1, S2; [reflexivity | |]; [destruct (Bdiv mode_NE x d) | destruct (Bmult mode_NE x _)]; try discriminate; reflexivity.
    - apply B2SF_inj. rewrite C, D. reflexivity.
  Qed.
  Lemma recip_power (x d : float) e : is_finite x = true -> Rabs (B2R d) = bpow radix2 e -> (- emax < e)%Z -> (e <= emax + prec - 3)%Z ->
    Bmult mode_NE x (Bdiv mode_NE Bone d) = Bdiv mode_NE x d.
  Proof using.
    intros Fx A E1 E2. assert (N : B2R d <> 0) by (intros Z; rewrite Z, Rabs_R0 in A; pose proof (bpow_gt_0 radix2 e); lra).
    assert (R : rnd (/ B2R d) = / B2R d).
    { apply rnd_fmt. assert (F : format (bpow radix2 (- e))) by (apply generic_format_bpow; red in prec_gt_0_; unfold FLT_exp; lia).
      unfold Rabs in A. destruct (Rcase_abs (B2R d)).
      - replace (/ B2R d) with (- / bpow radix2 e) by (rewrite <- A; field; exact N). rewrite <- bpow_opp. apply generic_format_opp. exact F.
      - rewrite A, <- bpow_opp. exact F. }
    assert (B : Rabs (rnd (1 / B2R d)) < bpow radix2 emax).
    { unfold Rdiv. rewrite Rmult_1_l, R, Rabs_inv, A, <- bpow_opp. apply bpow_lt. lia. }
    destruct (one_val prec emax _ _) as [V1 F1].
    destruct (div_ok prec emax _ _ Bone d F1 N) as [Fc Vc]; [rewrite V1; exact B|].
    apply recip_exact; [exact Fx | exact Fc | exact N|]. rewrite Vc, V1. unfold Rdiv. rewrite Rmult_1_l. exact R.
  Qed.

  (** The error of the product with the reciprocal, relative to the quotient. *)
  Lemma div_finite (x d : float) : is_finite (Bdiv mode_NE x d) = true -> B2R d <> 0 -> B2R (Bdiv mode_NE x d) = rnd (B2R x / B2R d).
  Proof using.
    intros F N. assert (C := Bdiv_correct prec emax _ _ mode_NE x d N). destruct (Rlt_bool _ _); [exact (proj1 C)|].
    destruct (overflow_not prec emax _ _ F C).
  Qed.
  Lemma recip_error (x d : float) (t : R) : is_finite d = true -> is_finite (Bmult mode_NE x (Bdiv mode_NE Bone d)) = true -> 0 <= t ->
    (B2R d <> 0 -> Rabs (rnd (/ B2R d) - / B2R d) <= t * Rabs (/ B2R d)) ->
    is_finite x = true /\ B2R d <> 0 /\
    Rabs (B2R (Bmult mode_NE x (Bdiv mode_NE Bone d)) - B2R x / B2R d) <= ((1 + t) * G - 1) * Rabs (B2R x / B2R d) + h.
  Proof using.
    intros Fd F Ht Ht'. assert (N : B2R d <> 0).
    { destruct d as [sd|sd| |sd md ed Hd]; try discriminate Fd; [|apply finite_nonzero]. exfalso. destruct one_strict as (m1 & e1 & H1 & E). rewrite E in F.
      destruct x; discriminate F. }
    apply mult_finite in F as (Fx & Fc & V). split; [exact Fx|]. split; [exact N|]. rewrite V. specialize (Ht' N).
    assert (Vc := div_finite Bone d Fc N). rewrite Bone_correct in Vc. unfold Rdiv in Vc. rewrite Rmult_1_l in Vc. rewrite Vc. unfold Rdiv.
    set (q := / B2R d) in *. set (c := rnd q) in *. assert (R := rnd_err prec emax prec_gt_0_ (B2R x * c)).
    assert (T : Rabs (rnd (B2R x * c) - B2R x * q) <= Rabs (rnd (B2R x * c) - B2R x * c) + Rabs (B2R x) * Rabs (c - q)).
    { rewrite <- Rabs_mult. replace (rnd (B2R x * c) - B2R x * q) with ((rnd (B2R x * c) - B2R x * c) + B2R x * (c - q)) by ring. apply Rabs_triang. }
    assert (K : Rabs c <= (1 + t) * Rabs q).
    { pose proof (Rabs_triang (c - q) q) as Y. replace (c - q + q) with c in Y by ring. lra. }
    rewrite Rabs_mult in R. rewrite (Rabs_mult (B2R x) q). pose proof (u_pos prec). pose proof (Rabs_pos (B2R x)) as X. pose proof (Rabs_pos q) as Q.
    assert (M1 : Rabs (B2R x) * Rabs (c - q) <= Rabs (B2R x) * (t * Rabs q)) by (apply Rmult_le_compat_l; assumption).
    assert (M2 : u * (Rabs (B2R x) * Rabs c) <= u * (Rabs (B2R x) * ((1 + t) * Rabs q))).
    { apply Rmult_le_compat_l; [lra|]. apply Rmult_le_compat_l; assumption. }
    replace (((1 + t) * G - 1) * (Rabs (B2R x) * Rabs q)) with (Rabs (B2R x) * (t * Rabs q) + u * (Rabs (B2R x) * ((1 + t) * Rabs q))) by ring. lra.
  Qed.
  Lemma recip_any (d : float) : B2R d <> 0 -> Rabs (rnd (/ B2R d) - / B2R d) <= 4 * u * Rabs (/ B2R d).
  Proof using prec_gt_0_ prec_lt_emax_.
    intros N. pose proof (u_pos prec) as U. pose proof (Rabs_pos (/ B2R d)) as P. destruct (rnd_cases prec emax prec_gt_0_ (/ B2R d)) as [C | C].
    - apply Rle_trans with (1 := C). pose proof (uG_le prec). apply Rmult_le_compat_r; [exact P | lra].
    - apply Rle_trans with (1 := C). assert (L := Rlt_le _ _ (recip_large d N)).
      replace h with (4 * u * bpow radix2 (- emax)); [apply Rmult_le_compat_l; [lra | exact L]|].
      unfold half_tiny, half_ulp_1. change 4 with (bpow radix2 2). rewrite <- !bpow_plus. f_equal. ring.
  Qed.
  Lemma recip_normal (d : float) : Rabs (B2R d) <= bpow radix2 (emax - 2) -> B2R d <> 0 -> Rabs (rnd (/ B2R d) - / B2R d) <= u * Rabs (/ B2R d).
  Proof using prec_gt_0_.
    intros H N. assert (M : mn <= Rabs (/ B2R d)).
    { rewrite Rabs_inv. unfold min_normal. replace (2 - emax)%Z with (- (emax - 2))%Z by ring. rewrite bpow_opp.
      apply Rinv_le; [apply Rabs_pos_lt; exact N | exact H]. }
    apply Rle_trans with (1 := rnd_normal prec emax prec_gt_0_ _ M). apply Rmult_le_compat_r; [apply Rabs_pos | apply uG_le].
  Qed.
  (** No overflow. *)
  Lemma recip_finite (x d : float) : is_finite x = true -> is_finite d = true -> mn <= Rabs (B2R d) ->
    (1 + 4 * u) * G * Rabs (B2R x / B2R d) + h < bpow radix2 emax -> is_finite (Bmult mode_NE x (Bdiv mode_NE Bone d)) = true.
  Proof using.
    intros Fx Fd M H. pose proof (mn_pos emax) as Mp. pose proof (mn_emax emax) as Me. pose proof (u_pos prec) as U. pose proof (u_le prec prec_gt_0_) as U2.
    pose proof (h_pos prec emax) as Hp.
    assert (N : B2R d <> 0) by (intros Z; rewrite Z, Rabs_R0 in M; lra). assert (A := recip_any d N). destruct (one_val prec emax _ _) as [V1 F1].
    assert (I : Rabs (/ B2R d) * mn <= 1).
    { rewrite Rabs_inv. apply Rle_trans with (/ Rabs (B2R d) * Rabs (B2R d)); [apply Rmult_le_compat_l; [|exact M] | rewrite Rinv_l; lra].
      apply Rlt_le, Rinv_0_lt_compat. lra. }
    assert (K : Rabs (rnd (/ B2R d)) <= (1 + 4 * u) * Rabs (/ B2R d)).
    { pose proof (Rabs_triang (rnd (/ B2R d) - / B2R d) (/ B2R d)) as Y. replace (rnd (/ B2R d) - / B2R d + / B2R d) with (rnd (/ B2R d)) in Y by ring. lra. }
    destruct (div_ok prec emax _ _ Bone d F1 N) as [Fc Vc].
    { rewrite V1. unfold Rdiv. rewrite Rmult_1_l. apply Rle_lt_trans with (1 := K). apply (Rmult_lt_reg_r mn); [exact Mp|].
      rewrite (Rmult_comm (bpow radix2 emax)), Me. pose proof (Rabs_pos (/ B2R d)). nra. }
    rewrite V1 in Vc. unfold Rdiv in Vc. rewrite Rmult_1_l in Vc. apply mult_ok; [exact Fx | exact Fc|]. rewrite Vc.
    apply Rle_lt_trans with (1 := rnd_mag prec emax prec_gt_0_ _). apply Rle_lt_trans with (2 := H). apply Rplus_le_compat_r.
    rewrite Rabs_mult. unfold Rdiv. rewrite Rabs_mult. replace ((1 + 4 * u) * G * (Rabs (B2R x) * Rabs (/ B2R d))) with (G * (Rabs (B2R x) * ((1 + 4 * u) * Rabs (/ B2R d)))) by ring.
    apply Rmult_le_compat_l; [lra|]. apply Rmult_le_compat_l; [apply Rabs_pos | exact K].
  Qed.

  (* ---------------------------------------------------------------- distances *)

  Definition diffs (p q : list float) : list R := map (fun x => B2R (fst x) - B2R (snd x)) (combine p q).
  Lemma minus_rel x y : format x -> format y -> Rabs (rnd (x - y)) <= G * Rabs (x - y) /\ Rabs (x - y) <= G * Rabs (rnd (x - y)).
  Proof using prec_gt_0_.
    intros Fx Fy. destruct (FLT_plus_error_N_ex radix2 emin prec (fun x => negb (Z.even x)) x (- y) Fx (generic_format_opp _ _ _ Fy)) as (e & He & E).
    fold (x - y) in E. rewrite E, Rabs_mult. rewrite u_ro_eq in He. pose proof (u_pos prec) as U. pose proof (uG_le prec).
    apply Rabs_le_inv in He as [H1 H2]. pose proof (Rabs_pos (x - y)) as P.
    assert (K : u / G * G = u) by (field; lra). set (w := u / G) in *. clearbody w. assert (W : w < 1) by nra.
    rewrite (Rabs_pos_eq (1 + e)) by lra. split; [rewrite (Rmult_comm G); apply Rmult_le_compat_l; lra|].
    rewrite (Rmult_comm (Rabs _)), <- Rmult_assoc. apply Rle_trans with (1 * Rabs (x - y)); [lra|]. apply Rmult_le_compat_r; [exact P|]. nra.
  Qed.
  Lemma minus_near p q : (forall x, In x (diffs q p) -> G * Rabs x < bpow radix2 emax) -> finite_vec prec emax p -> finite_vec prec emax q ->
    finite_vec prec emax (minus prec emax _ _ q p) /\ near (G * G) (sq prec emax (minus prec emax _ _ q p)) (real_norm2 (diffs q p)).
  Proof using.
    intros B Fp Fq. unfold minus, diffs, sq in *. assert (Fc : forall x, In x (combine q p) -> is_finite (fst x) = true /\ is_finite (snd x) = true).
    { intros [a b] Hx. split; [apply Fq; exact (in_combine_l _ _ _ _ Hx) | apply Fp; exact (in_combine_r _ _ _ _ Hx)]. }
    pose proof (u_pos prec) as U. induction (combine q p) as [|[a b] l IH].
    - split; [intros x []|]. cbn. unfold near. lra.
    - destruct (IH (fun x Hx => B x (or_intror Hx)) (fun x Hx => Fc x (or_intror Hx))) as [F (N1 & N2 & N3 & N4)].
      destruct (Fc (a, b) (or_introl eq_refl)) as [Fa Fb]. cbn [fst snd] in Fa, Fb.
      assert (Bd := B (B2R a - B2R b) (or_introl eq_refl)). destruct (minus_rel (B2R a) (B2R b) (fmt prec emax a) (fmt prec emax b)) as [M1 M2].
      assert (C := Bminus_correct prec emax _ _ mode_NE a b Fa Fb). rewrite Rlt_bool_true in C by (exact (Rle_lt_trans _ _ _ M1 Bd)).
      destruct C as (V & Fm & _). change (round_mode mode_NE) with ZnearestE in V. change (SpecFloat.fexp prec emax) with fexp in V.
      split; [intros x [<- | Hx]; [exact Fm | exact (F x Hx)]|].
      cbn [map real_norm2 fold_right fst snd]. rewrite V. fold (real_norm2 (map B2R (map (fun p0 : float * float => Bminus mode_NE (fst p0) (snd p0)) l))).
      fold (real_norm2 (map (fun x : float * float => B2R (fst x) - B2R (snd x)) l)).
      set (z := rnd (B2R a - B2R b)) in *. set (w := B2R a - B2R b) in *.
      assert (Q : forall t, t * t = Rabs t * Rabs t) by (intros t; rewrite <- Rabs_mult, Rabs_pos_eq; [reflexivity | nra]).
      rewrite (Q z), (Q w). pose proof (Rabs_pos z) as Z. pose proof (Rabs_pos w) as W.
      set (zz := Rabs z) in *. set (ww := Rabs w) in *. clearbody zz ww.
      assert (S1 : zz * zz <= G * ww * (G * ww)) by (apply Rmult_le_compat; assumption).
      assert (S2 : ww * ww <= G * zz * (G * zz)) by (apply Rmult_le_compat; assumption).
      split; [nra|]. split; [nra|]. rewrite !Rmult_plus_distr_l. split.
      + replace (G * G * (ww * ww)) with (G * ww * (G * ww)) by ring. lra.
      + replace (G * G * (zz * zz)) with (G * zz * (G * zz)) by ring. lra.
  Qed.

  Lemma minus_err (a b : float) : is_finite a = true -> is_finite b = true -> G * Rabs (B2R a - B2R b) < bpow radix2 emax ->
    exists t, B2R (Bminus mode_NE a b) = (B2R a - B2R b) * t /\ near G t 1.
  Proof using.
    intros Fa Fb Bd. destruct (minus_rel (B2R a) (B2R b) (fmt prec emax a) (fmt prec emax b)) as [M1 _].
    assert (C := Bminus_correct prec emax _ _ mode_NE a b Fa Fb). rewrite Rlt_bool_true in C by (exact (Rle_lt_trans _ _ _ M1 Bd)).
    destruct C as (V & _ & _). change (round_mode mode_NE) with ZnearestE in V. change (SpecFloat.fexp prec emax) with fexp in V. rewrite V.
    destruct (FLT_plus_error_N_ex radix2 emin prec (fun x => negb (Z.even x)) (B2R a) (- B2R b) (fmt prec emax a) (generic_format_opp _ _ _ (fmt prec emax b))) as (e & He & E).
    fold (B2R a - B2R b) in E. exists (1 + e). split; [exact E|]. rewrite u_ro_eq in He. pose proof (u_pos prec) as U. apply Rabs_le_inv in He as [H1 H2].
    assert (K : u / G * G = u) by (field; lra). set (w := u / G) in *. clearbody w. unfold near. repeat split; nra.
  Qed.
  Lemma near_sqrt F x y : 0 <= F -> near (F * F) x y -> near F (sqrt x) (sqrt y).
  Proof using.
    intros HF (P1 & P2 & A & B). split; [apply sqrt_pos|]. split; [apply sqrt_pos|].
    split; rewrite <- (sqrt_square F HF), <- sqrt_mult by nra; apply sqrt_le_1_alt; assumption.
  Qed.

  (* ---------------------------------------------------------------- the test for unit length *)

  Lemma near_one_abs F x : 1 <= F -> near F x 1 -> Rabs (x - 1) <= F - 1.
  Proof using.
    intros H (P & _ & A & B). apply Rabs_le. split; [|lra]. assert (X : 1 - x <= F - 1); [|lra].
    assert (0 <= (F - 1) * (F - 1)) by nra. destruct (Rle_lt_dec x 1); nra.
  Qed.
  Lemma sterbenz_one (x : float) : Rabs (B2R x - 1) <= 1 / 2 -> rnd (1 - B2R x) = 1 - B2R x.
  Proof using prec_gt_0_ prec_lt_emax_.
    intros H. apply rnd_fmt. apply Rabs_le_inv in H as [H1 H2]. apply sterbenz; [exact fexp_valid3 | apply FLT_exp_monotone | | apply fmt | lra].
    destruct (one_val prec emax _ _) as [V _]. rewrite <- V. apply fmt.
  Qed.
  Lemma unit_test_iff (l eps : float) : is_finite l = true -> is_finite eps = true -> Rabs (B2R l - 1) <= 1 / 2 ->
    approx_equal prec emax _ _ l Bone eps = true <-> Rabs (B2R l - 1) < B2R eps.
  Proof using.
    intros Fl Fe H. unfold approx_equal. destruct (one_val prec emax _ _) as [V1 F1]. assert (S := sterbenz_one l H).
    assert (E : Rabs (1 - B2R l) = Rabs (B2R l - 1)) by apply Rabs_minus_sym.
    assert (C := Bminus_correct prec emax _ _ mode_NE Bone l F1 Fl). rewrite V1 in C. change (round_mode mode_NE) with ZnearestE in C.
    change (SpecFloat.fexp prec emax) with fexp in C. rewrite S in C. rewrite Rlt_bool_true in C.
    2: { rewrite E. apply Rle_lt_trans with (1 := H). assert (W := one_lt_emax prec emax prec_gt_0_ prec_lt_emax_). lra. }
    destruct C as (V & F & _). rewrite Bltb_correct; [|rewrite abs_finite; exact F | exact Fe]. rewrite abs_val, V, E.
    destruct (Rlt_bool_spec (Rabs (B2R l - 1)) (B2R eps)); split; intros; try assumption; try reflexivity; try discriminate; lra.
  Qed.
  Lemma lt_finite_any (x y : float) : is_finite y = true -> Bltb (Babs x) y = true -> is_finite x = true.
  Proof using. intros Fy H. destruct x as [sx|sx| |sx mx ex Hx]; try reflexivity; destruct y as [sy|sy| |[] my ey Hy]; discriminate. Qed.
  Lemma unit_test_sound (l eps : float) : is_finite eps = true -> B2R eps <= 1 / 4 -> approx_equal prec emax _ _ l Bone eps = true ->
    is_finite l = true /\ Rabs (B2R l - 1) <= 1 / 2.
  Proof using.
    intros Fe He H. unfold approx_equal in H. destruct (one_val prec emax _ _) as [V1 F1].
    assert (Fm : is_finite (Bminus mode_NE Bone l) = true).
    { rewrite abs_Babs in H. apply (lt_finite_any (Bminus mode_NE Bone l) eps Fe H). }
    assert (M := minus_finite prec emax _ _ Bone l Fm). destruct M as (_ & Fl & V). split; [exact Fl|].
    rewrite Bltb_correct in H; [|rewrite abs_finite; exact Fm | exact Fe]. rewrite abs_val, V, V1 in H.
    assert (H' : Rabs (rnd (1 - B2R l)) < B2R eps) by (destruct (Rlt_bool_spec (Rabs (rnd (1 - B2R l))) (B2R eps)); [assumption | discriminate H]).
    rewrite Rabs_minus_sym.
    destruct (Rle_lt_dec (Rabs (1 - B2R l)) (1 / 2)) as [Q | Q]; [exact Q | exfalso].
    destruct (minus_rel 1 (B2R l)) as [_ M2]; [rewrite <- V1; apply fmt | apply fmt|]. pose proof (u_le prec prec_gt_0_) as U. pose proof (u_pos prec).
    pose proof (Rabs_pos (rnd (1 - B2R l))). nra.
  Qed.
End VfltProofs3.
