(** Rounding errors of sums of products. *)
From Coq Require Import ZArith Bool List Reals Lra Lia.
From Flocq Require Import Core BinarySingleNaN Relative Plus_error.
From Verif Require Import FpModel FpProofs VfltModel VfltSpec.
Import ListNotations.
Local Open Scope R_scope.

Section VfltProofs.
  Variable prec emax : Z.
  Context (prec_gt_0_ : Prec_gt_0 prec).
  Context (prec_lt_emax_ : Prec_lt_emax prec emax).
  Notation float := (binary_float prec emax).
  Notation emin := (3 - emax - prec)%Z.
  Notation fexp := (FLT_exp emin prec).
  Notation rnd := (round radix2 fexp ZnearestE).
  Notation format := (generic_format radix2 fexp).
  Notation u := (half_ulp_1 prec).
  Notation h := (half_tiny prec emax).
  Notation G := (1 + half_ulp_1 prec).
  Local Instance fexp_valid' : Valid_exp fexp := FLT_exp_valid emin prec.

  Lemma u_pos : 0 < u.
  Proof using. apply bpow_gt_0. Qed.
  Lemma h_pos : 0 < h.
  Proof using. apply bpow_gt_0. Qed.
  Lemma u_le : u <= / 2.
  Proof using prec_gt_0_. unfold half_ulp_1. change (/ 2) with (bpow radix2 (-1)). apply bpow_le. red in prec_gt_0_. lia. Qed.
  Lemma half_min : h = u * min_normal emax.
  Proof using. unfold half_tiny, half_ulp_1, min_normal. rewrite <- bpow_plus. f_equal. ring. Qed.
  Lemma u_ro_eq : u_ro radix2 prec = u.
  Proof using. unfold u_ro, half_ulp_1. replace (- prec + 1)%Z with (1 + - prec)%Z by ring. rewrite bpow_plus. change (bpow radix2 1) with 2. lra. Qed.
  Lemma G_pos : 1 < G.
  Proof using. pose proof u_pos. lra. Qed.

  (** Rounding: a relative error or, below the normal numbers, an absolute one. *)
  Lemma rnd_cases z : (Rabs (rnd z - z) <= u / G * Rabs z) \/ (Rabs (rnd z - z) <= h).
  Proof using prec_gt_0_.
    destruct (relative_error_N_FLT'_ex radix2 emin prec prec_gt_0_ (fun x => negb (Z.even x)) z) as (e & t & He & Ht & Z & E).
    rewrite u_ro_eq in He. fold rnd in E. rewrite E. apply Rmult_integral in Z as [-> | ->].
    - right. replace (z * (1 + 0) + t - z) with t by ring. replace h with (/ 2 * bpow radix2 emin); [exact Ht|].
      unfold half_tiny. change (/ 2) with (bpow radix2 (-1)). rewrite <- bpow_plus. f_equal. ring.
    - left. replace (z * (1 + e) + 0 - z) with (e * z) by ring. rewrite Rabs_mult. apply Rmult_le_compat_r; [apply Rabs_pos | exact He].
  Qed.
  Lemma uG_le : u / G <= u.
  Proof using. pose proof u_pos. apply (Rmult_le_reg_r G); [lra|]. unfold Rdiv. rewrite Rmult_assoc, Rinv_l by lra. nra. Qed.
  Lemma rnd_err z : Rabs (rnd z - z) <= u * Rabs z + h.
  Proof using prec_gt_0_.
    pose proof h_pos. pose proof u_pos. pose proof (Rabs_pos z). pose proof uG_le. assert (0 <= u * Rabs z) by nra.
    destruct (rnd_cases z) as [H' | H']; [|lra]. apply Rle_trans with (1 := H'). nra.
  Qed.
  Lemma rnd_mag z : Rabs (rnd z) <= G * Rabs z + h.
  Proof using prec_gt_0_. pose proof (rnd_err z) as H. pose proof (Rabs_triang (rnd z - z) z) as T. replace (rnd z - z + z) with (rnd z) in T by ring. lra. Qed.
  (** In the normal range there is only the relative one, which can be taken relative to the result as well. *)
  Lemma rnd_normal z : min_normal emax <= Rabs z -> Rabs (rnd z - z) <= u / G * Rabs z.
  Proof using prec_gt_0_.
    intros H. unfold min_normal in H.
    assert (E : rnd z = round radix2 (FLX_exp prec) ZnearestE z).
    { apply round_FLT_FLX. replace (emin + prec - 1)%Z with (2 - emax)%Z by ring. exact H. }
    rewrite E. pose proof (relative_error_N_FLX' radix2 prec prec_gt_0_ (fun x => negb (Z.even x)) z) as R. rewrite u_ro_eq in R. exact R.
  Qed.
  Lemma rnd_up z : 0 <= z -> min_normal emax <= z -> rnd z <= G * z /\ z <= G * rnd z.
  Proof using prec_gt_0_.
    intros P H. pose proof u_pos. assert (R := rnd_normal z). rewrite (Rabs_pos_eq z P) in R. specialize (R H). pose proof uG_le.
    apply Rabs_le_inv in R as [R1 R2]. split; [nra|].
    assert (E : G * (z - u / G * z) = z) by (field; lra). nra.
  Qed.
  Lemma rnd_mono x y : x <= y -> rnd x <= rnd y.
  Proof using prec_gt_0_. apply rnd_le. exact prec_gt_0_. Qed.
  Lemma rnd_nonneg x : 0 <= x -> 0 <= rnd x.
  Proof using prec_gt_0_. intros H. rewrite <- (rnd_0 prec emax). apply rnd_mono. exact H. Qed.

  (* ---------------------------------------------------------------- operations that do not overflow, and finite results *)

  Lemma overflow_not (f : float) s : is_finite f = true -> B2SF f = binary_overflow prec emax mode_NE s -> False.
  Proof using. intros F E. pose proof (is_finite_SF_B2SF prec emax f) as X. rewrite E, F in X. discriminate X. Qed.
  Lemma mult_finite (x y : float) : is_finite (Bmult mode_NE x y) = true ->
    is_finite x = true /\ is_finite y = true /\ B2R (Bmult mode_NE x y) = rnd (B2R x * B2R y).
  Proof using.
    intros H. assert (F : is_finite x = true /\ is_finite y = true).
    { destruct x as [sx|sx| |sx mx ex Hx], y as [sy|sy| |sy my ey Hy]; try (split; reflexivity); discriminate H. }
    destruct F as [Fx Fy]. split; [exact Fx|]. split; [exact Fy|]. pose proof (Bmult_correct prec emax _ _ mode_NE x y) as C.
    destruct (Rlt_bool _ _); [exact (proj1 C)|]. destruct (overflow_not _ _ H C).
  Qed.
  Lemma mult_ok (x y : float) : is_finite x = true -> is_finite y = true -> Rabs (rnd (B2R x * B2R y)) < bpow radix2 emax ->
    is_finite (Bmult mode_NE x y) = true /\ B2R (Bmult mode_NE x y) = rnd (B2R x * B2R y).
  Proof using.
    intros Fx Fy H. pose proof (Bmult_correct prec emax _ _ mode_NE x y) as C. rewrite Rlt_bool_true in C by exact H.
    destruct C as (V & F & _). rewrite Fx, Fy in F. split; [exact F | exact V].
  Qed.
  Lemma plus_ok (x y : float) : is_finite x = true -> is_finite y = true -> Rabs (rnd (B2R x + B2R y)) < bpow radix2 emax ->
    is_finite (Bplus mode_NE x y) = true /\ B2R (Bplus mode_NE x y) = rnd (B2R x + B2R y).
  Proof using.
    intros Fx Fy H. pose proof (Bplus_correct prec emax _ _ mode_NE x y Fx Fy) as C. rewrite Rlt_bool_true in C by exact H.
    destruct C as (V & F & _). split; [exact F | exact V].
  Qed.
  Lemma fma_finite (x y z : float) : is_finite (Bfma mode_NE x y z) = true ->
    is_finite x = true /\ is_finite y = true /\ is_finite z = true /\ B2R (Bfma mode_NE x y z) = rnd (B2R x * B2R y + B2R z).
  Proof using.
    intros H. assert (F : is_finite x = true /\ is_finite y = true /\ is_finite z = true).
    { destruct x as [sx|sx| |sx mx ex Hx], y as [sy|sy| |sy my ey Hy], z as [sz|sz| |sz mz ez Hz];
        try (repeat split; reflexivity); try discriminate H; cbn in H; destruct (Bool.eqb _ _); discriminate H. }
    destruct F as (Fx & Fy & Fz). split; [exact Fx|]. split; [exact Fy|]. split; [exact Fz|].
    pose proof (Bfma_correct prec emax _ _ mode_NE x y z Fx Fy Fz) as C. cbv zeta in C.
    destruct (Rlt_bool _ _); [exact (proj1 C)|]. destruct (overflow_not _ _ H C).
  Qed.
  Lemma fma_ok (x y z : float) : is_finite x = true -> is_finite y = true -> is_finite z = true ->
    Rabs (rnd (B2R x * B2R y + B2R z)) < bpow radix2 emax ->
    is_finite (Bfma mode_NE x y z) = true /\ B2R (Bfma mode_NE x y z) = rnd (B2R x * B2R y + B2R z).
  Proof using.
    intros Fx Fy Fz H. pose proof (Bfma_correct prec emax _ _ mode_NE x y z Fx Fy Fz) as C. cbv zeta in C. rewrite Rlt_bool_true in C by exact H.
    destruct C as (V & F & _). split; [exact F | exact V].
  Qed.
  Lemma div_ok (x y : float) : is_finite x = true -> B2R y <> 0 -> Rabs (rnd (B2R x / B2R y)) < bpow radix2 emax ->
    is_finite (Bdiv mode_NE x y) = true /\ B2R (Bdiv mode_NE x y) = rnd (B2R x / B2R y).
  Proof using.
    intros Fx Ny H. pose proof (Bdiv_correct prec emax _ _ mode_NE x y Ny) as C. rewrite Rlt_bool_true in C by exact H.
    destruct C as (V & F & _). rewrite Fx in F. split; [exact F | exact V].
  Qed.

  (* ---------------------------------------------------------------- the error of a sum of products *)

  Notation val := (fun p : float * float => (B2R (fst p), B2R (snd p))).
  Notation prod p := (B2R (fst p) * B2R (snd p)).

  (** [close j a e m]: [a] is [e] up to [j] roundings of sums of magnitude [m]. *)
  Definition close (j : nat) (a e m : R) : Prop := Rabs (a - e) <= (G ^ j - 1) * m + 2 * INR j * h * G ^ j.

  Lemma G_pow j : 1 <= G ^ j.
  Proof using. apply pow_R1_Rle. pose proof G_pos. lra. Qed.
  Lemma G_pow_le i j : (i <= j)%nat -> G ^ i <= G ^ j.
  Proof using. intros H. apply Rle_pow; [pose proof G_pos; lra | exact H]. Qed.
  Lemma rnd_prod x : Rabs (rnd x - x) <= u * Rabs x + h /\ Rabs (rnd x) <= G * Rabs x + h.
  Proof using prec_gt_0_. split; [apply rnd_err | apply rnd_mag]. Qed.
  Lemma close_mag j a e m : Rabs e <= m -> close j a e m -> Rabs a <= G ^ j * m + 2 * INR j * h * G ^ j.
  Proof using.
    unfold close. intros He Hc. pose proof (Rabs_triang (a - e) e) as T. replace (a - e + e) with a in T by ring.
    replace ((G ^ j - 1) * m) with (G ^ j * m - m) in Hc by ring. lra.
  Qed.
  (** One step: [p] is the product [x], rounded or not. *)
  Lemma close_step j a e m p x : (1 <= j)%nat -> Rabs e <= m -> close j a e m -> Rabs (p - x) <= u * Rabs x + h ->
    close (S j) (rnd (a + p)) (e + x) (m + Rabs x).
  Proof using prec_gt_0_.
    intros Hj He Hc Hp. pose proof (close_mag j a e m He Hc) as Ha. unfold close in *.
    pose proof (rnd_err (a + p)) as R. pose proof u_pos. pose proof h_pos. pose proof (G_pow j) as Gj.
    assert (P : Rabs p <= G * Rabs x + h).
    { pose proof (Rabs_triang (p - x) x) as T. replace (p - x + x) with p in T by ring. lra. }
    assert (AP : Rabs (a + p) <= Rabs a + Rabs p) by apply Rabs_triang.
    assert (T : Rabs (rnd (a + p) - (e + x)) <= Rabs (rnd (a + p) - (a + p)) + Rabs (a - e) + Rabs (p - x)).
    { replace (rnd (a + p) - (e + x)) with ((rnd (a + p) - (a + p)) + ((a - e) + (p - x))) by ring.
      apply Rle_trans with (1 := Rabs_triang _ _). pose proof (Rabs_triang (a - e) (p - x)). lra. }
    assert (G2 : G ^ 2 <= G ^ S j) by (apply G_pow_le; lia). rewrite S_INR.
    assert (X := Rabs_pos x). assert (E1 : G ^ S j = G * G ^ j) by reflexivity. assert (E2 : G ^ 2 = G * G) by ring.
    set (g := G ^ j) in *. rewrite E1 in *.
    assert (J : 0 <= INR j) by apply pos_INR.
    assert (B : u * Rabs (a + p) <= u * (g * m + 2 * INR j * h * g + G * Rabs x + h)) by (apply Rmult_le_compat_l; lra).
    assert (C1 : (u * G + u) * Rabs x <= (G * g - 1) * Rabs x) by (apply Rmult_le_compat_r; [exact X | nra]).
    assert (C2 : (2 + u) * h <= 2 * h * (G * g)) by nra.
    replace ((G * g - 1) * (m + Rabs x) + 2 * (INR j + 1) * h * (G * g))
      with ((g - 1) * m + u * g * m + (G * g - 1) * Rabs x + (2 * INR j * h * g + u * (2 * INR j * h * g)) + 2 * h * (G * g)) by ring.
    lra.
  Qed.
  Lemma close_first x : close 1 (rnd x) x (Rabs x).
  Proof using prec_gt_0_. unfold close. pose proof (rnd_err x). pose proof u_pos. pose proof h_pos. rewrite pow_1. change (INR 1) with 1. nra. Qed.
  Lemma exact_ok x : Rabs (x - x) <= u * Rabs x + h.
  Proof using. rewrite Rminus_diag_eq, Rabs_R0 by reflexivity. pose proof h_pos. pose proof u_pos. pose proof (Rabs_pos x). nra. Qed.

  Lemma add_next_close k j (acc : float) q e m : (1 <= j)%nat -> Rabs e <= m -> close j (B2R acc) e m ->
    is_finite (add_next prec emax _ _ k acc q) = true ->
    is_finite acc = true /\ is_finite (fst q) = true /\ is_finite (snd q) = true /\
    close (S j) (B2R (add_next prec emax _ _ k acc q)) (e + prod q) (m + Rabs (prod q)).
  Proof using.
    intros Hj He Hc F.
    assert (D : is_finite acc = true /\ is_finite (fst q) = true /\ is_finite (snd q) = true /\
      exists p, Rabs (p - prod q) <= u * Rabs (prod q) + h /\ B2R (add_next prec emax _ _ k acc q) = rnd (B2R acc + p)).
    { destruct k; cbn [add_next] in *.
      1, 2: apply plus_finite in F as (Fa & Fp & V); apply mult_finite in Fp as (F1 & F2 & Vp); repeat (split; [assumption|]);
            exists (rnd (prod q)); split; [apply rnd_err | rewrite V, Vp; reflexivity].
      apply fma_finite in F as (F1 & F2 & Fa & V). repeat (split; [assumption|]). exists (prod q). split; [apply exact_ok|].
      rewrite V, Rplus_comm. reflexivity. }
    destruct D as (Fa & F1 & F2 & p & Hp & ->). repeat (split; [assumption|]). apply close_step; assumption.
  Qed.
  Lemma real_mag_pos l : 0 <= real_mag l.
  Proof using. induction l as [|p l IH]; cbn [real_mag fold_right]; [lra|]. pose proof (Rabs_pos (fst p * snd p)). fold (real_mag l). lra. Qed.
  Lemma dot_le_mag l : Rabs (real_dot l) <= real_mag l.
  Proof using.
    induction l as [|p l IH]; cbn [real_mag real_dot fold_right]; [rewrite Rabs_R0; lra|].
    apply Rle_trans with (1 := Rabs_triang _ _). fold (real_dot l). fold (real_mag l). lra.
  Qed.
  Definition all_finite (l : list (float * float)) : Prop := forall q, In q l -> is_finite (fst q) = true /\ is_finite (snd q) = true.
  Lemma add_rest_finite k l : forall i acc, is_finite (add_rest prec emax _ _ k i acc l) = true -> is_finite acc = true.
  Proof using.
    induction l as [|q l IH]; intros i acc F; cbn [add_rest] in F; [exact F|]. apply IH in F. destruct (k i); cbn [add_next] in F.
    1, 2: apply plus_finite in F as (Fa & _); exact Fa. apply fma_finite in F as (_ & _ & Fa & _). exact Fa.
  Qed.
  Lemma add_rest_close k l : forall i j acc e m, (1 <= j)%nat -> Rabs e <= m -> close j (B2R acc) e m ->
    is_finite (add_rest prec emax _ _ k i acc l) = true ->
    all_finite l /\ close (j + List.length l) (B2R (add_rest prec emax _ _ k i acc l)) (e + real_dot (map val l)) (m + real_mag (map val l)).
  Proof using.
    induction l as [|q l IH]; intros i j acc e m Hj He Hc F.
    - split; [intros q []|]. cbn [List.length map real_dot real_mag fold_right add_rest]. rewrite Nat.add_0_r, !Rplus_0_r. exact Hc.
    - cbn [add_rest] in F |- *. assert (F' := add_rest_finite k l _ _ F).
      destruct (add_next_close (k i) j acc q e m Hj He Hc F') as (_ & F1 & F2 & Hc').
      destruct (IH (S i) (S j) (add_next prec emax _ _ (k i) acc q) (e + prod q) (m + Rabs (prod q)) ltac:(lia)) as [A B]; [|exact Hc'|exact F|].
      { apply Rle_trans with (1 := Rabs_triang _ _). lra. }
      split; [intros p [<- | Hp]; [split; assumption | exact (A p Hp)]|].
      cbn [List.length map real_dot real_mag fold_right fst snd]. fold (real_dot (map val l)). fold (real_mag (map val l)).
      rewrite Nat.add_succ_r, <- !Rplus_assoc. exact B.
  Qed.
  Theorem accumulate_close k l : is_finite (accumulate prec emax _ _ k l) = true ->
    all_finite l /\ close (List.length l) (B2R (accumulate prec emax _ _ k l)) (real_dot (map val l)) (real_mag (map val l)).
  Proof using.
    destruct l as [|p [|q l]]; intros F; cbn [accumulate] in *.
    - split; [intros q []|]. unfold close. cbn. rewrite Rminus_0_r, Rabs_R0. lra.
    - apply mult_finite in F as (F1 & F2 & V). split; [intros q [<- | []]; split; assumption|].
      cbn [List.length map real_dot real_mag fold_right fst snd]. rewrite V, !Rplus_0_r. apply close_first.
    - assert (F' := add_rest_finite k l _ _ F).
      assert (D : all_finite [p; q] /\ close 2 (B2R (add_first prec emax _ _ (k O) p q)) (prod p + prod q) (Rabs (prod p) + Rabs (prod q))).
      { assert (S : forall a b, is_finite (fst a) = true /\ is_finite (snd a) = true -> is_finite (fst b) = true /\ is_finite (snd b) = true -> all_finite [a; b]).
        { intros a b Ha Hb x [<- | [<- | []]]; assumption. }
        destruct (k O); cbn [add_first] in *.
        - apply plus_finite in F' as (Fp & Fq & V). apply mult_finite in Fp as (P1 & P2 & Vp). apply mult_finite in Fq as (Q1 & Q2 & Vq).
          split; [apply S; split; assumption|]. rewrite V, Vp, Vq. apply close_step; [lia | lra | apply close_first | apply rnd_err].
        - apply fma_finite in F' as (P1 & P2 & Fq & V). apply mult_finite in Fq as (Q1 & Q2 & Vq).
          split; [apply S; split; assumption|]. rewrite V, Vq, Rplus_comm, (Rplus_comm (prod p)), (Rplus_comm (Rabs (prod p))).
          apply close_step; [lia | lra | apply close_first | apply exact_ok].
        - apply fma_finite in F' as (Q1 & Q2 & Fp & V). apply mult_finite in Fp as (P1 & P2 & Vp).
          split; [apply S; split; assumption|]. rewrite V, Vp, Rplus_comm. apply close_step; [lia | lra | apply close_first | apply exact_ok]. }
      destruct D as [D1 D2].
      destruct (add_rest_close k l 1 2 _ (prod p + prod q) (Rabs (prod p) + Rabs (prod q)) ltac:(lia) (Rabs_triang _ _) D2 F) as [A B].
      split.
      + intros x [<- | [<- | Hx]]; [apply D1; left; reflexivity | apply D1; right; left; reflexivity | exact (A x Hx)].
      + cbn [List.length map real_dot real_mag fold_right fst snd]. fold (real_dot (map val l)). fold (real_mag (map val l)).
        rewrite <- !Rplus_assoc. exact B.
  Qed.

  (* ---------------------------------------------------------------- when there is no overflow *)

  Lemma close_bound j e m b : Rabs e <= m -> G ^ j * (m + 2 * INR j * h) < b -> forall a, close j a e m -> Rabs a < b.
  Proof using. intros He Hb a Hc. pose proof (close_mag j a e m He Hc). nra. Qed.
  Lemma prod_small x (b : R) : G ^ 1 * (Rabs x + 2 * INR 1 * h) < b -> Rabs (rnd x) < b.
  Proof using prec_gt_0_. intros H. pose proof (close_bound 1 x (Rabs x) b (Rle_refl _) H (rnd x) (close_first x)). assumption. Qed.
  Lemma bound_mono i j m m' b : (i <= j)%nat -> 0 <= m -> m <= m' -> G ^ j * (m' + 2 * INR j * h) < b -> G ^ i * (m + 2 * INR i * h) < b.
  Proof using.
    intros Hij P Hm Hb. apply Rle_lt_trans with (2 := Hb). pose proof (G_pow_le i j Hij). pose proof (G_pow i). pose proof h_pos.
    assert (INR i <= INR j) by (apply le_INR; exact Hij). pose proof (pos_INR i). apply Rmult_le_compat; nra.
  Qed.
  Lemma add_next_finite k j (acc : float) q e m M : (1 <= j)%nat -> Rabs e <= m -> close j (B2R acc) e m -> is_finite acc = true ->
    is_finite (fst q) = true -> is_finite (snd q) = true -> m + Rabs (prod q) <= M -> G ^ S j * (M + 2 * INR (S j) * h) < bpow radix2 emax ->
    is_finite (add_next prec emax _ _ k acc q) = true.
  Proof using.
    intros Hj He Hc Fa F1 F2 HM Hb. pose proof (Rabs_pos (prod q)) as X. pose proof (Rabs_pos e) as Y.
    assert (Fp : is_finite (Bmult mode_NE (fst q) (snd q)) = true /\ B2R (Bmult mode_NE (fst q) (snd q)) = rnd (prod q)).
    { apply mult_ok; [assumption|assumption|]. apply prod_small. apply (bound_mono 1 (S j) _ M); [lia | exact X | lra | exact Hb]. }
    assert (He' : Rabs (e + prod q) <= m + Rabs (prod q)) by (apply Rle_trans with (1 := Rabs_triang _ _); lra).
    assert (Hb' : G ^ S j * ((m + Rabs (prod q)) + 2 * INR (S j) * h) < bpow radix2 emax).
    { apply (bound_mono (S j) (S j) _ M); [lia | lra | exact HM | exact Hb]. }
    destruct k; cbn [add_next].
    1, 2: apply plus_ok; [exact Fa | apply Fp|]; rewrite (proj2 Fp);
          apply (close_bound (S j) (e + prod q) _ _ He' Hb'); apply close_step; [exact Hj | exact He | exact Hc | apply rnd_err].
    apply fma_ok; [assumption|assumption|exact Fa|]. rewrite Rplus_comm.
    apply (close_bound (S j) (e + prod q) _ _ He' Hb'). apply close_step; [exact Hj | exact He | exact Hc | apply exact_ok].
  Qed.
  Lemma add_rest_ok k l : forall i j acc e m, (1 <= j)%nat -> Rabs e <= m -> close j (B2R acc) e m -> is_finite acc = true -> all_finite l ->
    G ^ (j + List.length l) * (m + real_mag (map val l) + 2 * INR (j + List.length l) * h) < bpow radix2 emax ->
    is_finite (add_rest prec emax _ _ k i acc l) = true.
  Proof using.
    induction l as [|q l IH]; intros i j acc e m Hj He Hc Fa Fl Hb; cbn [add_rest]; [exact Fa|].
    cbn [map real_mag fold_right List.length fst snd] in Hb. fold (real_mag (map val l)) in Hb.
    destruct (Fl q (or_introl eq_refl)) as [F1 F2]. pose proof (real_mag_pos (map val l)) as P. pose proof (Rabs_pos (prod q)) as X.
    pose proof (Rabs_pos e) as Y.
    assert (F' : is_finite (add_next prec emax _ _ (k i) acc q) = true).
    { apply (add_next_finite (k i) j acc q e m (m + Rabs (prod q)) Hj He Hc Fa F1 F2 (Rle_refl _)).
      apply (bound_mono (S j) (j + S (List.length l)) _ (m + (Rabs (prod q) + real_mag (map val l)))); [lia | lra | lra | exact Hb]. }
    destruct (add_next_close (k i) j acc q e m Hj He Hc F') as (_ & _ & _ & Hc').
    apply (IH (S i) (S j) _ (e + prod q) (m + Rabs (prod q))); [lia | | exact Hc' | exact F' | intros p Hp; apply Fl; right; exact Hp |].
    - apply Rle_trans with (1 := Rabs_triang _ _). lra.
    - rewrite Nat.add_succ_r in Hb. cbn [Nat.add]. rewrite (Rplus_assoc m). exact Hb.
  Qed.
  Theorem accumulate_ok k l : all_finite l -> G ^ (List.length l) * (real_mag (map val l) + 2 * INR (List.length l) * h) < bpow radix2 emax ->
    is_finite (accumulate prec emax _ _ k l) = true.
  Proof using.
    destruct l as [|p [|q l]]; intros Fl Hb; cbn [accumulate]; [reflexivity| |].
    - destruct (Fl p (or_introl eq_refl)) as [F1 F2]. apply mult_ok; [assumption|assumption|]. apply prod_small.
      cbn [map real_mag fold_right List.length fst snd] in Hb. rewrite Rplus_0_r in Hb. exact Hb.
    - destruct (Fl p (or_introl eq_refl)) as [P1 P2]. destruct (Fl q (or_intror (or_introl eq_refl))) as [Q1 Q2].
      cbn [map real_mag fold_right fst snd] in Hb. fold (real_mag (map val l)) in Hb. rewrite <- Rplus_assoc in Hb.
      change (List.length (p :: q :: l)) with (2 + List.length l)%nat in Hb.
      pose proof (real_mag_pos (map val l)) as P. pose proof (Rabs_pos (prod p)) as X. pose proof (Rabs_pos (prod q)) as Y.
      assert (Fp : is_finite (Bmult mode_NE (fst p) (snd p)) = true /\ B2R (Bmult mode_NE (fst p) (snd p)) = rnd (prod p)).
      { apply mult_ok; [assumption|assumption|]. apply prod_small.
        apply (bound_mono 1 (2 + List.length l) _ (Rabs (prod p) + Rabs (prod q) + real_mag (map val l))); [lia | exact X | lra | exact Hb]. }
      assert (Fq : is_finite (Bmult mode_NE (fst q) (snd q)) = true /\ B2R (Bmult mode_NE (fst q) (snd q)) = rnd (prod q)).
      { apply mult_ok; [assumption|assumption|]. apply prod_small.
        apply (bound_mono 1 (2 + List.length l) _ (Rabs (prod p) + Rabs (prod q) + real_mag (map val l))); [lia | exact Y | lra | exact Hb]. }
      assert (Hb2 : G ^ 2 * (Rabs (prod p) + Rabs (prod q) + 2 * INR 2 * h) < bpow radix2 emax).
      { apply (bound_mono 2 (2 + List.length l) _ (Rabs (prod p) + Rabs (prod q) + real_mag (map val l))); [lia | lra | lra | exact Hb]. }
      assert (D : is_finite (add_first prec emax _ _ (k O) p q) = true /\
                  close 2 (B2R (add_first prec emax _ _ (k O) p q)) (prod p + prod q) (Rabs (prod p) + Rabs (prod q))).
      { destruct (k O); cbn [add_first].
        - assert (C : close 2 (rnd (rnd (prod p) + rnd (prod q))) (prod p + prod q) (Rabs (prod p) + Rabs (prod q)))
            by (apply close_step; [lia | lra | apply close_first | apply rnd_err]).
          destruct (plus_ok (Bmult mode_NE (fst p) (snd p)) (Bmult mode_NE (fst q) (snd q)) (proj1 Fp) (proj1 Fq)) as [F V].
          { rewrite (proj2 Fp), (proj2 Fq). exact (close_bound 2 _ _ _ (Rabs_triang _ _) Hb2 _ C). }
          split; [exact F|]. rewrite V, (proj2 Fp), (proj2 Fq). exact C.
        - assert (C : close 2 (rnd (prod p + rnd (prod q))) (prod p + prod q) (Rabs (prod p) + Rabs (prod q))).
          { rewrite (Rplus_comm (prod p) (rnd _)), (Rplus_comm (prod p) (prod q)), (Rplus_comm (Rabs (prod p))).
            apply close_step; [lia | lra | apply close_first | apply exact_ok]. }
          destruct (fma_ok (fst p) (snd p) (Bmult mode_NE (fst q) (snd q)) P1 P2 (proj1 Fq)) as [F V].
          { rewrite (proj2 Fq). exact (close_bound 2 _ _ _ (Rabs_triang _ _) Hb2 _ C). }
          split; [exact F|]. rewrite V, (proj2 Fq). exact C.
        - assert (C : close 2 (rnd (prod q + rnd (prod p))) (prod p + prod q) (Rabs (prod p) + Rabs (prod q))).
          { rewrite (Rplus_comm (prod q) (rnd _)). apply close_step; [lia | lra | apply close_first | apply exact_ok]. }
          destruct (fma_ok (fst q) (snd q) (Bmult mode_NE (fst p) (snd p)) Q1 Q2 (proj1 Fp)) as [F V].
          { rewrite (proj2 Fp). exact (close_bound 2 _ _ _ (Rabs_triang _ _) Hb2 _ C). }
          split; [exact F|]. rewrite V, (proj2 Fp). exact C. }
      apply (add_rest_ok k l 1 2 _ (prod p + prod q) (Rabs (prod p) + Rabs (prod q))); [lia | apply Rabs_triang | apply D | apply D | | exact Hb].
      intros x Hx. apply Fl. right. right. exact Hx.
  Qed.
End VfltProofs.
