(** Error bounds of the Taylor sums: for arguments up to pi/4, and just above two pi. *)
From Coq Require Import ZArith Bool List Reals Lra Lia Psatz.
From Flocq Require Import Core BinarySingleNaN Relative Plus_error.
From Verif Require Import FpModel FpProofs FpProofs2 TrigModel TrigProofs TrigProofs2 TrigProofs3.
Local Open Scope R_scope.

Fixpoint prod (a : Z) (k : nat) : Z := match k with O => 1%Z | S k => (prod a k * ((2 * Z.of_nat k + a) * (2 * Z.of_nat k + a + 1)))%Z end.
Lemma A_prod a x sg k : (1 <= a)%Z -> A a x sg k * IZR (prod a k) = Rabs sg * (x * x) ^ k.
Proof.
  intros Ha. induction k as [|k IH]; [cbn; unfold A; cbn; lra|]. rewrite A_S by exact Ha. cbn [prod pow]. rewrite mult_IZR.
  fold (d a k). pose proof (d_pos a Ha k). unfold q. replace (A a x sg k * (x * x / d a k) * (IZR (prod a k) * d a k)) with (A a x sg k * IZR (prod a k) * (x * x)) by (field; lra).
  rewrite IH. ring.
Qed.
Lemma A_small a x sg k m b u : (1 <= a)%Z -> (0 <= m)%Z -> x * x <= IZR m -> (0 <= b)%Z -> bpow radix2 (- b) <= u -> (m ^ Z.of_nat k * 2 ^ b * 1000 <= prod a k)%Z -> A a x sg k <= u / 1000 * Rabs sg.
Proof.
  intros Ha Hm Hx Hb U H. apply IZR_le in H. rewrite !mult_IZR in H. rewrite <- pow_IZR in H.
  assert (Pb : IZR (2 ^ b) = bpow radix2 b) by (rewrite <- (IZR_Zpower radix2) by exact Hb; reflexivity). rewrite Pb in H.
  pose proof (A_prod a x sg k Ha) as E. pose proof (Rabs_pos sg) as s0. pose proof (A_nonneg a x sg k) as A0.
  pose proof (Rle_0_sqr x) as S. unfold Rsqr in S. pose proof (pow_incr (x * x) (IZR m) k (conj S Hx)) as I.
  pose proof (bpow_gt_0 radix2 b) as B0. assert (m0 : 0 <= IZR m ^ k) by (apply pow_le; now apply (IZR_le 0)).
  assert (E1 : A a x sg k * (bpow radix2 b * 1000) <= Rabs sg).
  { destruct (Req_dec (IZR m ^ k) 0) as [Z0|Nz].
    - assert (0 <= (x * x) ^ k) by now apply pow_le. assert (K0 : (x * x) ^ k = 0) by lra. rewrite K0, Rmult_0_r in E.
      assert (P1 : 0 < IZR (prod a k)). { clear - Ha. induction k as [|k IH]; [cbn; lra|]. cbn [prod]. rewrite mult_IZR. apply Rmult_lt_0_compat; [exact IH|]. apply IZR_lt. nia. }
      apply Rmult_integral in E. destruct E as [->|E]; [rewrite Rmult_0_l; exact s0|lra].
    - assert (mp : 0 < IZR m ^ k) by lra. apply Rmult_le_reg_l with (1 := mp).
      apply Rle_trans with (A a x sg k * IZR (prod a k)).
      + replace (IZR m ^ k * (A a x sg k * (bpow radix2 b * 1000))) with (A a x sg k * (IZR m ^ k * bpow radix2 b * 1000)) by ring. apply Rmult_le_compat_l; assumption.
      + rewrite E, Rmult_comm. apply Rmult_le_compat_r; assumption. }
  assert (Bi : bpow radix2 b * bpow radix2 (- b) = 1) by (rewrite <- bpow_plus; replace (b + - b)%Z with 0%Z by lia; reflexivity).
  apply Rle_trans with (bpow radix2 (- b) / 1000 * Rabs sg).
  - replace (A a x sg k) with (A a x sg k * (bpow radix2 b * bpow radix2 (- b))) by (rewrite Bi; ring).
    replace (A a x sg k * (bpow radix2 b * bpow radix2 (- b))) with (bpow radix2 (- b) / 1000 * (A a x sg k * (bpow radix2 b * 1000))) by field.
    apply Rmult_le_compat_l; [|exact E1]. pose proof (bpow_ge_0 radix2 (- b)). lra.
  - apply Rmult_le_compat_r; [exact s0|]. lra.
Qed.

(** The weights: near zero ... *)
Definition p_near (k : nat) : R := / 2.
Definition r_near (k : nat) : R := (INR k + 1.5) / 2.
Lemma d_low a k : (1 <= a <= 2)%Z -> d a k >= 2 /\ (1 <= INR k -> d a k >= 12).
Proof.
  intros Ha. split; [pose proof (d_pos a ltac:(lia) k); lra|]. intros H. apply Rle_ge. unfold d. apply IZR_le.
  assert (1 <= k)%nat by (apply INR_le; cbn; exact H). nia.
Qed.
Lemma near_q a x k : (1 <= a <= 2)%Z -> x * x <= 2 / 3 -> 0 <= q a x k <= / 3.
Proof.
  intros Ha Hx. split; [apply q_nonneg; lia|]. unfold q. pose proof (d_pos a ltac:(lia) k). pose proof (Rle_0_sqr x) as S. unfold Rsqr in S.
  replace (/ 3) with (2 / 3 * / 2) by lra. assert (0 < / d a k <= / 2) by (split; [apply Rinv_0_lt_compat; lra|apply Rinv_le; lra]).
  apply Rmult_le_compat; lra.
Qed.
Lemma near_p a x k : (1 <= a <= 2)%Z -> x * x <= 2 / 3 -> q a x k * (1 + p_near (S k)) <= p_near k.
Proof. intros Ha Hx. pose proof (near_q a x k Ha Hx). unfold p_near. lra. Qed.
Lemma near_r a x k : (1 <= a <= 2)%Z -> x * x <= 2 / 3 -> q a x k * (INR (S k) + r_near (S k)) <= r_near k.
Proof.
  intros Ha Hx. pose proof (near_q a x k Ha Hx). unfold r_near. rewrite S_INR. pose proof (pos_INR k).
  apply Rle_trans with (/ 3 * (INR k + 1 + (INR k + 1 + 1.5) / 2)); [apply Rmult_le_compat_r; lra|]. lra.
Qed.
(** ... and just above two pi. *)
Definition p_cos (k : nat) : R := match k with 0%nat => 304 | 1%nat => 14.3 | 2%nat => 3.3 | 3%nat => 1.45 | _ => 1 end.
Definition r_cos (k : nat) : R := match k with 0%nat => 1152 | 1%nat => 57 | 2%nat => 15 | 3%nat => 8 | _ => INR k + 3 end.
Definition p_sin (k : nat) : R := match k with 0%nat => 48 | 1%nat => 6.2 | 2%nat => 2.1 | 3%nat => 1.2 | _ => 1 end.
Definition r_sin (k : nat) : R := match k with 0%nat => 148 | 1%nat => 21.3 | 2%nat => 8.7 | 3%nat => 6.1 | _ => INR k + 3 end.

Lemma far_q a x k n : (1 <= a <= 2)%Z -> 38.44 <= x * x <= 39.69 -> IZR n = d a k -> q a x k * IZR n <= 39.69 /\ 38.44 <= q a x k * IZR n.
Proof. intros Ha Hx E. rewrite E. pose proof (d_pos a ltac:(lia) k). unfold q. replace (x * x / d a k * d a k) with (x * x) by (field; lra). lra. Qed.
Lemma far_q_late a x k : (1 <= a <= 2)%Z -> 38.44 <= x * x <= 39.69 -> (4 <= k)%nat -> 0 <= q a x k <= 0.45.
Proof.
  intros Ha Hx K. split; [apply q_nonneg; lia|]. pose proof (d_pos a ltac:(lia) k) as P. assert (90 <= d a k) by (unfold d; apply IZR_le; nia).
  unfold q. assert (0 < / d a k <= / 90) by (split; [apply Rinv_0_lt_compat; lra|apply Rinv_le; lra]).
  apply Rle_trans with (39.69 * / 90); [|lra]. apply Rmult_le_compat; lra.
Qed.
Lemma cos_far_p : forall x k, 38.44 <= x * x <= 39.69 -> q 1 x k * (1 + p_cos (S k)) <= p_cos k.
Proof.
  intros x k Hx. destruct k as [|[|[|[|k]]]]; [..|pose proof (far_q_late 1 x (S (S (S (S k)))) ltac:(lia) Hx ltac:(lia)); cbn [p_cos]; lra]; cbn [p_cos].
  - pose proof (far_q 1 x 0 2 ltac:(lia) Hx eq_refl). lra.
  - pose proof (far_q 1 x 1 12 ltac:(lia) Hx eq_refl). lra.
  - pose proof (far_q 1 x 2 30 ltac:(lia) Hx eq_refl). lra.
  - pose proof (far_q 1 x 3 56 ltac:(lia) Hx eq_refl). lra.
Qed.
Lemma sin_far_p : forall x k, 38.44 <= x * x <= 39.69 -> q 2 x k * (1 + p_sin (S k)) <= p_sin k.
Proof.
  intros x k Hx. destruct k as [|[|[|[|k]]]]; [..|pose proof (far_q_late 2 x (S (S (S (S k)))) ltac:(lia) Hx ltac:(lia)); cbn [p_sin]; lra]; cbn [p_sin].
  - pose proof (far_q 2 x 0 6 ltac:(lia) Hx eq_refl). lra.
  - pose proof (far_q 2 x 1 20 ltac:(lia) Hx eq_refl). lra.
  - pose proof (far_q 2 x 2 42 ltac:(lia) Hx eq_refl). lra.
  - pose proof (far_q 2 x 3 72 ltac:(lia) Hx eq_refl). lra.
Qed.
Lemma cos_far_r : forall x k, 38.44 <= x * x <= 39.69 -> q 1 x k * (INR (S k) + r_cos (S k)) <= r_cos k.
Proof.
  intros x k Hx. destruct k as [|[|[|[|k]]]].
  5:{ pose proof (far_q_late 1 x (S (S (S (S k)))) ltac:(lia) Hx ltac:(lia)) as Q. set (j := S (S (S (S k)))) in *. unfold r_cos. change (INR (S j)) with (INR (S j)).
    assert (E : INR (S j) + (INR (S j) + 3) = 2 * INR j + 5) by (rewrite S_INR; ring).
    assert (J : 4 <= INR j) by (replace 4 with (INR 4) by (rewrite INR_IZR_INZ; reflexivity); apply le_INR; unfold j; lia).
    apply Rle_trans with (q 1 x j * (2 * INR j + 5)); [right; f_equal; exact E|]. apply Rle_trans with (0.45 * (2 * INR j + 5)); [apply Rmult_le_compat_r; lra|]. change (0.45 * (2 * INR j + 5) <= INR j + 3). lra. }
  - pose proof (far_q 1 x 0 2 ltac:(lia) Hx eq_refl). cbn. lra.
  - pose proof (far_q 1 x 1 12 ltac:(lia) Hx eq_refl). cbn. lra.
  - pose proof (far_q 1 x 2 30 ltac:(lia) Hx eq_refl). cbn. lra.
  - pose proof (far_q 1 x 3 56 ltac:(lia) Hx eq_refl). cbn. lra.
Qed.
Lemma sin_far_r : forall x k, 38.44 <= x * x <= 39.69 -> q 2 x k * (INR (S k) + r_sin (S k)) <= r_sin k.
Proof.
  intros x k Hx. destruct k as [|[|[|[|k]]]].
  5:{ pose proof (far_q_late 2 x (S (S (S (S k)))) ltac:(lia) Hx ltac:(lia)) as Q. set (j := S (S (S (S k)))) in *. unfold r_sin. change (INR (S j)) with (INR (S j)).
    assert (E : INR (S j) + (INR (S j) + 3) = 2 * INR j + 5) by (rewrite S_INR; ring).
    assert (J : 4 <= INR j) by (replace 4 with (INR 4) by (rewrite INR_IZR_INZ; reflexivity); apply le_INR; unfold j; lia).
    apply Rle_trans with (q 2 x j * (2 * INR j + 5)); [right; f_equal; exact E|]. apply Rle_trans with (0.45 * (2 * INR j + 5)); [apply Rmult_le_compat_r; lra|]. change (0.45 * (2 * INR j + 5) <= INR j + 3). lra. }
  - pose proof (far_q 2 x 0 6 ltac:(lia) Hx eq_refl). cbn. lra.
  - pose proof (far_q 2 x 1 20 ltac:(lia) Hx eq_refl). cbn. lra.
  - pose proof (far_q 2 x 2 42 ltac:(lia) Hx eq_refl). cbn. lra.
  - pose proof (far_q 2 x 3 72 ltac:(lia) Hx eq_refl). cbn. lra.
Qed.
(** The first terms are large there. *)
Lemma far_A a x sg k : (1 <= a <= 2)%Z -> 38.44 <= x * x <= 39.69 -> 1 <= Rabs sg <= 7 -> (a = 1%Z \/ 6 <= Rabs sg) -> (k < 4)%nat -> 1 <= A a x sg k.
Proof.
  intros Ha Hx Hs Hv K. assert (E : (a = 1 \/ a = 2)%Z) by lia.
  assert (A0 : A a x sg 0 = Rabs sg) by reflexivity.
  assert (M : forall (s v b : R), s <= v -> 0 <= s -> 0 <= b -> s * b <= v * b) by (intros; apply Rmult_le_compat_r; assumption).
  destruct E as [-> | ->].
  - pose proof (far_q 1 x 0 2 ltac:(lia) Hx eq_refl). pose proof (far_q 1 x 1 12 ltac:(lia) Hx eq_refl). pose proof (far_q 1 x 2 30 ltac:(lia) Hx eq_refl).
    pose proof (A_S 1 ltac:(lia) x sg 0) as A1. pose proof (A_S 1 ltac:(lia) x sg 1) as A2. pose proof (A_S 1 ltac:(lia) x sg 2) as A3. rewrite A0 in A1.
    pose proof (M 1 (Rabs sg) (q 1 x 0) ltac:(lra) ltac:(lra) ltac:(lra)).
    pose proof (M 1 (A 1 x sg 1) (q 1 x 1) ltac:(lra) ltac:(lra) ltac:(lra)).
    pose proof (M 1 (A 1 x sg 2) (q 1 x 2) ltac:(lra) ltac:(lra) ltac:(lra)).
    do 4 (destruct k as [|k]; [lra|]). lia.
  - destruct Hv as [?|Hv]; [lia|]. pose proof (far_q 2 x 0 6 ltac:(lia) Hx eq_refl). pose proof (far_q 2 x 1 20 ltac:(lia) Hx eq_refl). pose proof (far_q 2 x 2 42 ltac:(lia) Hx eq_refl).
    pose proof (A_S 2 ltac:(lia) x sg 0) as A1. pose proof (A_S 2 ltac:(lia) x sg 1) as A2. pose proof (A_S 2 ltac:(lia) x sg 2) as A3. rewrite A0 in A1.
    pose proof (M 6 (Rabs sg) (q 2 x 0) ltac:(lra) ltac:(lra) ltac:(lra)).
    pose proof (M 36 (A 2 x sg 1) (q 2 x 1) ltac:(lra) ltac:(lra) ltac:(lra)).
    pose proof (M 36 (A 2 x sg 2) (q 2 x 2) ltac:(lra) ltac:(lra) ltac:(lra)).
    do 4 (destruct k as [|k]; [lra|]). lia.
Qed.

Section Bounds.
  Variable prec emax : Z.
  Context (prec_gt_0_ : Prec_gt_0 prec).
  Context (prec_lt_emax_ : Prec_lt_emax prec emax).
  Notation float := (binary_float prec emax).
  Notation emin := (3 - emax - prec)%Z.
  Notation fexp := (FLT_exp emin prec).
  Notation rnd := (round radix2 fexp ZnearestE).
  Notation u := (bpow radix2 (- prec)).
  Notation of_Z := (of_Z prec emax _ _).
  Hypothesis prec_ok : (53 <= prec <= 113)%Z.
  Hypothesis emax_ok : (1024 <= emax)%Z.
  Variable x : float.
  Hypothesis x_fin : is_finite x = true.
  Notation X := (B2R x).
  Let U := u_range prec prec_ok.
  Lemma u_low : bpow radix2 (- (113)) <= u. Proof using prec_ok. apply bpow_le. lia. Qed.
  Lemma ww_u : ww <= u / 10000 * bpow radix2 (-400).
  Proof using prec_ok.
    unfold ww. apply Rle_trans with (bpow radix2 (- prec) * bpow radix2 (-20) * bpow radix2 (-400)); [rewrite <- !bpow_plus; apply bpow_le; lia|].
    apply Rmult_le_compat_r; [apply bpow_ge_0|]. apply Rmult_le_compat_l; [apply bpow_ge_0|]. cbn. lra.
  Qed.

  Lemma cos_near : X * X <= 2 / 3 -> let v := cos_taylor prec emax _ _ x in is_finite v = true /\ Rabs (B2R v - cos X) <= 34 * u.
  Proof using prec_ok emax_ok x_fin U.
    intros H. pose proof (u_tiny prec prec_ok) as Ut. pose proof (u_pos prec) as U0. pose proof ww_u as Wu. assert (W0 : 0 <= ww) by apply bpow_ge_0.
    assert (B1 : bpow radix2 (-400) <= 1) by (change 1 with (bpow radix2 0); apply bpow_le; lia).
    assert (W1 : ww <= u / 10000) by (apply Rle_trans with (1 := Wu); rewrite <- (Rmult_1_r (u / 10000)) at 2; apply Rmult_le_compat_l; lra).
    assert (Tt : tot 1 p_near = 1.5) by (unfold tot, p_near; rewrite Rabs_R1; lra).
    destruct (cos_taylor_run prec emax _ _ prec_ok emax_ok x x_fin ltac:(lra) p_near ltac:(intros; unfold p_near; lra) (fun k => near_p 1 X k ltac:(lia) H) ltac:(lra)) as (F & t & s & Ht & Hs & R).
    cbv zeta. split; [exact F|].
    eapply Rle_trans; [apply (run_result 1 ltac:(lia) X 1 p_near r_near ltac:(intros; unfold p_near; lra) ltac:(intros k; unfold r_near; pose proof (pos_INR k); lra)
      (fun k => near_p 1 X k ltac:(lia) H) (fun k => near_r 1 X k ltac:(lia) H) u (zz prec emax) ww U (zz_nonneg prec emax) 99 ltac:(lia)) with (J := 18%nat) (k := 1%nat) (t := t) (s := s)|].
    - intros k. apply q_bound; [|lia]. lra.
    - exact (ww_ok prec emax prec_ok emax_ok).
    - intros k. left. unfold p_near. lra.
    - rewrite Tt. lra.
    - lra.
    - lia.
    - left. rewrite Tt, Rabs_R1. split; [lia|]. split; [|split; [unfold p_near; lra|split; lra]].
      pose proof (A_small 1 X 1 18 1 113 u ltac:(lia) ltac:(lia) ltac:(lra) ltac:(lia) u_low ltac:(vm_compute; discriminate)) as Q. rewrite Rabs_R1 in Q. lra.
    - exact R.
    - lia.
    - exact Ht.
    - exact Hs.
    - apply cos_series.
    - rewrite Tt, Rabs_R1. unfold r_near. replace (INR 18) with 18 by (rewrite INR_IZR_INZ; reflexivity). change (INR 0) with 0. lra.
  Qed.

  Lemma sin_near_big : X * X <= 2 / 3 -> bpow radix2 (-400) <= Rabs X -> let v := sin_taylor prec emax _ _ x in is_finite v = true /\ Rabs (B2R v - sin X) <= 34 * u * Rabs X.
  Proof using prec_ok emax_ok x_fin U.
    intros H L. pose proof (u_tiny prec prec_ok) as Ut. pose proof (u_pos prec) as U0. pose proof ww_u as Wu. assert (W0 : 0 <= ww) by apply bpow_ge_0.
    assert (W1 : ww <= u / 10000 * Rabs X) by (apply Rle_trans with (1 := Wu); apply Rmult_le_compat_l; lra).
    assert (X1 : Rabs X <= 1). { apply Rabs_le. nra. } pose proof (Rabs_pos X) as X0.
    assert (W2 : u * Rabs X <= / 1000000000000000 * Rabs X) by (apply Rmult_le_compat_r; lra).
    assert (Tt : tot X p_near = 1.5 * Rabs X) by (unfold tot, p_near; lra).
    destruct (sin_taylor_run prec emax _ _ prec_ok emax_ok x x_fin ltac:(lra) p_near ltac:(intros; unfold p_near; lra) (fun k => near_p 2 X k ltac:(lia) H) ltac:(lra)) as (F & t & s & Ht & Hs & R).
    cbv zeta. split; [exact F|].
    eapply Rle_trans; [apply (run_result 2 ltac:(lia) X X p_near r_near ltac:(intros; unfold p_near; lra) ltac:(intros k; unfold r_near; pose proof (pos_INR k); lra)
      (fun k => near_p 2 X k ltac:(lia) H) (fun k => near_r 2 X k ltac:(lia) H) u (zz prec emax) ww U (zz_nonneg prec emax) 99 ltac:(lia)) with (J := 18%nat) (k := 0%nat) (t := t) (s := s)|].
    - intros k. apply q_bound; [|lia]. lra.
    - exact (ww_ok prec emax prec_ok emax_ok).
    - intros k. left. unfold p_near. lra.
    - rewrite Tt. lra.
    - lra.
    - lia.
    - left. rewrite Tt. split; [lia|]. split; [|split; [unfold p_near; lra|split; lra]].
      pose proof (A_small 2 X X 18 1 113 u ltac:(lia) ltac:(lia) ltac:(lra) ltac:(lia) u_low ltac:(vm_compute; discriminate)) as Q.
      assert (0 <= u * Rabs X) by (apply Rmult_le_pos; lra). lra.
    - exact R.
    - lia.
    - exact Ht.
    - exact Hs.
    - apply sin_series.
    - rewrite Tt. unfold r_near. replace (INR 18) with 18 by (rewrite INR_IZR_INZ; reflexivity). change (INR 0) with 0. lra.
  Qed.

  (** Tiny arguments come back unchanged. *)
  Lemma rnd_twice v : Rabs (rnd v) <= 2 * Rabs v.
  Proof using prec_gt_0_.
    destruct (round_N_pt radix2 fexp (fun z => negb (Z.even z)) v) as [_ H]. specialize (H 0 (generic_format_0 _ _)).
    change (Znearest (fun z => negb (Z.even z))) with ZnearestE in H. replace (0 - v) with (- v) in H by ring. rewrite Rabs_Ropp in H.
    replace (rnd v) with (v + (rnd v - v)) by ring. apply Rle_trans with (1 := Rabs_triang _ _). lra.
  Qed.
  Lemma sin_near_tiny : Rabs X <= bpow radix2 (-400) -> let v := sin_taylor prec emax _ _ x in is_finite v = true /\ B2R v = X.
  Proof using prec_ok emax_ok x_fin.
    intros L. pose proof (Rabs_pos X) as X0. pose proof (u_pos prec) as U0.
    assert (L2 : Rabs X <= / 1000). { apply Rle_trans with (1 := L). apply Rle_trans with (bpow radix2 (-10)); [apply bpow_le; lia|cbn; lra]. }
    assert (L3 : Rabs X * Rabs X <= / 10 * u).
    { apply Rle_trans with (bpow radix2 (-400) * bpow radix2 (-400)); [apply Rmult_le_compat; assumption|].
      apply Rle_trans with (bpow radix2 (-4) * u); [rewrite <- !bpow_plus; apply bpow_le; lia|]. apply Rmult_le_compat_r; [lra|cbn; lra]. }
    assert (big : forall v, Rabs v <= 1 -> Rabs v <= bpow radix2 100). { intros v Hv. apply Rle_trans with (1 := Hv). change 1 with (bpow radix2 0). apply bpow_le. lia. }
    assert (M1 : Rabs X * Rabs X <= / 1000 * Rabs X) by (apply Rmult_le_compat_r; assumption).
    destruct (mult_ok prec emax _ _ prec_ok emax_ok (Bopp x) x (opp_fin prec emax x x_fin) x_fin) as [F1 V1].
    { apply big. rewrite B2R_Bopp, Rabs_mult, Rabs_Ropp. lra. }
    pose proof (rnd_twice (B2R (Bopp x) * X)) as R1. rewrite <- V1, B2R_Bopp, Rabs_mult, Rabs_Ropp in R1. set (v1 := Bmult mode_NE (Bopp x) x) in *.
    pose proof (Rabs_pos (B2R v1)) as P1.
    assert (M2 : Rabs (B2R v1) * Rabs X <= 2 * (Rabs X * Rabs X) * Rabs X) by (apply Rmult_le_compat_r; assumption).
    assert (M3 : (Rabs X * Rabs X) * Rabs X <= / 10 * u * Rabs X) by (apply Rmult_le_compat_r; assumption).
    pose proof (u_tiny prec prec_ok) as Ut. assert (M4 : u * Rabs X <= 1 * Rabs X) by (apply Rmult_le_compat_r; lra).
    destruct (mult_ok prec emax _ _ prec_ok emax_ok v1 x F1 x_fin) as [F2 V2]; [apply big; rewrite Rabs_mult; lra|].
    pose proof (rnd_twice (B2R v1 * X)) as R2. rewrite <- V2, Rabs_mult in R2. set (v2 := Bmult mode_NE v1 x) in *.
    destruct (sin_den_ok prec emax _ _ prec_ok emax_ok 0 ltac:(lia)) as [F3 V3]. change (2 * 0 + 3)%Z with 3%Z in *. set (D := Bmult mode_NE (of_Z 3) _) in *.
    assert (V6 : B2R D = 6) by exact V3.
    destruct (div_ok prec emax _ _ prec_ok emax_ok v2 D F2 ltac:(lra)) as [F4 V4].
    { apply big. rewrite V6. unfold Rdiv. rewrite Rabs_mult, (Rabs_pos_eq (/ 6)) by lra. lra. }
    pose proof (rnd_twice (B2R v2 / B2R D)) as R4. rewrite <- V4, V6 in R4. unfold Rdiv in R4 at 1. rewrite Rabs_mult, (Rabs_pos_eq (/ 6)) in R4 by lra. set (t := Bdiv mode_NE v2 D) in *.
    assert (M5 : 0 <= u * Rabs X) by (apply Rmult_le_pos; lra). assert (T1 : Rabs (B2R t) <= u / 5 * Rabs X) by lra.
    destruct (plus_ok prec emax _ _ prec_ok emax_ok x t x_fin F4) as [F5 V5].
    { apply big. apply Rle_trans with (1 := Rabs_triang _ _). lra. }
    rewrite (absorb prec emax _ prec_ok emax_ok X (B2R t) (fmt prec emax x) T1) in V5.
    unfold sin_taylor. change 99%nat with (S 98). generalize 98%nat. intros n. cbv zeta. cbn [sin_loop]. fold v1. fold v2. fold D. fold t. cbv zeta.
    rewrite Beqb_correct by assumption. rewrite V5, Req_bool_true by reflexivity. split; [exact F5|exact V5].
  Qed.
  Lemma sin_near : X * X <= 2 / 3 -> let v := sin_taylor prec emax _ _ x in is_finite v = true /\ Rabs (B2R v - sin X) <= 34 * u * Rabs X.
  Proof using prec_ok emax_ok x_fin U.
    intros H. destruct (Rle_lt_dec (bpow radix2 (-400)) (Rabs X)) as [L|L]; [now apply sin_near_big|].
    destruct (sin_near_tiny ltac:(lra)) as [F V]. cbv zeta. split; [exact F|]. rewrite V. rewrite Rabs_minus_sym.
    pose proof (tail 2 ltac:(lia) X X p_near ltac:(intros; unfold p_near; lra) (fun k => near_p 2 X k ltac:(lia) H) (sin X) 0 (sin_series X)) as Q.
    pose proof (tail 2 ltac:(lia) X X p_near ltac:(intros; unfold p_near; lra) (fun k => near_p 2 X k ltac:(lia) H) (sin X) 1 (sin_series X)) as Q1.
    change (Sum 2 X X 0) with X in Q. change (Sum 2 X X 1) with (X + T 2 X X 1) in Q1.
    assert (E1 : A 2 X X 1 <= u * Rabs X).
    { rewrite A_S by lia. change (A 2 X X 0) with (Rabs X). rewrite Rmult_comm. apply Rmult_le_compat_r; [apply Rabs_pos|]. unfold q, d. cbn [Z.of_nat].
      replace (IZR ((2 * 0 + 2) * (2 * 0 + 2 + 1))) with 6 by (cbn; lra).
      assert (X * X <= bpow radix2 (-400) * bpow radix2 (-400)). { rewrite <- (Rabs_pos_eq (X * X)) by (pose proof (Rle_0_sqr X); unfold Rsqr in *; lra). rewrite Rabs_mult. pose proof (Rabs_pos X). apply Rmult_le_compat; lra. }
      rewrite <- bpow_plus in H0. assert (bpow radix2 (-400 + -400) <= u) by (apply bpow_le; lia). pose proof (u_pos prec). lra. }
    replace (sin X - X) with ((sin X - (X + T 2 X X 1)) + T 2 X X 1) by ring. apply Rle_trans with (1 := Rabs_triang _ _). fold (A 2 X X 1). unfold p_near in Q1.
    assert (0 <= u * Rabs X) by (apply Rmult_le_pos; [apply bpow_ge_0|apply Rabs_pos]). lra.
  Qed.

  Lemma far_range : 6.2 <= X <= 6.3 -> 38.44 <= X * X <= 39.69.
  Proof using. intros H. split; nra. Qed.
  Lemma INR_99 : INR 99 = 99. Proof using. rewrite INR_IZR_INZ. reflexivity. Qed.
  Lemma cos_far : 6.2 <= X <= 6.3 -> let v := cos_taylor prec emax _ _ x in is_finite v = true /\ Rabs (B2R v - cos X) <= 36000 * u.
  Proof using prec_ok emax_ok x_fin U.
    intros H6. pose proof (far_range H6) as H. pose proof (u_tiny prec prec_ok) as Ut. pose proof (u_pos prec) as U0. pose proof ww_u as Wu. assert (W0 : 0 <= ww) by apply bpow_ge_0.
    assert (B1 : bpow radix2 (-400) <= 1) by (change 1 with (bpow radix2 0); apply bpow_le; lia).
    assert (W1 : ww <= u / 10000) by (apply Rle_trans with (1 := Wu); rewrite <- (Rmult_1_r (u / 10000)) at 2; apply Rmult_le_compat_l; lra).
    assert (Tt : tot 1 p_cos = 305) by (unfold tot; cbn [p_cos]; rewrite Rabs_R1; lra).
    assert (p0 : forall k, 0 <= p_cos k) by (intros k; do 4 (destruct k as [|k]; [cbn [p_cos]; lra|]); cbn [p_cos]; lra).
    assert (r0 : forall k, 0 <= r_cos k) by (intros k; pose proof (pos_INR k); do 4 (destruct k as [|k]; [cbn [r_cos]; lra|]); cbn [r_cos]; lra).
    destruct (cos_taylor_run prec emax _ _ prec_ok emax_ok x x_fin ltac:(lra) p_cos p0 (fun k => cos_far_p X k H) ltac:(lra)) as (F & t & s & Ht & Hs & R).
    cbv zeta. split; [exact F|].
    eapply Rle_trans; [apply (run_result 1 ltac:(lia) X 1 p_cos r_cos p0 r0
      (fun k => cos_far_p X k H) (fun k => cos_far_r X k H) u (zz prec emax) ww U (zz_nonneg prec emax) 99 ltac:(lia)) with (J := 99%nat) (k := 1%nat) (t := t) (s := s)|].
    - intros k. apply q_bound; [|lia]. lra.
    - exact (ww_ok prec emax prec_ok emax_ok).
    - intros k. destruct (le_lt_dec 4 k) as [K|K]; [left; do 4 (destruct k as [|k]; [lia|]); cbn [p_cos]; lra|right]. apply far_A; [lia|exact H|rewrite Rabs_R1; lra|now left|exact K].
    - rewrite Tt. lra.
    - lra.
    - lia.
    - right. split; [reflexivity|]. rewrite Tt.
      pose proof (A_small 1 X 1 99 40 113 u ltac:(lia) ltac:(lia) ltac:(lra) ltac:(lia) u_low ltac:(vm_compute; discriminate)) as Q. rewrite Rabs_R1 in Q. lra.
    - exact R.
    - lia.
    - exact Ht.
    - exact Hs.
    - apply cos_series.
    - rewrite Tt, Rabs_R1, INR_99. cbn [r_cos]. lra.
  Qed.
  Lemma sin_far : 6.2 <= X <= 6.3 -> let v := sin_taylor prec emax _ _ x in is_finite v = true /\ Rabs (B2R v - sin X) <= 36000 * u.
  Proof using prec_ok emax_ok x_fin U.
    intros H6. pose proof (far_range H6) as H. pose proof (u_tiny prec prec_ok) as Ut. pose proof (u_pos prec) as U0. pose proof ww_u as Wu. assert (W0 : 0 <= ww) by apply bpow_ge_0.
    assert (B1 : bpow radix2 (-400) <= 1) by (change 1 with (bpow radix2 0); apply bpow_le; lia).
    assert (W1 : ww <= u / 10000) by (apply Rle_trans with (1 := Wu); rewrite <- (Rmult_1_r (u / 10000)) at 2; apply Rmult_le_compat_l; lra).
    assert (Xa : Rabs X = X) by (apply Rabs_pos_eq; lra).
    assert (Tt : tot X p_sin = 49 * X) by (unfold tot; cbn [p_sin]; rewrite Xa; lra).
    assert (p0 : forall k, 0 <= p_sin k) by (intros k; do 4 (destruct k as [|k]; [cbn [p_sin]; lra|]); cbn [p_sin]; lra).
    assert (r0 : forall k, 0 <= r_sin k) by (intros k; pose proof (pos_INR k); do 4 (destruct k as [|k]; [cbn [r_sin]; lra|]); cbn [r_sin]; lra).
    assert (uX : 0 <= u * X <= 6.3 * u) by nra.
    destruct (sin_taylor_run prec emax _ _ prec_ok emax_ok x x_fin ltac:(lra) p_sin p0 (fun k => sin_far_p X k H) ltac:(lra)) as (F & t & s & Ht & Hs & R).
    cbv zeta. split; [exact F|].
    eapply Rle_trans; [apply (run_result 2 ltac:(lia) X X p_sin r_sin p0 r0
      (fun k => sin_far_p X k H) (fun k => sin_far_r X k H) u (zz prec emax) ww U (zz_nonneg prec emax) 99 ltac:(lia)) with (J := 99%nat) (k := 0%nat) (t := t) (s := s)|].
    - intros k. apply q_bound; [|lia]. lra.
    - exact (ww_ok prec emax prec_ok emax_ok).
    - intros k. destruct (le_lt_dec 4 k) as [K|K]; [left; do 4 (destruct k as [|k]; [lia|]); cbn [p_sin]; lra|right]. apply far_A; [lia|exact H|rewrite Xa; lra|right; lra|exact K].
    - rewrite Tt. lra.
    - lra.
    - lia.
    - right. split; [reflexivity|]. rewrite Tt.
      pose proof (A_small 2 X X 99 40 113 u ltac:(lia) ltac:(lia) ltac:(lra) ltac:(lia) u_low ltac:(vm_compute; discriminate)) as Q. rewrite Xa in Q. lra.
    - exact R.
    - lia.
    - exact Ht.
    - exact Hs.
    - apply sin_series.
    - rewrite Tt, Xa, INR_99. cbn [r_sin]. lra.
  Qed.
End Bounds.
