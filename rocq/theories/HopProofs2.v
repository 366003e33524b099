(** Proofs about the arithmetic of halves: results are faithful, products, quotients and roots truncated; comparisons; floor and ceil. *)
From Coq Require Import ZArith NArith Bool Reals Lra Lia ZifyBool ZifyNat ZifyN List.
From Flocq Require Import Core BinarySingleNaN Relative Operations.
From Verif Require Import Words WordsProofs HalfModel HalfSpec HalfProofs FpModel FpProofs HopModel HopSpec HopProofs.
Local Open Scope R_scope.
Ltac Zify.zify_post_hook ::= idtac.

#[local] Existing Instances HopModel.float_prec HopModel.float_emax.
#[local] Instance fexp_ok : Valid_exp fexp32 := FLT_exp_valid (-149) 24.

Lemma rle x y : x <= y -> rnd x <= rnd y. Proof. intros H. exact (rnd_le 24 128 _ x y H). Qed.
Lemma rfmt x : format x -> rnd x = x. Proof. intros H. apply round_generic; [apply valid_rnd_N | exact H]. Qed.
Lemma ropp x : rnd (- x) = - rnd x. Proof. exact (rnd_opp 24 128 x). Qed.
Lemma rabs x : Rabs (rnd x) = rnd (Rabs x).
Proof.
  destruct (Rle_lt_dec 0 x) as [P|P].
  - rewrite (Rabs_pos_eq x P). apply Rabs_pos_eq. rewrite <- (rfmt 0) by apply generic_format_0. apply rle, P.
  - rewrite (Rabs_left x P), ropp. apply Rabs_left1. rewrite <- (rfmt 0) by apply generic_format_0. apply rle. lra.
Qed.
Lemma fmt_pow k : (-149 <= k)%Z -> format (bpow radix2 k).
Proof. intros K. replace (bpow radix2 k) with (F2R (Float radix2 1 k)) by (unfold F2R; cbn; ring). apply small_format; [reflexivity | exact K]. Qed.
Lemma fmt_int n : (Z.abs n < 2 ^ 24)%Z -> format (IZR n).
Proof. intros H. replace (IZR n) with (F2R (Float radix2 n 0)) by (unfold F2R; cbn; ring). apply small_format; [exact H | lia]. Qed.
Lemma pow16 : bpow radix2 16 = 65536. Proof. reflexivity. Qed.

(** The range in which results are good. *)
Definition good (z : R) : Prop := bpow radix2 (-14) <= Rabs z <= 65535 \/ z = 0.
Lemma good_rnd z : good z -> bpow radix2 (-14) <= Rabs (rnd z) < bpow radix2 16 \/ rnd z = 0.
Proof.
  intros [[A B]|Z0].
  - left. rewrite rabs. apply rle in A, B. rewrite (rfmt (bpow radix2 (-14))) in A by (apply fmt_pow; lia). rewrite (rfmt 65535) in B by (apply fmt_int; reflexivity). rewrite pow16. lra.
  - right. rewrite Z0. apply rfmt, generic_format_0.
Qed.
Lemma faithful_narrow z f : is_finite f = true -> B2R f = rnd z -> good z -> faithful z (narrow f).
Proof.
  intros F E G. pose proof (good_rnd z G) as Gr. rewrite <- E in Gr. destruct (narrow_ok f F Gr) as (r & H & L & S & Mx). exists r. split; [exact H|].
  intros k q Hq. pose proof (half_format k q Hq) as Fq. specialize (Mx k q Hq). rewrite E in *.
  assert (N0 : rnd z = 0 -> r = 0). { intros Z0. rewrite Z0, Rabs_R0 in L. destruct (Req_dec r 0) as [R0|R0]; [exact R0|]. apply Rabs_pos_lt in R0. lra. }
  assert (Lr : r <= Rabs r) by apply RRle_abs. assert (Lr' : - r <= Rabs r) by (rewrite <- Rabs_Ropp; apply RRle_abs).
  assert (Lq : q <= z -> q <= rnd z) by (intros Q; apply rle in Q; rewrite (rfmt q Fq) in Q; exact Q).
  assert (Uq : z <= q -> rnd z <= q) by (intros Q; apply rle in Q; rewrite (rfmt q Fq) in Q; exact Q).
  destruct (Rtotal_order (rnd z) 0) as [Ng|[Zr|Ps]].
  - assert (r <= 0) by nra. rewrite (Rabs_left (rnd z) Ng) in *. rewrite (Rabs_left1 r) in * by lra. split; intros Q; [apply Lq in Q; lra|]. apply Uq in Q.
    destruct (Rle_lt_dec 0 q) as [P|P]; [lra|]. rewrite (Rabs_left q P) in Mx. specialize (Mx ltac:(lra)). lra.
  - specialize (N0 Zr). split; intros Q; [apply Lq in Q|apply Uq in Q]; lra.
  - assert (0 <= r) by nra. rewrite (Rabs_pos_eq (rnd z)) in * by lra. rewrite (Rabs_pos_eq r) in * by lra. split; intros Q; [|apply Uq in Q; lra]. apply Lq in Q.
    destruct (Rle_lt_dec q 0) as [P|P]; [lra|]. rewrite (Rabs_pos_eq q) in Mx by lra. specialize (Mx Q). lra.
Qed.
Lemma fits z : good z -> Rabs (rnd z) < bpow radix2 128.
Proof.
  intros G. destruct (good_rnd z G) as [[_ B]|Z0]; [apply Rlt_trans with (1 := B); apply bpow_lt; reflexivity|]. rewrite Z0, Rabs_R0. apply bpow_gt_0.
Qed.
Lemma plus_val (x y : float32) : is_finite x = true -> is_finite y = true -> Rabs (rnd (B2R x + B2R y)) < bpow radix2 128 ->
  is_finite (Bplus mode_NE x y) = true /\ B2R (Bplus mode_NE x y) = rnd (B2R x + B2R y).
Proof.
  intros Fx Fy L. pose proof (Bplus_correct 24 128 _ _ mode_NE x y Fx Fy) as C. rewrite Rlt_bool_true in C by exact L. destruct C as (C1 & C2 & _). split; assumption.
Qed.
Lemma minus_val (x y : float32) : is_finite x = true -> is_finite y = true -> Rabs (rnd (B2R x - B2R y)) < bpow radix2 128 ->
  is_finite (Bminus mode_NE x y) = true /\ B2R (Bminus mode_NE x y) = rnd (B2R x - B2R y).
Proof.
  intros Fx Fy L. pose proof (Bminus_correct 24 128 _ _ mode_NE x y Fx Fy) as C. rewrite Rlt_bool_true in C by exact L. destruct C as (C1 & C2 & _). split; assumption.
Qed.
Lemma mult_val (x y : float32) : is_finite x = true -> is_finite y = true -> Rabs (rnd (B2R x * B2R y)) < bpow radix2 128 ->
  is_finite (Bmult mode_NE x y) = true /\ B2R (Bmult mode_NE x y) = rnd (B2R x * B2R y).
Proof.
  intros Fx Fy L. pose proof (Bmult_correct 24 128 _ _ mode_NE x y) as C. rewrite Rlt_bool_true in C by exact L. destruct C as (C1 & C2 & _). rewrite Fx, Fy in C2. split; assumption.
Qed.
Lemma div_val (x y : float32) : is_finite x = true -> B2R y <> 0 -> Rabs (rnd (B2R x / B2R y)) < bpow radix2 128 ->
  is_finite (Bdiv mode_NE x y) = true /\ B2R (Bdiv mode_NE x y) = rnd (B2R x / B2R y).
Proof.
  intros Fx Ny L. pose proof (Bdiv_correct 24 128 _ _ mode_NE x y Ny) as C. rewrite Rlt_bool_true in C by exact L. destruct C as (C1 & C2 & _). rewrite Fx in C2. split; assumption.
Qed.

(** A half has eleven significant bits. *)
Lemma half_parts h r : half_is h r -> exists M E, r = F2R (Float radix2 M E) /\ (Z.abs M < 2 ^ 11)%Z /\ (-24 <= E <= 5)%Z.
Proof.
  intros (H & s & n & V & ->). destruct (finite16 h s n V H) as (He & Hm & ->). change (2 ^ 10)%N with 1024%N in *.
  set (M := (if he h =? 0 then hm h else 1024 + hm h)%N). set (E := (Z.of_N (N.max (he h) 1) - 25)%Z).
  exists (signed s M), E. split; [|split; [unfold signed, M; destruct s, (he h =? 0)%N; lia | unfold E; lia]].
  rewrite real_of_bpow. unfold F2R. cbn [Fnum Fexp].
  assert (Q : IZR (Z.of_N M) * bpow radix2 E = IZR (Z.of_N (2 ^ 125 * (if he h =? 0 then hm h else (1024 + hm h) * 2 ^ (he h - 1)))) * bpow radix2 (-149)).
  { rewrite N2Z.inj_mul, mult_IZR. replace (IZR (Z.of_N (2 ^ 125))) with (bpow radix2 125) by (rewrite N2Z.inj_pow, <- IZR_Zpower by lia; reflexivity).
    replace (bpow radix2 125 * IZR (Z.of_N (if (he h =? 0)%N then hm h else ((1024 + hm h) * 2 ^ (he h - 1))%N)) * bpow radix2 (-149))
      with (IZR (Z.of_N (if (he h =? 0)%N then hm h else ((1024 + hm h) * 2 ^ (he h - 1))%N)) * (bpow radix2 125 * bpow radix2 (-149))) by ring.
    rewrite <- bpow_plus. unfold M, E. destruct (N.eqb_spec (he h) 0) as [Z0|Z0].
    - rewrite Z0. reflexivity.
    - replace (N.max (he h) 1) with (he h) by lia. rewrite (N2Z.inj_mul (1024 + hm h)), mult_IZR, N2Z.inj_pow.
      replace (IZR (Z.of_N 2 ^ Z.of_N (he h - 1))) with (bpow radix2 (Z.of_N (he h - 1))) by (rewrite <- IZR_Zpower by lia; reflexivity).
      rewrite Rmult_assoc, <- bpow_plus. f_equal. f_equal. lia. }
  unfold signed. destruct s; [rewrite opp_IZR|]; nra.
Qed.
Lemma abs_parts M E : Rabs (F2R (Float radix2 M E)) = IZR (Z.abs M) * bpow radix2 E.
Proof. rewrite <- F2R_Zabs. reflexivity. Qed.

(** Numbers of 22 and of 11 bits cannot be too close. *)
Lemma gap (A a B b : Z) : (0 <= A < 2 ^ 22)%Z -> (0 <= B < 2 ^ 11)%Z -> IZR B * bpow radix2 b < IZR A * bpow radix2 a ->
  bpow radix2 (-22) * (IZR B * bpow radix2 b) < IZR A * bpow radix2 a - IZR B * bpow radix2 b.
Proof.
  intros HA HB L. pose proof (bpow_gt_0 radix2 a) as Pa. pose proof (bpow_gt_0 radix2 b) as Pb.
  assert (P22 : bpow radix2 (-22) = / 4194304) by reflexivity. rewrite P22.
  assert (A1 : IZR A < 4194304) by (change 4194304 with (IZR (2 ^ 22)); apply IZR_lt; lia). assert (B1 : IZR B < 2048) by (change 2048 with (IZR (2 ^ 11)); apply IZR_lt; lia).
  assert (B0 : 0 <= IZR B) by (apply IZR_le; lia).
  destruct (Z.le_ge_cases a b) as [C|C].
  - assert (Q : bpow radix2 b = IZR (2 ^ (b - a)) * bpow radix2 a).
    { replace (IZR (2 ^ (b - a))) with (bpow radix2 (b - a)) by (rewrite <- IZR_Zpower by lia; reflexivity). rewrite <- bpow_plus. f_equal. lia. }
    rewrite Q in L |- *. assert (L' : (B * 2 ^ (b - a) < A)%Z). { apply lt_IZR. rewrite mult_IZR. apply Rmult_lt_reg_r with (bpow radix2 a); [exact Pa|]. lra. }
    assert (L2 : IZR (B * 2 ^ (b - a)) + 1 <= IZR A) by (rewrite <- plus_IZR; apply IZR_le; lia). rewrite mult_IZR in L2. set (w := IZR B * IZR (2 ^ (b - a))) in *.
    replace (IZR B * (IZR (2 ^ (b - a)) * bpow radix2 a)) with (w * bpow radix2 a) by (unfold w; ring).
    assert (0 <= w) by (unfold w; rewrite <- mult_IZR; apply IZR_le; apply Z.mul_nonneg_nonneg; [lia | apply Z.pow_nonneg; lia]). clearbody w. nra.
  - assert (Q : bpow radix2 a = IZR (2 ^ (a - b)) * bpow radix2 b).
    { replace (IZR (2 ^ (a - b))) with (bpow radix2 (a - b)) by (rewrite <- IZR_Zpower by lia; reflexivity). rewrite <- bpow_plus. f_equal. lia. }
    rewrite Q in L |- *. assert (L' : (B < A * 2 ^ (a - b))%Z). { apply lt_IZR. rewrite mult_IZR. apply Rmult_lt_reg_r with (bpow radix2 b); [exact Pb|]. lra. }
    assert (L2 : IZR B + 1 <= IZR (A * 2 ^ (a - b))) by (rewrite <- plus_IZR; apply IZR_le; lia). rewrite mult_IZR in L2. set (w := IZR A * IZR (2 ^ (a - b))) in *.
    replace (IZR A * (IZR (2 ^ (a - b)) * bpow radix2 b)) with (w * bpow radix2 b) by (unfold w; ring). clearbody w. nra.
Qed.
Lemma rel_error z : bpow radix2 (-14) <= Rabs z -> Rabs (rnd z) <= (1 + bpow radix2 (-24)) * Rabs z.
Proof.
  intros L. pose proof (relative_error_N_FLT radix2 (-149) 24 eq_refl (fun n => negb (Z.even n)) z) as R.
  assert (bpow radix2 (-149 + 24 - 1) <= Rabs z) as Lz. { apply Rle_trans with (2 := L). apply bpow_le. lia. }
  specialize (R Lz). change (/ 2 * bpow radix2 (- (24) + 1)) with (/ 2 * bpow radix2 (-23)) in R.
  assert (Q : / 2 * bpow radix2 (-23) = bpow radix2 (-24)) by (cbn; lra). rewrite Q in R. pose proof (Rabs_triang_inv (rnd z) z) as T. change (Znearest (fun n => negb (Z.even n))) with ZnearestE in R. lra.
Qed.

(* ------------------------------------------------------------------ truncated results *)
Lemma half_unique h r q : half_is h r -> half_is h q -> r = q.
Proof. intros (_ & s & m & V & ->) (_ & t & n & W & ->). rewrite V in W. injection W as -> ->. reflexivity. Qed.
Lemma narrow_not_above f r : is_finite f = true -> (bpow radix2 (-14) <= Rabs (B2R f) < bpow radix2 16 \/ B2R f = 0) -> half_is (narrow f) r -> Rabs r <= Rabs (B2R f).
Proof. intros F G H. destruct (narrow_ok f F G) as (q & Hq & L & _). rewrite (half_unique _ _ _ H Hq). exact L. Qed.
Lemma product_format a b x y : half_is a x -> half_is b y -> format (x * y).
Proof.
  intros Ha Hb. destruct (half_parts a x Ha) as (M & E & -> & BM & BE). destruct (half_parts b y Hb) as (N & D & -> & BN & BD). rewrite <- F2R_mult. unfold Fmult.
  apply small_format; [|lia]. rewrite Z.abs_mul. change (2 ^ 11)%Z with 2048%Z in *. change (2 ^ 24)%Z with 16777216%Z. nia.
Qed.
Lemma product_truncated a b x y f : half_is a x -> half_is b y -> is_finite f = true -> B2R f = rnd (x * y) -> good (x * y) -> truncated (x * y) (narrow f).
Proof.
  intros Ha Hb F E G. split; [apply faithful_narrow; assumption|]. intros r Hr. pose proof (good_rnd _ G) as Gr. rewrite <- E in Gr.
  pose proof (narrow_not_above f r F Gr Hr) as L. rewrite E, (rfmt _ (product_format a b x y Ha Hb)) in L. exact L.
Qed.
Lemma quotient_truncated a b x y f : half_is a x -> half_is b y -> y <> 0 -> is_finite f = true -> B2R f = rnd (x / y) -> good (x / y) -> truncated (x / y) (narrow f).
Proof.
  intros Ha Hb Ny F E G. split; [apply faithful_narrow; assumption|]. intros r Hr. pose proof (good_rnd _ G) as Gr. rewrite <- E in Gr.
  pose proof (narrow_not_above f r F Gr Hr) as L. rewrite E in L. destruct G as [[G1 _]|Z0].
  2:{ rewrite Z0, (rfmt 0) in L by apply generic_format_0. rewrite Z0. exact L. }
  apply Rnot_lt_le. intros C. pose proof (rel_error _ G1) as Er. assert (Py : 0 < Rabs y) by (apply Rabs_pos_lt, Ny).
  assert (Ez : Rabs (x / y) * Rabs y = Rabs x) by (rewrite <- Rabs_mult; f_equal; field; exact Ny).
  destruct (half_parts a x Ha) as (Mx & Ex & Vx & BMx & _). destruct (half_parts b y Hb) as (My & Ey & Vy & BMy & _). destruct (half_parts _ r Hr) as (Mr & Er' & Vr & BMr & _).
  assert (Ax : Rabs x = IZR (Z.abs Mx) * bpow radix2 Ex) by (rewrite Vx; apply abs_parts).
  assert (Ary : Rabs r * Rabs y = IZR (Z.abs Mr * Z.abs My) * bpow radix2 (Er' + Ey)) by (rewrite Vr, Vy, !abs_parts, mult_IZR, bpow_plus; ring).
  assert (Lt : Rabs x < Rabs r * Rabs y) by (rewrite <- Ez; apply Rmult_lt_compat_r; assumption).
  assert (HA : (0 <= Z.abs Mr * Z.abs My < 2 ^ 22)%Z) by (change (2 ^ 11)%Z with 2048%Z in *; change (2 ^ 22)%Z with 4194304%Z; nia).
  pose proof (gap _ (Er' + Ey) (Z.abs Mx) Ex HA (conj (Z.abs_nonneg _) BMx)) as Gp. rewrite <- Ax, <- Ary in Gp. specialize (Gp Lt).
  assert (Up : Rabs r * Rabs y <= (1 + bpow radix2 (-24)) * Rabs x) by (rewrite <- Ez, <- Rmult_assoc; apply Rmult_le_compat_r; lra).
  assert (P0 : 0 <= Rabs x) by apply Rabs_pos. assert (bpow radix2 (-24) <= bpow radix2 (-22)) by (apply bpow_le; lia). nra.
Qed.
Lemma root_truncated a x f : half_is a x -> 0 < x -> is_finite f = true -> B2R f = rnd (sqrt x) -> good (sqrt x) -> truncated (sqrt x) (narrow f).
Proof.
  intros Ha Px F E G. split; [apply faithful_narrow; assumption|]. intros r Hr. pose proof (good_rnd _ G) as Gr. rewrite <- E in Gr.
  pose proof (narrow_not_above f r F Gr Hr) as L. rewrite E in L. assert (Ps : 0 < sqrt x) by (apply sqrt_lt_R0, Px). destruct G as [[G1 _]|Z0]; [|lra].
  apply Rnot_lt_le. intros C. pose proof (rel_error _ G1) as Er. rewrite (Rabs_pos_eq (sqrt x)) in * by lra. assert (Sq : sqrt x * sqrt x = x) by (apply sqrt_sqrt; lra).
  destruct (half_parts a x Ha) as (Mx & Ex & Vx & BMx & _). destruct (half_parts _ r Hr) as (Mr & Er' & Vr & BMr & _).
  assert (Ax : x = IZR (Z.abs Mx) * bpow radix2 Ex) by (rewrite <- abs_parts, <- Vx, Rabs_pos_eq by lra; reflexivity).
  assert (Arr : Rabs r * Rabs r = IZR (Z.abs Mr * Z.abs Mr) * bpow radix2 (Er' + Er')) by (rewrite Vr, !abs_parts, mult_IZR, bpow_plus; ring).
  assert (Lt : x < Rabs r * Rabs r) by (rewrite <- Sq; nra).
  assert (HA : (0 <= Z.abs Mr * Z.abs Mr < 2 ^ 22)%Z) by (change (2 ^ 11)%Z with 2048%Z in *; change (2 ^ 22)%Z with 4194304%Z; nia).
  pose proof (gap _ (Er' + Er') (Z.abs Mx) Ex HA (conj (Z.abs_nonneg _) BMx)) as Gp. rewrite <- Ax, <- Arr in Gp. specialize (Gp Lt).
  assert (P24 : bpow radix2 (-24) = / 16777216) by reflexivity. assert (P22 : bpow radix2 (-22) = / 4194304) by reflexivity. rewrite P24 in Er. rewrite P22 in Gp.
  set (s := sqrt x) in *. set (w := Rabs r) in *. assert (w <= (1 + / 16777216) * s) by lra.
  assert (w * w <= ((1 + / 16777216) * s) * ((1 + / 16777216) * s)) by (apply Rmult_le_compat; lra). rewrite <- Sq in *. assert (0 < s * s) by nra. set (t := s * s) in *.
  replace ((1 + / 16777216) * s * ((1 + / 16777216) * s)) with ((1 + / 16777216) * (1 + / 16777216) * t) in H0 by (unfold t; ring). lra.
Qed.

(* ------------------------------------------------------------------ the operators *)
Section Ops.
  Variables (a b : N) (x y : R).
  Hypothesis (Ha : half_is a x) (Hb : half_is b y).
  Ltac start := destruct (widen_finite a x Ha) as (u & Wu & Fu & Vu); destruct (widen_finite b y Hb) as (v & Wv & Fv & Vv).
  Lemma add_faithful : good (x + y) -> exists h, half_add a b = Some h /\ faithful (x + y) h.
  Proof using Ha Hb.
    intros G. start. unfold half_add, binary. rewrite Wu, Wv. cbn [option_bind]. eexists. split; [reflexivity|].
    pose proof (plus_val u v Fu Fv) as P. rewrite Vu, Vv in P. destruct (P (fits _ G)) as [F E]. apply faithful_narrow; assumption.
  Qed.
  Lemma sub_faithful : good (x - y) -> exists h, half_sub a b = Some h /\ faithful (x - y) h.
  Proof using Ha Hb.
    intros G. start. unfold half_sub, binary. rewrite Wu, Wv. cbn [option_bind]. eexists. split; [reflexivity|].
    pose proof (minus_val u v Fu Fv) as P. rewrite Vu, Vv in P. destruct (P (fits _ G)) as [F E]. apply faithful_narrow; assumption.
  Qed.
  Lemma mul_truncated : good (x * y) -> exists h, half_mul a b = Some h /\ truncated (x * y) h.
  Proof using Ha Hb.
    intros G. start. unfold half_mul, binary. rewrite Wu, Wv. cbn [option_bind]. eexists. split; [reflexivity|].
    pose proof (mult_val u v Fu Fv) as P. rewrite Vu, Vv in P. destruct (P (fits _ G)) as [F E]. apply (product_truncated a b); assumption.
  Qed.
  Lemma div_truncated : y <> 0 -> good (x / y) -> exists h, half_div a b = Some h /\ truncated (x / y) h.
  Proof using Ha Hb.
    intros Ny G. start. unfold half_div, binary. rewrite Wu, Wv. cbn [option_bind]. eexists. split; [reflexivity|].
    pose proof (div_val u v Fu) as P. rewrite Vu, Vv in P. destruct (P Ny (fits _ G)) as [F E]. apply (quotient_truncated a b); assumption.
  Qed.
End Ops.

(* ------------------------------------------------------------------ comparisons *)
Lemma real_signed s m : real_of s m = IZR (signed s m) * bpow radix2 (-149).
Proof. rewrite real_of_bpow. unfold signed. destruct s; [rewrite opp_IZR|]; ring. Qed.
Lemma real_lt s m t n : real_of s m < real_of t n <-> (signed s m < signed t n)%Z.
Proof.
  rewrite !real_signed. pose proof (bpow_gt_0 radix2 (-149)) as P. split; intros H.
  - apply Rmult_lt_reg_r in H; [|exact P]. apply lt_IZR, H.
  - apply Rmult_lt_compat_r; [exact P|]. apply IZR_lt, H.
Qed.
Lemma real_eq s m t n : real_of s m = real_of t n <-> signed s m = signed t n.
Proof.
  rewrite !real_signed. pose proof (bpow_gt_0 radix2 (-149)) as P. split; intros H.
  - apply Rmult_eq_reg_r in H; [|lra]. apply eq_IZR, H.
  - rewrite H. reflexivity.
Qed.
(** What a float is, as a value. *)
Definition stands (f : float32) (v : fval) : Prop :=
  match v with NaN => f = B754_nan | Inf s => f = B754_infinity s | Fin s m => is_finite f = true /\ B2R f = real_of s m end.
Lemma widen_stands h : (h < 2 ^ 16)%N -> exists f, widen h = Some f /\ stands f (f16_value h).
Proof.
  intros H. destruct (f16_value h) as [|s|s m] eqn:V.
  - exists B754_nan. split; [apply widen_nan; assumption | reflexivity].
  - exists (B754_infinity s). split; [apply widen_inf; assumption | reflexivity].
  - destruct (widen_finite h (real_of s m)) as (f & W & F & E); [split; [exact H|]; exists s, m; split; [exact V|reflexivity]|]. exists f. split; [exact W|]. split; assumption.
Qed.
Lemma ltb_stands f g v w : stands f v -> stands g w -> (Bltb f g = true <-> below v w).
Proof.
  destruct v as [|s|s m], w as [|t|t n]; cbn [stands below]; intros A B.
  1-3: subst f; destruct g as [[]|[]| |[] ? ? ?]; cbn; intuition discriminate.
  - subst f g. destruct s; cbn; intuition discriminate.
  - subst f g. destruct s, t; cbn; intuition discriminate.
  - destruct B as [B _]. subst f. destruct g as [[]|[]| |[] ? ? ?]; try discriminate B; destruct s; cbn; intuition discriminate.
  - destruct A as [A _]. subst g. destruct f as [[]|[]| |[] ? ? ?]; try discriminate A; cbn; intuition discriminate.
  - destruct A as [A _]. subst g. destruct f as [[]|[]| |[] ? ? ?]; try discriminate A; destruct t; cbn; intuition discriminate.
  - destruct A as [Ff Vf], B as [Fg Vg]. rewrite (Bltb_correct 24 128 f g Ff Fg), Vf, Vg. rewrite <- real_lt. destruct (Rlt_bool_spec (real_of s m) (real_of t n)); split; intros; (lra || discriminate || reflexivity || assumption).
Qed.
Lemma eqb_stands f g v w : stands f v -> stands g w -> (Beqb f g = true <-> same v w).
Proof.
  destruct v as [|s|s m], w as [|t|t n]; cbn [stands same]; intros A B.
  1-3: subst f; destruct g as [[]|[]| |[] ? ? ?]; cbn; intuition discriminate.
  - subst f g. destruct s; cbn; intuition discriminate.
  - subst f g. destruct s, t; cbn; intuition discriminate.
  - destruct B as [B _]. subst f. destruct g as [[]|[]| |[] ? ? ?]; try discriminate B; destruct s; cbn; intuition discriminate.
  - destruct A as [A _]. subst g. destruct f as [[]|[]| |[] ? ? ?]; try discriminate A; cbn; intuition discriminate.
  - destruct A as [A _]. subst g. destruct f as [[]|[]| |[] ? ? ?]; try discriminate A; destruct t; cbn; intuition discriminate.
  - destruct A as [Ff Vf], B as [Fg Vg]. rewrite (Beqb_correct 24 128 f g Ff Fg), Vf, Vg. rewrite <- real_eq. destruct (Req_bool_spec (real_of s m) (real_of t n)); split; intros; (lra || discriminate || reflexivity || assumption || contradiction).
Qed.
Lemma leb_split (f g : float32) : Bleb f g = true <-> Bltb f g = true \/ Beqb f g = true.
Proof.
  unfold Bleb, Bltb, Beqb, SpecFloat.SFleb, SpecFloat.SFltb, SpecFloat.SFeqb. destruct (SpecFloat.SFcompare (B2SF f) (B2SF g)) as [[]|]; intuition discriminate.
Qed.
