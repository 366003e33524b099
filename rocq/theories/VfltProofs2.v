(** Rounding errors of lengths and of normalized vectors. *)
From Coq Require Import ZArith Bool List Reals Lra Lia Psatz.
From Flocq Require Import Core BinarySingleNaN Relative Plus_error Sterbenz.
From Verif Require Import FpModel FpProofs VfltModel VfltSpec VfltProofs.
Import ListNotations.
Local Open Scope R_scope.

Section VfltProofs2.
  Variable prec emax : Z.
  Context (prec_gt_0_ : Prec_gt_0 prec).
  Context (prec_lt_emax_ : Prec_lt_emax prec emax).
  Notation float := (binary_float prec emax).
  Notation emin := (3 - emax - prec)%Z.
  Notation fexp := (FLT_exp emin prec).
  Notation rnd := (round radix2 fexp ZnearestE).
  Notation format := (generic_format radix2 fexp).
  Notation u := (half_ulp_1 prec).
  Notation h := (half_tiny prec emax).
  Notation mn := (min_normal emax).
  Notation G := (1 + half_ulp_1 prec).
  Notation s := (1 + half_ulp_1 prec / 8).
  Local Instance fexp_valid'' : Valid_exp fexp := FLT_exp_valid emin prec.

  (** Two non-negative numbers that differ by a factor of at most [F]. *)
  Definition near (F x y : R) : Prop := 0 <= x /\ 0 <= y /\ x <= F * y /\ y <= F * x.
  Lemma near_trans F F' x y z : 0 <= F -> 0 <= F' -> near F x y -> near F' y z -> near (F * F') x z.
  Proof using.
    intros P P' (X & Y & A & B) (_ & Z & C & D). split; [exact X|]. split; [exact Z|]. split.
    - apply Rle_trans with (1 := A). rewrite Rmult_assoc. apply Rmult_le_compat_l; assumption.
    - apply Rle_trans with (1 := D). rewrite (Rmult_comm F F'), Rmult_assoc. apply Rmult_le_compat_l; assumption.
  Qed.
  Lemma near_sym F x y : near F x y -> near F y x.
  Proof using. intros (X & Y & A & B). repeat (split; [assumption|]). assumption. Qed.
  Lemma near_weak F F' x y : F <= F' -> near F x y -> near F' x y.
  Proof using.
    intros H (X & Y & A & B). split; [exact X|]. split; [exact Y|]. split; [apply Rle_trans with (1 := A) | apply Rle_trans with (1 := B)];
      apply Rmult_le_compat_r; assumption.
  Qed.
  Lemma near_mul F F' x y x' y' : 0 <= F -> 0 <= F' -> near F x y -> near F' x' y' -> near (F * F') (x * x') (y * y').
  Proof using.
    intros P P' (X & Y & A & B) (X' & Y' & A' & B'). split; [nra|]. split; [nra|]. split.
    - replace (F * F' * (y * y')) with ((F * y) * (F' * y')) by ring. apply Rmult_le_compat; assumption.
    - replace (F * F' * (x * x')) with ((F * x) * (F' * x')) by ring. apply Rmult_le_compat; assumption.
  Qed.
  Lemma near_inv F x y : 0 < x -> 0 < y -> near F x y -> near F (/ x) (/ y).
  Proof using.
    intros X Y (_ & _ & A & B). assert (IX := Rinv_0_lt_compat x X). assert (IY := Rinv_0_lt_compat y Y). split; [lra|]. split; [lra|]. split.
    - apply (Rmult_le_reg_r (x * y)); [nra|]. replace (/ x * (x * y)) with y by (field; lra). replace (F * / y * (x * y)) with (F * x) by (field; lra). exact B.
    - apply (Rmult_le_reg_r (x * y)); [nra|]. replace (/ y * (x * y)) with x by (field; lra). replace (F * / x * (x * y)) with (F * y) by (field; lra). exact A.
  Qed.
  Lemma near_refl x : 0 <= x -> near 1 x x.
  Proof using. intros H. unfold near. lra. Qed.
  Lemma near_rnd x : mn <= x -> near G (rnd x) x.
  Proof using prec_gt_0_.
    intros H. assert (P : 0 <= x) by (apply Rle_trans with (2 := H); apply bpow_ge_0).
    destruct (rnd_up prec emax prec_gt_0_ x P H) as [A B]. split; [apply rnd_nonneg; assumption|]. split; [exact P|]. split; assumption.
  Qed.

  Lemma G_pow_bound j : INR j * u <= 1 / 4 -> G ^ j <= 1 + INR j * u + 2 * (INR j * u) * (INR j * u).
  Proof using.
    intros H. pose proof (u_pos prec).
    assert (K : forall i, (i <= j)%nat -> G ^ i * (1 - INR i * u) <= 1).
    { induction i as [|i IH]; intros Hi; [cbn [pow INR]; lra|]. specialize (IH ltac:(lia)). rewrite S_INR. cbn [pow].
      assert (E : G * G ^ i * (1 - (INR i + 1) * u) = G ^ i * (1 - INR i * u) - G ^ i * ((INR i + 1) * (u * u))) by ring.
      rewrite E. pose proof (G_pow prec i). pose proof (pos_INR i). assert (0 <= (INR i + 1) * (u * u)) by nra. nra. }
    specialize (K j (le_n j)). set (t := INR j * u) in *. assert (0 <= t) by (unfold t; pose proof (pos_INR j); nra).
    assert (Q : 1 <= (1 + t + 2 * t * t) * (1 - t)) by nra. pose proof (G_pow prec j) as P. set (g := G ^ j) in *. clearbody t g. nra.
  Qed.
  Lemma G_pow_small j : INR j * u <= 1 / 4 -> G ^ j - 1 <= 2 * (INR j * u).
  Proof using. intros H. pose proof (G_pow_bound j H). pose proof (u_pos prec). pose proof (pos_INR j). assert (0 <= INR j * u) by nra. nra. Qed.

  (* ---------------------------------------------------------------- sums of squares *)

  Definition sq (v : list float) : R := real_norm2 (map B2R v).
  Lemma sq_pos v : 0 <= sq v.
  Proof using.
    unfold sq. induction v as [|x v IH]; cbn [map real_norm2 fold_right]; [lra|]. fold (real_norm2 (map B2R v)). nra.
  Qed.
  Lemma sq_dot v : real_dot (map (fun p : float * float => (B2R (fst p), B2R (snd p))) (map (fun x => (x, x)) v)) = sq v.
  Proof using. unfold sq. induction v as [|x v IH]; [reflexivity|]. cbn [map real_dot real_norm2 fold_right fst snd]. f_equal. exact IH. Qed.
  Lemma sq_mag v : real_mag (map (fun p : float * float => (B2R (fst p), B2R (snd p))) (map (fun x => (x, x)) v)) = sq v.
  Proof using.
    unfold sq. induction v as [|x v IH]; [reflexivity|]. cbn [map real_mag real_norm2 fold_right fst snd]. f_equal; [|exact IH].
    apply Rabs_pos_eq. nra.
  Qed.
  Lemma sq_in x v : In x v -> B2R x * B2R x <= sq v.
  Proof using.
    unfold sq. induction v as [|y v IH]; intros []; cbn [map real_norm2 fold_right]; fold (real_norm2 (map B2R v)).
    - subst y. pose proof (sq_pos v) as P. unfold sq in P. lra.
    - assert (I := IH H). nra.
  Qed.
  Definition finite_vec (v : list float) : Prop := forall x, In x v -> is_finite x = true.
  Lemma finite_vec_pairs v : finite_vec v <-> all_finite prec emax (map (fun x => (x, x)) v).
  Proof using.
    split.
    - intros H q Hq. apply in_map_iff in Hq as (x & <- & Hx). cbn [fst snd]. split; exact (H x Hx).
    - intros H x Hx. apply (H (x, x)). apply in_map_iff. exists x. split; [reflexivity | exact Hx].
  Qed.

  Lemma lsq_close k v : is_finite (length_squared prec emax _ _ k v) = true ->
    finite_vec v /\ close prec emax (List.length v) (B2R (length_squared prec emax _ _ k v)) (sq v) (sq v).
  Proof using.
    intros F. destruct (accumulate_close prec emax _ _ k _ F) as [A B]. split; [apply finite_vec_pairs; exact A|].
    rewrite sq_dot, sq_mag, map_length in B. exact B.
  Qed.
  Lemma lsq_ok k v : finite_vec v -> G ^ (List.length v) * (sq v + 2 * INR (List.length v) * h) < bpow radix2 emax ->
    is_finite (length_squared prec emax _ _ k v) = true.
  Proof using.
    intros F H. apply accumulate_ok; [apply finite_vec_pairs; exact F|]. rewrite sq_mag, map_length. exact H.
  Qed.

  (** The sizes for which the errors below hold: [n] components, sum of squares [N]. *)
  Definition sizes (n : nat) (N : R) : Prop :=
    1 <= INR n /\ 256 * (INR n * INR n) * u <= 1 /\ 1024 * INR n * h <= u * N.

  Lemma sizes_pos n N : sizes n N -> 0 < N.
  Proof using. intros (A & _ & C). pose proof (u_pos prec). pose proof (h_pos prec emax). assert (0 < INR n * h) by nra. nra. Qed.
  Lemma sizes_u n N : sizes n N -> INR n * u <= 1 / 256 /\ u <= 1 / 256.
  Proof using.
    intros (A & B & _). pose proof (u_pos prec). assert (X : 0 <= INR n * u) by nra. assert (0 <= (INR n - 1) * (INR n * u)) by (apply Rmult_le_pos; lra).
    assert (Y : INR n * u <= 1 / 256) by lra. split; [exact Y|]. nra.
  Qed.
  Lemma sizes_g n N : sizes n N -> G ^ n - 1 <= 2 * (INR n * u) /\ G ^ n <= 129 / 128 /\ (G ^ n - 1) * (G ^ n - 1) <= u / 64.
  Proof using.
    intros H. destruct (sizes_u n N H) as [A B]. destruct H as (C & D & _). pose proof (u_pos prec). pose proof (G_pow prec n) as P.
    assert (Q := G_pow_small n ltac:(lra)). set (g := G ^ n) in *. clearbody g. split; [exact Q|]. split; [nra|].
    assert (T : (g - 1) * (g - 1) <= (2 * (INR n * u)) * (2 * (INR n * u))) by (apply Rmult_le_compat; lra).
    replace (2 * (INR n * u) * (2 * (INR n * u))) with (4 * (INR n * INR n * u) * u) in T by ring. nra.
  Qed.

  Lemma lsq_near k v : let n := List.length v in sizes n (sq v) -> is_finite (length_squared prec emax _ _ k v) = true ->
    near (G ^ n * s) (B2R (length_squared prec emax _ _ k v)) (sq v).
  Proof using.
    intros n S F. destruct (lsq_close k v F) as [_ C]. unfold close in C. fold n in C. pose proof (sizes_pos n _ S) as P.
    destruct (sizes_g n _ S) as (G1 & G2 & G3). destruct (sizes_u n _ S) as [U1 U2]. destruct S as (A & B & D).
    pose proof (u_pos prec) as U. pose proof (h_pos prec emax) as H. pose proof (G_pow prec n) as Gp.
    set (N := sq v) in *. set (L := B2R _) in *. set (g := G ^ n) in *. clearbody N L g. clear F.
    apply Rabs_le_inv in C as [C1 C2].
    assert (T : 2 * INR n * h * g <= u / 512 * N * g).
    { apply Rmult_le_compat_r; [lra|]. nra. }
    assert (T' : u / 512 * N * g <= u / 256 * N) by (assert (0 <= u * N) by nra; nra).
    assert (Lo : N * ((2 - g) - u / 256) <= L) by (replace (N * (2 - g - u / 256)) with (N - (g - 1) * N - u / 256 * N) by ring; lra).
    assert (Lp : 0 <= L) by (apply Rle_trans with (2 := Lo); apply Rmult_le_pos; lra).
    split; [exact Lp|]. split; [lra|]. split.
    - replace (g * s * N) with (N + (g - 1) * N + g * (u / 8 * N)) by field. assert (0 <= u * N) by nra. nra.
    - assert (Q : 1 <= g * s * (2 - g - u / 256)).
      { replace (g * s * (2 - g - u / 256)) with (s * (1 - (g - 1) * (g - 1) - g * (u / 256))) by ring.
        assert (1 - u / 64 - u / 128 <= 1 - (g - 1) * (g - 1) - g * (u / 256)) by nra. nra. }
      apply Rle_trans with (g * s * (N * (2 - g - u / 256))).
      + replace (g * s * (N * (2 - g - u / 256))) with (N * (g * s * (2 - g - u / 256))) by ring. nra.
      + apply Rmult_le_compat_l; [nra | exact Lo].
  Qed.

  Lemma mn_pos : 0 < mn.
  Proof using. apply bpow_gt_0. Qed.
  Lemma mn_emax : mn * bpow radix2 emax = 4.
  Proof using. unfold min_normal. rewrite <- bpow_plus. replace (2 - emax + emax)%Z with 2%Z by ring. reflexivity. Qed.
  Lemma mn_small : (8 <= emax)%Z -> mn <= 1 / 64.
  Proof using. intros H. unfold min_normal. replace (1 / 64) with (bpow radix2 (-6)) by (cbn; lra). apply bpow_le. lia. Qed.
  Lemma half_emax : 2 * bpow radix2 (emax - 1) = bpow radix2 emax.
  Proof using. change 2 with (bpow radix2 1). rewrite <- bpow_plus. f_equal. ring. Qed.

  Lemma lsq_finite k v : finite_vec v -> sizes (List.length v) (sq v) -> sq v <= bpow radix2 (emax - 1) ->
    is_finite (length_squared prec emax _ _ k v) = true.
  Proof using.
    intros F S H. apply lsq_ok; [exact F|]. pose proof (sizes_pos _ _ S) as P. destruct (sizes_g _ _ S) as (_ & G2 & _).
    destruct (sizes_u _ _ S) as [_ U]. destruct S as (A & B & D). rewrite <- half_emax. pose proof (u_pos prec). pose proof (h_pos prec emax).
    pose proof (G_pow prec (List.length v)). assert (2 * INR (List.length v) * h <= sq v / 512) by nra.
    set (g := G ^ _) in *. set (N := sq v) in *. clearbody g N. nra.
  Qed.

  (** The length: its square is the sum of squares up to [n + 2] roundings. *)
  Lemma len_near k v : (8 <= emax)%Z -> finite_vec v -> (2 <= List.length v)%nat -> sizes (List.length v) (sq v) ->
    sq v <= bpow radix2 (emax - 1) ->
    let L := length prec emax _ _ k v in
    is_finite L = true /\ 2 * mn <= B2R L /\ B2R L * mn <= 1 / 2 /\ near (G ^ (List.length v) * s * (G * G)) (B2R L * B2R L) (sq v).
  Proof using.
    intros E F N2 S H L. assert (FL := lsq_finite k v F S H). assert (NL := lsq_near k v S FL).
    assert (EL : L = Bsqrt mode_NE (length_squared prec emax _ _ k v)).
    { unfold L, length. destruct v as [|x [|y v]]; [cbn in N2; lia | cbn in N2; lia | reflexivity]. }
    set (l := length_squared prec emax _ _ k v) in *. set (n := List.length v) in *.
    pose proof (sizes_pos n _ S) as P. destruct (sizes_g n _ S) as (_ & G2 & _). destruct (sizes_u n _ S) as [_ U]. destruct S as (A & _ & D).
    pose proof (u_pos prec) as Up. pose proof mn_pos as Mp. pose proof mn_emax as Me. pose proof (mn_small E) as Ms. pose proof half_emax as He.
    pose proof (G_pow prec n) as G1. rewrite half_min in D.
    assert (DN : 1024 * mn <= sq v) by (apply (Rmult_le_reg_l u); [exact Up|]; assert (0 <= (INR n - 1) * (u * mn)) by (apply Rmult_le_pos; nra); nra).
    destruct NL as (Lp & _ & N1 & N3). set (g := G ^ n) in *. clearbody g.
    assert (gs : g * s <= 65 / 64) by nra. assert (gs1 : 1 <= g * s) by nra.
    assert (LN : sq v / 2 <= B2R l) by nra.
    assert (NU : sq v * mn <= 2) by nra. assert (LU : B2R l * mn <= 3) by nra.
    assert (Lpos : 0 < B2R l) by lra.
    assert (R1 : 4 * mn <= sqrt (B2R l)).
    { rewrite <- (sqrt_square (4 * mn)) by lra. apply sqrt_le_1_alt. nra. }
    assert (R2 : sqrt (B2R l) * mn <= 1 / 4).
    { assert (Q : sqrt (B2R l) * sqrt (B2R l) = B2R l) by (apply sqrt_sqrt; lra). assert (W := sqrt_pos (B2R l)).
      assert (Y : (sqrt (B2R l) * mn) * (sqrt (B2R l) * mn) <= 3 / 64)
        by (replace (sqrt (B2R l) * mn * (sqrt (B2R l) * mn)) with ((sqrt (B2R l) * sqrt (B2R l)) * mn * mn) by ring; rewrite Q; nra).
      assert (Z0 : 0 <= sqrt (B2R l) * mn) by nra. nra. }
    destruct (near_rnd (sqrt (B2R l)) ltac:(lra)) as (Q1 & Q2 & Q3 & Q4).
    destruct (Bsqrt_correct prec emax _ _ mode_NE l) as (V & Fi & _). rewrite <- EL in V, Fi.
    assert (FinL : is_finite L = true).
    { rewrite Fi. destruct l as [b|b| |b m e Hb]; try discriminate FL; [reflexivity|]. destruct b; [|reflexivity].
      exfalso. apply (Rlt_not_le _ _ Lpos). apply Rlt_le. apply F2R_lt_0. reflexivity. }
    change (round_mode mode_NE) with ZnearestE in V. change (SpecFloat.fexp prec emax) with fexp in V. rewrite V.
    split; [exact FinL|]. split; [nra|]. split; [nra|].
    assert (NR : near G (rnd (sqrt (B2R l))) (sqrt (B2R l))) by (apply near_rnd; lra).
    assert (NS := near_mul G G _ _ _ _ ltac:(lra) ltac:(lra) NR NR). rewrite sqrt_sqrt in NS by lra.
    rewrite (Rmult_comm (g * s)). apply (near_trans _ _ _ (B2R l)); [nra | nra | exact NS|]. repeat (split; [assumption || lra|]). assumption.
  Qed.

  Lemma one_val : B2R (Bone : float) = 1 /\ is_finite (Bone : float) = true.
  Proof using. split; [apply Bone_correct | apply is_finite_Bone]. Qed.

  (** Its reciprocal. *)
  Lemma inv_near k v : (8 <= emax)%Z -> finite_vec v -> (2 <= List.length v)%nat -> sizes (List.length v) (sq v) ->
    sq v <= bpow radix2 (emax - 1) ->
    let c := Bdiv mode_NE Bone (length prec emax _ _ k v) in
    is_finite c = true /\ near (G ^ (List.length v + 4) * s) (B2R c * B2R c * sq v) 1.
  Proof using.
    intros E F N2 S H c. destruct (len_near k v E F N2 S H) as (FL & L1 & L2 & NL). set (L := length prec emax _ _ k v) in *.
    set (n := List.length v) in *. pose proof (sizes_pos n _ S) as P. destruct (sizes_u n _ S) as [_ U].
    pose proof (u_pos prec) as Up. pose proof mn_pos as Mp. pose proof mn_emax as Me. pose proof (mn_small E) as Ms. destruct one_val as [V1 F1].
    assert (Lp : 0 < B2R L) by lra. assert (Ip := Rinv_0_lt_compat _ Lp).
    assert (I1 : mn <= / B2R L) by (apply (Rmult_le_reg_r (B2R L)); [exact Lp|]; rewrite Rinv_l; nra).
    assert (I2 : / B2R L * (2 * mn) <= 1) by (apply Rle_trans with (/ B2R L * B2R L); [nra | rewrite Rinv_l; lra]).
    destruct (near_rnd (/ B2R L) I1) as (Q1 & Q2 & Q3 & Q4).
    assert (B : rnd (/ B2R L) < bpow radix2 emax).
    { apply (Rmult_lt_reg_r mn); [exact Mp|]. rewrite (Rmult_comm _ mn), (Rmult_comm _ mn), Me. nra. }
    destruct (div_ok prec emax _ _ Bone L F1 ltac:(lra)) as [Fc Vc].
    { rewrite V1. unfold Rdiv. rewrite Rmult_1_l, Rabs_pos_eq; [exact B | exact Q1]. }
    fold c in Fc, Vc. rewrite V1 in Vc. unfold Rdiv in Vc. rewrite Rmult_1_l in Vc. split; [exact Fc|]. rewrite Vc.
    assert (NC : near G (rnd (/ B2R L)) (/ B2R L)) by (apply near_rnd; exact I1).
    assert (NS := near_mul G G _ _ _ _ ltac:(lra) ltac:(lra) NC NC).
    assert (LLp : 0 < B2R L * B2R L) by (apply Rmult_lt_0_compat; exact Lp). assert (NI := near_inv _ _ _ LLp P NL).
    replace (/ (B2R L * B2R L)) with (/ B2R L * / B2R L) in NI by (field; lra).
    pose proof (G_pow prec n) as G1. assert (X : 0 <= G ^ n * s) by nra.
    assert (NT := near_trans (G * G) (G ^ n * s * (G * G)) _ _ _ ltac:(nra) ltac:(nra) NS NI).
    assert (NM := near_mul (G * G * (G ^ n * s * (G * G))) 1 _ _ _ _ ltac:(apply Rmult_le_pos; nra) ltac:(lra) NT (near_refl (sq v) ltac:(lra))).
    rewrite (Rinv_l (sq v)) in NM by lra. apply near_weak with (2 := NM). rewrite pow_add. apply Req_le. ring.
  Qed.

  (* ---------------------------------------------------------------- scaling by it *)

  Lemma scale_length v c : List.length (scale prec emax _ _ v c) = List.length v.
  Proof using. apply map_length. Qed.
  (** Lists of numbers, one at most [G] times the other and [h] more. *)
  Lemma sum_up (f g : float -> R) v : (forall x, In x v -> 0 <= f x /\ 0 <= g x <= 2 /\ f x <= G * g x + h) -> u <= 1 / 256 -> h <= 1 / 256 ->
    fold_right (fun x a => f x * f x + a) 0 v <= G * G * fold_right (fun x a => g x * g x + a) 0 v + 5 * INR (List.length v) * h.
  Proof using.
    intros H U Hh. pose proof (h_pos prec emax). pose proof (u_pos prec). induction v as [|x v IH]; [cbn; lra|].
    specialize (IH (fun y Hy => H y (or_intror Hy))). destruct (H x (or_introl eq_refl)) as (A & [B C] & D).
    cbn [fold_right]. change (List.length (x :: v)) with (Datatypes.S (List.length v)). rewrite S_INR.
    assert (f x * f x <= (G * g x + h) * (G * g x + h)) by (apply Rmult_le_compat; assumption).
    assert (Y : (G * h) * g x <= (G * h) * 2) by (apply Rmult_le_compat_l; [nra | exact C]).
    assert (Z : G * h * 4 + h * h <= 5 * h) by nra.
    replace ((G * g x + h) * (G * g x + h)) with (G * G * (g x * g x) + 2 * (G * h * g x) + h * h) in * by ring.
    rewrite Rmult_plus_distr_l. lra.
  Qed.
  Lemma sq_fold v : sq v = fold_right (fun x a => Rabs (B2R x) * Rabs (B2R x) + a) 0 v.
  Proof using.
    unfold sq. induction v as [|x v IH]; [reflexivity|]. cbn [map real_norm2 fold_right]. rewrite <- Rabs_mult, Rabs_pos_eq by nra. f_equal. exact IH.
  Qed.
  Lemma sq_scale_exact v (c : R) : fold_right (fun x a => Rabs (B2R x * c) * Rabs (B2R x * c) + a) 0 v = c * c * sq v.
  Proof using.
    unfold sq. induction v as [|x v IH]; [cbn; ring|]. cbn [map real_norm2 fold_right]. fold (real_norm2 (map B2R v)). rewrite IH.
    rewrite <- Rabs_mult, Rabs_pos_eq by nra. ring.
  Qed.

  Lemma comp_rel z : Rabs (rnd z) <= G * Rabs z + h /\ Rabs z <= G * Rabs (rnd z) + h.
  Proof using prec_gt_0_.
    split; [apply rnd_mag; exact prec_gt_0_|]. pose proof (u_pos prec). pose proof (h_pos prec emax). pose proof (Rabs_pos z).
    assert (T : Rabs z <= Rabs (rnd z) + Rabs (rnd z - z)).
    { replace z with (rnd z + (z - rnd z)) at 1 by ring. apply Rle_trans with (1 := Rabs_triang _ _). rewrite (Rabs_minus_sym (rnd z)). lra. }
    pose proof (Rabs_pos (rnd z)) as W. destruct (rnd_cases prec emax prec_gt_0_ z) as [C | C].
    - assert (E : G * (Rabs z - u / G * Rabs z) = Rabs z) by (field; lra).
      set (d := u / G * Rabs z) in *. clearbody d.
      assert (Q : G * (Rabs z - d) <= G * Rabs (rnd z)) by (apply Rmult_le_compat_l; lra). lra.
    - assert (0 <= u * Rabs (rnd z)) by nra. lra.
  Qed.

  Theorem normalize_near k v : (8 <= emax)%Z -> finite_vec v -> (2 <= List.length v)%nat -> sizes (List.length v) (sq v) ->
    sq v <= bpow radix2 (emax - 1) -> 2048 * INR (List.length v) * h <= u ->
    let c := Bdiv mode_NE Bone (length prec emax _ _ k v) in let r := scale prec emax _ _ v c in
    finite_vec r /\ (forall x, In x v -> B2R (Bmult mode_NE x c) = rnd (B2R x * B2R c)) /\
    near (G ^ (List.length v + 6) * (s * s)) (sq r) 1 /\ sizes (List.length r) (sq r) /\ sq r <= bpow radix2 (emax - 1) /\
    near (G ^ (List.length v + 1) * s) (Rabs (B2R c) * sqrt (sq v)) 1.
  Proof using.
    intros E F N2 S H Hh c r. destruct (inv_near k v E F N2 S H) as [Fc NA]. fold c in Fc, NA.
    destruct (sizes_u _ _ S) as [U1 U2]. pose proof (sizes_pos _ _ S) as P. destruct (sizes_g _ _ S) as (_ & G2 & _).
    pose proof (u_pos prec) as Up. pose proof (h_pos prec emax) as Hp. pose proof (G_pow prec (List.length v)) as G1.
    assert (Ae := conj S I). destruct Ae as [Ae _]. destruct Ae as (A1 & A2 & A3).
    set (n := List.length v) in *.
    assert (Hs : h <= 1 / 256) by nra.
    assert (G5 : G ^ (n + 4) * s <= 11 / 10).
    { rewrite pow_add. assert (G ^ 4 <= 1 + 5 * u).
      { replace (G ^ 4) with (G * G * (G * G)) by ring. assert (G * G <= 1 + 257 / 128 * u) by nra. assert (1 <= G * G) by nra. nra. }
      set (g := G ^ n) in *. set (g4 := G ^ 4) in *. assert (1 <= g4) by apply (G_pow prec 4). clearbody g g4.
      assert (g * g4 <= 129 / 128 * (133 / 128)) by (apply Rmult_le_compat; lra).
      apply Rle_trans with (129 / 128 * (133 / 128) * (1 + 1 / 2048)); [apply Rmult_le_compat; nra | lra]. }
    assert (G6 : 1 <= G ^ (n + 4) * s) by (pose proof (G_pow prec (n + 4)); nra).
    set (A := B2R c * B2R c * sq v) in *. destruct NA as (Ap & _ & NA1 & NA2).
    assert (Al : 9 / 10 <= A) by nra. assert (Au : A <= 11 / 10) by nra.
    assert (Sm : forall x, In x v -> Rabs (B2R x * B2R c) <= 11 / 10).
    { intros x Hx. assert (Q := sq_in x v Hx). assert (Rabs (B2R x * B2R c) * Rabs (B2R x * B2R c) <= 11 / 10).
      { rewrite <- Rabs_mult, Rabs_pos_eq by nra. apply Rle_trans with (2 := Au). unfold A.
        replace (B2R x * B2R c * (B2R x * B2R c)) with (B2R c * B2R c * (B2R x * B2R x)) by ring. apply Rmult_le_compat_l; [nra | exact Q]. }
      pose proof (Rabs_pos (B2R x * B2R c)). nra. }
    assert (Bs : 4 <= bpow radix2 emax).
    { change 4 with (bpow radix2 2). apply bpow_le. lia. }
    assert (Mu : forall x, In x v -> is_finite (Bmult mode_NE x c) = true /\ B2R (Bmult mode_NE x c) = rnd (B2R x * B2R c)).
    { intros x Hx. apply mult_ok; [exact (F x Hx) | exact Fc|]. pose proof (rnd_mag prec emax prec_gt_0_ (B2R x * B2R c)) as M. specialize (Sm x Hx). nra. }
    assert (Fr : finite_vec r) by (intros y Hy; unfold r, scale in Hy; apply in_map_iff in Hy as (x & <- & Hx); apply (Mu x Hx)).
    assert (Er : sq r = fold_right (fun x a => Rabs (rnd (B2R x * B2R c)) * Rabs (rnd (B2R x * B2R c)) + a) 0 v).
    { rewrite sq_fold. unfold r, scale. clear -Mu. clearbody c. induction v as [|x v IH]; [reflexivity|]. cbn [map fold_right].
      rewrite (proj2 (Mu x (or_introl eq_refl))). f_equal. apply IH. intros y Hy. apply Mu. right. exact Hy. }
    assert (UP : sq r <= G * G * A + 5 * INR n * h).
    { rewrite Er. unfold A. rewrite <- (sq_scale_exact v (B2R c)). apply sum_up; [|exact U2|exact Hs].
      intros x Hx. specialize (Sm x Hx). destruct (comp_rel (B2R x * B2R c)) as [C1 _]. repeat split; try apply Rabs_pos; [lra | exact C1]. }
    assert (DN : A <= G * G * sq r + 5 * INR n * h).
    { rewrite Er. unfold A. rewrite <- (sq_scale_exact v (B2R c)). apply sum_up; [|exact U2|exact Hs].
      intros x Hx. specialize (Sm x Hx). destruct (comp_rel (B2R x * B2R c)) as [C1 C2]. repeat split; try apply Rabs_pos; [nra | exact C2]. }
    pose proof (sq_pos r) as Rp. assert (GG : G * G <= 1 + 257 / 128 * u) by nra. assert (GG1 : 1 <= G * G) by nra.
    assert (H5 : 5 * INR n * h <= u / 128) by nra.
    assert (Rl : 8 / 10 <= sq r) by nra.
    assert (NR : near (G * G * s) (sq r) A) by (split; [exact Rp|]; split; [exact Ap|]; split; nra).
    assert (RU : sq r <= 12 / 10) by nra.
    assert (NRA := near_trans (G * G * s) (G ^ (n + 4) * s) _ _ _ ltac:(nra) ltac:(lra) NR (conj Ap (conj Rle_0_1 (conj NA1 NA2)))).
    split; [exact Fr|]. split; [intros x Hx; apply (Mu x Hx)|]. split; [|split; [|split]].
    - apply near_weak with (2 := NRA). rewrite !pow_add. apply Req_le. ring.
    - unfold sizes, r. rewrite scale_length. fold n. split; [exact A1|]. split; [exact A2|].
      fold r. assert (u * (8 / 10) <= u * sq r) by (apply Rmult_le_compat_l; lra). lra.
    - apply Rle_trans with (1 := Rle_trans _ _ 2 RU ltac:(lra)). change 2 with (bpow radix2 1). apply bpow_le. lia.
    - assert (W := sqrt_pos (sq v)). assert (Q : sqrt (sq v) * sqrt (sq v) = sq v) by (apply sqrt_sqrt; lra).
      set (t := Rabs (B2R c) * sqrt (sq v)). assert (Tp : 0 <= t) by (unfold t; pose proof (Rabs_pos (B2R c)); nra).
      assert (T2 : t * t = A).
      { unfold t, A. replace (Rabs (B2R c) * sqrt (sq v) * (Rabs (B2R c) * sqrt (sq v))) with (Rabs (B2R c) * Rabs (B2R c) * (sqrt (sq v) * sqrt (sq v))) by ring.
        rewrite Q, <- Rabs_mult, Rabs_pos_eq by nra. reflexivity. }
      set (K := G ^ (n + 1) * s). assert (K1 : 1 <= K) by (unfold K; pose proof (G_pow prec (n + 1)); nra).
      assert (KK : G ^ (n + 4) * s <= K * K).
      { unfold K. replace (G ^ (n + 1) * s * (G ^ (n + 1) * s)) with (G ^ (n + 1 + (n + 1)) * s * s) by (rewrite !pow_add; ring).
        pose proof (G_pow_le prec (n + 4) (n + 1 + (n + 1)) ltac:(lia)) as Z1. pose proof (G_pow prec (n + 4)) as Z2.
        set (a := G ^ (n + 4)) in *. set (b := G ^ (n + 1 + (n + 1))) in *. clearbody a b. nra. }
      assert (B1 : t * t <= K * K) by (rewrite T2; lra). assert (B2 : 1 <= (K * t) * (K * t)) by (replace (K * t * (K * t)) with (K * K * (t * t)) by ring; rewrite T2; nra).
      split; [exact Tp|]. split; [lra|]. split; [nra|].
      assert (0 <= K * t) by nra. nra.
  Qed.
End VfltProofs2.
