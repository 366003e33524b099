(** Euler's series for the arc tangent on IEEE numbers. *)
From Coq Require Import ZArith Bool List Reals Lra Lia Psatz.
From Flocq Require Import Core BinarySingleNaN Relative Plus_error.
From Verif Require Import FpModel FpProofs FpProofs2 TrigProofs2 TrigProofs5 TrigProofs7 ArcModel ArcProofs.
Local Open Scope R_scope.

Lemma INR_succ_IZR k : INR (S k) = IZR (Z.of_nat k + 1).
Proof. rewrite INR_IZR_INZ. f_equal. lia. Qed.
Lemma rel_pos v y e : rel v y e -> 0 <= e <= 0.00001 -> 0 < y -> 0.9999 * y <= v <= 1.0001 * y.
Proof. intros (d & D & ->) He Y. apply Rabs_le_inv in D. nra. Qed.
Lemma rel_dist v y e : rel v y e -> Rabs (v - y) <= e * Rabs y.
Proof. intros (d & D & ->). replace (y * (1 + d) - y) with (d * y) by ring. rewrite Rabs_mult. apply Rmult_le_compat_r; [apply Rabs_pos|exact D]. Qed.
Lemma rel_refl v e : 0 <= e -> rel v v e.
Proof. intros H. exists 0. rewrite Rabs_R0. split; [exact H|ring]. Qed.

Section AtanLoop.
  Variable prec emax : Z.
  Context (prec_gt_0_ : Prec_gt_0 prec).
  Context (prec_lt_emax_ : Prec_lt_emax prec emax).
  Notation float := (binary_float prec emax).
  Notation emin := (3 - emax - prec)%Z.
  Notation fexp := (FLT_exp emin prec).
  Notation rnd := (round radix2 fexp ZnearestE).
  Notation format := (generic_format radix2 fexp).
  Notation u := (bpow radix2 (- prec)).
  Notation eta := (eta prec emax).
  Notation of_Z := (of_Z prec emax _ _).
  Hypothesis prec_ok : (53 <= prec <= 113)%Z.
  Hypothesis emax_ok : (1024 <= emax)%Z.
  Notation "x -. y" := (Bminus mode_NE x y) (at level 50, left associativity).
  Notation "x +. y" := (Bplus mode_NE x y) (at level 50, left associativity).
  Notation "x *! y" := (Bmult mode_NE x y) (at level 40, left associativity).
  Notation "x /! y" := (Bdiv mode_NE x y) (at level 40, left associativity).
  Notation tiny := (bpow radix2 (-1000)).
  Notation big := (bpow radix2 100).
  Let U0 := u_pos prec.
  Let Ut := u_tiny prec prec_ok.
  Let E0 := eta_pos prec emax.

  Lemma eta_tiny : eta <= u * bpow radix2 (-900).
  Proof using All.
    apply Rle_trans with (1 := eta_small prec emax prec_ok emax_ok). rewrite <- bpow_plus. apply bpow_le. lia.
  Qed.
  Lemma eta_u3 : eta <= u / 1000000.
  Proof using All.
    apply Rle_trans with (1 := eta_tiny). unfold Rdiv. apply Rmult_le_compat_l; [lra|]. apply Rle_trans with (bpow radix2 (-30)); [apply bpow_le; lia|cbn; lra].
  Qed.
  Lemma big_big : 1000000 <= big. Proof using All. cbn. lra. Qed.
  Lemma tiny_small : 0 < tiny <= 0.000001.
  Proof using All. split; [apply bpow_gt_0|]. apply Rle_trans with (bpow radix2 (-30)); [apply bpow_le; lia|cbn; lra]. Qed.

  Lemma mult_rel (x y : float) v w e g : is_finite x = true -> is_finite y = true -> 0 <= e <= 0.000001 -> 0 <= g <= 0.000001 ->
    rel (B2R x) v e -> rel (B2R y) w g -> tiny <= Rabs (B2R x * B2R y) <= big -> is_finite (x *! y) = true /\ rel (B2R (x *! y)) (v * w) (1.0001 * (u + e + g)).
  Proof using All.
    intros Fx Fy He Hg Rx Ry B. destruct (mult_ok prec emax _ _ prec_ok emax_ok x y Fx Fy (proj2 B)) as [F V]. split; [exact F|]. rewrite V.
    pose proof (rnd_normal prec emax _ prec_ok emax_ok _ (proj1 B)) as R1. pose proof (rel_mult (B2R x) v e (B2R y) w g ltac:(lra) ltac:(lra) Rx Ry) as R2.
    apply rel_le with (1.00001 * (u + 1.00001 * (e + g))); [apply (rel_trans _ (B2R x * B2R y)); [lra|lra|exact R1|exact R2]|lra].
  Qed.
  Lemma div_rel (x y : float) v w e g : is_finite x = true -> B2R y <> 0 -> w <> 0 -> 0 <= e <= 0.000001 -> 0 <= g <= 0.000001 ->
    rel (B2R x) v e -> rel (B2R y) w g -> tiny <= Rabs (B2R x / B2R y) <= big -> is_finite (x /! y) = true /\ rel (B2R (x /! y)) (v / w) (1.0001 * (u + e + g)).
  Proof using All.
    intros Fx Ny Nw He Hg Rx Ry B. destruct (div_ok prec emax _ _ prec_ok emax_ok x y Fx Ny (proj2 B)) as [F V]. split; [exact F|]. rewrite V.
    pose proof (rnd_normal prec emax _ prec_ok emax_ok _ (proj1 B)) as R1. pose proof (rel_mult (B2R x) v e (/ B2R y) (/ w) (1.00002 * g) ltac:(lra) ltac:(lra) Rx (rel_inv (B2R y) w g ltac:(lra) Nw Ry)) as R2.
    apply rel_le with (1.00001 * (u + 1.00001 * (e + 1.00002 * g))); [apply (rel_trans _ (B2R x / B2R y)); [lra|lra|exact R1|exact R2]|lra].
  Qed.
  Lemma two_int i : (0 <= i <= 1000)%Z -> is_finite (of_Z 2 *! of_Z i) = true /\ B2R (of_Z 2 *! of_Z i) = IZR (2 * i).
  Proof using All.
    intros I. destruct (int_ok prec emax _ _ prec_ok emax_ok 2 ltac:(lia)) as [F2 V2]. destruct (int_ok prec emax _ _ prec_ok emax_ok i ltac:(lia)) as [Fi Vi]. destruct (int_ok prec emax _ _ prec_ok emax_ok (2 * i) ltac:(lia)) as [Fn Vn].
    rewrite <- Vn. apply mult_exact; try assumption. rewrite V2, Vi, Vn, <- mult_IZR. reflexivity.
  Qed.
  Lemma two_int_one i : (0 <= i <= 1000)%Z -> is_finite (of_Z 2 *! of_Z i +. Bone) = true /\ B2R (of_Z 2 *! of_Z i +. Bone) = IZR (2 * i + 1).
  Proof using All.
    intros I. destruct (two_int i I) as [F V]. destruct (one_ok prec emax _ _) as [Fo Vo]. destruct (int_ok prec emax _ _ prec_ok emax_ok (2 * i + 1) ltac:(lia)) as [Fn Vn].
    rewrite <- Vn. apply plus_exact; try assumption. rewrite V, Vo, Vn, <- plus_IZR. reflexivity.
  Qed.

  Variable x : float.
  Notation X := (B2R x).
  Hypothesis x_fin : is_finite x = true.
  Hypothesis x_range : bpow radix2 (-400) <= X <= 0.268.

  Lemma x_sq_range : bpow radix2 (-800) <= X * X <= 0.071824.
  Proof using All.
    assert (0 < bpow radix2 (-400)) by apply bpow_gt_0. split; [change (-800)%Z with (-400 + -400)%Z; rewrite bpow_plus; apply Rmult_le_compat; lra|].
    apply Rle_trans with (0.268 * 0.268); [apply Rmult_le_compat; lra|lra].
  Qed.
  Lemma tiny_800 : 1000000 * tiny <= bpow radix2 (-800) /\ 0 < bpow radix2 (-800).
  Proof using All.
    split; [|apply bpow_gt_0]. apply Rle_trans with (bpow radix2 20 * tiny); [apply Rmult_le_compat_r; [apply bpow_ge_0|cbn; lra]|]. rewrite <- bpow_plus. apply bpow_le. lia.
  Qed.
  Lemma yy_small : 0 < yy X <= 0.0671.
  Proof using All.
    pose proof x_sq_range as S. pose proof tiny_800 as [_ T]. unfold yy. split; [apply Rdiv_lt_0_compat; lra|].
    apply Rmult_le_reg_r with (1 + X * X); [lra|]. unfold Rdiv. rewrite Rmult_assoc, Rinv_l by lra. lra.
  Qed.
  Lemma Ta_pow k : Ta k X <= (/ 14) ^ k.
  Proof using All.
    induction k as [|k IH]; [cbn; lra|]. cbn [Ta]. rewrite <- tech_pow_Rmult, Rmult_comm. pose proof (qa_range k X) as Q. pose proof yy_small. apply Rmult_le_compat; [apply Q|apply Ta_nonneg|lra|exact IH].
  Qed.
  Lemma Ta_eighth k : Ta (S k) X <= 4 / 7 * (/ 8) ^ S k.
  Proof using All.
    pose proof yy_small as Y. induction k as [|k IH].
    - cbn [Ta]. pose proof (qa_range 0 X) as Q. cbn. lra.
    - change (Ta (S (S k)) X) with (Ta (S k) X * qa (S k) X). rewrite <- tech_pow_Rmult. pose proof (qa_range (S k) X) as Q.
      apply Rle_trans with (4 / 7 * (/ 8) ^ S k * (/ 8)); [|lra]. apply Rmult_le_compat; [apply Ta_nonneg|apply Q|exact IH|lra].
  Qed.
  Lemma Sa_high n : Sa n X <= 1.09 - 0.09 * (/ 8) ^ n.
  Proof using All.
    pose proof yy_small as Y. induction n as [|n IH]; [cbn; lra|]. cbn [Sa]. pose proof (Ta_eighth n) as T. rewrite <- tech_pow_Rmult in T. rewrite <- tech_pow_Rmult. assert (0 <= (/ 8) ^ n) by (apply pow_le; lra). lra.
  Qed.

  Notation xs := (x *! x).
  Lemma xs_ok : is_finite xs = true /\ rel (B2R xs) (X * X) (1.0001 * u).
  Proof using All.
    pose proof x_sq_range as S. pose proof tiny_800. pose proof big_big. pose proof tiny_small.
    destruct (mult_rel x x X X 0 0 x_fin x_fin ltac:(lra) ltac:(lra) (rel_refl X 0 (Rle_refl 0)) (rel_refl X 0 (Rle_refl 0))) as [F R]; [rewrite Rabs_pos_eq by lra; lra|].
    split; [exact F|]. apply rel_le with (1 := R). lra.
  Qed.
  Lemma one_xs : is_finite (xs +. Bone) = true /\ rel (B2R (xs +. Bone)) (X * X + 1) (1.08 * u) /\ is_finite (Bone +. xs) = true /\ B2R (Bone +. xs) = B2R (xs +. Bone).
  Proof using All.
    destruct xs_ok as [F R]. destruct (one_ok prec emax _ _) as [Fo Vo]. pose proof x_sq_range as S. pose proof tiny_800 as [_ T]. pose proof big_big as G. pose proof tiny_small as Tn.
    pose proof (rel_pos _ _ _ R ltac:(lra) ltac:(lra)) as B. pose proof (rel_dist _ _ _ R) as D. rewrite (Rabs_pos_eq (X * X)) in D by lra.
    destruct (plus_ok prec emax _ _ prec_ok emax_ok xs Bone F Fo) as [Fp Vp]. { rewrite Vo, Rabs_pos_eq by lra. lra. }
    destruct (plus_ok prec emax _ _ prec_ok emax_ok Bone xs Fo F) as [Fq Vq]. { rewrite Vo, Rabs_pos_eq by lra. lra. }
    split; [exact Fp|]. split; [|split; [exact Fq|rewrite Vp, Vq; f_equal; ring]]. rewrite Vp, Vo.
    pose proof (rnd_normal prec emax _ prec_ok emax_ok (B2R xs + 1) ltac:(rewrite Rabs_pos_eq by lra; lra)) as R1.
    apply rel_le with (1.00001 * (u + 0.072 * u)); [|lra]. apply rel_trans with (B2R xs + 1); [lra|lra|exact R1|]. apply rel_abs; [lra|].
    replace (B2R xs + 1 - (X * X + 1)) with (B2R xs - X * X) by ring. apply Rle_trans with (1 := D). rewrite Rabs_pos_eq by lra.
    assert (1.0001 * u * (X * X) <= 1.0001 * u * 0.071824) by (apply Rmult_le_compat_l; lra). assert (0.072 * u * 1 <= 0.072 * u * (X * X + 1)) by (apply Rmult_le_compat_l; lra). lra.
  Qed.

  (** The quotient of consecutive summands *)
  Definition quot (i : Z) : float := (of_Z 2 *! of_Z i *! xs) /! ((of_Z 2 *! of_Z i +. Bone) *! (xs +. Bone)).
  Lemma quot_ok k : (k <= 200)%nat -> is_finite (quot (Z.of_nat k + 1)) = true /\ rel (B2R (quot (Z.of_nat k + 1))) (qa k X) (5.2 * u) /\ 0 < B2R (quot (Z.of_nat k + 1)) <= 0.0672.
  Proof using All.
    intros K. set (i := (Z.of_nat k + 1)%Z). assert (I : (1 <= i <= 1000)%Z) by (unfold i; lia). assert (Ir : 1 <= IZR i <= 1000) by (split; apply IZR_le; lia).
    destruct (two_int i ltac:(lia)) as [F1 V1]. destruct (two_int_one i ltac:(lia)) as [F2 V2]. destruct xs_ok as [Fx Rx]. destruct one_xs as (Fo & Ro & _).
    rewrite mult_IZR in V1. rewrite plus_IZR, mult_IZR in V2. pose proof x_sq_range as S. pose proof tiny_800 as [T1 T]. pose proof big_big as G. pose proof tiny_small as Tn.
    pose proof (rel_pos _ _ _ Rx ltac:(lra) ltac:(lra)) as B. pose proof (rel_pos _ _ _ Ro ltac:(lra) ltac:(lra)) as Bo.
    assert (xr : 0.9999 * bpow radix2 (-800) <= B2R xs <= 0.072) by lra.
    assert (P1 : 2 * (0.9999 * bpow radix2 (-800)) <= 2 * IZR i * B2R xs <= 2000 * 0.072) by (split; apply Rmult_le_compat; lra).
    destruct (mult_rel (of_Z 2 *! of_Z i) xs (2 * IZR i) (X * X) 0 (1.0001 * u) F1 Fx ltac:(lra) ltac:(lra) ltac:(rewrite V1; apply rel_refl; lra) Rx) as [F3 R3].
    { rewrite V1, Rabs_pos_eq by lra. lra. }
    assert (P3 : 3 * 0.999 <= (2 * IZR i + 1) * B2R (xs +. Bone) <= 2001 * 1.1) by (split; apply Rmult_le_compat; lra).
    destruct (mult_rel (of_Z 2 *! of_Z i +. Bone) (xs +. Bone) (2 * IZR i + 1) (X * X + 1) 0 (1.08 * u) F2 Fo ltac:(lra) ltac:(lra) ltac:(rewrite V2; apply rel_refl; lra) Ro) as [F4 R4].
    { rewrite V2, Rabs_pos_eq by lra. lra. }
    assert (N1 : 0 < 2 * IZR i * (X * X)) by (apply Rmult_lt_0_compat; lra). assert (N2 : 3 * 1 <= (2 * IZR i + 1) * (X * X + 1) <= 2001 * 1.1) by (split; apply Rmult_le_compat; lra).
    pose proof (rel_pos _ _ _ R3 ltac:(lra) N1) as B3. pose proof (rel_pos _ _ _ R4 ltac:(lra) ltac:(lra)) as B4.
    set (a := of_Z 2 *! of_Z i *! xs) in *. set (d := (of_Z 2 *! of_Z i +. Bone) *! (xs +. Bone)) in *.
    assert (I4 : / 5000 <= / B2R d <= 1). { split; [apply Rinv_le_contravar; lra|]. apply Rle_trans with (/ 1); [apply Rinv_le_contravar; lra|lra]. }
    assert (A1 : 2 * bpow radix2 (-800) <= 2 * IZR i * (X * X) <= 2000 * 0.072) by (split; apply Rmult_le_compat; lra).
    assert (A2 : 2 * 0.9 * bpow radix2 (-800) <= B2R a <= 2000) by lra.
    destruct (div_rel a d (2 * IZR i * (X * X)) ((2 * IZR i + 1) * (X * X + 1)) (1.0001 * (u + 0 + 1.0001 * u)) (1.0001 * (u + 0 + 1.08 * u)) F3 ltac:(lra) ltac:(lra) ltac:(lra) ltac:(lra) R3 R4) as [F5 R5].
    { rewrite Rabs_pos_eq by (apply Rmult_le_pos; lra). split.
      - apply Rle_trans with (2 * 0.9 * bpow radix2 (-800) * / 5000); [lra|]. apply Rmult_le_compat; lra.
      - apply Rle_trans with (2000 * 1); [apply Rmult_le_compat; lra|lra]. }
    assert (Q : 2 * IZR i * (X * X) / ((2 * IZR i + 1) * (X * X + 1)) = qa k X). { unfold qa. rewrite INR_succ_IZR. reflexivity. }
    rewrite Q in R5. split; [exact F5|]. split; [apply rel_le with (1 := R5); lra|]. fold i. change (quot i) with (a /! d).
    pose proof (qa_range k X) as Qr. pose proof yy_small as Y. assert (Q0 : 0 < qa k X) by (rewrite <- Q; apply Rdiv_lt_0_compat; lra).
    pose proof (rel_pos _ _ _ R5 ltac:(lra) Q0). lra.
  Qed.

  (** One pass *)
  Definition inv (k : nat) (t s : float) : Prop :=
    is_finite t = true /\ is_finite s = true /\ Rabs (B2R t - Ta k X) <= 8 * u * (/ 8) ^ k /\ Rabs (B2R s - Sa k X) <= (1.1 * INR k + 8 / 7 * (1 - (/ 8) ^ k)) * u.
  Lemma pow8 k : (k <= 40)%nat -> bpow radix2 (-120) <= (/ 8) ^ k <= 1.
  Proof using All.
    intros K. rewrite pow_inv. change 8 with (bpow radix2 3).
    assert (E : forall k, (bpow radix2 3) ^ k = bpow radix2 (3 * Z.of_nat k)).
    { clear. induction k as [|k IH]; [reflexivity|]. rewrite <- tech_pow_Rmult, IH, <- bpow_plus. f_equal. lia. }
    rewrite E, <- bpow_opp. split; [apply bpow_le; lia|]. change 1 with (bpow radix2 0). apply bpow_le. lia.
  Qed.
  Lemma pass k (t s : float) : (k <= 30)%nat -> inv k t s ->
    let t' := t *! quot (Z.of_nat k + 1) in let s' := s +. t' in inv (S k) t' s' /\ B2R s' = rnd (B2R s + B2R t') /\ 0.99 <= B2R s <= 1.1 /\ -0.01 <= B2R t' <= 0.1.
  Proof using All.
    intros K (Ft & Fs & Ht & Hs). destruct (quot_ok k ltac:(lia)) as (Fq & Rq & Bq). set (Q := quot (Z.of_nat k + 1)) in *. intros t' s'.
    pose proof (Ta_nonneg k X) as T0. pose proof (Ta_pow k) as T1. assert (T2 : (/ 14) ^ k <= 1). { rewrite <- (pow1 k). apply pow_incr. lra. }
    pose proof (pow8 k ltac:(lia)) as P8. pose proof (bpow_gt_0 radix2 (-120)) as B120. assert (U8 : 8 * u * (/ 8) ^ k <= 8 * u * 1) by (apply Rmult_le_compat_l; lra). assert (U80 : 0 <= 8 * u * (/ 8) ^ k) by (apply Rmult_le_pos; lra).
    apply Rabs_le_inv in Ht as Ht'. pose proof big_big as G. pose proof (qa_range k X) as Qr. pose proof yy_small as Y.
    assert (Kr : 0 <= INR k <= 30). { split; [apply pos_INR|]. replace 30 with (INR 30) by (rewrite INR_IZR_INZ; reflexivity). now apply le_INR. }
    assert (Tq : Rabs (B2R t * B2R Q) <= 0.0673). { rewrite Rabs_mult, (Rabs_pos_eq (B2R Q)) by lra. apply Rle_trans with (1.001 * 0.0672); [apply Rmult_le_compat; try apply Rabs_pos; try lra; apply Rabs_le; lra|lra]. }
    destruct (mult_ok prec emax _ _ prec_ok emax_ok t Q Ft Fq ltac:(lra)) as [F' V'].
    destruct (rnd_any prec emax _ (B2R t * B2R Q)) as (d & ee & Hd & He & Er).
    pose proof (rel_dist _ _ _ Rq) as Dq. rewrite (Rabs_pos_eq (qa k X)) in Dq by lra.
    assert (Tn : Ta (S k) X <= 4 / 7 * (/ 8) ^ S k) by apply Ta_eighth. rewrite <- tech_pow_Rmult in Tn.
    assert (N : Rabs (B2R t' - Ta (S k) X) <= 8 * u * (/ 8) ^ S k).
    { unfold t'. rewrite V', Er. cbn [Ta].
      replace (B2R t * B2R Q * (1 + d) + ee - Ta k X * qa k X) with ((B2R t - Ta k X) * B2R Q + (Ta k X * (B2R Q - qa k X) + (B2R t * B2R Q * d + ee))) by ring.
      assert (A1 : Rabs ((B2R t - Ta k X) * B2R Q) <= 8 * u * (/ 8) ^ k * 0.0672). { rewrite Rabs_mult, (Rabs_pos_eq (B2R Q)) by lra. apply Rmult_le_compat; try apply Rabs_pos; lra. }
      assert (A2 : Rabs (Ta k X * (B2R Q - qa k X)) <= 5.2 * u * Ta (S k) X). { rewrite Rabs_mult, (Rabs_pos_eq (Ta k X)) by lra. cbn [Ta]. replace (5.2 * u * (Ta k X * qa k X)) with (Ta k X * (5.2 * u * qa k X)) by ring. apply Rmult_le_compat_l; lra. }
      assert (A3 : Rabs (B2R t * B2R Q) <= 1.001 * Ta (S k) X + 8 * u * (/ 8) ^ k * 0.0672).
      { replace (B2R t * B2R Q) with ((B2R t - Ta k X) * B2R Q + Ta k X * B2R Q) by ring. apply Rle_trans with (1 := Rabs_triang _ _).
        assert (Rabs (Ta k X * B2R Q) <= 1.001 * Ta (S k) X); [|lra]. rewrite Rabs_pos_eq by (apply Rmult_le_pos; lra). cbn [Ta]. replace (1.001 * (Ta k X * qa k X)) with (Ta k X * (1.001 * qa k X)) by ring. apply Rmult_le_compat_l; [lra|].
        apply Rabs_le_inv in Dq. assert (5.2 * u * qa k X <= 0.001 * qa k X) by (apply Rmult_le_compat_r; lra). lra. }
      assert (Tp : 0 <= Ta (S k) X) by apply Ta_nonneg.
      assert (A4 : Rabs (B2R t * B2R Q * d) <= 0.001 * (8 * u * (/ 8) ^ k * 0.0672) + 1.001 * (u * Ta (S k) X)).
      { rewrite Rabs_mult. apply Rle_trans with ((1.001 * Ta (S k) X + 8 * u * (/ 8) ^ k * 0.0672) * u); [apply Rmult_le_compat; try apply Rabs_pos; assumption|].
        assert (8 * u * (/ 8) ^ k * 0.0672 * u <= 8 * u * (/ 8) ^ k * 0.0672 * 0.001) by (apply Rmult_le_compat_l; lra). lra. }
      assert (A5 : Rabs ee <= 0.0001 * (u * (/ 8) ^ k)).
      { apply Rle_trans with (1 := He). apply Rle_trans with (1 := eta_tiny). apply Rle_trans with (u * (0.0001 * (/ 8) ^ k)); [|lra]. apply Rmult_le_compat_l; [lra|].
        apply Rle_trans with (bpow radix2 (-20) * bpow radix2 (-120)); [rewrite <- bpow_plus; apply bpow_le; lia|]. apply Rmult_le_compat; try apply bpow_ge_0; [cbn; lra|lra]. }
      assert (A6 : u * Ta (S k) X <= u * (4 / 7 * (/ 8 * (/ 8) ^ k))) by (apply Rmult_le_compat_l; lra).
      eapply Rle_trans; [apply Rabs_triang|]. eapply Rle_trans; [apply Rplus_le_compat_l, Rabs_triang|]. eapply Rle_trans; [apply Rplus_le_compat_l, Rplus_le_compat_l, Rabs_triang|].
      rewrite <- tech_pow_Rmult. set (h := (/ 8) ^ k) in *. set (uh := u * h). assert (0 <= uh) by (apply Rmult_le_pos; lra).
      replace (8 * u * h) with (8 * uh) in * by (unfold uh; ring). replace (u * (4 / 7 * (/ 8 * h))) with (4 / 7 * / 8 * uh) in A6 by (unfold uh; ring). replace (8 * u * (/ 8 * h)) with uh by (unfold uh; field).
      replace (u * h) with uh in A5 by reflexivity. lra. }
    assert (Bt : -0.01 <= B2R t' <= 0.1). { assert (8 * u * (/ 8) ^ S k <= 8 * u * 1) by (apply Rmult_le_compat_l; [lra|rewrite <- tech_pow_Rmult; lra]). pose proof (Ta_nonneg (S k) X). apply Rabs_le_inv in N. lra. }
    pose proof (Sa_high k) as S1. pose proof (Sa_low k X) as S0.
    assert (Us : (1.1 * INR k + 8 / 7 * (1 - (/ 8) ^ k)) * u <= 40 * u) by (apply Rmult_le_compat_r; lra).
    apply Rabs_le_inv in Hs as Hs'. assert (Bs : 0.99 <= B2R s <= 1.1) by lra.
    destruct (plus_ok prec emax _ _ prec_ok emax_ok s t' Fs F' ltac:(rewrite Rabs_pos_eq by lra; lra)) as [F'' V''].
    split; [|split; [exact V''|split; [exact Bs|exact Bt]]]. split; [exact F'|]. split; [exact F''|]. split; [exact N|].
    unfold s'. rewrite V''. destruct (rnd_any prec emax _ (B2R s + B2R t')) as (d2 & e2 & Hd2 & He2 & Er2). rewrite Er2. cbn [Sa]. change (Ta k X * qa k X) with (Ta (S k) X).
    replace ((B2R s + B2R t') * (1 + d2) + e2 - (Sa k X + Ta (S k) X)) with ((B2R s - Sa k X) + ((B2R t' - Ta (S k) X) + ((B2R s + B2R t') * d2 + e2))) by ring.
    assert (B3 : B2R s + B2R t' <= 1.0995). { pose proof (Sa_high (S k)) as S3. cbn [Sa] in S3. apply Rabs_le_inv in N. assert (8 * u * (/ 8) ^ S k <= 8 * u * 1) by (apply Rmult_le_compat_l; [lra|rewrite <- tech_pow_Rmult; lra]). assert (0 <= (/ 8) ^ S k) by (apply pow_le; lra). cbn [Ta] in *. lra. }
    assert (A7 : Rabs ((B2R s + B2R t') * d2) <= 1.0995 * u). { rewrite Rabs_mult. apply Rmult_le_compat; try apply Rabs_pos; [rewrite Rabs_pos_eq by lra; lra|exact Hd2]. }
    pose proof eta_u3 as Eu. eapply Rle_trans; [apply Rabs_triang|]. eapply Rle_trans; [apply Rplus_le_compat_l, Rabs_triang|]. eapply Rle_trans; [apply Rplus_le_compat_l, Rplus_le_compat_l, Rabs_triang|].
    rewrite S_INR. rewrite <- tech_pow_Rmult in *. set (h := (/ 8) ^ k) in *. set (uh := u * h) in *.
    replace ((1.1 * INR k + 8 / 7 * (1 - h)) * u) with (1.1 * INR k * u + 8 / 7 * u - 8 / 7 * uh) in Hs by (unfold uh; ring).
    replace ((1.1 * (INR k + 1) + 8 / 7 * (1 - / 8 * h)) * u) with (1.1 * INR k * u + 1.1 * u + 8 / 7 * u - 8 / 7 * / 8 * uh) by (unfold uh; ring).
    replace (8 * u * (/ 8 * h)) with uh in N by (unfold uh; field). lra.
  Qed.

  Definition ideal : R := atan X * (1 + X * X) / X.
  Lemma ideal_tail n : 0 <= ideal - Sa n X <= Ta n X * (X * X).
  Proof using All.
    assert (0 < bpow radix2 (-400)) by apply bpow_gt_0. pose proof (sq_pos X) as P. pose proof (atan_series_bound n X ltac:(lra)) as [L H2].
    assert (I : 0 < (1 + X * X) / X) by (apply Rdiv_lt_0_compat; lra).
    replace (ideal - Sa n X) with ((atan X - X / (1 + X * X) * Sa n X) * ((1 + X * X) / X)) by (unfold ideal; field; lra).
    replace (Ta n X * (X * X)) with (X * Ta n X * yy X * ((1 + X * X) / X)) by (unfold yy; field; lra).
    split; [apply Rmult_le_pos; lra|apply Rmult_le_compat_r; lra].
  Qed.
  Lemma pow14 : (/ 14) ^ 31 <= u / 12.
  Proof using All.
    assert (U : bpow radix2 (-113) <= u) by (apply bpow_le; lia). apply Rle_trans with (bpow radix2 (-113) / 12); [|lra].
    apply Rmult_le_reg_r with (12 * IZR (14 ^ 31)); [apply Rmult_lt_0_compat; [lra|now apply IZR_lt]|].
    replace ((/ 14) ^ 31 * (12 * IZR (14 ^ 31))) with 12. 2:{ change (14 ^ 31)%Z with (14 ^ Z.of_nat 31)%Z. rewrite <- pow_IZR, pow_inv. rewrite Rmult_comm, Rmult_assoc, Rinv_r by (apply pow_nonzero; lra). ring. }
    change (-113)%Z with (Z.opp 113). rewrite bpow_opp. replace (/ bpow radix2 113 / 12 * (12 * IZR (14 ^ 31))) with (IZR (14 ^ 31) / bpow radix2 113) by (field; apply Rgt_not_eq, bpow_gt_0).
    apply Rmult_le_reg_r with (bpow radix2 113); [apply bpow_gt_0|]. unfold Rdiv. rewrite Rmult_assoc, Rinv_l, Rmult_1_r by (apply Rgt_not_eq, bpow_gt_0).
    rewrite <- (IZR_Zpower radix2) by lia. rewrite <- mult_IZR. apply IZR_le. now vm_compute.
  Qed.
  Lemma loop_ok n : forall k t s, (k <= 30)%nat -> (n + k = 100)%nat -> inv k t s ->
    let v := atan_loop prec emax _ _ n (Z.of_nat k + 1) xs t s in is_finite v = true /\ Rabs (B2R v - ideal) <= 35.5 * u.
  Proof using All.
    induction n as [|n IH]; intros k t s K N I; [lia|]. cbn [atan_loop]. cbv zeta. fold (quot (Z.of_nat k + 1)).
    destruct (pass k t s K I) as ((Ft & Fs & Ht & Hs) & V & Bs & Bt). set (t' := t *! quot (Z.of_nat k + 1)) in *. set (s' := s +. t') in *.
    rewrite Beqb_correct by (assumption || apply I). destruct (Req_bool_spec (B2R s') (B2R s)) as [Eq|Ne].
    - split; [exact Fs|]. pose proof (ideal_tail (S k)) as Ti. pose proof x_sq_range as Sq.
      assert (T1 : Rabs (B2R t') <= 1.3 * u).
      { replace (B2R t') with (- (rnd (B2R s + B2R t') - (B2R s + B2R t'))) by (rewrite <- V, Eq; ring). rewrite Rabs_Ropp.
        destruct (rnd_any prec emax _ (B2R s + B2R t')) as (d & e & Hd & He & ->). replace ((B2R s + B2R t') * (1 + d) + e - (B2R s + B2R t')) with ((B2R s + B2R t') * d + e) by ring.
        apply Rle_trans with (1 := Rabs_triang _ _). rewrite Rabs_mult, (Rabs_pos_eq (B2R s + B2R t')) by lra. pose proof eta_u3. assert ((B2R s + B2R t') * Rabs d <= 1.2 * u) by (apply Rmult_le_compat; try apply Rabs_pos; lra). lra. }
      assert (P8 : 0 <= (/ 8) ^ S k <= / 8). { rewrite <- tech_pow_Rmult. pose proof (pow8 k ltac:(lia)) as P. pose proof (bpow_gt_0 radix2 (-120)). lra. }
      assert (M1 : 8 * u * (/ 8) ^ S k <= 8 * u * / 8) by (apply Rmult_le_compat_l; lra).
      assert (T2 : Ta (S k) X <= 2.3 * u). { apply Rabs_le_inv in Ht. apply Rabs_le_inv in T1. lra. }
      assert (T3 : Ta (S k) X * (X * X) <= 2.3 * u * 0.071824) by (apply Rmult_le_compat; [apply Ta_nonneg|pose proof tiny_800; lra|exact T2|lra]).
      assert (Kr : INR (S k) <= 31). { replace 31 with (INR 31) by (rewrite INR_IZR_INZ; reflexivity). apply le_INR. lia. }
      assert (M2 : (1.1 * INR (S k) + 8 / 7 * (1 - (/ 8) ^ S k)) * u <= (1.1 * 31 + 8 / 7) * u) by (apply Rmult_le_compat_r; lra).
      apply Rabs_le_inv in Hs. apply Rabs_le. lra.
    - destruct (Nat.eq_dec k 30) as [->|Nk].
      + exfalso. apply Ne. rewrite V. destruct I as (_ & Fs0 & _). apply (absorb prec emax _ prec_ok emax_ok); [apply generic_format_B2R|].
        assert (P8 : (/ 8) ^ 31 <= 0.0001). { change 31%nat with (5 + 26)%nat. rewrite pow_add. apply Rle_trans with ((/ 8) ^ 5 * 1); [apply Rmult_le_compat_l; [apply pow_le; lra|]|cbn; lra]. rewrite <- (pow1 26). apply pow_incr. lra. }
        assert (M1 : 8 * u * (/ 8) ^ 31 <= 8 * u * 0.0001) by (apply Rmult_le_compat_l; lra).
        pose proof (Ta_pow 31) as T. pose proof pow14 as Q. pose proof (Ta_nonneg 31 X) as T0. apply Rabs_le_inv in Ht. rewrite (Rabs_pos_eq (B2R s)) by lra.
        apply Rle_trans with (0.19 * u); [apply Rabs_le; lra|]. assert (u / 5 * 0.99 <= u / 5 * B2R s) by (apply Rmult_le_compat_l; lra). lra.
      + replace (Z.of_nat k + 1 + 1)%Z with (Z.of_nat (S k) + 1)%Z by lia. apply IH; [lia|lia|]. now repeat split.
  Qed.
  Lemma inv_0 : inv 0 Bone Bone.
  Proof using All. destruct (one_ok prec emax _ _) as [F V]. repeat split; try exact F; rewrite V; cbn [Ta Sa INR pow]; rewrite Rminus_diag_eq, Rabs_R0 by reflexivity; pose proof (u_pos prec); lra. Qed.

  Lemma ideal_range : 1 <= ideal <= 1.1.
  Proof using All.
    pose proof (ideal_tail 0) as T. cbn [Sa Ta] in T. pose proof x_sq_range. lra.
  Qed.
  Lemma atan_series_big : let v := atan_series prec emax _ _ x in is_finite v = true /\ rel (B2R v) (atan X) (40 * u).
  Proof using All.
    unfold atan_series. cbv zeta. destruct (loop_ok 100 0 Bone Bone ltac:(lia) ltac:(lia) inv_0) as [Fl Vl]. cbn [Z.of_nat Z.add] in Fl, Vl. set (l := atan_loop prec emax _ _ 100 1 xs Bone Bone) in *.
    destruct one_xs as (_ & Ro & Fo & Eo). rewrite <- Eo in Ro. assert (X0 : 0 < bpow radix2 (-400)) by apply bpow_gt_0. pose proof x_sq_range as Sq. pose proof tiny_800 as T8. pose proof big_big as G. pose proof tiny_small as Tn.
    pose proof (rel_pos _ _ _ Ro ltac:(lra) ltac:(lra)) as Bo. assert (X4 : 1000000 * tiny <= bpow radix2 (-400)). { apply Rle_trans with (1 := proj1 T8). apply bpow_le. lia. }
    assert (Io : 0.9 <= / B2R (Bone +. xs) <= 1.1). { split; [apply Rle_trans with (/ 1.1); [lra|apply Rinv_le_contravar; lra]|apply Rle_trans with (/ 0.999); [apply Rinv_le_contravar; lra|lra]]. }
    destruct (div_rel x (Bone +. xs) X (X * X + 1) 0 (1.08 * u) x_fin) as [Fm Rm]; [lra|lra|lra|lra|exact (rel_refl X 0 (Rle_refl 0))|exact Ro| |].
    { unfold Rdiv. rewrite Rabs_mult, (Rabs_pos_eq X), (Rabs_pos_eq (/ _)) by lra. split.
      - apply Rle_trans with (bpow radix2 (-400) * 0.9); [lra|apply Rmult_le_compat; lra].
      - apply Rle_trans with (0.268 * 1.1); [apply Rmult_le_compat; lra|lra]. }
    set (m := x /! (Bone +. xs)) in *. pose proof ideal_range as Ir.
    assert (Rl : rel (B2R l) ideal (35.5 * u)). { apply rel_abs; [lra|]. apply Rle_trans with (1 := Vl). rewrite Rabs_pos_eq by lra. assert (35.5 * u * 1 <= 35.5 * u * ideal) by (apply Rmult_le_compat_l; lra). lra. }
    assert (Q0 : 0.9 * X <= X / (X * X + 1) <= X). { assert (0.9 <= / (X * X + 1) <= 1). { split; [apply Rle_trans with (/ 1.1); [lra|apply Rinv_le_contravar; lra]|apply Rle_trans with (/ 1); [apply Rinv_le_contravar; lra|lra]]. }
      unfold Rdiv. split; [rewrite Rmult_comm; apply Rmult_le_compat_l; lra|apply Rle_trans with (X * 1); [apply Rmult_le_compat_l; lra|lra]]. }
    pose proof (rel_pos _ _ _ Rl ltac:(lra) ltac:(lra)) as Bl. pose proof (rel_pos _ _ _ Rm ltac:(lra) ltac:(lra)) as Bm.
    assert (Pm : 0.8 * X <= B2R l * B2R m <= 1). { split; [apply Rle_trans with (0.9999 * (0.9999 * (0.9 * X))); [lra|apply Rmult_le_compat; lra]|]. apply Rle_trans with (1.2 * 0.3); [apply Rmult_le_compat; lra|lra]. }
    destruct (mult_rel l m ideal (X / (X * X + 1)) (35.5 * u) (1.0001 * (u + 0 + 1.08 * u)) Fl Fm ltac:(lra) ltac:(lra) Rl Rm) as [F R].
    { rewrite Rabs_pos_eq by lra. lra. }
    split; [exact F|]. replace (ideal * (X / (X * X + 1))) with (atan X) in R by (unfold ideal; field; lra). apply rel_le with (1 := R). lra.
  Qed.
End AtanLoop.
