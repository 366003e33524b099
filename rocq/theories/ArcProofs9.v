(** The compile-time arc sine and arc cosine in the three formats of long double, and in the narrower types. *)
From Coq Require Import ZArith Bool List Reals Lra Lia.
From Flocq Require Import Core BinarySingleNaN Relative.
From Verif Require Import FpModel FpProofs FpProofs2 SqrtModel SqrtProps SqrtProofs4 TrigSpec TrigProofs2 TrigProofs3 TrigProofs4 TrigProofs5 TrigProofs7 TrigProofs8 ArcModel ArcSpec ArcProofs ArcProofs2 ArcProofs3 ArcProofs4 ArcProofs5 ArcProofs7 ArcProofs8.
Import ListNotations.
Local Open Scope R_scope.

Definition four : list Z := (1 :: 2 :: 3 :: 4 :: nil)%Z.
Lemma next53 : forallb (next_ok 53 1024 p53 e1024 arc53) four = true.
Proof. vm_compute. reflexivity. Qed.
Lemma next64 : forallb (next_ok 64 16384 p64 e16384 arc64) four = true.
Proof. vm_compute. reflexivity. Qed.
Lemma next113 : forallb (next_ok 113 16384 p113 e113 arc113) four = true.
Proof. vm_compute. reflexivity. Qed.
Lemma next_same p e Hp He (c c' : arc_constants p e) : arc_one_over_sqrt_two c = arc_one_over_sqrt_two c' -> forallb (next_ok p e Hp He c) four = forallb (next_ok p e Hp He c') four.
Proof. intros E. unfold next_ok, next. rewrite E. reflexivity. Qed.
Lemma root_unique p e (c c' : arc_constants p e) : right_arc_constants p e c -> right_arc_constants p e c' -> B2R (arc_one_over_sqrt_two c') <> 0 -> arc_one_over_sqrt_two c = arc_one_over_sqrt_two c'.
Proof. intros A B. exact (right_unique p e _ _ _ (arc_one_over_sqrt_two_right _ _ _ A) (arc_one_over_sqrt_two_right _ _ _ B)). Qed.
Lemma legs53 c : right_arc_constants 53 1024 c -> forallb (next_ok 53 1024 p53 e1024 c) four = true.
Proof. intros C. rewrite (next_same _ _ _ _ c arc53); [exact next53|]. exact (root_unique 53 1024 c arc53 C (arc_right53 _ arc53_taken) (Rgt_not_eq _ _ (num_pos _ _ _))). Qed.
Lemma legs64 c : right_arc_constants 64 16384 c -> forallb (next_ok 64 16384 p64 e16384 c) four = true.
Proof. intros C. rewrite (next_same _ _ _ _ c arc64); [exact next64|]. exact (root_unique 64 16384 c arc64 C (arc_right64 _ arc64_taken) (Rgt_not_eq _ _ (num_pos _ _ _))). Qed.
Lemma legs113 c : right_arc_constants 113 16384 c -> forallb (next_ok 113 16384 p113 e113 c) four = true.
Proof. intros C. rewrite (next_same _ _ _ _ c arc113); [exact next113|]. exact (root_unique 113 16384 c arc113 C (arc_right113 _ arc113_taken) (Rgt_not_eq _ _ (num_pos _ _ _))). Qed.

Section Both.
  Variable prec emax : Z.
  Context (prec_gt_0_ : Prec_gt_0 prec).
  Context (prec_lt_emax_ : Prec_lt_emax prec emax).
  Notation float := (binary_float prec emax).
  Notation u := (bpow radix2 (- prec)).
  Hypothesis prec_ok : (53 <= prec <= 113)%Z.
  Hypothesis emax_ok : (1024 <= emax)%Z.
  Variable c : arc_constants prec emax.
  Hypothesis c_ok : right_arc_constants prec emax c.
  Hypothesis legs : forallb (next_ok prec emax _ _ c) four = true.
  Notation arcsin := (asin_naive prec emax _ _ c).
  Notation arccos := (acos_naive prec emax _ _ c).
  Notation good := (good prec emax).
  Notation T := (B2R (arc_one_over_sqrt_two c)).
  Notation r := (1 / sqrt 2).

  (** A number of the type is below the rounded bound when it is below the bound. *)
  Lemma below_T (x : float) : Rabs (B2R x) <= r -> Rabs (B2R x) <= T.
  Proof using prec_gt_0_ c_ok.
    intros H. destruct (arc_one_over_sqrt_two_right _ _ _ c_ok) as [_ V]. rewrite V. apply round_ge_generic; [apply FLT_exp_valid; exact prec_gt_0_|apply valid_rnd_N|apply generic_format_abs, generic_format_B2R|exact H].
  Qed.
  Theorem arcsin_small (x : float) : is_finite x = true -> Rabs (B2R x) <= r -> good (arcsin 2 x) (asin (B2R x)) (122 * u * Rabs (asin (B2R x))).
  Proof using All. intros F H. apply asin_low; try assumption. now apply below_T. Qed.
  Theorem arcsin_all (x : float) : is_finite x = true -> Rabs (B2R x) <= 1 -> good (arcsin 2 x) (asin (B2R x)) (0.65 * sqrt (u * sqrt u) + 102 * u).
  Proof using All.
    intros F H. destruct (asin_all prec emax _ _ prec_ok emax_ok c c_ok 0 x F H) as (y & Ey & Fy & Dy). { intros B. apply leg_all; assumption. }
    exists y. split; [exact Ey|]. split; [exact Fy|]. apply Rle_trans with (1 := Dy). destruct (Rle_bool_spec (Rabs (B2R x)) T) as [L|L]; [|lra]. pose proof (u_pos prec) as U0. pose proof (u_tiny prec prec_ok) as Ut. pose proof (sqrt_pos (u * sqrt u)) as Q.
    destruct (T_facts prec emax _ _ prec_ok emax_ok c c_ok) as (_ & Dt & _). destruct r_facts as [Br _]. apply Rabs_le_inv in Dt. pose proof (Rabs_pos (B2R x)) as A0.
    assert (A : Rabs (asin (B2R x)) <= 0.7901).
    { destruct (Rle_or_lt 0 (B2R x)) as [P|N].
      - rewrite Rabs_pos_eq in L by lra. rewrite Rabs_pos_eq by (apply asin_pos; lra). apply asin_r. lra.
      - rewrite Rabs_left in L by lra. rewrite <- Rabs_Ropp, <- asin_opp. rewrite Rabs_pos_eq by (apply asin_pos; lra). apply asin_r. lra. }
    assert (122 * u * Rabs (asin (B2R x)) <= 122 * u * 0.7901) by (apply Rmult_le_compat_l; lra). lra.
  Qed.
  Theorem arccos_all (x : float) : is_finite x = true -> Rabs (B2R x) <= 1 -> good (arccos 2 x) (acos (B2R x)) (0.65 * sqrt (u * sqrt u) + 107 * u).
  Proof using All.
    intros F H. pose proof (u_pos prec) as U0. pose proof (u_tiny prec prec_ok) as Ut. pose proof (sqrt_pos (u * sqrt u)) as Q. pose proof PI_bounds as Bp. destruct (one_ok prec emax _ _) as [Fo Vo]. apply Rabs_le_inv in H as H'.
    assert (Us : sqrt (u * sqrt u) <= 0.001). { rewrite <- (sqrt_square 0.001) by lra. apply sqrt_le_1; [apply Rmult_le_pos; [lra|apply sqrt_pos]|lra|]. assert (sqrt u <= 1). { rewrite <- sqrt_1. apply sqrt_le_1; lra. } assert (u * sqrt u <= u * 1) by (apply Rmult_le_compat_l; lra). lra. }
    unfold acos_naive. assert (Fn : is_finite (Bopp (@Bone prec emax _ _)) = true) by (now rewrite is_finite_Bopp). rewrite !Bltb_correct by assumption. rewrite (Beqb_correct _ _ x Bone), (Beqb_correct _ _ x (Bopp Bone)) by assumption. rewrite B2R_Bopp, Vo.
    rewrite !Rlt_bool_false by lra. cbn [orb]. destruct (Req_bool_spec (B2R x) (-(1))) as [N|N].
    { destruct (arc_pi_right _ _ _ c_ok) as [F1 V1]. exists (arc_pi c). split; [reflexivity|]. split; [exact F1|]. rewrite V1, N, acos_opp, acos_1, Rminus_0_r. pose proof (rnd_rel prec emax _ prec_ok emax_ok PI ltac:(lra)) as R. apply Rle_trans with (1 := R). assert (u * PI <= u * 3.2) by (apply Rmult_le_compat_l; lra). lra. }
    destruct (Req_bool_spec (B2R x) 1) as [P|P].
    { exists (zero prec emax). split; [reflexivity|]. split; [reflexivity|]. rewrite P, acos_1. cbn [zero B2R]. rewrite Rminus_0_r, Rabs_R0. lra. }
    destruct (arcsin_all x F H) as (y & Ey & Fy & Dy). rewrite Ey. cbn [option_map]. destruct (arc_pi_over_two_right _ _ _ c_ok) as [F2 V2]. pose proof (rnd_rel prec emax _ prec_ok emax_ok (PI / 2) ltac:(lra)) as R2. rewrite <- V2 in R2. set (q := B2R (arc_pi_over_two c)) in *.
    assert (M2 : u * (PI / 2) <= u * 1.571) by (apply Rmult_le_compat_l; lra). rewrite acos_asin by lra. pose proof (asin_bound (B2R x)) as Ab. apply Rabs_le_inv in Dy, R2.
    destruct (minus_ok prec emax _ _ prec_ok emax_ok (arc_pi_over_two c) y F2 Fy) as [Fm Vm]. { fold q. apply Rle_trans with (bpow radix2 10); [cbn; apply Rabs_le; lra|apply bpow_le; lia]. }
    eexists. split; [reflexivity|]. split; [exact Fm|]. rewrite Vm. fold q. destruct (rnd_any prec emax _ (q - B2R y)) as (d & e & Hd & He & Er). rewrite Er. pose proof (eta_u3 prec emax _ _ prec_ok emax_ok) as Eu.
    assert (Rabs ((q - B2R y) * d) <= 3.2 * u). { rewrite Rabs_mult. apply Rmult_le_compat; try apply Rabs_pos; [apply Rabs_le; lra|exact Hd]. }
    apply Rabs_le_inv in H0, He. apply Rabs_le. lra.
  Qed.
End Both.

Section Narrow.
  Variable p e P E : Z.
  Context (Hp : Prec_gt_0 p) (He : Prec_lt_emax p e) (HP : Prec_gt_0 P) (HE : Prec_lt_emax P E).
  Notation b := (bpow radix2).
  Hypothesis P_ok : (53 <= P <= 113)%Z.
  Hypothesis E_ok : (1024 <= E)%Z.
  Hypothesis p_ok : (3 <= p <= P)%Z.
  Hypothesis e_ok : (p + 3 <= e <= E)%Z.
  Notation rnd := (round radix2 (FLT_exp (3 - e - p) p) ZnearestE).
  Notation U := (b (- P)).

  (** A number below four in the narrow type *)
  Lemma narrow_abs (k : Z) v A g : (0 <= k <= 2)%Z -> Rabs v < b k -> Rabs (v - A) <= g -> Rabs (rnd v - A) <= b (k - p - 1) + g.
  Proof using All.
    intros K B H. assert (D : Rabs (rnd v - v) <= b (k - p - 1)).
    { apply Rle_trans with (1 := error_le_half_ulp radix2 (FLT_exp (3 - e - p) p) (fun z => negb (Z.even z)) v). replace (k - p - 1)%Z with (-1 + (k - p))%Z by lia. rewrite bpow_plus. change (b (-1)) with (/ 2). apply Rmult_le_compat_l; [lra|].
      destruct (Req_dec v 0) as [->|N].
      - rewrite ulp_FLT_0 by exact Hp. apply bpow_le. lia.
      - rewrite ulp_neq_0 by exact N. apply bpow_le. unfold cexp, FLT_exp. pose proof (mag_le_bpow radix2 v k N B). lia. }
    replace (rnd v - A) with ((rnd v - v) + (v - A)) by ring. apply Rle_trans with (1 := Rabs_triang _ _). lra.
  Qed.
  Lemma narrow_good_abs (k : Z) (o : option (binary_float P E)) A g : (0 <= k <= 2)%Z -> good P E o A g -> Rabs A + g < b k -> good p e (option_map (fp_cast P E p e _ _) o) A (b (k - p - 1) + g).
  Proof using All.
    intros K (y & -> & Fy & Dy) B. cbn [option_map]. assert (Yb : Rabs (B2R y) < b k). { replace (B2R y) with ((B2R y - A) + A) by ring. apply Rle_lt_trans with (1 := Rabs_triang _ _). lra. }
    destruct (fp_cast_ok P E p e _ _ y Fy) as [Fc Vc].
    { apply Rle_lt_trans with (b k); [|apply bpow_lt; lia]. apply abs_round_le_generic; [apply FLT_exp_valid; exact Hp|apply valid_rnd_N|apply generic_format_bpow; unfold FLT_exp; lia|lra]. }
    eexists. split; [reflexivity|]. split; [exact Fc|]. rewrite Vc. now apply narrow_abs.
  Qed.
  (** Rounding the arc sine of [x], where [x] is of the narrow type *)
  Lemma asin_tiny_abs x : x * x <= 0.5 -> Rabs x <= Rabs (asin x) /\ Rabs (x - asin x) <= 4.3 * (x * x) * Rabs x.
  Proof using.
    assert (Q : forall x, 0 <= x -> x * x <= 0.5 -> Rabs x <= Rabs (asin x) /\ Rabs (x - asin x) <= 4.3 * (x * x) * Rabs x).
    { clear. intros x X H. pose proof (asin_series_bound 0 x X ltac:(lra)) as B. unfold Sb, pb, bb in B. cbn [INR] in B. replace (x * 1 / (2 * 0 + 1)) with x in B by field. rewrite (Rabs_pos_eq x X), (Rabs_pos_eq (asin x)), Rabs_minus_sym, Rabs_pos_eq by lra. lra. }
    intros H. destruct (Rle_or_lt 0 x) as [X|X]; [now apply Q|]. destruct (Q (- x) ltac:(lra) ltac:(lra)) as [Q1 Q2]. rewrite asin_opp, !Rabs_Ropp in *. split; [exact Q1|]. replace (x - asin x) with (- (- x - - asin x)) by ring. rewrite Rabs_Ropp. lra.
  Qed.
  Lemma narrow_asin (x v : R) : generic_format radix2 (FLT_exp (3 - e - p) p) x -> x * x <= 0.5 -> Rabs (v - asin x) <= 122 * U * Rabs (asin x) -> Rabs (rnd v - asin x) <= (b (- p) + 260 * U) * Rabs (asin x).
  Proof using All.
    intros Fx X2 H. pose proof (u_pos P) as U0. pose proof (u_tiny P P_ok) as Ut. pose proof (Rabs_pos (asin x)) as A0. destruct (asin_tiny_abs x X2) as [T1 T2]. set (A := asin x) in *.
    assert (p0 : 0 < b (- p) <= / 8). { split; [apply bpow_gt_0|]. apply Rle_trans with (b (-3)); [apply bpow_le; lia|cbn; lra]. }
    assert (Vb : Rabs v <= (1 + 122 * U) * Rabs A). { replace v with ((v - A) + A) by ring. apply Rle_trans with (1 := Rabs_triang _ _). lra. }
    assert (Va : Rabs A * (1 - 122 * U) <= Rabs v). { assert (Rabs A <= Rabs v + Rabs (v - A)); [|lra]. replace A with (v + - (v - A)) at 1 by ring. apply Rle_trans with (1 := Rabs_triang _ _). rewrite Rabs_Ropp. lra. }
    assert (S : Rabs (rnd v - A) <= Rabs (rnd v - v) + 122 * U * Rabs A). { replace (rnd v - A) with ((rnd v - v) + (v - A)) by ring. apply Rle_trans with (1 := Rabs_triang _ _). lra. }
    assert (UA : 0 <= U * Rabs A) by (apply Rmult_le_pos; lra).
    destruct (Rle_lt_dec (b (2 - e)) (Rabs v)) as [L|L].
    - assert (D : Rabs (rnd v - v) <= b (- p) * Rabs v).
      { destruct (relative_error_N_FLT_ex radix2 (3 - e - p) p Hp (fun x => negb (Z.even x)) v) as (d & Hd & Ed); [replace (3 - e - p + p - 1)%Z with (2 - e)%Z by lia; exact L|].
        rewrite Ed. replace (v * (1 + d) - v) with (d * v) by ring. rewrite Rabs_mult. apply Rmult_le_compat_r; [apply Rabs_pos|]. apply Rle_trans with (1 := Hd). rewrite bpow_plus. cbn. lra. }
      assert (D2 : b (- p) * Rabs v <= b (- p) * ((1 + 122 * U) * Rabs A)) by (apply Rmult_le_compat_l; lra).
      assert (D3 : b (- p) * (122 * (U * Rabs A)) <= / 8 * (122 * (U * Rabs A))) by (apply Rmult_le_compat_r; lra). lra.
    - assert (A1 : Rabs A <= 1.01 * b (2 - e)) by (assert (0 <= b (2 - e)) by apply bpow_ge_0; assert (U * Rabs A <= / 1000000 * Rabs A) by (apply Rmult_le_compat_r; lra); lra).
      pose proof (Rabs_pos x) as X0. assert (N : Rabs (rnd v - v) <= Rabs (x - v)). { apply (round_N_pt radix2 (FLT_exp (3 - e - p) p) (fun x => negb (Z.even x)) v). exact Fx. }
      assert (N2 : Rabs (x - v) <= Rabs (x - A) + 122 * U * Rabs A). { replace (x - v) with ((x - A) + - (v - A)) by ring. apply Rle_trans with (1 := Rabs_triang _ _). rewrite Rabs_Ropp. lra. }
      assert (X4 : 4.3 * (x * x) <= b (- p) / 2).
      { rewrite <- (Rabs_pos_eq (x * x)) by (apply Rle_0_sqr). rewrite Rabs_mult. assert (0 < b (2 - e)) by apply bpow_gt_0. assert (Rabs x * Rabs x <= (1.01 * b (2 - e)) * (1.01 * b (2 - e))) by (apply Rmult_le_compat; lra).
        assert (Q : b (2 - e) * b (2 - e) <= b (-5) * b (- p)) by (rewrite <- !bpow_plus; apply bpow_le; lia). change (b (-5)) with (/ 32) in Q. lra. }
      assert (X5 : 4.3 * (x * x) * Rabs x <= b (- p) / 2 * Rabs x) by (apply Rmult_le_compat_r; lra). assert (X6 : b (- p) / 2 * Rabs x <= b (- p) / 2 * Rabs A) by (apply Rmult_le_compat_l; lra).
      assert (0 <= b (- p) * Rabs A) by (apply Rmult_le_pos; lra). lra.
  Qed.
  Lemma narrow_asin_good (c : arc_constants P E) (x : binary_float p e) fuel : Rabs (B2R x) <= 1 / sqrt 2 -> good P E (asin_naive P E _ _ c fuel (fp_cast p e P E _ _ x)) (asin (B2R x)) (122 * U * Rabs (asin (B2R x))) ->
    good p e (asin_narrow p e P E _ _ _ _ c fuel x) (asin (B2R x)) ((b (- p) + 260 * U) * Rabs (asin (B2R x))).
  Proof using All.
    intros H (y & Ey & Fy & By). unfold asin_narrow, by_long_double. rewrite Ey. cbn [option_map]. pose proof (u_pos P) as U0. pose proof (u_tiny P P_ok) as Ut. pose proof PI_bounds as PB.
    assert (A2 : Rabs (asin (B2R x)) <= 1.6). { apply Rabs_le. pose proof (asin_bound (B2R x)). lra. }
    destruct (fp_cast_ok P E p e _ _ y Fy) as [Fc Vc].
    { apply Rle_lt_trans with (b 1); [|apply bpow_lt; lia]. apply abs_round_le_generic; [apply FLT_exp_valid; exact Hp|apply valid_rnd_N|apply generic_format_bpow; unfold FLT_exp; lia|].
      assert (122 * U * Rabs (asin (B2R x)) <= 122 * U * 1.6) by (apply Rmult_le_compat_l; lra). change (b 1) with 2. replace (B2R y) with ((B2R y - asin (B2R x)) + asin (B2R x)) by ring. apply Rle_trans with (1 := Rabs_triang _ _). lra. }
    eexists. split; [reflexivity|]. split; [exact Fc|]. rewrite Vc. apply narrow_asin; [apply generic_format_B2R| |exact By].
    destruct r_facts as [_ Q]. pose proof (Rabs_pos (B2R x)). rewrite <- Q, <- (Rabs_pos_eq (B2R x * B2R x)) by apply sqr0. rewrite Rabs_mult. apply Rmult_le_compat; assumption.
  Qed.
End Narrow.
