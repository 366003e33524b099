(** The compile-time trigonometric functions: recursion depth, special values, and the types narrower than long double. *)
From Coq Require Import ZArith Bool List Reals Lra Lia String.
From Flocq Require Import Core BinarySingleNaN Relative.
From Verif Require Import FpModel FpProofs FpProofs2 SqrtModel SqrtProofs4 ConstModel ConstTables ConstSpec ConstProps TrigModel TrigSpec TrigProofs2 TrigProofs5 TrigProofs7.
Local Open Scope R_scope.

Section Depth.
  Variable prec emax : Z.
  Context (prec_gt_0_ : Prec_gt_0 prec).
  Context (prec_lt_emax_ : Prec_lt_emax prec emax).
  Variable c : constants prec emax.
  Notation float := (binary_float prec emax).
  Notation trig := (trig prec emax _ _ c).
  Notation tangent := (tangent prec emax _ _ c).

  Lemma trig_more n : forall b x y, trig n b x = Some y -> trig (S n) b x = Some y.
  Proof using.
    induction n as [|n IH]; intros b x y; [discriminate|]. intros H. remember (S n) as m eqn:Em. cbn [TrigModel.trig]. rewrite Em in H. cbn [TrigModel.trig] in H. subst m. destruct b.
    - destruct (reduce _ _ _ _ _ x) as [z|]; [|discriminate].
      repeat match type of H with (if ?b then _ else _) = _ => destruct b; [solve [exact H | now apply IH | destruct (trig n _ _) as [w|] eqn:W; [|discriminate]; rewrite (IH _ _ _ W); exact H]|] end. exact H.
    - match type of H with (if ?b then _ else _) = _ => destruct b; [exact H|] end. destruct (reduce _ _ _ _ _ x) as [z|]; [|discriminate].
      repeat match type of H with (if ?b then _ else _) = _ => destruct b; [solve [exact H | now apply IH | destruct (trig n _ _) as [w|] eqn:W; [|discriminate]; rewrite (IH _ _ _ W); exact H]|] end. exact H.
  Qed.
  Lemma trig_depth n m b x y : (n <= m)%nat -> trig n b x = Some y -> trig m b x = Some y.
  Proof using. intros H E. induction H as [|m H IH]; [exact E|]. now apply trig_more. Qed.
  Lemma tangent_more n : forall x y, tangent n x = Some y -> tangent (S n) x = Some y.
  Proof using.
    induction n as [|n IH]; intros x y; [discriminate|]. intros H. remember (S n) as m eqn:Em. cbn [TrigModel.tangent]. rewrite Em in H. cbn [TrigModel.tangent] in H. subst m.
    match type of H with (if ?b then _ else _) = _ => destruct b; [exact H|] end.
    match type of H with match ?o with Some _ => _ | None => _ end = _ => destruct o as [z|]; [|discriminate] end.
    repeat match type of H with (if ?b then _ else _) = _ => destruct b; [solve [exact H | destruct (tangent n _) as [w|] eqn:W; [|discriminate]; rewrite (IH _ _ W); exact H]|] end.
    destruct (trig n false z) as [s|] eqn:Es; [|discriminate]. destruct (trig n true z) as [k|] eqn:Ek; [|discriminate].
    rewrite (trig_more _ _ _ _ Es), (trig_more _ _ _ _ Ek). exact H.
  Qed.
  Lemma tangent_depth n m x y : (n <= m)%nat -> tangent n x = Some y -> tangent m x = Some y.
  Proof using. intros H E. induction H as [|m H IH]; [exact E|]. now apply tangent_more. Qed.

  (** Zeros, NaN and infinities *)
  Lemma zero_sin n s : trig (S n) false (B754_zero s) = Some (B754_zero s).
  Proof using. reflexivity. Qed.
  Lemma zero_cos n s : is_finite (two_pi c) = true -> 0 < B2R (two_pi c) -> trig (S n) true (B754_zero s) = Some Bone.
  Proof using.
    intros F H. cbn [TrigModel.trig]. unfold reduce. rewrite !Bltb_correct by (assumption || reflexivity). cbn [B2R zero]. rewrite !Rlt_bool_false by lra. reflexivity.
  Qed.
  Lemma nan_loop n : forall i x t, cos_loop prec emax _ _ n i x t B754_nan = B754_nan.
  Proof using. induction n as [|n IH]; intros i x t; [reflexivity|]. cbn [cos_loop]. apply IH. Qed.
  Lemma nan_cos n : trig (S n) true B754_nan = Some B754_nan.
  Proof using.
    assert (L : forall y : float, Bltb B754_nan y = false) by (now intros [| | |]). assert (R : forall y : float, Bltb y B754_nan = false) by (now intros [[]|[]| |[]]).
    assert (Q : forall y : float, Beqb B754_nan y = false) by (now intros [| | |]).
    cbn [TrigModel.trig]. unfold reduce, between. rewrite !L, !R. cbn [orb]. rewrite !Q, !L, !R, !andb_false_r. cbn [orb andb]. unfold cos_taylor. f_equal.
    replace (Bplus mode_NE Bone (Bdiv mode_NE (Bmult mode_NE (Bopp B754_nan) B754_nan) (of_Z prec emax _ _ 2))) with (B754_nan : float) by (cbn [Bopp Bmult Bdiv]; now destruct Bone as [| | |], (of_Z prec emax _ _ 2) as [| | |]).
    apply nan_loop.
  Qed.
  Lemma nan_sin n : trig (S n) false B754_nan = Some B754_nan.
  Proof using. reflexivity. Qed.
  Lemma nan_tan n : tangent (S n) B754_nan = Some B754_nan /\ forall s, tangent (S n) (B754_zero s) = Some (B754_zero s).
  Proof using. split; reflexivity. Qed.
  Lemma scaled_infinity s (k : float) : is_finite k = true -> 0 < B2R k -> Bmult mode_NE (B754_infinity s) k = B754_infinity s /\ floor_naive prec emax _ _ (B754_infinity s) = None.
  Proof using.
    intros F H. split; [|now destruct s]. destruct k as [t|t| |t m ex Hx]; try discriminate F; [cbn in H; lra|]. destruct t; [|now destruct s].
    cbn [B2R cond_Zopp] in H. apply Rlt_not_le in H. exfalso. apply H. apply F2R_le_0. cbn. lia.
  Qed.
  Lemma infinite_reduce s : is_finite (two_pi c) = true -> is_finite (one_over_two_pi c) = true -> 0 < B2R (one_over_two_pi c) -> reduce prec emax _ _ c (B754_infinity s) = None.
  Proof using.
    intros F1 F2 H. unfold reduce. assert (T : Bltb (B754_infinity s) (zero prec emax) || Bltb (two_pi c) (B754_infinity s) = true).
    { destruct s; [reflexivity|]. cbn [orb]. destruct (two_pi c) as [t|t| |[] m ex Hx]; try discriminate F1; reflexivity. }
    rewrite T. destruct (scaled_infinity s _ F2 H) as [-> ->]. reflexivity.
  Qed.
  Lemma infinite n b s : is_finite (two_pi c) = true -> is_finite (one_over_two_pi c) = true -> 0 < B2R (one_over_two_pi c) -> trig n b (B754_infinity s) = None.
  Proof using.
    intros F1 F2 H. destruct n as [|n]; [reflexivity|]. cbn [TrigModel.trig]. rewrite infinite_reduce by assumption. destruct b; [reflexivity|]. now destruct s.
  Qed.
  Lemma infinite_tan n s : is_finite (pi c) = true -> is_finite (one_over_pi c) = true -> 0 < B2R (one_over_pi c) -> tangent n (B754_infinity s) = None.
  Proof using.
    intros F1 F2 H. destruct n as [|n]; [reflexivity|]. cbn [TrigModel.tangent].
    assert (T : Bltb (B754_infinity s) (zero prec emax) || Bltb (pi c) (B754_infinity s) = true).
    { destruct s; [reflexivity|]. cbn [orb]. destruct (pi c) as [t|t| |[] m ex Hx]; try discriminate F1; reflexivity. }
    rewrite T. destruct (scaled_infinity s _ F2 H) as [-> ->]. now destruct s.
  Qed.
End Depth.

(* ------------------------------------------------------------------ narrower types *)
Section Narrow.
  Variable p e P E : Z.
  Context (Hp : Prec_gt_0 p) (He : Prec_lt_emax p e) (HP : Prec_gt_0 P) (HE : Prec_lt_emax P E).
  Notation b := (bpow radix2).
  Hypothesis P_ok : (53 <= P <= 113)%Z.
  Hypothesis E_ok : (1024 <= E)%Z.
  Hypothesis p_ok : (3 <= p <= P)%Z.
  Hypothesis e_ok : (p + 3 <= e <= E)%Z.
  Notation rnd := (round radix2 (FLT_exp (3 - e - p) p) ZnearestE).

  Lemma one_fmt s : generic_format radix2 (FLT_exp (3 - e - p) p) (if s : bool then -1 else 1).
  Proof using p_ok e_ok.
    assert (G : generic_format radix2 (FLT_exp (3 - e - p) p) 1) by (change 1 with (b 0); apply generic_format_bpow; unfold FLT_exp; lia).
    destruct s; [|exact G]. now apply generic_format_opp.
  Qed.
  (** Rounding a number near [-1, 1] *)
  Lemma round_unit y v g : Rabs v <= 1 -> Rabs (y - v) <= g -> Rabs (rnd y - v) <= Rmax (b (- p) / 2) g + g.
  Proof using p_ok e_ok Hp.
    intros V Y. assert (G0 : 0 <= g) by (apply Rle_trans with (2 := Y); apply Rabs_pos).
    assert (D : Rabs (rnd y - y) <= Rmax (b (- p) / 2) g).
    { destruct (Rle_lt_dec (Rabs y) 1) as [In|Out].
      - apply Rle_trans with (2 := Rmax_l _ _).
        destruct (Rle_lt_or_eq_dec _ _ In) as [Lt|Eq].
        + apply Rle_trans with (/ 2 * ulp radix2 (FLT_exp (3 - e - p) p) y); [apply error_le_half_ulp; apply FLT_exp_valid; exact Hp|].
          assert (U : ulp radix2 (FLT_exp (3 - e - p) p) y <= b (- p)); [|lra].
          destruct (Req_dec y 0) as [->|N].
          * rewrite ulp_FLT_0 by exact Hp. apply bpow_le. lia.
          * rewrite ulp_neq_0 by exact N. apply bpow_le. unfold cexp, FLT_exp. assert (mag radix2 y <= 0)%Z by (apply mag_le_bpow; [exact N|exact Lt]). lia.
        + assert (X : rnd y = y).
          { apply round_generic; [apply valid_rnd_N|]. destruct (Rle_lt_dec 0 y) as [P0|N0]; [rewrite Rabs_pos_eq in Eq by lra; rewrite Eq; apply (one_fmt false)|rewrite Rabs_left in Eq by lra; replace y with (-1) by lra; apply (one_fmt true)]. }
          rewrite X, Rminus_diag_eq, Rabs_R0 by reflexivity. pose proof (bpow_gt_0 radix2 (- p)). lra.
      - apply Rle_trans with (2 := Rmax_r _ _).
        assert (N : forall s : bool, Rabs (rnd y - y) <= Rabs ((if s then -1 else 1) - y)).
        { intros s. apply (round_N_pt radix2 (FLT_exp (3 - e - p) p) (fun x => negb (Z.even x)) y). apply one_fmt. }
        apply Rabs_le_inv in Y. apply Rabs_le_inv in V. destruct (Rle_lt_dec 0 y) as [P0|N0].
        + rewrite Rabs_pos_eq in Out by lra. apply Rle_trans with (1 := N false). apply Rabs_le. lra.
        + rewrite Rabs_left in Out by lra. apply Rle_trans with (1 := N true). apply Rabs_le. lra. }
    replace (rnd y - v) with ((rnd y - y) + (y - v)) by ring. apply Rle_trans with (1 := Rabs_triang _ _). lra.
  Qed.
  Lemma narrow_good (r : option (binary_float P E)) v g : good P E r v g -> Rabs v <= 1 -> g <= 1 -> good p e (option_map (fp_cast P E p e _ _) r) v (Rmax (b (- p) / 2) g + g).
  Proof using p_ok e_ok.
    intros (y & -> & F & B) V G. cbn [option_map].
    destruct (fp_cast_ok P E p e _ _ y F) as [Fc Vc].
    { apply Rle_lt_trans with (b 1); [|apply bpow_lt; lia]. apply abs_round_le_generic; [apply FLT_exp_valid; exact Hp|apply valid_rnd_N|apply generic_format_bpow; unfold FLT_exp; lia|].
      apply Rabs_le_inv in B. apply Rabs_le_inv in V. cbn. apply Rabs_le. lra. }
    eexists. split; [reflexivity|]. split; [exact Fc|]. rewrite Vc. now apply round_unit.
  Qed.
  Lemma narrow_fine (r : option (binary_float P E)) v g : (20 <= p)%Z -> (1024 <= e)%Z -> fine P E r v g -> 0 <= g <= 0.00001 ->
    exists y, option_map (fp_cast P E p e _ _) r = Some y /\ is_finite y = true /\ rel (B2R y) (tan v) (1.00001 * (b (- p) + g)).
  Proof using p_ok e_ok.
    intros p20 e1024 (y & -> & F & R & M) G. cbn [option_map].
    destruct (fp_cast_ok P E p e _ _ y F) as [Fc Vc].
    { apply Rle_lt_trans with (b 200); [|apply bpow_lt; lia]. apply abs_round_le_generic; [apply FLT_exp_valid; exact Hp|apply valid_rnd_N|apply generic_format_bpow; unfold FLT_exp; lia|].
      destruct M as [->|M]; [rewrite Rabs_R0; apply bpow_ge_0|apply M]. }
    eexists. split; [reflexivity|]. split; [exact Fc|]. rewrite Vc.
    assert (u0 : 0 <= b (- p) <= 0.00001). { split; [apply bpow_ge_0|]. apply Rle_trans with (b (-20)); [apply bpow_le; lia|cbn; lra]. }
    apply rel_trans with (B2R y); [exact u0|exact G| |exact R]. destruct M as [->|M].
    - exists 0. rewrite Rabs_R0. split; [apply u0|]. rewrite Rmult_0_l. apply round_0. apply valid_rnd_N.
    - destruct (relative_error_N_FLT_ex radix2 (3 - e - p) p Hp (fun x => negb (Z.even x)) (B2R y)) as (d & Hd & Ed).
      + apply Rle_trans with (2 := proj1 M). apply bpow_le. lia.
      + exists d. split; [|exact Ed]. apply Rle_trans with (1 := Hd). rewrite bpow_plus. cbn. lra.
  Qed.
End Narrow.

(* ------------------------------------------------------------------ the tables of constants *)
Definition known (name : string) (v : R) : Prop := exists x, formula name = Some x /\ mentions_e x = false /\ meaning x = v.
Lemma names_known : known "pi" PI /\ known "two_pi" (2 * PI) /\ known "one_over_pi" (1 / PI) /\ known "one_over_two_pi" (1 / (2 * PI)) /\ known "pi_over_two" (PI / 2)
  /\ known "three_pi_over_two" (3 * PI / 2) /\ known "pi_over_four" (PI / 4) /\ known "pi_over_eight" (PI / 8) /\ known "sqrt_two" (sqrt 2).
Proof. repeat apply conj; (eexists; split; [vm_compute; reflexivity|split; reflexivity]). Qed.
Lemma table_right prec emax (value : string -> R -> Prop) (c : constants prec emax) :
  (forall name v x, value name v -> name <> "degrees_to_radians"%string -> formula name = Some x -> mentions_e x = false -> v = ConstModel.rnd prec emax (meaning x)) ->
  taken_from prec emax value c -> right_constants prec emax c.
Proof.
  intros H T. pose proof names_known as (K1 & K2 & K3 & K4 & K5 & K6 & K7 & K8 & K9).
  assert (Go : forall name x v, name <> "degrees_to_radians"%string -> known name v -> taken prec emax value name x -> right prec emax x v).
  { intros name x v N (f & F & M & <-) [Fx Vx]. split; [exact Fx|]. exact (H name (B2R x) f Vx N F M). }
  destruct T. constructor; (eapply Go; [|eassumption|eassumption]; discriminate).
Qed.
