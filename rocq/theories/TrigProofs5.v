(** The compile-time sine and cosine between zero and two pi. *)
From Coq Require Import ZArith Bool List Reals Lra Lia Psatz.
From Flocq Require Import Core BinarySingleNaN Relative Plus_error Sterbenz.
From Verif Require Import FpModel FpProofs FpProofs2 ConstProofs TrigModel TrigSpec TrigProofs TrigProofs2 TrigProofs3 TrigProofs4.
Local Open Scope R_scope.

Lemma PI_bounds : 3.14159265 < PI < 3.14159266.
Proof.
  pose proof pi_within as [L H]. unfold scale, pi_l, pi_h in *.
  assert (S : IZR (10 ^ 60) > 0) by (apply Rlt_gt, IZR_lt; reflexivity).
  assert (E1 : IZR (314159265 * 10 ^ 52) < IZR (3141592653589793238462643383279502884197169399375105 * 10 ^ 9)) by (apply IZR_lt; reflexivity).
  assert (E2 : IZR (3141592653589793238462643383279502884197169399375106 * 10 ^ 9) < IZR (314159266 * 10 ^ 52)) by (apply IZR_lt; reflexivity).
  assert (E3 : 3.14159265 * IZR (10 ^ 60) = IZR (314159265 * 10 ^ 52)) by (replace (10 ^ 60)%Z with (10 ^ 8 * 10 ^ 52)%Z by reflexivity; rewrite !mult_IZR; change (IZR (10 ^ 8)) with 100000000; generalize (IZR (10 ^ 52)); intros; lra).
  assert (E4 : 3.14159266 * IZR (10 ^ 60) = IZR (314159266 * 10 ^ 52)) by (replace (10 ^ 60)%Z with (10 ^ 8 * 10 ^ 52)%Z by reflexivity; rewrite !mult_IZR; change (IZR (10 ^ 8)) with 100000000; generalize (IZR (10 ^ 52)); intros; lra).
  split; apply Rmult_lt_reg_r with (1 := S); lra.
Qed.
Lemma sin_lip a b : Rabs (sin a - sin b) <= Rabs (a - b).
Proof.
  destruct (MVT_abs sin cos b a) as (c & E & _); [intros; apply derivable_pt_lim_sin|]. rewrite E.
  rewrite <- (Rmult_1_l (Rabs (a - b))) at 2. apply Rmult_le_compat_r; [apply Rabs_pos|]. apply Rabs_le. apply COS_bound.
Qed.
Lemma cos_lip a b : Rabs (cos a - cos b) <= Rabs (a - b).
Proof. rewrite !cos_sin. apply Rle_trans with (1 := sin_lip _ _). right. f_equal. ring. Qed.

Section Circle.
  Variable prec emax : Z.
  Context (prec_gt_0_ : Prec_gt_0 prec).
  Context (prec_lt_emax_ : Prec_lt_emax prec emax).
  Notation float := (binary_float prec emax).
  Notation emin := (3 - emax - prec)%Z.
  Notation fexp := (FLT_exp emin prec).
  Notation rnd := (round radix2 fexp ZnearestE).
  Notation format := (generic_format radix2 fexp).
  Notation u := (bpow radix2 (- prec)).
  Hypothesis prec_ok : (53 <= prec <= 113)%Z.
  Hypothesis emax_ok : (1024 <= emax)%Z.
  Variable c : constants prec emax.
  Hypothesis c_ok : right_constants prec emax c.

  Lemma rnd_scale v k : 0.1 <= v -> (0 <= k <= 4)%Z -> rnd (v * bpow radix2 k) = rnd v * bpow radix2 k.
  Proof using prec_ok emax_ok.
    intros V K. assert (Vn : v <> 0) by lra.
    assert (M : (-10 < mag radix2 v)%Z). { apply mag_gt_bpow. rewrite Rabs_pos_eq by lra. apply Rle_trans with (2 := V). cbn. lra. }
    assert (C : cexp radix2 fexp (v * bpow radix2 k) = (cexp radix2 fexp v + k)%Z).
    { unfold cexp. rewrite mag_mult_bpow by exact Vn. unfold FLT_exp. lia. }
    unfold round, scaled_mantissa, F2R. cbn [Fnum Fexp]. rewrite C, bpow_plus.
    replace (v * bpow radix2 k * bpow radix2 (- (cexp radix2 fexp v + k))) with (v * bpow radix2 (- cexp radix2 fexp v)).
    - ring.
    - rewrite Rmult_assoc, <- bpow_plus. f_equal. f_equal. lia.
  Qed.
  Lemma rnd_rel v : 0.1 <= v <= 10 -> Rabs (rnd v - v) <= u * v.
  Proof using prec_ok emax_ok prec_gt_0_.
    intros V. destruct (relative_error_N_FLT_ex radix2 emin prec prec_gt_0_ (fun x => negb (Z.even x)) v) as (d & Hd & E).
    - rewrite Rabs_pos_eq by lra. apply Rle_trans with (bpow radix2 (-4)); [apply bpow_le; lia|cbn; lra].
    - change (Znearest (fun x => negb (Z.even x))) with ZnearestE in E. rewrite E. replace (v * (1 + d) - v) with (d * v) by ring.
      rewrite Rabs_mult, (Rabs_pos_eq v) by lra. apply Rmult_le_compat_r; [lra|]. apply Rle_trans with (1 := Hd). rewrite bpow_plus. cbn. lra.
  Qed.

  Notation P := (B2R (pi c)).
  Notation T2 := (B2R (two_pi c)).
  Notation h := (B2R (pi_over_two c)).
  Notation f := (B2R (pi_over_four c)).
  Notation W := (B2R (three_pi_over_two c)).
  Record facts : Prop := {
    c_fin : is_finite (pi c) = true /\ is_finite (two_pi c) = true /\ is_finite (pi_over_two c) = true /\ is_finite (pi_over_four c) = true /\ is_finite (three_pi_over_two c) = true;
    c_half : T2 = 2 * P /\ h = P / 2 /\ f = P / 4;
    c_err : Rabs (P - PI) <= 3.15 * u /\ Rabs (T2 - 2 * PI) <= 6.3 * u /\ Rabs (h - PI / 2) <= 1.6 * u /\ Rabs (W - 3 * PI / 2) <= 4.8 * u;
    c_num : 3.1415926 < P < 3.1415927 /\ 4.7123 < W < 4.7124 }.
  Lemma c_facts : facts.
  Proof using prec_ok emax_ok c_ok prec_gt_0_.
    pose proof PI_bounds as B. pose proof (u_tiny prec prec_ok) as U. pose proof (u_pos prec) as U0.
    destruct c_ok. destruct pi_right as [F1 V1], two_pi_right as [F2 V2], pi_over_two_right as [F3 V3], pi_over_four_right as [F4 V4], three_pi_over_two_right as [F5 V5].
    assert (H4 : P = 4 * f).
    { rewrite V1, V4. replace PI with (PI / 4 * bpow radix2 2) at 1 by (cbn; field). rewrite rnd_scale by (lia || lra). cbn. ring. }
    assert (H3 : h = 2 * f).
    { rewrite V3, V4. replace (PI / 2) with (PI / 4 * bpow radix2 1) at 1 by (cbn; field). rewrite rnd_scale by (lia || lra). cbn. ring. }
    assert (H2 : T2 = 8 * f).
    { rewrite V2, V4. replace (2 * PI) with (PI / 4 * bpow radix2 3) at 1 by (cbn; field). rewrite rnd_scale by (lia || lra). cbn. ring. }
    pose proof (rnd_rel PI ltac:(lra)) as E1. rewrite <- V1 in E1. pose proof (rnd_rel (3 * PI / 2) ltac:(lra)) as E5. rewrite <- V5 in E5.
    assert (uP : u * PI <= u * 3.1415927) by (apply Rmult_le_compat_l; lra). assert (u5 : u * (3 * PI / 2) <= u * (3 * 3.1415927 / 2)) by (apply Rmult_le_compat_l; lra).
    constructor.
    - repeat split; assumption.
    - lra.
    - apply Rabs_le_inv in E1. split; [apply Rabs_le; lra|]. split; [apply Rabs_le; lra|]. split; [apply Rabs_le; lra|lra].
    - apply Rabs_le_inv in E1. apply Rabs_le_inv in E5. lra.
  Qed.

  (** What is left of the functions after the reduction to one turn. *)
  Notation trig := (trig prec emax _ _ c).
  Definition body (fuel : nat) (cosine : bool) (x : float) : option float :=
    if cosine then
      if Beqb x (zero prec emax) || Beqb x (two_pi c) then Some Bone
      else if Beqb x (pi_over_two c) || Beqb x (three_pi_over_two c) then Some (zero prec emax)
      else if Beqb x (pi c) then Some (Bopp Bone)
      else if between prec emax (pi_over_two c) x (pi c) then option_map (fun r => Bopp r) (trig fuel true (Bminus mode_NE (pi c) x))
      else if between prec emax (pi c) x (three_pi_over_two c) then option_map (fun r => Bopp r) (trig fuel true (Bminus mode_NE x (pi c)))
      else if between prec emax (three_pi_over_two c) x (two_pi c) then trig fuel true (Bminus mode_NE (two_pi c) x)
      else if between prec emax (pi_over_four c) x (pi_over_two c) then trig fuel false (Bminus mode_NE (pi_over_two c) x)
      else Some (cos_taylor prec emax _ _ x)
    else
      if Beqb x (pi c) then Some (zero prec emax)
      else if Beqb x (pi_over_two c) then Some Bone
      else if Beqb x (three_pi_over_two c) then Some (Bopp Bone)
      else if between prec emax (pi_over_two c) x (pi c) then trig fuel false (Bminus mode_NE (pi c) x)
      else if between prec emax (pi c) x (three_pi_over_two c) then option_map (fun r => Bopp r) (trig fuel false (Bminus mode_NE x (pi c)))
      else if between prec emax (three_pi_over_two c) x (two_pi c) then option_map (fun r => Bopp r) (trig fuel false (Bminus mode_NE (two_pi c) x))
      else if between prec emax (pi_over_four c) x (pi_over_two c) then trig fuel true (Bminus mode_NE (pi_over_two c) x)
      else Some (sin_taylor prec emax _ _ x).
  Lemma trig_S fuel b x : trig (S fuel) b x =
    if negb b && (Beqb x (zero prec emax) || negb (Beqb x x)) then Some x
    else match reduce prec emax _ _ c x with None => None | Some y => body fuel b y end.
  Proof using. destruct b; reflexivity. Qed.

  Definition fn (b : bool) : R -> R := if b then cos else sin.
  Definition good (r : option float) (v e : R) : Prop := exists y, r = Some y /\ is_finite y = true /\ Rabs (B2R y - v) <= e.
  Lemma good_le r v v' e e' : good r v e -> Rabs (v - v') + e <= e' -> good r v' e'.
  Proof using.
    intros (y & E & F & B) H. exists y. split; [exact E|]. split; [exact F|]. replace (B2R y - v') with ((B2R y - v) + (v - v')) by ring.
    apply Rle_trans with (1 := Rabs_triang _ _). lra.
  Qed.
  Lemma good_opp r v e : good r v e -> good (option_map (fun r => Bopp r) r) (- v) e.
  Proof using.
    intros (y & -> & F & B). exists (Bopp y). split; [reflexivity|]. split; [now rewrite is_finite_Bopp|]. rewrite B2R_Bopp.
    replace (- B2R y - - v) with (- (B2R y - v)) by ring. now rewrite Rabs_Ropp.
  Qed.
  Lemma good_const (y : float) k v e : is_finite y = true -> B2R y = k -> Rabs (k - v) <= e -> good (Some y) v e.
  Proof using. intros F <- B. exists y. auto. Qed.

  Lemma minus_sterbenz (x y : float) : is_finite x = true -> is_finite y = true -> B2R y / 2 <= B2R x <= 2 * B2R y ->
    is_finite (Bminus mode_NE x y) = true /\ B2R (Bminus mode_NE x y) = B2R x - B2R y.
  Proof using prec_ok emax_ok prec_gt_0_.
    intros Fx Fy H. pose proof (Bminus_correct prec emax _ _ mode_NE x y Fx Fy) as C.
    assert (G : format (B2R x - B2R y)) by (apply sterbenz; [apply FLT_exp_valid; exact prec_gt_0_|apply FLT_exp_monotone|apply fmt|apply fmt|exact H]).
    assert (Er : round radix2 (SpecFloat.fexp prec emax) (round_mode mode_NE) (B2R x - B2R y) = B2R x - B2R y) by exact (rnd_fmt prec emax _ G).
    rewrite Er, Rlt_bool_true in C; [split; apply C|].
    apply Rle_lt_trans with (Rmax (Rabs (B2R x)) (Rabs (B2R y))).
    - unfold Rmax, Rabs. repeat destruct (Rcase_abs _); repeat destruct (Rle_dec _ _); lra.
    - apply Rmax_lub_lt; apply abs_B2R_lt_emax.
  Qed.

  Ltac decide_ :=
    match goal with
    | |- context [Rlt_bool ?a ?b] => first [rewrite (Rlt_bool_true a b) by lra | rewrite (Rlt_bool_false a b) by lra]
    | |- context [Req_bool ?a ?b] => first [rewrite (Req_bool_true a b) by lra | rewrite (Req_bool_false a b) by lra]
    end; cbn [orb andb negb].
  Ltac compare_ := unfold body, between; rewrite ?Bltb_correct, ?Beqb_correct by (assumption || reflexivity); cbn [B2R zero]; repeat decide_.

  Lemma reduce_id (x : float) : is_finite x = true -> 0 <= B2R x <= T2 -> reduce prec emax _ _ c x = Some x.
  Proof using prec_ok emax_ok c_ok prec_gt_0_.
    intros F H. destruct c_facts as [(_ & F2 & _) _ _ _]. unfold reduce. rewrite !Bltb_correct by (assumption || reflexivity).
    cbn [B2R zero]. rewrite !Rlt_bool_false by lra. reflexivity.
  Qed.
  Lemma trig_body fuel b x e : is_finite x = true -> 0 <= B2R x <= T2 -> 0 <= e -> good (body fuel b x) (fn b (B2R x)) e -> good (trig (S fuel) b x) (fn b (B2R x)) e.
  Proof using prec_ok emax_ok c_ok prec_gt_0_.
    intros F H E G. rewrite trig_S, reduce_id by assumption. destruct b; [exact G|]. cbn [negb andb]. rewrite !Beqb_correct by (assumption || reflexivity).
    cbn [B2R zero]. rewrite (Req_bool_true (B2R x) (B2R x)) by reflexivity. destruct (Req_bool_spec (B2R x) 0) as [Z0|_]; [|exact G].
    cbn [orb]. exists x. split; [reflexivity|]. split; [exact F|]. rewrite Z0. cbn [fn]. rewrite sin_0, Rminus_diag_eq, Rabs_R0 by reflexivity. exact E.
  Qed.

  Let U0 := u_pos prec.
  Let Ut := u_tiny prec prec_ok.

  (** Around zero *)
  Lemma near_body fuel b x : is_finite x = true -> - 0.5 <= B2R x <= f -> good (body fuel b x) (fn b (B2R x)) (34 * u).
  Proof using prec_ok emax_ok c_ok prec_gt_0_ U0 Ut.
    intros F H. destruct c_facts as [(F1 & F2 & F3 & F4 & F5) (H2 & H3 & H4) _ (N1 & N2)].
    assert (X2 : B2R x * B2R x <= 2 / 3). { assert (-0.5 <= B2R x <= 0.786) by lra. destruct (Rle_lt_dec 0 (B2R x)); [assert (B2R x * B2R x <= 0.786 * 0.786) by (apply Rmult_le_compat; lra)|assert (- B2R x * - B2R x <= 0.786 * 0.786) by (apply Rmult_le_compat; lra)]; lra. }
    destruct b.
    - destruct (Req_dec (B2R x) 0) as [Z0|Nz].
      + compare_. apply (good_const _ 1); [apply is_finite_Bone|apply Bone_correct|]. cbn [fn]. rewrite Z0, cos_0, Rminus_diag_eq, Rabs_R0 by reflexivity. lra.
      + compare_. destruct (cos_near prec emax _ _ prec_ok emax_ok x F X2) as [Fv B]. exists (cos_taylor prec emax _ _ x). split; [reflexivity|]. split; [exact Fv|exact B].
    - compare_. destruct (sin_near prec emax _ _ prec_ok emax_ok x F X2) as [Fv B]. exists (sin_taylor prec emax _ _ x). split; [reflexivity|]. split; [exact Fv|].
      apply Rle_trans with (1 := B). rewrite <- (Rmult_1_r (34 * u)) at 2. apply Rmult_le_compat_l; [lra|]. apply Rabs_le. lra.
  Qed.
  Lemma near_trig fuel b x : is_finite x = true -> 0 <= B2R x <= f -> good (trig (S fuel) b x) (fn b (B2R x)) (34 * u).
  Proof using prec_ok emax_ok c_ok prec_gt_0_ U0 Ut.
    intros F H. destruct c_facts as [_ (H2 & H3 & H4) _ (N1 & N2)]. apply trig_body; [exact F|lra|lra|]. apply near_body; [exact F|lra].
  Qed.

  (** The first quadrant *)
  Lemma quarter_body fuel b x : is_finite x = true -> 0 <= B2R x <= h -> good (body (S fuel) b x) (fn b (B2R x)) (36 * u).
  Proof using prec_ok emax_ok c_ok prec_gt_0_ U0 Ut.
    intros F H. destruct (Rle_lt_dec (B2R x) f) as [Lf|Gf]; [apply good_le with (1 := near_body (S fuel) b x F ltac:(lra)); rewrite Rminus_diag_eq, Rabs_R0 by reflexivity; lra|].
    destruct c_facts as [(F1 & F2 & F3 & F4 & F5) (H2 & H3 & H4) (_ & _ & E3 & _) (N1 & N2)].
    destruct (Req_dec (B2R x) h) as [Eq|Ne].
    - destruct b; compare_.
      + apply (good_const _ 0); [reflexivity..|]. cbn [fn]. rewrite <- cos_PI2, Eq. apply Rle_trans with (1 := cos_lip _ _). rewrite Rabs_minus_sym. lra.
      + apply (good_const _ 1); [apply is_finite_Bone|apply Bone_correct|]. cbn [fn]. rewrite <- sin_PI2, Eq. apply Rle_trans with (1 := sin_lip _ _). rewrite Rabs_minus_sym. lra.
    - destruct (minus_sterbenz (pi_over_two c) x F3 F ltac:(lra)) as [Fm Vm].
      pose proof (near_trig fuel (negb b) _ Fm ltac:(rewrite Vm; lra)) as G. rewrite Vm in G.
      destruct b; compare_; apply good_le with (1 := G); cbn [fn negb].
      + rewrite <- sin_shift. pose proof (sin_lip (h - B2R x) (PI / 2 - B2R x)) as L. replace (h - B2R x - (PI / 2 - B2R x)) with (h - PI / 2) in L by ring. lra.
      + rewrite <- cos_shift. pose proof (cos_lip (h - B2R x) (PI / 2 - B2R x)) as L. replace (h - B2R x - (PI / 2 - B2R x)) with (h - PI / 2) in L by ring. lra.
  Qed.
  Lemma quarter_trig fuel b x : is_finite x = true -> 0 <= B2R x <= h -> good (trig (S (S fuel)) b x) (fn b (B2R x)) (36 * u).
  Proof using prec_ok emax_ok c_ok prec_gt_0_ U0 Ut.
    intros F H. destruct c_facts as [_ (H2 & H3 & H4) _ (N1 & N2)]. apply trig_body; [exact F|lra|lra|]. now apply quarter_body.
  Qed.

  (** Half a turn *)
  Lemma half_body fuel b x : is_finite x = true -> 0 <= B2R x <= P -> good (body (S (S fuel)) b x) (fn b (B2R x)) (40 * u).
  Proof using prec_ok emax_ok c_ok prec_gt_0_ U0 Ut.
    intros F H. destruct (Rle_lt_dec (B2R x) h) as [Lf|Gf]; [apply good_le with (1 := quarter_body (S fuel) b x F ltac:(lra)); rewrite Rminus_diag_eq, Rabs_R0 by reflexivity; lra|].
    destruct c_facts as [(F1 & F2 & F3 & F4 & F5) (H2 & H3 & H4) (E1 & _ & E3 & _) (N1 & N2)].
    destruct (Req_dec (B2R x) P) as [Eq|Ne].
    - destruct b; compare_.
      + apply (good_const _ (-1)); [rewrite is_finite_Bopp; apply is_finite_Bone|rewrite B2R_Bopp; pose proof (proj2 (one_ok prec emax _ _)) as O1; lra|]. cbn [fn]. rewrite <- cos_PI, Eq. apply Rle_trans with (1 := cos_lip _ _). rewrite Rabs_minus_sym. lra.
      + apply (good_const _ 0); [reflexivity..|]. cbn [fn]. rewrite <- sin_PI, Eq. apply Rle_trans with (1 := sin_lip _ _). rewrite Rabs_minus_sym. lra.
    - destruct (minus_sterbenz (pi c) x F1 F ltac:(lra)) as [Fm Vm].
      pose proof (quarter_trig fuel b _ Fm ltac:(rewrite Vm; lra)) as G. rewrite Vm in G.
      destruct b; compare_.
      + apply good_le with (1 := good_opp _ _ _ G). cbn [fn]. pose proof (cos_lip (P - B2R x) (PI - B2R x)) as L. replace (P - B2R x - (PI - B2R x)) with (P - PI) in L by ring.
        assert (E : cos (PI - B2R x) = - cos (B2R x)) by (rewrite cos_minus, cos_PI, sin_PI; ring). rewrite E in L.
        replace (- cos (P - B2R x) - cos (B2R x)) with (- (cos (P - B2R x) - - cos (B2R x))) by ring. rewrite Rabs_Ropp. lra.
      + apply good_le with (1 := G). cbn [fn]. pose proof (sin_lip (P - B2R x) (PI - B2R x)) as L. replace (P - B2R x - (PI - B2R x)) with (P - PI) in L by ring.
        rewrite sin_PI_x in L. lra.
  Qed.
  Lemma half_trig fuel b x : is_finite x = true -> 0 <= B2R x <= P -> good (trig (S (S (S fuel))) b x) (fn b (B2R x)) (40 * u).
  Proof using prec_ok emax_ok c_ok prec_gt_0_ U0 Ut.
    intros F H. destruct c_facts as [_ (H2 & H3 & H4) _ (N1 & N2)]. apply trig_body; [exact F|lra|lra|]. now apply half_body.
  Qed.

  (** A whole turn *)
  Lemma turn_body fuel b x : is_finite x = true -> 0 <= B2R x <= T2 -> b = true \/ B2R x < T2 -> good (body (S (S (S fuel))) b x) (fn b (B2R x)) (47 * u).
  Proof using prec_ok emax_ok c_ok prec_gt_0_ U0 Ut.
    intros F H B. destruct (Rle_lt_dec (B2R x) P) as [Lf|Gf]; [apply good_le with (1 := half_body (S fuel) b x F ltac:(lra)); rewrite Rminus_diag_eq, Rabs_R0 by reflexivity; lra|].
    destruct c_facts as [(F1 & F2 & F3 & F4 & F5) (H2 & H3 & H4) (E1 & E2 & E3 & E5) (N1 & N2)].
    destruct (Req_dec (B2R x) T2) as [Eq|Ne].
    { destruct B as [->|?]; [|lra]. compare_. apply (good_const _ 1); [apply is_finite_Bone|apply Bone_correct|]. cbn [fn]. rewrite <- cos_2PI, Eq.
      apply Rle_trans with (1 := cos_lip _ _). rewrite Rabs_minus_sym. lra. }
    destruct (Req_dec (B2R x) W) as [EqW|NeW].
    { destruct b; compare_.
      - apply (good_const _ 0); [reflexivity..|]. cbn [fn]. assert (C : cos (3 * PI / 2) = 0) by (replace (3 * PI / 2) with (PI + PI / 2) by field; rewrite cos_plus, cos_PI2, sin_PI; ring).
        rewrite <- C, EqW. apply Rle_trans with (1 := cos_lip _ _). rewrite Rabs_minus_sym. lra.
      - apply (good_const _ (-1)); [rewrite is_finite_Bopp; apply is_finite_Bone|rewrite B2R_Bopp; pose proof (proj2 (one_ok prec emax _ _)) as O1; lra|]. cbn [fn].
        assert (C : sin (3 * PI / 2) = -1) by (replace (3 * PI / 2) with (3 * (PI / 2)) by field; apply sin_3PI2).
        rewrite <- C, EqW. apply Rle_trans with (1 := sin_lip _ _). rewrite Rabs_minus_sym. lra. }
    destruct (Rlt_le_dec (B2R x) W) as [L3|G3].
    - destruct (minus_sterbenz x (pi c) F F1 ltac:(lra)) as [Fm Vm].
      pose proof (half_trig fuel b _ Fm ltac:(rewrite Vm; lra)) as G. rewrite Vm in G.
      destruct b; compare_; apply good_le with (1 := good_opp _ _ _ G); cbn [fn].
      + pose proof (cos_lip (B2R x - P) (B2R x - PI)) as L. replace (B2R x - P - (B2R x - PI)) with (- (P - PI)) in L by ring. rewrite Rabs_Ropp in L.
        assert (E : cos (B2R x - PI) = - cos (B2R x)) by (rewrite cos_minus, cos_PI, sin_PI; ring). rewrite E in L.
        replace (- cos (B2R x - P) - cos (B2R x)) with (- (cos (B2R x - P) - - cos (B2R x))) by ring. rewrite Rabs_Ropp. lra.
      + pose proof (sin_lip (B2R x - P) (B2R x - PI)) as L. replace (B2R x - P - (B2R x - PI)) with (- (P - PI)) in L by ring. rewrite Rabs_Ropp in L.
        assert (E : sin (B2R x - PI) = - sin (B2R x)) by (rewrite sin_minus, cos_PI, sin_PI; ring). rewrite E in L.
        replace (- sin (B2R x - P) - sin (B2R x)) with (- (sin (B2R x - P) - - sin (B2R x))) by ring. rewrite Rabs_Ropp. lra.
    - destruct (minus_sterbenz (two_pi c) x F2 F ltac:(lra)) as [Fm Vm].
      pose proof (half_trig fuel b _ Fm ltac:(rewrite Vm; lra)) as G. rewrite Vm in G.
      destruct b; compare_.
      + apply good_le with (1 := G). cbn [fn]. pose proof (cos_lip (T2 - B2R x) (2 * PI - B2R x)) as L. replace (T2 - B2R x - (2 * PI - B2R x)) with (T2 - 2 * PI) in L by ring.
        assert (E : cos (2 * PI - B2R x) = cos (B2R x)) by (rewrite cos_minus, cos_2PI, sin_2PI; ring). rewrite E in L. lra.
      + apply good_le with (1 := good_opp _ _ _ G). cbn [fn]. pose proof (sin_lip (T2 - B2R x) (2 * PI - B2R x)) as L. replace (T2 - B2R x - (2 * PI - B2R x)) with (T2 - 2 * PI) in L by ring.
        assert (E : sin (2 * PI - B2R x) = - sin (B2R x)) by (rewrite sin_minus, cos_2PI, sin_2PI; ring). rewrite E in L.
        replace (- sin (T2 - B2R x) - sin (B2R x)) with (- (sin (T2 - B2R x) - - sin (B2R x))) by ring. rewrite Rabs_Ropp. lra.
  Qed.
  Lemma turn_trig fuel b x : is_finite x = true -> 0 <= B2R x <= T2 -> b = true \/ B2R x < T2 -> good (trig (S (S (S (S fuel)))) b x) (fn b (B2R x)) (47 * u).
  Proof using prec_ok emax_ok c_ok prec_gt_0_ U0 Ut. intros F H B. apply trig_body; [exact F|exact H|lra|]. now apply turn_body. Qed.

  (** Small positive arguments of the sine: no loss of relative accuracy. *)
  Lemma small_sin fuel x : is_finite x = true -> 0 <= B2R x <= f -> good (trig (S fuel) false x) (sin (B2R x)) (34 * u * B2R x).
  Proof using prec_ok emax_ok c_ok prec_gt_0_ U0 Ut.
    intros F H. destruct c_facts as [(F1 & F2 & F3 & F4 & F5) (H2 & H3 & H4) _ (N1 & N2)].
    apply (trig_body fuel false); [exact F|lra|apply Rmult_le_pos; lra|]. cbn [fn].
    assert (X2 : B2R x * B2R x <= 2 / 3). { assert (B2R x * B2R x <= 0.786 * 0.786) by (apply Rmult_le_compat; lra). lra. }
    compare_. destruct (sin_near prec emax _ _ prec_ok emax_ok x F X2) as [Fv B]. rewrite (Rabs_pos_eq (B2R x)) in B by lra. exists (sin_taylor prec emax _ _ x). split; [reflexivity|]. split; [exact Fv|exact B].
  Qed.

  (** Anything the reduction can give. *)
  Lemma any_body fuel b x : is_finite x = true -> - 0.5 <= B2R x <= 6.3 -> good (body (S (S (S fuel))) b x) (fn b (B2R x)) (36000 * u).
  Proof using prec_ok emax_ok c_ok prec_gt_0_ U0 Ut.
    intros F H. destruct c_facts as [(F1 & F2 & F3 & F4 & F5) (H2 & H3 & H4) _ (N1 & N2)].
    destruct (Rle_lt_dec 0 (B2R x)) as [P0|N0].
    2:{ apply good_le with (1 := near_body (S (S (S fuel))) b x F ltac:(lra)). rewrite Rminus_diag_eq, Rabs_R0 by reflexivity. lra. }
    destruct (Rlt_le_dec (B2R x) T2) as [L|G].
    { apply good_le with (1 := turn_body fuel b x F ltac:(lra) (or_intror L)). rewrite Rminus_diag_eq, Rabs_R0 by reflexivity. lra. }
    destruct b.
    - destruct (Req_dec (B2R x) T2) as [Eq|Ne].
      + apply good_le with (1 := turn_body fuel true x F ltac:(lra) (or_introl eq_refl)). rewrite Rminus_diag_eq, Rabs_R0 by reflexivity. lra.
      + compare_. destruct (cos_far prec emax _ _ prec_ok emax_ok x F ltac:(lra)) as [Fv B]. exists (cos_taylor prec emax _ _ x). split; [reflexivity|]. split; [exact Fv|exact B].
    - compare_. destruct (sin_far prec emax _ _ prec_ok emax_ok x F ltac:(lra)) as [Fv B]. exists (sin_taylor prec emax _ _ x). split; [reflexivity|]. split; [exact Fv|exact B].
  Qed.
End Circle.
