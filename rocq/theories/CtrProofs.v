(** The error of an expression made of sums, differences and products, for every choice of fused operations. *)
From Coq Require Import ZArith Bool List Reals Lra Lia Psatz.
From Flocq Require Import Core BinarySingleNaN.
From Verif Require Import MatModel MatSpec VfltSpec VfltProofs CtrModel CtrSpec.
Import ListNotations.
Local Open Scope R_scope.

Section CtrProofs.
  Variable prec emax : Z.
  Context (prec_gt_0_ : Prec_gt_0 prec).
  Context (prec_lt_emax_ : Prec_lt_emax prec emax).
  Notation float := (binary_float prec emax).
  Notation emin := (3 - emax - prec)%Z.
  Notation fexp := (FLT_exp emin prec).
  Notation rnd := (round radix2 fexp ZnearestE).
  Notation format := (generic_format radix2 fexp).
  Notation u := (half_ulp_1 prec).
  Notation h := (half_tiny prec emax).
  Notation G := (1 + half_ulp_1 prec).
  Notation expr := (expr prec emax).
  Notation evals := (evals prec emax _ _).
  Local Instance fexp_valid_c : Valid_exp fexp := FLT_exp_valid emin prec.

  Lemma plus_finite (x y : float) : is_finite (Bplus mode_NE x y) = true ->
    is_finite x = true /\ is_finite y = true /\ B2R (Bplus mode_NE x y) = rnd (B2R x + B2R y).
  Proof using.
    intros H. assert (F : is_finite x = true /\ is_finite y = true).
    { destruct x as [sx|sx| |sx mx ex Hx], y as [sy|sy| |sy my ey Hy]; try (split; reflexivity); try discriminate H; cbn in H; destruct (Bool.eqb _ _); discriminate H. }
    destruct F as [Fx Fy]. split; [exact Fx|]. split; [exact Fy|]. pose proof (Bplus_correct prec emax _ _ mode_NE x y Fx Fy) as C.
    destruct (Rlt_bool _ _); [exact (proj1 C)|]. destruct C as [C _]. destruct (overflow_not _ _ _ _ H C).
  Qed.
  Lemma minus_finite (x y : float) : is_finite (Bminus mode_NE x y) = true ->
    is_finite x = true /\ is_finite y = true /\ B2R (Bminus mode_NE x y) = rnd (B2R x - B2R y).
  Proof using.
    intros H. assert (F : is_finite x = true /\ is_finite y = true).
    { destruct x as [sx|sx| |sx mx ex Hx], y as [sy|sy| |sy my ey Hy]; try (split; reflexivity); try discriminate H; cbn in H; destruct (Bool.eqb _ _); discriminate H. }
    destruct F as [Fx Fy]. split; [exact Fx|]. split; [exact Fy|]. pose proof (Bminus_correct prec emax _ _ mode_NE x y Fx Fy) as C.
    destruct (Rlt_bool _ _); [exact (proj1 C)|]. destruct C as [C _]. destruct (overflow_not _ _ _ _ H C).
  Qed.
  Lemma minus_ok (x y : float) : is_finite x = true -> is_finite y = true -> Rabs (rnd (B2R x - B2R y)) < bpow radix2 emax ->
    is_finite (Bminus mode_NE x y) = true /\ B2R (Bminus mode_NE x y) = rnd (B2R x - B2R y).
  Proof using.
    intros Fx Fy H. pose proof (Bminus_correct prec emax _ _ mode_NE x y Fx Fy) as C. rewrite Rlt_bool_true in C by exact H.
    destruct C as (V & F & _). split; [exact F | exact V].
  Qed.

  (** The exact value, the value with all signs positive, the number of roundings that pile up, and the share of underflow. *)
  Fixpoint real (e : expr) : R :=
    match e with
    | Leaf x => B2R x
    | Add a b => real a + real b
    | Sub a b => real a - real b
    | Mul a b => real a * real b
    | Div a b => real a / real b
    | Neg a => - real a
    end.
  Fixpoint mag (e : expr) : R :=
    match e with
    | Leaf x => Rabs (B2R x)
    | Add a b | Sub a b => mag a + mag b
    | Mul a b => mag a * mag b
    | Div a b => mag a / mag b
    | Neg a => mag a
    end.
  Fixpoint rounds (e : expr) : nat :=
    match e with
    | Leaf _ => 0
    | Add a b | Sub a b => S (Nat.max (rounds a) (rounds b))
    | Mul a b | Div a b => S (rounds a + rounds b)
    | Neg a => rounds a
    end.
  Fixpoint under (e : expr) : R :=
    match e with
    | Leaf _ => 0
    | Add a b | Sub a b => G * (under a + under b) + h
    | Mul a b | Div a b => G * (G ^ rounds a * mag a * under b + G ^ rounds b * mag b * under a + under a * under b) + h
    | Neg a => under a
    end.
  (** No divisions. *)
  Fixpoint poly (e : expr) : Prop :=
    match e with
    | Leaf _ => True
    | Add a b | Sub a b | Mul a b => poly a /\ poly b
    | Div _ _ => False
    | Neg a => poly a
    end.
  Fixpoint leaves_finite (e : expr) : Prop :=
    match e with
    | Leaf x => is_finite x = true
    | Add a b | Sub a b | Mul a b | Div a b => leaves_finite a /\ leaves_finite b
    | Neg a => leaves_finite a
    end.

  Lemma mag_pos e : poly e -> 0 <= mag e.
  Proof using. induction e; cbn [poly mag]; intros H; try (destruct H as [H1 H2]; specialize (IHe1 H1); specialize (IHe2 H2)); try nra; [apply Rabs_pos | exact (IHe H)]. Qed.
  Lemma real_le e : poly e -> Rabs (real e) <= mag e.
  Proof using.
    induction e; cbn [poly mag real]; intros H; try (destruct H as [H1 H2]; specialize (IHe1 H1); specialize (IHe2 H2)).
    - lra.
    - pose proof (Rabs_triang (real e1) (real e2)). lra.
    - pose proof (Rabs_triang (real e1) (- real e2)) as T. rewrite Rabs_Ropp in T. unfold Rminus. lra.
    - rewrite Rabs_mult. apply Rmult_le_compat; try apply Rabs_pos; assumption.
    - contradiction.
    - rewrite Rabs_Ropp. exact (IHe H).
  Qed.
  Lemma under_pos e : poly e -> 0 <= under e.
  Proof using.
    pose proof (u_pos prec) as U. pose proof (h_pos prec emax) as Hp.
    induction e; cbn [poly under]; intros H; try (destruct H as [H1 H2]; specialize (IHe1 H1); specialize (IHe2 H2)); try lra; try contradiction.
    - nra.
    - nra.
    - pose proof (G_pow prec (rounds e1)) as G1. pose proof (G_pow prec (rounds e2)) as G2. pose proof (mag_pos e1 H1). pose proof (mag_pos e2 H2).
      assert (0 <= G ^ rounds e1 * mag e1 * under e2) by (apply Rmult_le_pos; [apply Rmult_le_pos|]; lra).
      assert (0 <= G ^ rounds e2 * mag e2 * under e1) by (apply Rmult_le_pos; [apply Rmult_le_pos|]; lra).
      assert (0 <= under e1 * under e2) by (apply Rmult_le_pos; lra). nra.
    - exact (IHe H).
  Qed.

  (** [x] is [a] up to [r] roundings of magnitude [m] and [t]. *)
  Definition bnd (r : nat) (m t x a : R) : Prop := Rabs a <= m /\ 0 <= t /\ Rabs (x - a) <= (G ^ r - 1) * m + t.
  Lemma bnd_weak r r' m t t' x a : (r <= r')%nat -> t <= t' -> bnd r m t x a -> bnd r' m t' x a.
  Proof using.
    intros H T (A & P & B). split; [exact A|]. split; [lra|]. pose proof (G_pow_le prec r r' H). pose proof (Rabs_pos a).
    assert ((G ^ r - 1) * m <= (G ^ r' - 1) * m) by (apply Rmult_le_compat_r; lra). lra.
  Qed.
  Lemma bnd_rnd r m t z a : bnd r m t z a -> bnd (S r) m (G * t + h) (rnd z) a.
  Proof using prec_gt_0_.
    intros (A & P & B). pose proof (u_pos prec) as U. pose proof (h_pos prec emax) as Hp. split; [exact A|]. split; [nra|].
    pose proof (rnd_err prec emax prec_gt_0_ z) as E. pose proof (Rabs_triang (rnd z - z) (z - a)) as T. replace (rnd z - z + (z - a)) with (rnd z - a) in T by ring.
    pose proof (Rabs_triang (z - a) a) as T2. replace (z - a + a) with z in T2 by ring. cbn [pow].
    assert (u * Rabs z <= u * ((G ^ r - 1) * m + t + m)) by (apply Rmult_le_compat_l; lra). lra.
  Qed.
  Lemma bnd_size r m t x a : bnd r m t x a -> Rabs x <= G ^ r * m + t.
  Proof using. intros (A & P & B). pose proof (Rabs_triang (x - a) a) as T. replace (x - a + a) with x in T by ring. lra. Qed.
  Lemma bnd_add ra rb ma mb ta tb x y a b : bnd ra ma ta x a -> bnd rb mb tb y b -> bnd (Nat.max ra rb) (ma + mb) (ta + tb) (x + y) (a + b).
  Proof using.
    intros Ha Hb. apply (bnd_weak ra (Nat.max ra rb) ma ta ta) in Ha; [|lia|lra]. apply (bnd_weak rb (Nat.max ra rb) mb tb tb) in Hb; [|lia|lra].
    destruct Ha as (A1 & A2 & A3), Hb as (B1 & B2 & B3). split; [pose proof (Rabs_triang a b); lra|]. split; [lra|].
    replace (x + y - (a + b)) with ((x - a) + (y - b)) by ring. pose proof (Rabs_triang (x - a) (y - b)). lra.
  Qed.
  Lemma bnd_neg r m t x a : bnd r m t x a -> bnd r m t (- x) (- a).
  Proof using. intros (A & P & B). split; [rewrite Rabs_Ropp; exact A|]. split; [exact P|]. replace (- x - - a) with (- (x - a)) by ring. rewrite Rabs_Ropp. exact B. Qed.
  Lemma bnd_mul ra rb ma mb ta tb x y a b : bnd ra ma ta x a -> bnd rb mb tb y b ->
    bnd (ra + rb) (ma * mb) (G ^ ra * ma * tb + G ^ rb * mb * ta + ta * tb) (x * y) (a * b).
  Proof using.
    intros Ha Hb. pose proof (bnd_size _ _ _ _ _ Ha) as Sx. destruct Ha as (A1 & A2 & A3), Hb as (B1 & B2 & B3).
    pose proof (Rabs_pos a) as Pa. pose proof (Rabs_pos b) as Pb. pose proof (Rabs_pos x) as Px. pose proof (G_pow prec ra) as G1. pose proof (G_pow prec rb) as G2.
    split; [rewrite Rabs_mult; apply Rmult_le_compat; assumption|]. split.
    { repeat apply Rplus_le_le_0_compat; repeat apply Rmult_le_pos; lra. }
    replace (x * y - a * b) with (x * (y - b) + b * (x - a)) by ring. rewrite pow_add. set (ga := G ^ ra) in *. set (gb := G ^ rb) in *. clearbody ga gb.
    pose proof (Rabs_triang (x * (y - b)) (b * (x - a))) as T. rewrite !Rabs_mult in T.
    assert (P1 : Rabs x * Rabs (y - b) <= (ga * ma + ta) * ((gb - 1) * mb + tb)) by (apply Rmult_le_compat; try apply Rabs_pos; assumption).
    assert (P2 : Rabs b * Rabs (x - a) <= mb * ((ga - 1) * ma + ta)) by (apply Rmult_le_compat; try apply Rabs_pos; assumption).
    replace ((ga * gb - 1) * (ma * mb) + (ga * ma * tb + gb * mb * ta + ta * tb))
      with ((ga * ma + ta) * ((gb - 1) * mb + tb) + mb * ((ga - 1) * ma + ta)) by ring. lra.
  Qed.

  Notation prod_t a b := (G ^ rounds a * mag a * under b + G ^ rounds b * mag b * under a + under a * under b).
  Definition ok (e : expr) (x : R) : Prop := bnd (rounds e) (mag e) (under e) x (real e).
  Lemma mul_ok_ a b x y : ok a x -> ok b y -> bnd (rounds a + rounds b) (mag a * mag b) (prod_t a b) (x * y) (real a * real b).
  Proof using. apply bnd_mul. Qed.
  Lemma pre_le (t : R) : 0 <= t -> t <= G * t + h.
  Proof using. intros H. pose proof (u_pos prec). pose proof (h_pos prec emax). nra. Qed.

  Lemma ok_mul a b x y : ok a x -> ok b y -> ok (Mul _ _ a b) (rnd (x * y)).
  Proof using prec_gt_0_. intros A B. apply bnd_rnd, mul_ok_; assumption. Qed.
  Lemma ok_add a b x y : ok a x -> ok b y -> ok (Add _ _ a b) (rnd (x + y)).
  Proof using prec_gt_0_. intros A B. apply bnd_rnd, bnd_add; assumption. Qed.
  Lemma ok_sub a b x y : ok a x -> ok b y -> ok (Sub _ _ a b) (rnd (x - y)).
  Proof using prec_gt_0_. intros A B. apply bnd_rnd. unfold Rminus. apply bnd_add; [exact A | apply bnd_neg; exact B]. Qed.
  (** The product of a fused operation is as close as the rounded one. *)
  Lemma ok_product a b x y : ok a x -> ok b y -> ok (Mul _ _ a b) (x * y).
  Proof using.
    intros A B. assert (M := mul_ok_ a b x y A B). apply (bnd_weak (rounds a + rounds b) _ _ (prod_t a b)); [cbn; lia | | exact M].
    cbn [under]. apply pre_le. exact (proj1 (proj2 M)).
  Qed.

  Theorem evals_error e x : poly e -> evals e x -> is_finite x = true -> leaves_finite e /\ ok e (B2R x).
  Proof using.
    intros P H. revert P. induction H; intros P F; cbn [poly] in P.
    - split; [exact F|]. unfold ok, bnd. cbn [mag under real rounds pow]. replace (B2R x - B2R x) with 0 by ring. rewrite Rabs_R0. pose proof (Rabs_pos (B2R x)). lra.
    - rewrite is_finite_Bopp in F. destruct (IHevals P F) as [L K]. split; [exact L|]. rewrite B2R_Bopp. apply bnd_neg. exact K.
    - destruct P as [Pa Pb], (plus_finite x y F) as (Fx & Fy & V). destruct (IHevals1 Pa Fx) as [La Ka], (IHevals2 Pb Fy) as [Lb Kb].
      split; [split; assumption|]. rewrite V. apply ok_add; assumption.
    - destruct P as [Pa Pb], (minus_finite x y F) as (Fx & Fy & V). destruct (IHevals1 Pa Fx) as [La Ka], (IHevals2 Pb Fy) as [Lb Kb].
      split; [split; assumption|]. rewrite V. apply ok_sub; assumption.
    - destruct P as [Pa Pb], (mult_finite _ _ _ _ x y F) as (Fx & Fy & V). destruct (IHevals1 Pa Fx) as [La Ka], (IHevals2 Pb Fy) as [Lb Kb].
      split; [split; assumption|]. rewrite V. apply ok_mul; assumption.
    - contradiction.
    - destruct P as [[Pa Pb] Pc], (fma_finite _ _ _ _ x y z F) as (Fx & Fy & Fz & V). destruct (IHevals1 Pa Fx) as [La Ka], (IHevals2 Pb Fy) as [Lb Kb], (IHevals3 Pc Fz) as [Lc Kc].
      split; [repeat split; assumption|]. rewrite V. apply ok_add; [apply ok_product; assumption | assumption].
    - destruct P as [Pc [Pa Pb]], (fma_finite _ _ _ _ x y z F) as (Fx & Fy & Fz & V). destruct (IHevals1 Pa Fx) as [La Ka], (IHevals2 Pb Fy) as [Lb Kb], (IHevals3 Pc Fz) as [Lc Kc].
      split; [repeat split; assumption|]. rewrite V, Rplus_comm. apply ok_add; [assumption | apply ok_product; assumption].
    - destruct P as [[Pa Pb] Pc], (fma_finite _ _ _ _ x y _ F) as (Fx & Fy & Fz & V). rewrite is_finite_Bopp in Fz.
      destruct (IHevals1 Pa Fx) as [La Ka], (IHevals2 Pb Fy) as [Lb Kb], (IHevals3 Pc Fz) as [Lc Kc].
      split; [repeat split; assumption|]. rewrite V, B2R_Bopp. apply ok_sub; [apply ok_product; assumption | assumption].
    - destruct P as [Pc [Pa Pb]], (fma_finite _ _ _ _ _ y z F) as (Fx & Fy & Fz & V). rewrite is_finite_Bopp in Fx.
      destruct (IHevals1 Pa Fx) as [La Ka], (IHevals2 Pb Fy) as [Lb Kb], (IHevals3 Pc Fz) as [Lc Kc].
      split; [repeat split; assumption|]. rewrite V, B2R_Bopp. replace (- B2R x * B2R y + B2R z) with (B2R z - B2R x * B2R y) by ring.
      apply ok_sub; [assumption | apply ok_product; assumption].
  Qed.

  (** No intermediate result overflows. *)
  Fixpoint fits (e : expr) : Prop :=
    match e with
    | Leaf x => is_finite x = true
    | Add a b | Sub a b | Mul a b => fits a /\ fits b /\ G ^ rounds e * mag e + under e < bpow radix2 emax
    | Div a b => False
    | Neg a => fits a
    end.
  Lemma fits_poly e : fits e -> poly e.
  Proof using. induction e; cbn [fits poly]; intros H; try exact I; try (destruct H as (A & B & _); split; auto); auto. Qed.
  Theorem evals_finite e x : fits e -> evals e x -> is_finite x = true.
  Proof using.
    intros H E. revert H. induction E; intros H; cbn [fits] in H.
    - exact H.
    - rewrite is_finite_Bopp. auto.
    - destruct H as (A & B & C). assert (Fx := IHE1 A). assert (Fy := IHE2 B).
      destruct (evals_error _ _ (fits_poly _ A) E1 Fx) as [_ Ka], (evals_error _ _ (fits_poly _ B) E2 Fy) as [_ Kb].
      apply plus_ok; try assumption. exact (Rle_lt_trans _ _ _ (bnd_size _ _ _ _ _ (ok_add _ _ _ _ Ka Kb)) C).
    - destruct H as (A & B & C). assert (Fx := IHE1 A). assert (Fy := IHE2 B).
      destruct (evals_error _ _ (fits_poly _ A) E1 Fx) as [_ Ka], (evals_error _ _ (fits_poly _ B) E2 Fy) as [_ Kb].
      apply minus_ok; try assumption. exact (Rle_lt_trans _ _ _ (bnd_size _ _ _ _ _ (ok_sub _ _ _ _ Ka Kb)) C).
    - destruct H as (A & B & C). assert (Fx := IHE1 A). assert (Fy := IHE2 B).
      destruct (evals_error _ _ (fits_poly _ A) E1 Fx) as [_ Ka], (evals_error _ _ (fits_poly _ B) E2 Fy) as [_ Kb].
      apply mult_ok; try assumption. exact (Rle_lt_trans _ _ _ (bnd_size _ _ _ _ _ (ok_mul _ _ _ _ Ka Kb)) C).
    - contradiction.
    - destruct H as ((A & B & _) & D & C). assert (Fx := IHE1 A). assert (Fy := IHE2 B). assert (Fz := IHE3 D).
      destruct (evals_error _ _ (fits_poly _ A) E1 Fx) as [_ Ka], (evals_error _ _ (fits_poly _ B) E2 Fy) as [_ Kb], (evals_error _ _ (fits_poly _ D) E3 Fz) as [_ Kc].
      apply fma_ok; try assumption. exact (Rle_lt_trans _ _ _ (bnd_size _ _ _ _ _ (ok_add _ _ _ _ (ok_product _ _ _ _ Ka Kb) Kc)) C).
    - destruct H as (D & (A & B & _) & C). assert (Fx := IHE1 A). assert (Fy := IHE2 B). assert (Fz := IHE3 D).
      destruct (evals_error _ _ (fits_poly _ A) E1 Fx) as [_ Ka], (evals_error _ _ (fits_poly _ B) E2 Fy) as [_ Kb], (evals_error _ _ (fits_poly _ D) E3 Fz) as [_ Kc].
      apply fma_ok; try assumption. rewrite Rplus_comm. exact (Rle_lt_trans _ _ _ (bnd_size _ _ _ _ _ (ok_add _ _ _ _ Kc (ok_product _ _ _ _ Ka Kb))) C).
    - destruct H as ((A & B & _) & D & C). assert (Fx := IHE1 A). assert (Fy := IHE2 B). assert (Fz := IHE3 D).
      destruct (evals_error _ _ (fits_poly _ A) E1 Fx) as [_ Ka], (evals_error _ _ (fits_poly _ B) E2 Fy) as [_ Kb], (evals_error _ _ (fits_poly _ D) E3 Fz) as [_ Kc].
      apply fma_ok; try assumption; [rewrite is_finite_Bopp; exact Fz|]. rewrite B2R_Bopp. exact (Rle_lt_trans _ _ _ (bnd_size _ _ _ _ _ (ok_sub _ _ _ _ (ok_product _ _ _ _ Ka Kb) Kc)) C).
    - destruct H as (D & (A & B & _) & C). assert (Fx := IHE1 A). assert (Fy := IHE2 B). assert (Fz := IHE3 D).
      destruct (evals_error _ _ (fits_poly _ A) E1 Fx) as [_ Ka], (evals_error _ _ (fits_poly _ B) E2 Fy) as [_ Kb], (evals_error _ _ (fits_poly _ D) E3 Fz) as [_ Kc].
      apply fma_ok; try assumption; [rewrite is_finite_Bopp; exact Fx|]. rewrite B2R_Bopp. replace (- B2R x * B2R y + B2R z) with (B2R z - B2R x * B2R y) by ring.
      exact (Rle_lt_trans _ _ _ (bnd_size _ _ _ _ _ (ok_sub _ _ _ _ Kc (ok_product _ _ _ _ Ka Kb))) C).
  Qed.

  (** Every intermediate result, the products among them, is a number of the format: then nothing is rounded at all. *)
  Fixpoint exact (e : expr) : Prop :=
    match e with
    | Leaf x => is_finite x = true
    | Add a b | Sub a b | Mul a b => exact a /\ exact b /\ format (real e) /\ Rabs (real e) < bpow radix2 emax
    | Div a b => False
    | Neg a => exact a
    end.
  Theorem evals_exact e x : exact e -> evals e x -> is_finite x = true /\ B2R x = real e.
  Proof using.
    intros H E. revert H. induction E; intros H; cbn [exact] in H.
    - split; [exact H | reflexivity].
    - destruct (IHE H) as [F V]. split; [rewrite is_finite_Bopp; exact F | rewrite B2R_Bopp, V; reflexivity].
    - destruct H as (A & B & C & D). destruct (IHE1 A) as [Fx Vx], (IHE2 B) as [Fy Vy]. cbn [real] in *. rewrite <- Vx, <- Vy in *.
      assert (R := round_generic radix2 fexp ZnearestE _ C). destruct (plus_ok _ _ _ _ x y Fx Fy) as [F V]; [rewrite R; exact D | split; [exact F | rewrite V; exact R]].
    - destruct H as (A & B & C & D). destruct (IHE1 A) as [Fx Vx], (IHE2 B) as [Fy Vy]. cbn [real] in *. rewrite <- Vx, <- Vy in *.
      assert (R := round_generic radix2 fexp ZnearestE _ C). destruct (minus_ok x y Fx Fy) as [F V]; [rewrite R; exact D | split; [exact F | rewrite V; exact R]].
    - destruct H as (A & B & C & D). destruct (IHE1 A) as [Fx Vx], (IHE2 B) as [Fy Vy]. cbn [real] in *. rewrite <- Vx, <- Vy in *.
      assert (R := round_generic radix2 fexp ZnearestE _ C). destruct (mult_ok _ _ _ _ x y Fx Fy) as [F V]; [rewrite R; exact D | split; [exact F | rewrite V; exact R]].
    - contradiction.
    - destruct H as ((A & B & _) & K & C & D). destruct (IHE1 A) as [Fx Vx], (IHE2 B) as [Fy Vy], (IHE3 K) as [Fz Vz]. cbn [real] in *. rewrite <- Vx, <- Vy, <- Vz in *.
      assert (R := round_generic radix2 fexp ZnearestE _ C). destruct (fma_ok _ _ _ _ x y z Fx Fy Fz) as [F V]; [rewrite R; exact D | split; [exact F | rewrite V; exact R]].
    - destruct H as (K & (A & B & _) & C & D). destruct (IHE1 A) as [Fx Vx], (IHE2 B) as [Fy Vy], (IHE3 K) as [Fz Vz]. cbn [real] in *. rewrite <- Vx, <- Vy, <- Vz in *.
      rewrite Rplus_comm in C, D |- *. assert (R := round_generic radix2 fexp ZnearestE _ C). destruct (fma_ok _ _ _ _ x y z Fx Fy Fz) as [F V]; [rewrite R; exact D | split; [exact F | rewrite V; exact R]].
    - destruct H as ((A & B & _) & K & C & D). destruct (IHE1 A) as [Fx Vx], (IHE2 B) as [Fy Vy], (IHE3 K) as [Fz Vz]. cbn [real] in *. rewrite <- Vx, <- Vy, <- Vz in *.
      assert (R := round_generic radix2 fexp ZnearestE _ C). unfold Rminus in *. rewrite <- B2R_Bopp in *. rewrite <- is_finite_Bopp in Fz.
      destruct (fma_ok _ _ _ _ x y (Bopp z) Fx Fy Fz) as [F V]; [rewrite R; exact D | split; [exact F | rewrite V; exact R]].
    - destruct H as (K & (A & B & _) & C & D). destruct (IHE1 A) as [Fx Vx], (IHE2 B) as [Fy Vy], (IHE3 K) as [Fz Vz]. cbn [real] in *. rewrite <- Vx, <- Vy, <- Vz in *.
      assert (R := round_generic radix2 fexp ZnearestE _ C). replace (B2R z - B2R x * B2R y) with (B2R (Bopp x) * B2R y + B2R z) in * by (rewrite B2R_Bopp; ring).
      rewrite <- is_finite_Bopp in Fx. destruct (fma_ok _ _ _ _ (Bopp x) y z Fx Fy Fz) as [F V]; [rewrite R; exact D | split; [exact F | rewrite V; exact R]].
  Qed.
  (** Every expression has a result. *)
  Lemma evals_total e : exists x, evals e x.
  Proof using.
    induction e as [x|a [x A] b [y B]|a [x A] b [y B]|a [x A] b [y B]|a [x A] b [y B]|a [x A]]; eexists; econstructor; eassumption.
  Qed.
End CtrProofs.
