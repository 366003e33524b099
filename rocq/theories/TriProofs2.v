(** Triangles in space: the plane of one cuts the other in a segment. *)
From Coq Require Import Reals Lra Psatz Bool.
From Verif Require Import Words VecModel VecSpec GeomModel GeomSpec GeomProofs TriModel TriSpec TriProofs.
Local Open Scope R_scope.

Lemma v3_eq (a b : v3) : vx a = vx b -> vy a = vy b -> vz a = vz b -> a = b.
Proof. destruct a, b; cbn; congruence. Qed.

Definition normal_of (p0 p1 p2 : v3) : v3 := cross (sub3 p1 p0) (sub3 p2 p0).
Lemma height_volume p0 p1 p2 x : height (normal_of p0 p1 p2) p0 x = volume p0 p1 p2 x.
Proof. unfold height, normal_of, cross, sub3, dot3, volume. cbn. ring. Qed.
Lemma volume_dot p0 p1 p2 x : volume p0 p1 p2 x = dot3 (normal_of p0 p1 p2) (sub3 x p0).
Proof. unfold normal_of, cross, sub3, dot3, volume. cbn. ring. Qed.
Lemma snap_settled eps p0 p1 p2 x : settled eps p0 p1 p2 x -> snap eps (height (normal_of p0 p1 p2) p0 x) = volume p0 p1 p2 x.
Proof.
  intros S. unfold snap. rewrite height_volume. destruct (ltb _ _) eqn:L; [|reflexivity]. booleans. destruct S as [S|S]; lra.
Qed.

Lemma volume_mix p0 p1 p2 q0 q1 q2 a b c : a + b + c = 1 ->
  volume p0 p1 p2 (mix q0 q1 q2 a b c) = a * volume p0 p1 p2 q0 + b * volume p0 p1 p2 q1 + c * volume p0 p1 p2 q2.
Proof. intros E. replace a with (1 - b - c) by lra. unfold volume, mix. cbn. ring. Qed.
Lemma volume_self p0 p1 p2 x : in_triangle p0 p1 p2 x -> volume p0 p1 p2 x = 0.
Proof. intros (a & b & c & _ & _ & _ & E & ->). replace a with (1 - b - c) by lra. unfold volume, mix. cbn. ring. Qed.
Lemma volume_along p0 p1 p2 a b t : volume p0 p1 p2 (along a b t) = (1 - t) * volume p0 p1 p2 a + t * volume p0 p1 p2 b.
Proof. unfold volume, along. cbn. ring. Qed.

Lemma triangle_102 p0 p1 p2 x : in_triangle p1 p0 p2 x <-> in_triangle p0 p1 p2 x.
Proof. split; intros (a & b & c & A & B & C & E & ->); exists b, a, c; (repeat split; try lra; apply v3_eq; unfold mix; cbn; ring). Qed.
Lemma triangle_201 p0 p1 p2 x : in_triangle p2 p0 p1 x <-> in_triangle p0 p1 p2 x.
Proof. split; intros (a & b & c & A & B & C & E & ->); [exists b, c, a|exists c, a, b]; (repeat split; try lra; apply v3_eq; unfold mix; cbn; ring). Qed.

(** The first corner is alone on its side, or on the plane. *)
Definition lone (d0 d1 d2 : R) : Prop := d0 * d1 <= 0 /\ d0 * d2 <= 0 /\ d0 <> d1 /\ d0 <> d2 /\ (d0 = 0 -> 0 < d1 * d2).
Definition pick (d0 d1 d2 : R) : option nat :=
  if ltb 0 (d0 * d1) then Some 2%nat else if ltb 0 (d0 * d2) then Some 1%nat else if ltb 0 (d1 * d2) || nonzero d0 then Some O
  else if nonzero d1 then Some 1%nat else if nonzero d2 then Some 2%nat else None.

Lemma nonzero_true a : nonzero a = true <-> a <> 0.
Proof. unfold nonzero. destruct (Req_EM_T a 0); split; congruence. Qed.
Lemma nonzero_false a : nonzero a = false <-> a = 0.
Proof. unfold nonzero. destruct (Req_EM_T a 0); split; congruence. Qed.

Lemma pick_none d0 d1 d2 : pick d0 d1 d2 = None <-> d0 = 0 /\ d1 = 0 /\ d2 = 0.
Proof.
  unfold pick. split.
  - destruct (ltb 0 (d0 * d1)) eqn:A; [discriminate|]. destruct (ltb 0 (d0 * d2)) eqn:B; [discriminate|].
    destruct (ltb 0 (d1 * d2) || nonzero d0) eqn:C; [discriminate|]. destruct (nonzero d1) eqn:D; [discriminate|]. destruct (nonzero d2) eqn:E; [discriminate|].
    intros _. apply orb_false_iff in C. destruct C as (_ & C). apply nonzero_false in C, D, E. auto.
  - intros (-> & -> & ->). rewrite !Rmult_0_l. replace (ltb 0 0) with false by (symmetry; apply ltb_false; lra).
    replace (nonzero 0) with false by (symmetry; now apply nonzero_false). reflexivity.
Qed.

Lemma neq_of a b : a * b <= 0 -> b <> 0 -> a <> b.
Proof. intros H N ->. assert (0 < b * b) by (destruct (Rtotal_order b 0) as [|[|]]; [nra|contradiction|nra]). lra. Qed.
Lemma pos_sign a b c : 0 < a * b -> a * c <= 0 -> b * c <= 0.
Proof. intros H K. destruct (Rtotal_order a 0) as [A|[A|A]]. - assert (b < 0) by nra. assert (0 <= c) by nra. nra. - subst a. lra. - assert (0 < b) by nra. assert (c <= 0) by nra. nra. Qed.
Lemma pos_nz a b : 0 < a * b -> a <> 0 /\ b <> 0.
Proof. split; intros ->; lra. Qed.

Lemma pick_lone d0 d1 d2 k : ~ (0 < d0 * d1 /\ 0 < d0 * d2) -> pick d0 d1 d2 = Some k ->
  (k = O /\ lone d0 d1 d2) \/ (k = 1%nat /\ lone d1 d0 d2) \/ (k = 2%nat /\ lone d2 d0 d1).
Proof.
  intros N. unfold pick, lone.
  destruct (ltb 0 (d0 * d1)) eqn:A; booleans.
  - intros E. injection E as <-. right; right. split; [reflexivity|].
    assert (B : d0 * d2 <= 0) by lra. pose proof (pos_sign _ _ _ A B). destruct (pos_nz _ _ A) as (N0 & N1).
    repeat split; try lra; apply neq_of; lra.
  - destruct (ltb 0 (d0 * d2)) eqn:B; booleans.
    + intros E. injection E as <-. right; left. split; [reflexivity|].
      pose proof (pos_sign _ _ _ B A). destruct (pos_nz _ _ B) as (N0 & N1). repeat split; try lra; apply neq_of; lra.
    + destruct (ltb 0 (d1 * d2) || nonzero d0) eqn:C.
      * intros E. injection E as <-. left. split; [reflexivity|]. apply orb_true_iff in C. rewrite ltb_true, nonzero_true in C.
        assert (F : forall d, d0 * d <= 0 -> d <> 0 \/ d0 <> 0 -> d0 <> d).
        { intros d X [Y|Y]; [now apply neq_of|]. intros E. symmetry in E. revert E. apply neq_of; lra. }
        repeat split; try lra.
        -- apply F; [exact A|]. destruct C as [C|C]; [left; apply (pos_nz _ _ C)|auto].
        -- apply F; [exact B|]. destruct C as [C|C]; [left; apply (pos_nz _ _ C)|auto].
      * apply orb_false_iff in C. rewrite ltb_false, nonzero_false in C. destruct C as (C & ->).
        destruct (nonzero d1) eqn:D.
        -- apply nonzero_true in D. intros E. injection E as <-. right; left. split; [reflexivity|].
           repeat split; try lra. intros E. symmetry in E. revert E. apply neq_of; lra.
        -- apply nonzero_false in D. subst d1. destruct (nonzero d2) eqn:E2; [|discriminate]. apply nonzero_true in E2.
           intros E. injection E as <-. right; right. split; [reflexivity|]. repeat split; lra.
Qed.

(** ** The cut *)
Definition cutp (a b : v3) (da db : R) : v3 := along a b (da / (da - db)).

Lemma ratio_unit d0 d1 : d0 * d1 <= 0 -> d0 <> d1 -> 0 <= d0 / (d0 - d1) <= 1.
Proof.
  intros P N. apply unit_iff; [lra|]. destruct (Rtotal_order d0 0) as [A|[A|A]].
  - right. assert (0 <= d1) by nra. lra.
  - subst. destruct (Rtotal_order d1 0) as [B|[B|B]]; [left|congruence|right]; lra.
  - left. assert (d1 <= 0) by nra. lra.
Qed.

Lemma cut_spec a b c f0 f1 f2 x : lone f0 f1 f2 ->
  in_segment (cutp a b f0 f1) (cutp a c f0 f2) x <-> exists p q r, 0 <= p /\ 0 <= q /\ 0 <= r /\ p + q + r = 1 /\ p * f0 + q * f1 + r * f2 = 0 /\ x = mix a b c p q r.
Proof.
  intros (L1 & L2 & N1 & N2 & Z). pose proof (ratio_unit _ _ L1 N1) as T1. pose proof (ratio_unit _ _ L2 N2) as T2.
  assert (E1 : f0 / (f0 - f1) * (f0 - f1) = f0) by (field; lra). assert (E2 : f0 / (f0 - f2) * (f0 - f2) = f0) by (field; lra).
  unfold cutp. set (s1 := f0 / (f0 - f1)) in *. set (s2 := f0 / (f0 - f2)) in *.
  split.
  - intros (t & T & ->).
    exists (1 - (1 - t) * s1 - t * s2), ((1 - t) * s1), (t * s2).
    assert (Q1 : 0 <= (1 - t) * s1) by (apply Rmult_le_pos; lra). assert (Q2 : 0 <= t * s2) by (apply Rmult_le_pos; lra).
    assert (Q3 : (1 - t) * s1 <= 1 - t) by (assert (0 <= (1 - t) * (1 - s1)) by (apply Rmult_le_pos; lra); lra).
    assert (Q4 : t * s2 <= t) by (assert (0 <= t * (1 - s2)) by (apply Rmult_le_pos; lra); lra).
    repeat split; try lra.
    + replace ((1 - (1 - t) * s1 - t * s2) * f0 + (1 - t) * s1 * f1 + t * s2 * f2) with (f0 - (1 - t) * (s1 * (f0 - f1)) - t * (s2 * (f0 - f2))) by ring. rewrite E1, E2. ring.
    + apply v3_eq; unfold mix, along; cbn; ring.
  - intros (p & q & r & P & Q & S & E & F & ->). destruct (Req_dec f0 0) as [Z0|Z0].
    + specialize (Z Z0). assert (q = 0 /\ r = 0) as (-> & ->).
      { rewrite Z0 in F. destruct (Rtotal_order f1 0) as [A|[A|A]].
        - assert (f2 < 0) by nra. assert (0 <= q * - f1) by (apply Rmult_le_pos; lra). assert (0 <= r * - f2) by (apply Rmult_le_pos; lra).
          assert (X : q * f1 = 0) by lra. assert (Y : r * f2 = 0) by lra. apply Rmult_integral in X, Y. lra.
        - subst f1. lra.
        - assert (0 < f2) by nra. assert (0 <= q * f1) by (apply Rmult_le_pos; lra). assert (0 <= r * f2) by (apply Rmult_le_pos; lra).
          assert (X : q * f1 = 0) by lra. assert (Y : r * f2 = 0) by lra. apply Rmult_integral in X, Y. lra. }
      assert (S1 : s1 = 0) by (unfold s1; rewrite Z0; unfold Rdiv; ring). assert (S2 : s2 = 0) by (unfold s2; rewrite Z0; unfold Rdiv; ring).
      exists 0. split; [lra|]. replace p with 1 by lra. apply v3_eq; unfold mix, along; cbn; rewrite S1, S2; ring.
    + assert (NS1 : s1 <> 0) by (intros X; rewrite X in E1; lra). assert (NS2 : s2 <> 0) by (intros X; rewrite X in E2; lra).
      assert (SUM : q / s1 + r / s2 = 1).
      { unfold s1, s2. replace (q / (f0 / (f0 - f1)) + r / (f0 / (f0 - f2))) with ((q * (f0 - f1) + r * (f0 - f2)) / f0) by (field; repeat split; lra).
        replace (q * (f0 - f1) + r * (f0 - f2)) with f0; [field; exact Z0|]. replace p with (1 - q - r) in F by lra. lra. }
      assert (R2 : 0 <= r / s2) by (unfold Rdiv; apply Rmult_le_pos; [exact S|left; apply Rinv_0_lt_compat; lra]).
      assert (R1 : 0 <= q / s1) by (unfold Rdiv; apply Rmult_le_pos; [exact Q|left; apply Rinv_0_lt_compat; lra]).
      exists (r / s2). split; [lra|]. assert (EQ : (1 - r / s2) * s1 = q) by (replace (1 - r / s2) with (q / s1) by lra; field; exact NS1).
      assert (ER : r / s2 * s2 = r) by (field; exact NS2).
      assert (EP : p = 1 - (1 - r / s2) * s1 - r / s2 * s2) by lra.
      rewrite EP. set (t := r / s2) in *. rewrite <- EQ, <- ER. apply v3_eq; unfold mix, along; cbn; ring.
Qed.

(** The part of a triangle in the plane of another. *)
Lemma cut_triangle a b c p0 p1 p2 x : lone (volume p0 p1 p2 a) (volume p0 p1 p2 b) (volume p0 p1 p2 c) ->
  in_segment (cutp a b (volume p0 p1 p2 a) (volume p0 p1 p2 b)) (cutp a c (volume p0 p1 p2 a) (volume p0 p1 p2 c)) x
  <-> in_triangle a b c x /\ volume p0 p1 p2 x = 0.
Proof.
  intros L. rewrite (cut_spec a b c _ _ _ x L). split.
  - intros (p & q & r & P & Q & S & E & F & ->). split; [exists p, q, r; auto|]. rewrite volume_mix by exact E. exact F.
  - intros ((p & q & r & P & Q & S & E & ->) & F). rewrite volume_mix in F by exact E. exists p, q, r. auto 7.
Qed.

(** ** Normals *)
Lemma parallel_orth n m e : cross n m = origin -> m <> origin -> dot3 m e = 0 -> dot3 n e = 0.
Proof.
  intros C M Z. unfold cross, origin in C. injection C as C1 C2 C3.
  assert (X : vx m * dot3 n e = 0).
  { replace (vx m * dot3 n e) with (vx n * dot3 m e - (vx n * vy m - vy n * vx m) * vy e + (vz n * vx m - vx n * vz m) * vz e) by (unfold dot3; ring). rewrite Z, C2, C3. ring. }
  assert (Y : vy m * dot3 n e = 0).
  { replace (vy m * dot3 n e) with (vy n * dot3 m e + (vx n * vy m - vy n * vx m) * vx e - (vy n * vz m - vz n * vy m) * vz e) by (unfold dot3; ring). rewrite Z, C1, C3. ring. }
  assert (W : vz m * dot3 n e = 0).
  { replace (vz m * dot3 n e) with (vz n * dot3 m e - (vz n * vx m - vx n * vz m) * vx e + (vy n * vz m - vz n * vy m) * vy e) by (unfold dot3; ring). rewrite Z, C1, C2. ring. }
  destruct (Req_dec (dot3 n e) 0) as [D|D]; [exact D|]. exfalso. apply M. apply Rmult_integral in X, Y, W. apply v3_eq; cbn; tauto.
Qed.
Lemma cross_anti n m : cross n m = origin -> cross m n = origin.
Proof. unfold cross, origin. intros C. injection C as C1 C2 C3. f_equal; lra. Qed.
Lemma normal_0 p0 p1 p2 : dot3 (normal_of p0 p1 p2) (sub3 p1 p0) = 0. Proof. unfold normal_of, dot3, cross, sub3. cbn. ring. Qed.
Lemma normal_1 p0 p1 p2 : dot3 (normal_of p0 p1 p2) (sub3 p2 p0) = 0. Proof. unfold normal_of, dot3, cross, sub3. cbn. ring. Qed.

(** Parallel planes: all corners have the same distance. *)
Lemma parallel_same n p0 p1 p2 : cross n (normal_of p0 p1 p2) = origin -> normal_of p0 p1 p2 <> origin ->
  dot3 n (sub3 p1 p0) = 0 /\ dot3 n (sub3 p2 p0) = 0.
Proof. intros C N. split; apply (parallel_orth n (normal_of p0 p1 p2)); auto using normal_0, normal_1. Qed.

Lemma orth_parallel n p0 p1 p2 : dot3 n (sub3 p1 p0) = 0 -> dot3 n (sub3 p2 p0) = 0 -> cross n (normal_of p0 p1 p2) = origin.
Proof.
  intros A B. unfold normal_of. set (e1 := sub3 p1 p0) in *. set (e2 := sub3 p2 p0) in *. unfold cross, origin. cbn [vx vy vz].
  f_equal.
  - transitivity (vx e1 * dot3 n e2 - vx e2 * dot3 n e1); [unfold dot3; ring|rewrite A, B; ring].
  - transitivity (vy e1 * dot3 n e2 - vy e2 * dot3 n e1); [unfold dot3; ring|rewrite A, B; ring].
  - transitivity (vz e1 * dot3 n e2 - vz e2 * dot3 n e1); [unfold dot3; ring|rewrite A, B; ring].
Qed.

(** The common line. *)
Lemma coord_line n m e k : dot3 n e = 0 -> dot3 m e = 0 -> coord (cross n m) k <> 0 -> coord e k = 0 -> e = origin.
Proof.
  intros A B N Z. set (d := cross n m) in *.
  assert (XY : vx d * vy e = vy d * vx e).
  { transitivity (vy d * vx e + (vz m * dot3 n e - vz n * dot3 m e)); [unfold d, cross, dot3; cbn; ring|rewrite A, B; ring]. }
  assert (YZ : vy d * vz e = vz d * vy e).
  { transitivity (vz d * vy e + (vx m * dot3 n e - vx n * dot3 m e)); [unfold d, cross, dot3; cbn; ring|rewrite A, B; ring]. }
  assert (ZX : vz d * vx e = vx d * vz e).
  { transitivity (vx d * vz e + (vy m * dot3 n e - vy n * dot3 m e)); [unfold d, cross, dot3; cbn; ring|rewrite A, B; ring]. }
  assert (G : forall a b, a <> 0 -> a * b = 0 -> b = 0) by (intros a b Na H; apply Rmult_integral in H; tauto).
  destruct k as [|[|k]]; cbn [coord] in N, Z; rewrite Z in *; rewrite Rmult_0_r in *.
  - apply v3_eq; cbn; [exact Z|apply (G (vx d)); auto|apply (G (vx d)); auto].
  - apply v3_eq; cbn; [apply (G (vy d)); auto|exact Z|apply (G (vy d)); auto].
  - apply v3_eq; cbn; [apply (G (vz d)); auto|apply (G (vz d)); auto|exact Z].
Qed.

Lemma main_axis_nonzero d : d <> origin -> coord d (main_axis d) <> 0.
Proof.
  intros N Z. apply N. unfold main_axis in Z.
  assert (G : forall a, Rabs a <= 0 -> a = 0) by (intros a H; pose proof (Rabs_pos a); destruct (Req_dec a 0) as [|Y]; [assumption|apply Rabs_no_R0 in Y; lra]).
  destruct (ltb (Rabs (vx d)) (Rabs (vy d))) eqn:A.
  - destruct (ltb (Rabs (vy d)) (Rabs (vz d))) eqn:B; booleans; cbn in Z; rewrite Z, Rabs_R0 in *.
    + pose proof (Rabs_pos (vy d)). lra.
    + pose proof (Rabs_pos (vx d)). lra.
  - destruct (ltb (Rabs (vx d)) (Rabs (vz d))) eqn:B; booleans; cbn in Z; rewrite Z, Rabs_R0 in *.
    + pose proof (Rabs_pos (vx d)). lra.
    + apply v3_eq; cbn; auto.
Qed.
