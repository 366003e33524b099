(** Properties C162-C164: volumes, emptiness and extents of boxes and spheres. *)
From Coq Require Import Reals Lra Bool List String ZArith.
From Coquelicot Require Import Coquelicot.
From Verif Require Import ConstTables ConstSpec ConstProps.
From Verif Require Import VecModel QuatModel GeomModel GeomSpec GeomProofs GeomProofs2 GeomProofs5 VolModel VolSpec VolProofs.
Local Open Scope R_scope.

(* ------------------------------------------------------------------ C162: volume, mass and density *)
(** The volume of a box is that of the points it contains. *)
Theorem C162_box b : proper b -> has_volume (in_box b) (box_volume b).
Proof. exact (box_measured b). Qed.
Print Assumptions C162_box.
Example C162_box_ex : proper (Box (V3 1 2 3) (V3 1 (1 / 2) 3)) /\ box_volume (Box (V3 1 2 3) (V3 1 (1 / 2) 3)) = 12 /\ inside 6 (in_box (Box (V3 1 2 3) (V3 1 (1 / 2) 3))).
Proof.
  split; [unfold proper; cbn [extents vx vy vz]; lra|]. split; [unfold box_volume; cbn [extents vx vy vz]; lra|].
  intros [x y z] (A & B & C). cbn [center extents vx vy vz] in *. rewrite !Rabs_le_between. lra.
Qed.

Lemma ball_bounded : forall s, 0 <= radius s -> exists M, inside M (in_ball s).
Proof.
  intros [[cx cy cz] r] Hr. cbn [radius] in Hr. exists (Rabs cx + Rabs cy + Rabs cz + r). intros [x y z] H. unfold in_ball, dist2 in H. cbn [scenter radius vx vy vz] in *.
  pose proof (Rle_0_sqr (x - cx)) as S1. pose proof (Rle_0_sqr (y - cy)) as S2. pose proof (Rle_0_sqr (z - cz)) as S3. unfold Rsqr in *.
  pose proof (Rabs_pos cx). pose proof (Rabs_pos cy). pose proof (Rabs_pos cz).
  assert (K : forall u v, (u - v) * (u - v) <= r * r -> Rabs u <= Rabs v + r).
  { intros u v B. apply square_between in B; [|exact Hr]. pose proof (Rabs_triang v (u - v)) as T. replace (v + (u - v)) with u in T by ring. assert (Rabs (u - v) <= r) by (apply Rabs_le_between; exact B). lra. }
  pose proof (K x cx ltac:(lra)). pose proof (K y cy ltac:(lra)). pose proof (K z cz ltac:(lra)). lra.
Qed.
(** That of a sphere is not: it has 4/3 pi r^3, and volume() returns less than a ninth of that. *)
Theorem C162_sphere_refuted s : 0 < radius s ->
  has_volume (in_ball s) (4 / 3 * PI * (radius s * radius s * radius s)) /\ (forall V, has_volume (in_ball s) V -> 9 * sphere_volume s < V).
Proof.
  intros H. assert (B : has_volume (in_ball s) (4 / 3 * PI * (radius s * radius s * radius s))) by (apply ball_measured; lra). split; [exact B|].
  intros V HV. destruct (ball_bounded s ltac:(lra)) as (M & I). rewrite (within_unique M _ _ _ (HV M I) (B M I)).
  unfold sphere_volume, four_over_three_pi. set (r := radius s) in *. assert (C : 0 < r * r * r) by (apply Rmult_lt_0_compat; [apply Rmult_lt_0_compat|]; exact H).
  pose proof PI2_3_2 as P. set (k := r * r * r) in *. replace (9 * (424413181578387562050 / 1000000000000000000000 * r * r * r)) with (9 * 424413181578387562050 / 1000000000000000000000 * k) by (unfold k; field).
  apply Rmult_lt_compat_r; [exact C|]. unfold PI2 in P. lra.
Qed.
Print Assumptions C162_sphere_refuted.
Example C162_sphere_ex : 0 < radius (Sphere (V3 1 2 3) 2).
Proof. cbn [radius]. lra. Qed.
(** The constant is 4 / (3 pi), not 4/3 pi. *)
Theorem C162_sphere_cause s : 0 <= radius s -> Rabs (sphere_volume s - 4 / (3 * PI) * (radius s * radius s * radius s)) <= / 10 ^ 21 * (radius s * radius s * radius s).
Proof.
  intros H. set (r := radius s) in *. assert (C : 0 <= r * r * r) by (apply Rmult_le_pos; [apply Rmult_le_pos|]; exact H).
  destruct (C104_digits_partial "four_over_three_pi"%string 424413181578387562050) as (x & F & D).
  { repeat (try (left; reflexivity); right). }
  injection F as <-. specialize (D eq_refl). cbn [meaning] in D.
  replace (sphere_volume s - 4 / (3 * PI) * (r * r * r)) with ((four_over_three_pi - 4 / (3 * PI)) * (r * r * r)) by (unfold sphere_volume; fold r; ring).
  rewrite Rabs_mult, (Rabs_pos_eq (r * r * r)) by exact C. apply Rmult_le_compat_r; [exact C|].
  eapply Rle_trans; [exact D|]. replace (IZR (10 ^ 21)) with 1000000000000000000000 by (f_equal; reflexivity). replace (10 ^ 21) with 1000000000000000000000 by ring. lra.
Qed.
Print Assumptions C162_sphere_cause.
(** So a sphere contains boxes that are greater than itself. *)
Theorem C162_contained_refuted s : 0 < radius s -> exists b, proper b /\ sphere_contains_box s b = true /\ subset (in_box b) (in_ball s) /\ 2 * sphere_volume s < box_volume b.
Proof.
  intros H. set (r := radius s) in *. exists (Box (scenter s) (V3 (r / 2) (r / 2) (r / 2))).
  assert (P : proper (Box (scenter s) (V3 (r / 2) (r / 2) (r / 2)))) by (unfold proper; cbn [extents vx vy vz]; lra).
  assert (I : subset (in_box (Box (scenter s) (V3 (r / 2) (r / 2) (r / 2)))) (in_ball s)).
  { intros x (A & B & C). cbn [center extents vx vy vz] in *. unfold in_ball, dist2. fold r.
    assert (K : forall u v, v - r / 2 <= u <= v + r / 2 -> (u - v) * (u - v) <= (r / 2) * (r / 2)) by (intros u v G; apply square_between; lra).
    pose proof (K _ _ A). pose proof (K _ _ B). pose proof (K _ _ C). assert (0 < r * r) by (apply Rmult_lt_0_compat; exact H). lra. }
  split; [exact P|]. split; [apply sphere_contains_box_spec; assumption|]. split; [exact I|].
  unfold sphere_volume, box_volume, four_over_three_pi. fold r. cbn [extents vx vy vz]. assert (C : 0 < r * r * r) by (apply Rmult_lt_0_compat; [apply Rmult_lt_0_compat|]; exact H).
  replace (r / 2 * (r / 2) * (r / 2) * 8) with (r * r * r) by field. replace (2 * (424413181578387562050 / 1000000000000000000000 * r * r * r)) with (2 * 424413181578387562050 / 1000000000000000000000 * (r * r * r)) by field. lra.
Qed.
Print Assumptions C162_contained_refuted.

(** Volumes of boxes add up: cut across any of its three axes, a box has the volume of its two parts ... *)
Theorem C162_cut lo hi m :
  box_volume (box_from_min_max lo hi) = box_volume (box_from_min_max lo (V3 m (vy hi) (vz hi))) + box_volume (box_from_min_max (V3 m (vy lo) (vz lo)) hi) /\
  box_volume (box_from_min_max lo hi) = box_volume (box_from_min_max lo (V3 (vx hi) m (vz hi))) + box_volume (box_from_min_max (V3 (vx lo) m (vz lo)) hi) /\
  box_volume (box_from_min_max lo hi) = box_volume (box_from_min_max lo (V3 (vx hi) (vy hi) m)) + box_volume (box_from_min_max (V3 (vx lo) (vy lo) m) hi).
Proof. destruct lo, hi. unfold box_volume, box_from_min_max, scale3, sub3. cbn. split; [|split]; field. Qed.
Print Assumptions C162_cut.
Example C162_cut_ex : box_volume (box_from_min_max (V3 0 0 0) (V3 1 2 3)) = 6 /\ box_volume (box_from_min_max (V3 0 0 0) (V3 1 2 1)) = 2.
Proof. unfold box_volume, box_from_min_max, scale3, sub3. cbn. lra. Qed.
(** ... and a box that contains another one is not smaller. *)
Theorem C162_monotone a b : proper a -> proper b -> subset (in_box a) (in_box b) -> 0 <= box_volume a <= box_volume b.
Proof.
  destruct a as [[ax ay az] [ex ey ez]], b as [[bx by_ bz] [fx fy fz]]. intros (A1 & A2 & A3) (B1 & B2 & B3) S. unfold box_volume. cbn [center extents vx vy vz] in *.
  destruct (S (V3 (ax - ex) (ay - ey) (az - ez))) as (X1 & Y1 & Z1); [unfold in_box; cbn [center extents vx vy vz]; lra|].
  destruct (S (V3 (ax + ex) (ay + ey) (az + ez))) as (X2 & Y2 & Z2); [unfold in_box; cbn [center extents vx vy vz]; lra|].
  cbn [center extents vx vy vz] in *. assert (ex * ey <= fx * fy) by (apply Rmult_le_compat; lra).
  assert (0 <= ex * ey) by (apply Rmult_le_pos; lra). assert (0 <= ex * ey * ez) by (apply Rmult_le_pos; lra). assert (ex * ey * ez <= fx * fy * fz) by (apply Rmult_le_compat; lra). lra.
Qed.
Print Assumptions C162_monotone.
Example C162_monotone_ex : proper (Box (V3 0 0 0) (V3 1 1 1)) /\ proper (Box (V3 1 0 0) (V3 2 1 4)) /\ subset (in_box (Box (V3 0 0 0) (V3 1 1 1))) (in_box (Box (V3 1 0 0) (V3 2 1 4))).
Proof. unfold proper, subset, in_box. cbn [center extents vx vy vz]. split; [lra|]. split; [lra|]. intros x H. lra. Qed.

(** Mass and density belong together. *)
Theorem C162_mass b s k : box_volume b <> 0 -> radius s <> 0 ->
  box_density b (box_mass b k) = Some k /\ option_map (box_mass b) (box_density b k) = Some k /\
  sphere_density s (sphere_mass s k) = Some k /\ option_map (sphere_mass s) (sphere_density s k) = Some k.
Proof.
  intros B H. assert (S : sphere_volume s <> 0) by (unfold sphere_volume, four_over_three_pi; repeat apply Rmult_integral_contrapositive_currified; try exact H; lra).
  unfold box_density, box_mass, sphere_density, sphere_mass. destruct (Req_EM_T (box_volume b) 0) as [E|_]; [contradiction|]. destruct (Req_EM_T (sphere_volume s) 0) as [E|_]; [contradiction|].
  cbn [option_map]. split; [f_equal; field; exact B|]. split; [f_equal; field; exact B|]. split; f_equal; field; exact S.
Qed.
Print Assumptions C162_mass.
Example C162_mass_ex : box_volume (Box (V3 1 2 3) (V3 1 2 3)) <> 0 /\ box_mass (Box (V3 1 2 3) (V3 1 2 3)) 2 = 96 /\ radius (Sphere (V3 0 0 0) 1) <> 0.
Proof. unfold box_mass, box_volume. cbn [extents vx vy vz radius]. repeat split; lra. Qed.

(** There is no density exactly if the box is flat or the sphere is a point. *)
Theorem C162_no_density b s k : (box_density b k = None <-> vx (extents b) = 0 \/ vy (extents b) = 0 \/ vz (extents b) = 0) /\ (sphere_density s k = None <-> radius s = 0).
Proof.
  unfold box_density, sphere_density. split.
  - destruct (Req_EM_T (box_volume b) 0) as [E|E]; unfold box_volume in E; split; intros H; try reflexivity; try discriminate.
    + destruct (Req_EM_T (vx (extents b)) 0) as [X|X]; [left; exact X|right]. destruct (Req_EM_T (vy (extents b)) 0) as [Y|Y]; [left; exact Y|right]. destruct (Req_EM_T (vz (extents b)) 0) as [Z|Z]; [exact Z|].
      exfalso. revert E. repeat apply Rmult_integral_contrapositive_currified; try assumption; lra.
    + exfalso. apply E. destruct H as [H|[H|H]]; rewrite H; ring.
  - destruct (Req_EM_T (sphere_volume s) 0) as [E|E]; unfold sphere_volume in E; split; intros H; try reflexivity; try discriminate.
    + destruct (Req_EM_T (radius s) 0) as [X|X]; [exact X|]. exfalso. revert E. unfold four_over_three_pi. repeat apply Rmult_integral_contrapositive_currified; try assumption; lra.
    + exfalso. apply E. rewrite H. ring.
Qed.
Print Assumptions C162_no_density.

(* ------------------------------------------------------------------ C163: empty, degenerate, equal *)
Lemma zero3_true : forall v, zero3 v = true <-> vx v = 0 /\ vy v = 0 /\ vz v = 0.
Proof. intros [x y z]. unfold zero3. rewrite eq3_true. cbn [vx vy vz]. split; [intros E; injection E; auto|intros (-> & -> & ->); reflexivity]. Qed.
Lemma eqR_true : forall a b, eqR a b = true <-> a = b.
Proof. intros a b. unfold eqR. destruct (Req_EM_T a b); split; congruence. Qed.
(** An empty box consists of its centre only ... *)
Theorem C163_empty_point b : proper b -> box_empty b = true <-> forall x, in_box b x -> x = center b.
Proof.
  destruct b as [[cx cy cz] [ex ey ez]]. intros (P1 & P2 & P3). cbn [center extents vx vy vz] in *. unfold box_empty. rewrite zero3_true. cbn [extents vx vy vz]. split.
  - intros (-> & -> & ->) [x y z] (A & B & C). cbn [center extents vx vy vz] in *. f_equal; lra.
  - intros H. specialize (H (V3 (cx + ex) (cy + ey) (cz + ez))). assert (E : V3 (cx + ex) (cy + ey) (cz + ez) = V3 cx cy cz) by (apply H; unfold in_box; cbn [center extents vx vy vz]; lra).
    injection E as E1 E2 E3. lra.
Qed.
Print Assumptions C163_empty_point.
(** ... and has no volume, ... *)
Theorem C163_empty_partial b : box_empty b = true -> box_volume b = 0.
Proof. unfold box_empty. rewrite zero3_true. intros (A & B & C). unfold box_volume. rewrite A. ring. Qed.
Print Assumptions C163_empty_partial.
Example C163_empty_ex : box_empty (Box (V3 1 2 3) (V3 0 0 0)) = true /\ proper (Box (V3 1 2 3) (V3 0 0 0)).
Proof. split; [apply zero3_true; cbn; auto|unfold proper; cbn [extents vx vy vz]; lra]. Qed.
(** ... but a flat box has no volume either and is not empty, not even approximately. *)
Theorem C163_flat_refuted b e : proper b -> vz (extents b) = 0 -> 0 < vx (extents b) ->
  has_volume (in_box b) 0 /\ box_volume b = 0 /\ box_empty b = false /\ (e <= vx (extents b) -> box_approx_empty b e = false).
Proof.
  intros P Z H. assert (V : box_volume b = 0) by (unfold box_volume; rewrite Z; ring). split; [rewrite <- V; apply box_measured, P|]. split; [exact V|]. split.
  - destruct (box_empty b) eqn:E; [|reflexivity]. apply zero3_true in E. lra.
  - intros L. unfold box_approx_empty, approx_zero3, approx_zero, approx_equal. destruct (Rlt_dec (Rabs (0 - vx (extents b))) e) as [l|n]; [|reflexivity].
    exfalso. replace (0 - vx (extents b)) with (- vx (extents b)) in l by ring. rewrite Rabs_Ropp, Rabs_pos_eq in l; lra.
Qed.
Print Assumptions C163_flat_refuted.
Example C163_flat_ex : proper (Box (V3 0 0 0) (V3 1000 1000 0)) /\ vz (extents (Box (V3 0 0 0) (V3 1000 1000 0))) = 0 /\ 0 < vx (extents (Box (V3 0 0 0) (V3 1000 1000 0))).
Proof. unfold proper. cbn [extents vx vy vz]. lra. Qed.
(** Exactly: the volume is zero where some extent is, empty() asks for all of them. *)
Theorem C163_zero_volume b : (box_volume b = 0 <-> vx (extents b) = 0 \/ vy (extents b) = 0 \/ vz (extents b) = 0) /\
  (box_empty b = true <-> vx (extents b) = 0 /\ vy (extents b) = 0 /\ vz (extents b) = 0).
Proof.
  split; [|apply zero3_true]. unfold box_volume. split; [|intros [E|[E|E]]; rewrite E; ring].
  intros E. apply Rmult_integral in E as [E|E]; [|lra]. apply Rmult_integral in E as [E|E]; [|tauto]. apply Rmult_integral in E as [E|E]; tauto.
Qed.
Print Assumptions C163_zero_volume.
(** degenerate() is the question to ask: on a box with no negative extent it is whether the volume is zero. *)
Theorem C163_degenerate b : (box_degenerate b = false -> proper b /\ 0 < box_volume b) /\ (proper b -> box_degenerate b = true <-> box_volume b = 0).
Proof.
  destruct b as [c [ex ey ez]]. unfold box_degenerate, proper. cbn [extents vx vy vz]. split.
  - intros H. rewrite !orb_false_iff, !leb_false in H. destruct H as [[A B] C]. split; [lra|]. unfold box_volume. cbn [extents vx vy vz]. repeat apply Rmult_lt_0_compat; lra.
  - intros (A & B & C). rewrite (proj1 (C163_zero_volume (Box c (V3 ex ey ez)))). cbn [extents vx vy vz]. rewrite !orb_true_iff, !leb_true. lra.
Qed.
Print Assumptions C163_degenerate.
Example C163_degenerate_ex : box_degenerate (Box (V3 0 0 0) (V3 1 2 3)) = false /\ box_degenerate (Box (V3 0 0 0) (V3 1 2 0)) = true /\ proper (Box (V3 0 0 0) (V3 1 2 0)).
Proof.
  split; [|split].
  - unfold box_degenerate. cbn [extents vx vy vz]. rewrite !orb_false_iff, !leb_false. lra.
  - unfold box_degenerate. cbn [extents vx vy vz]. rewrite !orb_true_iff, !leb_true. lra.
  - unfold proper. cbn [extents vx vy vz]. lra.
Qed.
(** Approximately empty boxes are small. *)
Theorem C163_approx_empty b e : proper b -> box_approx_empty b e = true -> box_volume b < 8 * (e * e * e) /\ forall x, in_box b x -> near3 e x (center b).
Proof.
  destruct b as [[cx cy cz] [ex ey ez]]. intros (P1 & P2 & P3). unfold box_approx_empty, approx_zero3, approx_zero, approx_equal. cbn [center extents vx vy vz] in *. rewrite !andb_true_iff.
  intros [[A B] C]. destruct (Rlt_dec _ _) as [A'|] in A; [|discriminate]. destruct (Rlt_dec _ _) as [B'|] in B; [|discriminate]. destruct (Rlt_dec _ _) as [C'|] in C; [|discriminate].
  clear A B C. apply Rabs_lt_between in A', B', C'. split.
  - unfold box_volume. cbn [extents vx vy vz]. assert (0 < e) by lra. assert (ex * ey <= e * e) by (apply Rmult_le_compat; lra). assert (0 <= ex * ey) by (apply Rmult_le_pos; lra). assert (0 < e * e) by (apply Rmult_lt_0_compat; lra).
    assert (ex * ey * ez <= e * e * ez) by (apply Rmult_le_compat_r; lra). assert (e * e * ez < e * e * e) by (apply Rmult_lt_compat_l; lra). lra.
  - intros [x y z] (X & Y & Z). cbn [center extents vx vy vz] in *. unfold near3. cbn [vx vy vz center]. rewrite !Rabs_lt_between. lra.
Qed.
Print Assumptions C163_approx_empty.
Example C163_approx_empty_ex : box_approx_empty (Box (V3 9 9 9) (V3 (1 / 8) (1 / 8) 0)) (1 / 4) = true.
Proof.
  unfold box_approx_empty, approx_zero3, approx_zero, approx_equal. cbn [extents vx vy vz].
  assert (A : Rabs (0 - 1 / 8) < 1 / 4) by (apply Rabs_lt_between; lra). assert (B : Rabs (0 - 0) < 1 / 4) by (apply Rabs_lt_between; lra).
  destruct (Rlt_dec (Rabs (0 - 1 / 8)) (1 / 4)); [|contradiction]. destruct (Rlt_dec (Rabs (0 - 0)) (1 / 4)); [reflexivity|contradiction].
Qed.
(** Spheres: empty is a radius of zero, which is no volume and nothing but the centre. *)
Theorem C163_sphere_empty s : (sphere_empty s = true <-> sphere_volume s = 0) /\ (sphere_empty s = true <-> forall x, in_ball s x -> x = scenter s) /\
  (0 <= radius s -> sphere_degenerate s = true <-> sphere_empty s = true).
Proof.
  unfold sphere_empty, sphere_degenerate. rewrite !eqR_true, leb_true. split; [|split].
  - unfold sphere_volume, four_over_three_pi. split; [intros ->; ring|]. intros E. apply Rmult_integral in E as [E|E]; [|exact E]. apply Rmult_integral in E as [E|E]; [|exact E]. apply Rmult_integral in E as [E|E]; [lra|exact E].
  - destruct s as [[cx cy cz] r]. cbn [scenter radius]. unfold in_ball, dist2. cbn [scenter radius vx vy vz]. split.
    + intros -> [x y z] H. cbn [vx vy vz] in H. pose proof (Rle_0_sqr (x - cx)) as S1. pose proof (Rle_0_sqr (y - cy)) as S2. pose proof (Rle_0_sqr (z - cz)) as S3. unfold Rsqr in *.
      assert (Z : forall u v, (u - v) * (u - v) = 0 -> u = v) by (intros u v E; apply Rmult_integral in E; lra). f_equal; apply Z; lra.
    + intros H. specialize (H (V3 (cx + r) cy cz)). cbn [vx vy vz] in H. assert (E : V3 (cx + r) cy cz = V3 cx cy cz).
      { apply H. replace (cx + r - cx) with r by ring. lra. }
      injection E as E. lra.
  - intros H. lra.
Qed.
Print Assumptions C163_sphere_empty.
Example C163_sphere_empty_ex : sphere_empty (Sphere (V3 1 2 3) 0) = true /\ sphere_empty (Sphere (V3 0 0 0) 1) = false.
Proof. split; [now apply eqR_true|]. unfold sphere_empty, eqR. cbn [radius]. destruct (Req_EM_T 1 0); [lra|reflexivity]. Qed.
(** Boxes without negative extents are equal exactly when they contain the same points ... *)
Theorem C163_box_equal a b : proper a -> proper b -> (box_equal a b = true <-> forall x, in_box a x <-> in_box b x) /\ box_not_equal a b = negb (box_equal a b).
Proof.
  intros A B. split; [|reflexivity]. destruct a as [[ax ay az] [ex ey ez]], b as [[bx by_ bz] [fx fy fz]]. destruct A as (A1 & A2 & A3), B as (B1 & B2 & B3). unfold box_equal. rewrite andb_true_iff, !eq3_true. cbn [center extents vx vy vz] in *. split.
  - intros [E F]. injection E as -> -> ->. injection F as -> -> ->. tauto.
  - intros H.
    pose proof (proj1 (H (V3 (ax - ex) (ay - ey) (az - ez)))) as P1. pose proof (proj1 (H (V3 (ax + ex) (ay + ey) (az + ez)))) as P2.
    pose proof (proj2 (H (V3 (bx - fx) (by_ - fy) (bz - fz)))) as P3. pose proof (proj2 (H (V3 (bx + fx) (by_ + fy) (bz + fz)))) as P4.
    unfold in_box in P1, P2, P3, P4. cbn [center extents vx vy vz] in *. specialize (P1 ltac:(lra)). specialize (P2 ltac:(lra)). specialize (P3 ltac:(lra)). specialize (P4 ltac:(lra)). split; f_equal; lra.
Qed.
Print Assumptions C163_box_equal.
(** ... and so are spheres. *)
Theorem C163_sphere_equal s t : 0 <= radius s -> 0 <= radius t -> (sphere_equal s t = true <-> forall x, in_ball s x <-> in_ball t x) /\ sphere_not_equal s t = negb (sphere_equal s t).
Proof.
  intros A B. split; [|reflexivity]. destruct s as [[ax ay az] r], t as [[bx by_ bz] q]. cbn [radius] in *. unfold sphere_equal. rewrite andb_true_iff, eq3_true, eqR_true. cbn [scenter radius]. split.
  - intros [E ->]. injection E as -> -> ->. tauto.
  - intros H.
    assert (P : forall x y z, (x - ax) * (x - ax) + (y - ay) * (y - ay) + (z - az) * (z - az) <= r * r <-> (x - bx) * (x - bx) + (y - by_) * (y - by_) + (z - bz) * (z - bz) <= q * q) by (intros x y z; exact (H (V3 x y z))).
    clear H. assert (S : forall u, 0 <= u * u) by (intros u; apply Rle_0_sqr).
    assert (K : forall u v w k, 0 <= k -> u * u + v * v + w * w <= k * k -> u <= k /\ - k <= u /\ v <= k /\ - k <= v /\ w <= k /\ - k <= w).
    { intros u v w k Hk G. pose proof (S u). pose proof (S v). pose proof (S w). assert (U : u * u <= k * k) by lra. assert (V : v * v <= k * k) by lra. assert (W : w * w <= k * k) by lra. apply square_between in U, V, W; lra. }
    assert (Q1 := K _ _ _ _ B (proj1 (P (ax + r) ay az) ltac:(ring_simplify; lra))). assert (Q2 := K _ _ _ _ B (proj1 (P (ax - r) ay az) ltac:(ring_simplify; lra))).
    assert (Q3 := K _ _ _ _ B (proj1 (P ax (ay + r) az) ltac:(ring_simplify; lra))). assert (Q4 := K _ _ _ _ B (proj1 (P ax (ay - r) az) ltac:(ring_simplify; lra))).
    assert (Q5 := K _ _ _ _ B (proj1 (P ax ay (az + r)) ltac:(ring_simplify; lra))). assert (Q6 := K _ _ _ _ B (proj1 (P ax ay (az - r)) ltac:(ring_simplify; lra))).
    assert (T1 := K _ _ _ _ A (proj2 (P (bx + q) by_ bz) ltac:(ring_simplify; lra))). assert (T2 := K _ _ _ _ A (proj2 (P (bx - q) by_ bz) ltac:(ring_simplify; lra))).
    assert (T3 := K _ _ _ _ A (proj2 (P bx (by_ + q) bz) ltac:(ring_simplify; lra))). assert (T4 := K _ _ _ _ A (proj2 (P bx (by_ - q) bz) ltac:(ring_simplify; lra))).
    assert (T5 := K _ _ _ _ A (proj2 (P bx by_ (bz + q)) ltac:(ring_simplify; lra))). assert (T6 := K _ _ _ _ A (proj2 (P bx by_ (bz - q)) ltac:(ring_simplify; lra))).
    split; [f_equal; lra|lra].
Qed.
Print Assumptions C163_sphere_equal.
Example C163_equal_ex : box_equal (Box (V3 1 2 3) (V3 1 1 1)) (Box (V3 1 2 3) (V3 1 1 1)) = true /\ box_equal (Box (V3 1 2 3) (V3 1 1 1)) (Box (V3 1 2 3) (V3 1 1 2)) = false /\
  sphere_equal (Sphere (V3 1 2 3) 1) (Sphere (V3 1 2 3) 1) = true.
Proof.
  split; [unfold box_equal; rewrite andb_true_iff, !eq3_true; auto|]. split.
  - destruct (box_equal _ _) eqn:E; [|reflexivity]. unfold box_equal in E. rewrite andb_true_iff, !eq3_true in E. destruct E as [_ E]. injection E. lra.
  - unfold sphere_equal. rewrite andb_true_iff, eq3_true, eqR_true. auto.
Qed.
(** A box or sphere is zero when it is empty and lies at the origin. *)
Theorem C163_zero b s : (box_zero b = true <-> b = Box (V3 0 0 0) (V3 0 0 0)) /\ (sphere_zero s = true <-> s = Sphere (V3 0 0 0) 0).
Proof.
  destruct b as [[cx cy cz] [ex ey ez]], s as [[x y z] r]. unfold box_zero, sphere_zero. rewrite !andb_true_iff, !zero3_true, eqR_true. cbn [center extents scenter radius vx vy vz]. split.
  - split; [intros [(-> & -> & ->) (-> & -> & ->)]; reflexivity|intros E; injection E; intros; subst; auto 10].
  - split; [intros [(-> & -> & ->) ->]; reflexivity|intros E; injection E; intros; subst; auto 10].
Qed.
Print Assumptions C163_zero.
(** Approximately equal boxes and spheres: every point of the one is near a point of the other. *)
Theorem C163_approx_equal a b e : proper a -> proper b -> box_approx_equal a b e = true ->
  near3 (2 * e) (min_corner a) (min_corner b) /\ near3 (2 * e) (max_corner a) (max_corner b) /\ forall x, in_box a x -> exists y, in_box b y /\ near3 (2 * e) x y.
Proof.
  destruct a as [[ax ay az] [ex ey ez]], b as [[bx by_ bz] [fx fy fz]]. intros (A1 & A2 & A3) (B1 & B2 & B3). unfold box_approx_equal, approx_equal3, approx_equal. cbn [center extents vx vy vz] in *. rewrite !andb_true_iff. intros [[[A B] C] [[D E] F]].
  destruct (Rlt_dec _ _) as [A'|] in A; [|discriminate]. destruct (Rlt_dec _ _) as [B'|] in B; [|discriminate]. destruct (Rlt_dec _ _) as [C'|] in C; [|discriminate].
  destruct (Rlt_dec _ _) as [D'|] in D; [|discriminate]. destruct (Rlt_dec _ _) as [E'|] in E; [|discriminate]. destruct (Rlt_dec _ _) as [F'|] in F; [|discriminate].
  clear A B C D E F. apply Rabs_lt_between in A', B', C', D', E', F'.
  split; [unfold near3, min_corner, corner, corner_offset, add3; cbn; rewrite !Rabs_lt_between; lra|].
  split; [unfold near3, max_corner, corner, corner_offset, add3; cbn; rewrite !Rabs_lt_between; lra|].
  intros [x y z] (X & Y & Z). cbn [center extents vx vy vz] in *.
  assert (K : forall u a e' b f, 0 <= f -> - e < b - a < e -> - e < f - e' < e -> a - e' <= u <= a + e' -> exists v, b - f <= v <= b + f /\ Rabs (u - v) < 2 * e).
  { intros u a e' b f H1 H2 H3 H4. destruct (Rle_lt_dec u (b - f)); [exists (b - f); rewrite Rabs_lt_between; lra|]. destruct (Rle_lt_dec u (b + f)); [exists u|exists (b + f)]; rewrite Rabs_lt_between; lra. }
  destruct (K x ax ex bx fx B1 A' D' X) as (x' & X1 & X2). destruct (K y ay ey by_ fy B2 B' E' Y) as (y' & Y1 & Y2). destruct (K z az ez bz fz B3 C' F' Z) as (z' & Z1 & Z2).
  exists (V3 x' y' z'). unfold in_box, near3. cbn [center extents vx vy vz]. lra.
Qed.
Print Assumptions C163_approx_equal.
Example C163_approx_equal_ex : box_approx_equal (Box (V3 1 2 3) (V3 1 1 1)) (Box (V3 1 2 (25 / 8)) (V3 1 1 (7 / 8))) (1 / 4) = true.
Proof.
  unfold box_approx_equal, approx_equal3, approx_equal. cbn [center extents vx vy vz].
  repeat match goal with |- context [Rlt_dec ?u ?v] => destruct (Rlt_dec u v) as [_|n]; [|exfalso; apply n; apply Rabs_lt_between; lra] end. reflexivity.
Qed.
Theorem C163_sphere_approx s t e : (sphere_approx_equal s t e = true <-> near3 e (scenter s) (scenter t) /\ Rabs (radius s - radius t) < e) /\
  (0 <= radius s -> sphere_approx_empty s e = true -> Rabs (sphere_volume s) < e * e * e /\ forall x, in_ball s x -> near3 e x (scenter s)).
Proof.
  split.
  - unfold sphere_approx_equal, approx_equal3, approx_equal, near3. rewrite !andb_true_iff. rewrite (Rabs_minus_sym (vx (scenter s))), (Rabs_minus_sym (vy (scenter s))), (Rabs_minus_sym (vz (scenter s))), (Rabs_minus_sym (radius s)).
    destruct (Rlt_dec _ _) as [a|a], (Rlt_dec _ _) as [b|b], (Rlt_dec _ _) as [c|c], (Rlt_dec _ _) as [d|d]; split; intuition congruence.
  - intros H. unfold sphere_approx_empty, approx_zero, approx_equal. destruct (Rlt_dec _ _) as [l|]; [|discriminate]. intros _. replace (0 - radius s) with (- radius s) in l by ring. rewrite Rabs_Ropp, Rabs_pos_eq in l by exact H.
    destruct s as [[cx cy cz] r]. cbn [scenter radius] in *. split.
    + unfold sphere_volume, four_over_three_pi. cbn [radius]. assert (R2 : r * r <= e * e) by (apply Rmult_le_compat; lra). assert (P2 : 0 <= r * r) by (apply Rmult_le_pos; lra). assert (P3 : 0 <= r * r * r) by (apply Rmult_le_pos; lra).
      assert (Q2 : 0 < e * e) by (apply Rmult_lt_0_compat; lra). assert (r * r * r <= e * e * r) by (apply Rmult_le_compat_r; lra). assert (e * e * r < e * e * e) by (apply Rmult_lt_compat_l; lra).
      replace (424413181578387562050 / 1000000000000000000000 * r * r * r) with (424413181578387562050 / 1000000000000000000000 * (r * r * r)) by ring. rewrite Rabs_pos_eq; lra.
    + intros [x y z] G. unfold in_ball, dist2 in G. cbn [scenter radius vx vy vz] in G. pose proof (Rle_0_sqr (x - cx)) as S1. pose proof (Rle_0_sqr (y - cy)) as S2. pose proof (Rle_0_sqr (z - cz)) as S3. unfold Rsqr in *.
      assert (U : (x - cx) * (x - cx) <= r * r) by lra. assert (V : (y - cy) * (y - cy) <= r * r) by lra. assert (W : (z - cz) * (z - cz) <= r * r) by lra. apply square_between in U, V, W; try exact H. unfold near3. cbn [vx vy vz]. rewrite !Rabs_lt_between. lra.
Qed.
Print Assumptions C163_sphere_approx.

(* ------------------------------------------------------------------ C164: shortest and longest *)
Lemma ltb_cases : forall a b, a < b /\ ltb a b = true \/ b <= a /\ ltb a b = false.
Proof. intros a b. unfold ltb. destruct (Rlt_dec a b); [left|right]; split; auto; lra. Qed.
(** shortest_extent() and longest_extent() are the least and the greatest of the extents, shortest_side() and longest_side() those of width(), height() and depth(). *)
Theorem C164_extents b : let e := extents b in
  least e (get e (shortest_extent e)) /\ greatest e (get e (longest_extent e)) /\
  least (V3 (width b) (height b) (depth b)) (shortest_side e) /\ greatest (V3 (width b) (height b) (depth b)) (longest_side e).
Proof.
  destruct b as [c [x y z]]. cbn [extents]. unfold shortest_side, longest_side, least, greatest, shortest_extent, longest_extent, min_ref, max_ref, width, height, depth. cbn [extents vx vy vz].
  destruct (ltb_cases y z) as [[A A']|[A A']]; cbn [get vx vy vz]; rewrite A'; cbn [get vx vy vz].
  - destruct (ltb_cases x y) as [[B B']|[B B']]; rewrite B'; destruct (ltb_cases x z) as [[C C']|[C C']]; rewrite C'; cbn [get vx vy vz]; repeat split; lra || tauto.
  - destruct (ltb_cases x y) as [[B B']|[B B']]; rewrite B'; destruct (ltb_cases x z) as [[C C']|[C C']]; rewrite C'; cbn [get vx vy vz]; repeat split; lra || tauto.
Qed.
Print Assumptions C164_extents.
(** They are references: a value written to the one changes that extent of the box and no other, and a value that is not greater is then again the least. *)
Theorem C164_assign e x : let m := shortest_extent e in let e' := set e m x in
  get e' m = x /\ (forall k, k <> m -> get e' k = get e k) /\ (x <= get e m -> least e' x) /\ vx e' + vy e' + vz e' = vx e + vy e + vz e - get e m + x.
Proof.
  cbv zeta. pose proof (proj1 (C164_extents (Box e e))) as L. cbn [extents] in L. destruct e as [a b c]. set (m := shortest_extent (V3 a b c)) in *. clearbody m. unfold least in *.
  destruct m; cbn [get set vx vy vz] in *; (split; [reflexivity|]); (split; [intros k; destruct k; cbn [get vx vy vz]; congruence|]); (split; [intros H; split; [tauto|lra]|ring]).
Qed.
Print Assumptions C164_assign.
Theorem C164_assign_longest e x : let m := longest_extent e in let e' := set e m x in
  get e' m = x /\ (forall k, k <> m -> get e' k = get e k) /\ (get e m <= x -> greatest e' x) /\ vx e' + vy e' + vz e' = vx e + vy e + vz e - get e m + x.
Proof.
  cbv zeta. pose proof (proj1 (proj2 (C164_extents (Box e e)))) as L. cbn [extents] in L. destruct e as [a b c]. set (m := longest_extent (V3 a b c)) in *. clearbody m. unfold greatest in *.
  destruct m; cbn [get set vx vy vz] in *; (split; [reflexivity|]); (split; [intros k; destruct k; cbn [get vx vy vz]; congruence|]); (split; [intros H; split; [tauto|lra]|ring]).
Qed.
Print Assumptions C164_assign_longest.
Example C164_ex : get (V3 3 1 2) (shortest_extent (V3 3 1 2)) = 1 /\ get (V3 3 1 2) (longest_extent (V3 3 1 2)) = 3 /\ longest_side (V3 3 1 2) = 6.
Proof.
  unfold longest_side, shortest_extent, longest_extent, min_ref, max_ref. cbn [get vx vy vz].
  destruct (ltb_cases 1 2) as [[A A']|[A A']]; [|lra]. rewrite A'. cbn [get vx vy vz]. destruct (ltb_cases 3 1) as [[B B']|[B B']]; [lra|]. rewrite B'. destruct (ltb_cases 3 2) as [[C C']|[C C']]; [lra|]. rewrite C'. cbn [get vx vy vz]. lra.
Qed.
(** The diameter is the distance of two points of a sphere that are farthest apart. *)
Theorem C164_diameter s : 0 <= radius s -> (exists p q, in_ball s p /\ in_ball s q /\ dist2 p q = diameter s * diameter s) /\ forall p q, in_ball s p -> in_ball s q -> dist2 p q <= diameter s * diameter s.
Proof.
  destruct s as [[cx cy cz] r]. cbn [radius]. intros H. unfold in_ball, dist2, diameter. cbn [scenter radius]. split.
  - exists (V3 (cx + r) cy cz), (V3 (cx - r) cy cz). cbn [vx vy vz]. split; [|split]; ring_simplify; lra.
  - intros [a b c] [x y z]. cbn [vx vy vz]. intros P Q.
    pose proof (Rle_0_sqr ((a - cx) + (x - cx))) as S1. pose proof (Rle_0_sqr ((b - cy) + (y - cy))) as S2. pose proof (Rle_0_sqr ((c - cz) + (z - cz))) as S3. unfold Rsqr in *.
    replace (a - x) with ((a - cx) - (x - cx)) by ring. replace (b - y) with ((b - cy) - (y - cy)) by ring. replace (c - z) with ((c - cz) - (z - cz)) by ring.
    set (u := a - cx) in *. set (v := b - cy) in *. set (w := c - cz) in *. set (u' := x - cx) in *. set (v' := y - cy) in *. set (w' := z - cz) in *. lra.
Qed.
Print Assumptions C164_diameter.
Example C164_diameter_ex : 0 <= radius (Sphere (V3 1 2 3) 4) /\ diameter (Sphere (V3 1 2 3) 4) = 8.
Proof. unfold diameter. cbn [radius]. lra. Qed.
