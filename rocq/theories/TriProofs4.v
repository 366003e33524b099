(** Triangles that the tolerance gets wrong. *)
From Coq Require Import Reals Lra Psatz Bool.
From Verif Require Import Words VecModel VecSpec GeomModel GeomSpec GeomProofs TriModel TriSpec TriProofs TriProofs2 TriProofs3.
Local Open Scope R_scope.

Lemma snap_small eps x : Rabs x < eps -> snap eps x = 0.
Proof. intros H. unfold snap. apply ltb_true in H. now rewrite H. Qed.
Lemma snap_large eps x : eps <= Rabs x -> snap eps x = x.
Proof. intros H. unfold snap. apply ltb_false in H. now rewrite H. Qed.
Lemma normal_nonzero p0 p1 p2 : (vx (normal_of p0 p1 p2) <> 0 \/ vy (normal_of p0 p1 p2) <> 0 \/ vz (normal_of p0 p1 p2) <> 0) -> proper_triangle p0 p1 p2.
Proof. intros H. apply proper_cross. fold (normal_of p0 p1 p2). intros E. rewrite E in H. cbn in H. lra. Qed.

(** All distances are small. *)
Lemma all_small eps v0 v1 v2 u0 u1 u2 : Rabs (volume v0 v1 v2 u0) < eps -> Rabs (volume v0 v1 v2 u1) < eps -> Rabs (volume v0 v1 v2 u2) < eps ->
  Rabs (volume u0 u1 u2 v0) < eps -> Rabs (volume u0 u1 u2 v1) < eps -> Rabs (volume u0 u1 u2 v2) < eps ->
  intersects eps v0 v1 v2 u0 u1 u2 = coplanar_tri_tri (normal_of v0 v1 v2) v0 v1 v2 u0 u1 u2.
Proof.
  intros A B C D E F. unfold intersects. fold (normal_of v0 v1 v2) (normal_of u0 u1 u2). rewrite !height_volume, !snap_small by assumption.
  rewrite intervals_pick. rewrite (proj2 (pick_none _ _ _) (conj eq_refl (conj eq_refl eq_refl))).
  replace (ltb 0 (0 * 0)) with false by (symmetry; apply ltb_false; lra). reflexivity.
Qed.

Lemma axes_z z : z <> 0 -> axes (V3 0 0 z) = (0, 1)%nat.
Proof.
  intros N. unfold axes, abs3. cbn [vx vy vz]. rewrite Rabs_R0. replace (ltb 0 0) with false by (symmetry; apply ltb_false; lra).
  pose proof (Rabs_pos_lt z N) as P. apply ltb_true in P. now rewrite P.
Qed.

(** A small triangle and its copy at the height [h]. *)
Lemma apart eps h : 0 < eps -> 0 < h -> exists v0 v1 v2 u0 u1 u2,
  proper_triangle v0 v1 v2 /\ proper_triangle u0 u1 u2 /\
  (forall x y, in_triangle v0 v1 v2 x -> in_triangle u0 u1 u2 y -> h * h <= dist2 x y) /\ intersects eps v0 v1 v2 u0 u1 u2 = true.
Proof.
  intros E H. set (s := sqrt (eps / (2 * h))).
  assert (Q : 0 < eps / (2 * h)) by (apply Rdiv_lt_0_compat; lra).
  assert (SP : 0 < s) by now apply sqrt_lt_R0. assert (SS : s * s = eps / (2 * h)) by (apply sqrt_sqrt; lra).
  assert (SH : s * s * h = eps / 2) by (rewrite SS; field; lra). assert (S2 : 0 < s * s) by now apply Rmult_lt_0_compat.
  clearbody s. clear Q.
  exists (V3 0 0 0), (V3 s 0 0), (V3 0 s 0), (V3 0 0 h), (V3 s 0 h), (V3 0 s h).
  assert (N1 : normal_of (V3 0 0 0) (V3 s 0 0) (V3 0 s 0) = V3 0 0 (s * s)) by (unfold normal_of, cross, sub3; cbn; f_equal; ring).
  assert (N2 : normal_of (V3 0 0 h) (V3 s 0 h) (V3 0 s h) = V3 0 0 (s * s)) by (unfold normal_of, cross, sub3; cbn; f_equal; ring).
  split; [apply normal_nonzero; rewrite N1; cbn; lra|]. split; [apply normal_nonzero; rewrite N2; cbn; lra|]. split.
  - intros x y (a & b & c & _ & _ & _ & S1 & ->) (a' & b' & c' & _ & _ & _ & S1' & ->). unfold dist2, mix. cbn [vx vy vz].
    replace (a' * h + b' * h + c' * h) with h by (replace a' with (1 - b' - c') by lra; ring).
    match goal with |- _ <= ?p * ?p + ?q * ?q + _ => pose proof (sqr_pos p); pose proof (sqr_pos q) end. lra.
  - rewrite all_small.
    + rewrite N1. unfold coplanar_tri_tri. rewrite axes_z by lra. apply plane_exact.
      * unfold area2, flat. cbn. lra.
      * unfold area2, flat. cbn. lra.
      * exists (0, 0). split; exists 1, 0, 0; repeat split; try lra; unfold mix2, flat; cbn; apply pt_eq; cbn; ring.
    + replace (volume _ _ _ _) with (s * s * h) by (unfold volume; cbn; ring). rewrite Rabs_pos_eq; lra.
    + replace (volume _ _ _ _) with (s * s * h) by (unfold volume; cbn; ring). rewrite Rabs_pos_eq; lra.
    + replace (volume _ _ _ _) with (s * s * h) by (unfold volume; cbn; ring). rewrite Rabs_pos_eq; lra.
    + replace (volume _ _ _ _) with (- (s * s * h)) by (unfold volume; cbn; ring). rewrite Rabs_Ropp, Rabs_pos_eq; lra.
    + replace (volume _ _ _ _) with (- (s * s * h)) by (unfold volume; cbn; ring). rewrite Rabs_Ropp, Rabs_pos_eq; lra.
    + replace (volume _ _ _ _) with (- (s * s * h)) by (unfold volume; cbn; ring). rewrite Rabs_Ropp, Rabs_pos_eq; lra.
Qed.

(** A small triangle that crosses an edge of another. *)
Lemma missed eps : 0 < eps -> exists v0 v1 v2 u0 u1 u2,
  proper_triangle v0 v1 v2 /\ proper_triangle u0 u1 u2 /\ meet (in_triangle v0 v1 v2) (in_triangle u0 u1 u2) /\ intersects eps v0 v1 v2 u0 u1 u2 = false.
Proof.
  intros E. set (s := Rmin 1 (eps / 64)).
  assert (S1 : 0 < s) by (apply Rmin_glb_lt; lra). assert (S2 : s <= 1) by apply Rmin_l. assert (S3 : s <= eps / 64) by apply Rmin_r. clearbody s.
  assert (Q0 : 0 < s * s) by now apply Rmult_lt_0_compat.
  assert (Q1 : s * s <= 1 * s) by (apply Rmult_le_compat_r; lra).
  assert (Q2 : s * s * s <= 1 * (s * s)) by (rewrite (Rmult_comm _ s), <- Rmult_assoc; rewrite (Rmult_assoc s s s); apply Rmult_le_compat_r; lra).
  assert (Q3 : 0 < s * s * s) by now apply Rmult_lt_0_compat.
  exists (V3 0 0 0), (V3 (4 * s) 0 0), (V3 0 (4 * s) 0), (V3 s 0 (- s)), (V3 (3 * s) 0 (- s)), (V3 (2 * s) 0 s).
  assert (N1 : normal_of (V3 0 0 0) (V3 (4 * s) 0 0) (V3 0 (4 * s) 0) = V3 0 0 (16 * (s * s))) by (unfold normal_of, cross, sub3; cbn; f_equal; ring).
  assert (N2 : normal_of (V3 s 0 (- s)) (V3 (3 * s) 0 (- s)) (V3 (2 * s) 0 s) = V3 0 (- (4 * (s * s))) 0) by (unfold normal_of, cross, sub3; cbn; f_equal; ring).
  split; [apply normal_nonzero; rewrite N1; cbn; lra|]. split; [apply normal_nonzero; rewrite N2; cbn; lra|]. split.
  - exists (V3 (2 * s) 0 0). split.
    + exists (/ 2), (/ 2), 0. repeat split; try lra. apply v3_eq; unfold mix; cbn; lra.
    + exists (/ 4), (/ 4), (/ 2). repeat split; try lra. apply v3_eq; unfold mix; cbn; lra.
  - rewrite all_small.
    + rewrite N1. unfold coplanar_tri_tri. rewrite axes_z by lra. apply not_true_is_false. intros T. apply orb_true_iff in T. destruct T as [T|T]; [apply orb_true_iff in T; destruct T as [T|T]|].
      * apply edges_spec in T. destruct T as (p & q & r & t & x & EV & EU & N & (a & A & X) & (b & B & Y)).
        destruct EV as [(-> & ->)|[(-> & ->)|(-> & ->)]], EU as [(-> & ->)|[(-> & ->)|(-> & ->)]]; unfold turn, flat in N; cbn in N; try (apply N; ring);
          rewrite X in Y; unfold at2, flat in Y; cbn in Y; injection Y as Y1 Y2.
        all: assert (ZE : forall u, u * s = 0 -> u = 0) by (intros u Hu; apply Rmult_integral in Hu; lra).
        all: try (assert (a = 0) by (apply ZE; lra); subst a; assert (0 <= b * s) by (apply Rmult_le_pos; lra); assert (0 <= (1 - b) * s) by (apply Rmult_le_pos; lra); lra).
        all: assert (a = 1) by (assert (1 - a = 0) by (apply ZE; lra); lra); subst a; assert (0 <= b * s) by (apply Rmult_le_pos; lra); assert (0 <= (1 - b) * s) by (apply Rmult_le_pos; lra); lra.
      * unfold point_in, side, flat in T. cbn in T. apply andb_true_iff in T. rewrite !ltb_true in T. lra.
      * unfold point_in, side, flat in T. cbn in T. apply andb_true_iff in T. rewrite !ltb_true in T. lra.
    + replace (volume _ _ _ _) with (- (16 * (s * s * s))) by (unfold volume; cbn; ring). rewrite Rabs_Ropp, Rabs_pos_eq; lra.
    + replace (volume _ _ _ _) with (- (16 * (s * s * s))) by (unfold volume; cbn; ring). rewrite Rabs_Ropp, Rabs_pos_eq; lra.
    + replace (volume _ _ _ _) with (16 * (s * s * s)) by (unfold volume; cbn; ring). rewrite Rabs_pos_eq; lra.
    + replace (volume _ _ _ _) with 0 by (unfold volume; cbn; ring). rewrite Rabs_R0; lra.
    + replace (volume _ _ _ _) with 0 by (unfold volume; cbn; ring). rewrite Rabs_R0; lra.
    + replace (volume _ _ _ _) with (- (16 * (s * s * s))) by (unfold volume; cbn; ring). rewrite Rabs_Ropp, Rabs_pos_eq; lra.
Qed.

(** A small triangle that crosses a large one. *)
Lemma uninitialised eps : 0 < eps <= 1 -> exists v0 v1 v2 u0 u1 u2,
  proper_triangle v0 v1 v2 /\ proper_triangle u0 u1 u2 /\ meet (in_triangle v0 v1 v2) (in_triangle u0 u1 u2) /\ intersects_segment eps v0 v1 v2 u0 u1 u2 = ReadsUnwritten.
Proof.
  intros E. set (s := eps / 4). assert (S : 0 < s) by (unfold s; lra). assert (S' : eps = 4 * s) by (unfold s; lra). clearbody s. subst eps.
  assert (Q0 : 0 < s * s) by now apply Rmult_lt_0_compat. assert (Q1 : s * s <= / 4 * s) by (apply Rmult_le_compat_r; lra).
  exists (V3 1 1 (- s)), (V3 1 1 s), (V3 1 (1 + s) 0), (V3 0 0 0), (V3 4 0 0), (V3 0 4 0).
  assert (N1 : normal_of (V3 1 1 (- s)) (V3 1 1 s) (V3 1 (1 + s) 0) = V3 (- (2 * (s * s))) 0 0) by (unfold normal_of, cross, sub3; cbn; f_equal; ring).
  assert (N2 : normal_of (V3 0 0 0) (V3 4 0 0) (V3 0 4 0) = V3 0 0 16) by (unfold normal_of, cross, sub3; cbn; f_equal; ring).
  split; [apply normal_nonzero; rewrite N1; cbn; lra|]. split; [apply normal_nonzero; rewrite N2; cbn; lra|]. split.
  - exists (V3 1 1 0). split.
    + exists (/ 2), (/ 2), 0. repeat split; try lra. apply v3_eq; unfold mix; cbn; lra.
    + exists (/ 2), (/ 4), (/ 4). repeat split; try lra. apply v3_eq; unfold mix; cbn; lra.
  - unfold intersects_segment. fold (normal_of (V3 1 1 (- s)) (V3 1 1 s) (V3 1 (1 + s) 0)) (normal_of (V3 0 0 0) (V3 4 0 0) (V3 0 4 0)). rewrite !height_volume.
    assert (U0 : volume (V3 1 1 (- s)) (V3 1 1 s) (V3 1 (1 + s) 0) (V3 0 0 0) = 2 * (s * s)) by (unfold volume; cbn; ring).
    assert (U1 : volume (V3 1 1 (- s)) (V3 1 1 s) (V3 1 (1 + s) 0) (V3 4 0 0) = - (6 * (s * s))) by (unfold volume; cbn; ring).
    assert (U2 : volume (V3 1 1 (- s)) (V3 1 1 s) (V3 1 (1 + s) 0) (V3 0 4 0) = 2 * (s * s)) by (unfold volume; cbn; ring).
    assert (W0 : volume (V3 0 0 0) (V3 4 0 0) (V3 0 4 0) (V3 1 1 (- s)) = - (16 * s)) by (unfold volume; cbn; ring).
    assert (W1 : volume (V3 0 0 0) (V3 4 0 0) (V3 0 4 0) (V3 1 1 s) = 16 * s) by (unfold volume; cbn; ring).
    assert (W2 : volume (V3 0 0 0) (V3 4 0 0) (V3 0 4 0) (V3 1 (1 + s) 0) = 0) by (unfold volume; cbn; ring).
    rewrite U0, U1, U2, W0, W1, W2.
    rewrite (snap_small (4 * s) (2 * (s * s))) by (rewrite Rabs_pos_eq; lra). rewrite (snap_small (4 * s) (- (6 * (s * s)))) by (rewrite Rabs_Ropp, Rabs_pos_eq; lra).
    rewrite (snap_small (4 * s) 0) by (rewrite Rabs_R0; lra). rewrite (snap_large (4 * s) (16 * s)) by (rewrite Rabs_pos_eq; lra).
    rewrite (snap_large (4 * s) (- (16 * s))) by (rewrite Rabs_Ropp, Rabs_pos_eq; lra).
    replace (ltb 0 (0 * 0)) with false by (symmetry; apply ltb_false; lra). cbn [andb].
    replace (ltb 0 (- (16 * s) * (16 * s))) with false by (symmetry; apply ltb_false; lra). cbn [andb].
    rewrite !isectline_pick. rewrite (proj2 (pick_none 0 0 0) (conj eq_refl (conj eq_refl eq_refl))).
    destruct (pick (- (16 * s)) (16 * s) 0) as [j|] eqn:P.
    + assert (NN : ~ (0 < - (16 * s) * (16 * s) /\ 0 < - (16 * s) * 0)) by lra.
      destruct (pick_lone _ _ _ _ NN P) as [(-> & (_ & _ & A & B & _))|[(-> & (_ & _ & A & B & _))|(-> & (_ & _ & A & B & _))]];
        unfold isect2; rewrite (proj2 (nonzero_true _)), (proj2 (nonzero_true _)) by lra; reflexivity.
    + apply pick_none in P. lra.
Qed.
