(** Axis-aligned boxes. *)
From Coq Require Import Reals Lra Psatz List Bool.
From Verif Require Import Words MatModel VecModel VecSpec QuatModel QuatSpec QuatProofs QuatProofs2 XformSpec XformProofs GeomModel GeomSpec GeomProofs.
Import ListNotations.
Local Open Scope R_scope.

Lemma abs_le : forall x e, Rabs x <= e <-> - e <= x <= e.
Proof. intros. split; [|apply Rabs_le]. intros H. assert (G := Rle_abs x). assert (K := Rle_abs (- x)). rewrite Rabs_Ropp in K. lra. Qed.
Lemma abs_eq : forall x, (0 <= x /\ Rabs x = x) \/ (x <= 0 /\ Rabs x = - x).
Proof. intros. destruct (Rle_dec 0 x); [left; split; [lra|apply Rabs_pos_eq; lra]|right; split; [lra|apply Rabs_left1; lra]]. Qed.

Lemma box_contains_spec : forall b x, box_contains b x = true <-> in_box b x.
Proof. intros. unfold box_contains, in_box. cbn. rewrite !andb_true_iff, !leb_true, !abs_le. lra. Qed.

Lemma in_box_convex : forall b x y t, in_box b x -> in_box b y -> 0 <= t <= 1 -> in_box b (along x y t).
Proof.
  intros b x y t (X1 & X2 & X3) (Y1 & Y2 & Y3) T. unfold in_box, along. cbn.
  assert (G : forall lo hi u v, lo <= u <= hi -> lo <= v <= hi -> lo <= u + t * (v - u) <= hi) by (intros; nra).
  split; [|split]; apply G; lra.
Qed.
Lemma in_box_mix : forall bx p0 p1 p2 a b c, in_box bx p0 -> in_box bx p1 -> in_box bx p2 -> 0 <= a -> 0 <= b -> 0 <= c -> a + b + c = 1 -> in_box bx (mix p0 p1 p2 a b c).
Proof.
  intros bx p0 p1 p2 a b c (X1 & X2 & X3) (Y1 & Y2 & Y3) (Z1 & Z2 & Z3) A B C S. unfold in_box, mix. cbn.
  assert (G : forall lo hi u v w, lo <= u <= hi -> lo <= v <= hi -> lo <= w <= hi -> lo <= a * u + b * v + c * w <= hi).
  { intros lo hi u v w U V W. assert (a * lo + b * lo + c * lo = lo) by (transitivity ((a + b + c) * lo); [ring|rewrite S; ring]).
    assert (a * hi + b * hi + c * hi = hi) by (transitivity ((a + b + c) * hi); [ring|rewrite S; ring]).
    assert (K : forall k m n, 0 <= k -> m <= n -> k * m <= k * n) by (intros; apply Rmult_le_compat_l; assumption).
    assert (K1 := K a lo u A ltac:(lra)). assert (K2 := K b lo v B ltac:(lra)). assert (K3 := K c lo w C ltac:(lra)).
    assert (K4 := K a u hi A ltac:(lra)). assert (K5 := K b v hi B ltac:(lra)). assert (K6 := K c w hi C ltac:(lra)). lra. }
  split; [|split]; apply G; lra.
Qed.

Lemma seg_ends : forall a b, in_segment a b a /\ in_segment a b b.
Proof. intros. split; [exists 0|exists 1]; (split; [lra|apply v3_eq; cbn; ring]). Qed.
Lemma tri_ends : forall p0 p1 p2, in_triangle p0 p1 p2 p0 /\ in_triangle p0 p1 p2 p1 /\ in_triangle p0 p1 p2 p2.
Proof. intros. split; [exists 1, 0, 0|split; [exists 0, 1, 0|exists 0, 0, 1]]; (repeat (split; [lra|])); apply v3_eq; cbn; ring. Qed.

Lemma box_contains_segment_spec : forall b s e, box_contains_segment b s e = true <-> subset (in_segment s e) (in_box b).
Proof.
  intros. unfold box_contains_segment. rewrite andb_true_iff, !box_contains_spec. split.
  - intros [A B] x (t & T & ->). apply in_box_convex; assumption.
  - intros H. split; apply H, seg_ends.
Qed.
Lemma box_contains_triangle_spec : forall b p0 p1 p2, box_contains_triangle b p0 p1 p2 = true <-> subset (in_triangle p0 p1 p2) (in_box b).
Proof.
  intros. unfold box_contains_triangle. rewrite !andb_true_iff, !box_contains_spec. split.
  - intros [[A B] C] x (u & v & w & U & V & W & T & ->). apply in_box_mix; assumption.
  - intros H. destruct (tri_ends p0 p1 p2) as (G1 & G2 & G3). repeat split; apply H; assumption.
Qed.

Lemma box_contains_box_spec : forall b c, proper c -> box_contains_box b c = true <-> subset (in_box c) (in_box b).
Proof.
  intros b c (P1 & P2 & P3). unfold box_contains_box, contains_min_max. cbn. rewrite !andb_true_iff, !leb_true. split.
  - intros H x (X1 & X2 & X3). unfold in_box. repeat split; lra.
  - intros H. assert (G1 := H (sub3 (center c) (extents c))). assert (G2 := H (add3 (center c) (extents c))). unfold in_box in G1, G2. cbn in G1, G2.
    destruct G1 as (A1 & A2 & A3); [repeat split; lra|]. destruct G2 as (B1 & B2 & B3); [repeat split; lra|]. repeat split; lra.
Qed.

Lemma box_box_spec : forall b c, proper b -> proper c -> box_box b c = true <-> meet (in_box b) (in_box c).
Proof.
  intros b c (P1 & P2 & P3) (Q1 & Q2 & Q3). unfold box_box, intersects_min_max. cbn. rewrite !andb_true_iff, !leb_true. split.
  - intros H. exists (V3 (Rmax (vx (center b) - vx (extents b)) (vx (center c) - vx (extents c)))
                         (Rmax (vy (center b) - vy (extents b)) (vy (center c) - vy (extents c)))
                         (Rmax (vz (center b) - vz (extents b)) (vz (center c) - vz (extents c)))).
    unfold in_box. cbn.
    assert (G : forall u v, (Rmax u v = u /\ v <= u) \/ (Rmax u v = v /\ u <= v)) by (intros; unfold Rmax; destruct (Rle_dec u v); [right|left]; lra).
    destruct (G (vx (center b) - vx (extents b)) (vx (center c) - vx (extents c))) as [[-> ?]|[-> ?]];
    destruct (G (vy (center b) - vy (extents b)) (vy (center c) - vy (extents c))) as [[-> ?]|[-> ?]];
    destruct (G (vz (center b) - vz (extents b)) (vz (center c) - vz (extents c))) as [[-> ?]|[-> ?]]; repeat split; lra.
  - intros (x & (X1 & X2 & X3) & (Y1 & Y2 & Y3)). repeat split; lra.
Qed.

Lemma box_closest_spec : forall b x, proper b -> nearest (in_box b) x (box_closest b x).
Proof.
  intros b x (P1 & P2 & P3). split.
  - unfold box_closest, closest_min_max, clamp3, in_box. cbn. split; [|split]; apply clamp_range; lra.
  - intros y (Y1 & Y2 & Y3). unfold dist2, box_closest, closest_min_max, clamp3. cbn.
    assert (G1 := clamp_nearest (vx x) (vx (center b) - vx (extents b)) (vx (center b) + vx (extents b)) (vx y) ltac:(lra) Y1).
    assert (G2 := clamp_nearest (vy x) (vy (center b) - vy (extents b)) (vy (center b) + vy (extents b)) (vy y) ltac:(lra) Y2).
    assert (G3 := clamp_nearest (vz x) (vz (center b) - vz (extents b)) (vz (center b) + vz (extents b)) (vz y) ltac:(lra) Y3). lra.
Qed.

Lemma ds_dist2 : forall p q, distance_squared3 p q = dist2 p q.
Proof. intros. unfold distance_squared3, length_squared3, dist2. cbn. ring. Qed.

Lemma closest_corners : forall b x, closest_min_max (min_corner b) (max_corner b) x = box_closest b x.
Proof. intros. unfold box_closest, closest_min_max, clamp3, min_corner, max_corner, corner. cbn. unfold Rminus. reflexivity. Qed.

Lemma nearest_meets : forall (P : v3 -> Prop) s q, nearest P (scenter s) q -> (dist2 q (scenter s) <= radius s * radius s <-> meet P (in_ball s)).
Proof.
  intros P s q [A B]. split.
  - intros H. exists q. split; [exact A|exact H].
  - intros (x & X & Y). assert (G := B x X). unfold in_ball in Y. lra.
Qed.

Lemma box_sphere_spec : forall b s, proper b -> box_sphere b (scenter s) (radius s) = true <-> meet (in_box b) (in_ball s).
Proof.
  intros b s P. unfold box_sphere, intersects_sphere_min_max. rewrite leb_true, ds_dist2. apply nearest_meets. apply (box_closest_spec b (scenter s) P).
Qed.

Lemma box_contains_sphere_spec : forall b s, proper b -> 0 <= radius s -> box_contains_sphere b (scenter s) (radius s) = true <-> subset (in_ball s) (in_box b).
Proof.
  intros b [c r] P R. cbn in *. unfold box_contains_sphere, intersects_sphere_min_max. rewrite closest_corners, andb_true_iff, leb_true, ds_dist2.
  assert (N := box_closest_spec b c P). unfold contains_min_max. rewrite !andb_true_iff, !leb_true. cbn [scenter radius]. split.
  - intros [_ H] x X. unfold in_ball in X. unfold dist2 in X. cbn in X, H.
    assert (G1 := sqr_pos (vx x - vx c)). assert (G2 := sqr_pos (vy x - vy c)). assert (G3 := sqr_pos (vz x - vz c)).
    assert (K : forall u, u * u <= r * r -> - r <= u <= r) by (intros; split; nra).
    assert (K1 := K (vx x - vx c) ltac:(lra)). assert (K2 := K (vy x - vy c) ltac:(lra)). assert (K3 := K (vz x - vz c) ltac:(lra)).
    unfold in_box. repeat split; lra.
  - intros H. 
    assert (H1 : in_box b (V3 (vx c - r) (vy c) (vz c))) by (apply H; unfold in_ball, dist2; cbn; lra).
    assert (H2 : in_box b (V3 (vx c + r) (vy c) (vz c))) by (apply H; unfold in_ball, dist2; cbn; lra).
    assert (H3 : in_box b (V3 (vx c) (vy c - r) (vz c))) by (apply H; unfold in_ball, dist2; cbn; lra).
    assert (H4 : in_box b (V3 (vx c) (vy c + r) (vz c))) by (apply H; unfold in_ball, dist2; cbn; lra).
    assert (H5 : in_box b (V3 (vx c) (vy c) (vz c - r))) by (apply H; unfold in_ball, dist2; cbn; lra).
    assert (H6 : in_box b (V3 (vx c) (vy c) (vz c + r))) by (apply H; unfold in_ball, dist2; cbn; lra).
    split.
    + destruct N as [_ N]. assert (Hc : in_box b c) by (apply H; unfold in_ball, dist2; cbn; nra). assert (N1 := N c Hc).
      unfold dist2 at 2 in N1. assert (0 <= r * r) by apply sqr_pos. lra.
    + unfold in_box in *. cbn in *. repeat split; lra.
Qed.

Lemma sphere_contains_box_spec : forall b s, proper b -> sphere_contains_box s b = true <-> subset (in_box b) (in_ball s).
Proof.
  intros b [c r] P. unfold sphere_contains_box, intersects_sphere_min_max. cbn [scenter radius]. rewrite closest_corners, andb_true_iff, !leb_true, !ds_dist2.
  assert (N := box_closest_spec b c P). destruct P as (P1 & P2 & P3).
  set (f := furthest (center b) (min_corner b) (max_corner b) c).
  assert (Hf : in_box b f).
  { unfold f, furthest, in_box. cbn. repeat split; destruct (leb _ _); lra. }
  assert (Far : forall x, in_box b x -> dist2 x c <= dist2 f c).
  { intros x (X1 & X2 & X3). unfold dist2.
    assert (G : forall m e p u, 0 <= e -> m - e <= u <= m + e -> (u - p) * (u - p) <= ((if leb m p then m + - e else m + e) - p) * ((if leb m p then m + - e else m + e) - p)).
    { intros m e p u E U. destruct (leb m p) eqn:L; booleans.
      - assert (0 <= (u - (m - e)) * (2 * p - u - m + e)) by (apply Rmult_le_pos; lra). lra.
      - assert (0 <= ((m + e) - u) * (m + e + u - 2 * p)) by (apply Rmult_le_pos; lra). lra. }
    assert (G1 := G (vx (center b)) (vx (extents b)) (vx c) (vx x) P1 X1). assert (G2 := G (vy (center b)) (vy (extents b)) (vy c) (vy x) P2 X2).
    assert (G3 := G (vz (center b)) (vz (extents b)) (vz c) (vz x) P3 X3). unfold f, furthest. cbn [vx vy vz min_corner max_corner corner corner_offset add3]. lra. }
  unfold subset, in_ball. cbn [scenter radius]. split.
  - intros [_ H] x X. assert (G := Far x X). lra.
  - intros H. split; [apply H, N|apply H, Hf].
Qed.

Lemma box_plane_spec : forall b p, proper b -> box_plane b p = true <-> meet (in_box b) (on_plane p).
Proof.
  intros b p (P1 & P2 & P3). unfold box_plane, plane_distance. rewrite leb_true. unfold dot3, abs3. cbn.
  set (n := normal p). set (c := center b) in *. set (e := extents b) in *. set (sd := signed_distance p c).
  set (S := vx e * Rabs (vx n) + vy e * Rabs (vy n) + vz e * Rabs (vz n)). split.
  - intros H. apply abs_le in H. set (sg := fun u : R => if Rle_dec 0 u then 1 else -1).
    assert (Sg : forall u, u * sg u = Rabs u /\ -1 <= sg u <= 1) by (intros u; unfold sg; destruct (abs_eq u) as [[? ->]|[? ->]]; destruct (Rle_dec 0 u); lra).
    destruct (Req_EM_T S 0) as [Z|Z].
    + exists c. split; [unfold in_box; fold c e; repeat split; lra|]. apply on_plane_sd. fold sd. lra.
    + set (s := - sd / S). assert (Sp : 0 < S) by (assert (0 <= S) by (unfold S; assert (G1 := Rabs_pos (vx n)); assert (G2 := Rabs_pos (vy n)); assert (G3 := Rabs_pos (vz n)); nra); lra).
      assert (Hs : -1 <= s <= 1).
      { unfold s. split; apply Rmult_le_reg_r with S; try assumption; unfold Rdiv; rewrite Rmult_assoc, Rinv_l by lra; lra. }
      exists (V3 (vx c + s * (vx e * sg (vx n))) (vy c + s * (vy e * sg (vy n))) (vz c + s * (vz e * sg (vz n)))). split.
      * assert (G : forall k u, 0 <= k -> - k <= s * (k * sg u) <= k).
        { intros k u K. destruct (Sg u) as [_ B]. assert (-1 <= s * sg u <= 1) by (split; nra). replace (s * (k * sg u)) with (k * (s * sg u)) by ring. nra. }
        unfold in_box. fold c e. cbn. assert (G1 := G (vx e) (vx n) P1). assert (G2 := G (vy e) (vy n) P2). assert (G3 := G (vz e) (vz n) P3). repeat split; lra.
      * apply on_plane_sd. unfold signed_distance, dot3. fold n. cbn [vx vy vz].
        transitivity (sd + s * (vx e * (vx n * sg (vx n)) + vy e * (vy n * sg (vy n)) + vz e * (vz n * sg (vz n)))).
        { unfold sd, signed_distance, dot3. fold n. ring. }
        destruct (Sg (vx n)) as [-> _]. destruct (Sg (vy n)) as [-> _]. destruct (Sg (vz n)) as [-> _]. fold S. unfold s. field. assumption.
  - intros (x & (X1 & X2 & X3) & O). apply on_plane_sd in O. fold c e in X1, X2, X3.
    assert (E : sd = vx n * (vx c - vx x) + vy n * (vy c - vy x) + vz n * (vz c - vz x)).
    { transitivity (sd - signed_distance p x); [rewrite O; ring|]. unfold sd, signed_distance, dot3. fold n. ring. }
    rewrite E. eapply Rle_trans; [apply Rabs_triang|]. eapply Rle_trans; [apply Rplus_le_compat_r, Rabs_triang|]. rewrite !Rabs_mult.
    assert (G1 := Rabs_pos (vx n)). assert (G2 := Rabs_pos (vy n)). assert (G3 := Rabs_pos (vz n)). unfold S.
    assert (A1 : Rabs (vx c - vx x) <= vx e) by (apply abs_le; lra). assert (A2 : Rabs (vy c - vy x) <= vy e) by (apply abs_le; lra). assert (A3 : Rabs (vz c - vz x) <= vz e) by (apply abs_le; lra).
    assert (K1 := Rmult_le_compat_l _ _ _ G1 A1). assert (K2 := Rmult_le_compat_l _ _ _ G2 A2). assert (K3 := Rmult_le_compat_l _ _ _ G3 A3). lra.
Qed.

(* ------------------------------------------------------------------ segments *)
Definition lo_ (m d e : R) : R := if Req_EM_T d 0 then -1 else (- m * d - e * Rabs d) / (d * d).
Definition hi_ (m d e : R) : R := if Req_EM_T d 0 then 1 else (- m * d + e * Rabs d) / (d * d).
Lemma div_le : forall a b c, 0 < b -> a <= c * b -> a / b <= c.
Proof. intros. apply Rmult_le_reg_r with b; [assumption|]. unfold Rdiv. rewrite Rmult_assoc, Rinv_l by lra. lra. Qed.
Lemma le_div : forall a b c, 0 < b -> c * b <= a -> c <= a / b.
Proof. intros. apply Rmult_le_reg_r with b; [assumption|]. unfold Rdiv. rewrite Rmult_assoc, Rinv_l by lra. lra. Qed.
Lemma sq_pos : forall d, d <> 0 -> 0 < d * d.
Proof. intros d H. assert (G := sqr_pos d). destruct (Req_EM_T (d * d) 0) as [E|E]; [apply Rmult_integral in E; destruct E; contradiction|lra]. Qed.
Lemma abs_sq : forall d, Rabs d * Rabs d = d * d.
Proof. intros. rewrite <- Rabs_mult. apply Rabs_pos_eq, sqr_pos. Qed.

Lemma axis_bounds : forall m d e, 0 <= e -> Rabs m <= e + Rabs d -> lo_ m d e <= 1 /\ -1 <= hi_ m d e.
Proof.
  intros m d e E H. apply abs_le in H. unfold lo_, hi_. destruct (Req_EM_T d 0) as [Z|Z]; [lra|]. assert (D := sq_pos d Z).
  assert (Q := abs_sq d). assert (A := Rabs_pos d). split; [apply div_le|apply le_div]; try assumption.
  - destruct (abs_eq d) as [[S ->]|[S ->]]; destruct (abs_eq d) as [[S' K]|[S' K]]; rewrite K in *; nra.
  - destruct (abs_eq d) as [[S ->]|[S ->]]; destruct (abs_eq d) as [[S' K]|[S' K]]; rewrite K in *; nra.
Qed.
Lemma axis_inside : forall m d e t, 0 <= e -> Rabs m <= e + Rabs d -> lo_ m d e <= t <= hi_ m d e -> Rabs (m + t * d) <= e.
Proof.
  intros m d e t E H T. unfold lo_, hi_ in T. destruct (Req_EM_T d 0) as [Z|Z].
  - subst d. rewrite Rabs_R0 in H. replace (m + t * 0) with m by ring. lra.
  - assert (D := sq_pos d Z). destruct T as [T1 T2].
    assert (T1' : - m * d - e * Rabs d <= t * (d * d)) by (apply Rmult_le_reg_r with (/ (d * d)); [apply Rinv_0_lt_compat, D|]; rewrite (Rmult_assoc t), Rinv_r by lra; unfold Rdiv in T1; lra).
    assert (T2' : t * (d * d) <= - m * d + e * Rabs d) by (apply Rmult_le_reg_r with (/ (d * d)); [apply Rinv_0_lt_compat, D|]; rewrite (Rmult_assoc t), Rinv_r by lra; unfold Rdiv in T2; lra).
    assert (P : 0 < Rabs d) by (apply Rabs_pos_lt, Z).
    assert (K : Rabs ((m + t * d) * d) <= e * Rabs d) by (apply abs_le; lra).
    rewrite Rabs_mult in K. apply Rmult_le_reg_r with (Rabs d); assumption.
Qed.
Lemma axis_self : forall m d e, 0 <= e -> lo_ m d e <= hi_ m d e.
Proof.
  intros m d e E. unfold lo_, hi_. destruct (Req_EM_T d 0) as [Z|Z]; [lra|]. apply Rmult_le_compat_r; [apply Rlt_le, Rinv_0_lt_compat, sq_pos, Z|].
  assert (A := Rabs_pos d). assert (0 <= e * Rabs d) by (apply Rmult_le_pos; assumption). lra.
Qed.
Lemma axis_pair : forall m d e n c f, 0 <= e -> 0 <= f -> Rabs m <= e + Rabs d -> Rabs n <= f + Rabs c ->
  Rabs (d * n - c * m) <= e * Rabs c + f * Rabs d -> lo_ m d e <= hi_ n c f.
Proof.
  intros m d e n c f E F B1 B2 H. destruct (axis_bounds m d e E B1) as [L _]. destruct (axis_bounds n c f F B2) as [_ U].
  unfold lo_, hi_ in *. destruct (Req_EM_T d 0) as [Z|Z]; destruct (Req_EM_T c 0) as [Y|Y]; try lra.
  assert (D := sq_pos d Z). assert (C := sq_pos c Y). apply div_le; [assumption|].
  replace ((- n * c + f * Rabs c) / (c * c) * (d * d)) with (((- n * c + f * Rabs c) * (d * d)) / (c * c)) by (field; assumption).
  apply le_div; [assumption|].
  assert (Q : (d * n - c * m) * (c * d) <= (e * Rabs c + f * Rabs d) * Rabs (c * d)).
  { eapply Rle_trans; [apply Rle_abs|]. rewrite Rabs_mult. apply Rmult_le_compat_r; [apply Rabs_pos|assumption]. }
  rewrite Rabs_mult in Q. assert (S1 := abs_sq d). assert (S2 := abs_sq c).
  replace ((e * Rabs c + f * Rabs d) * (Rabs c * Rabs d)) with (e * Rabs d * (Rabs c * Rabs c) + f * Rabs c * (Rabs d * Rabs d)) in Q by ring.
  rewrite S1, S2 in Q. lra.
Qed.

Lemma helly : forall a1 b1 a2 b2 a3 b3 a4 b4, a1 <= b1 -> a1 <= b2 -> a1 <= b3 -> a1 <= b4 -> a2 <= b1 -> a2 <= b2 -> a2 <= b3 -> a2 <= b4 ->
  a3 <= b1 -> a3 <= b2 -> a3 <= b3 -> a3 <= b4 -> a4 <= b1 -> a4 <= b2 -> a4 <= b3 -> a4 <= b4 ->
  exists t : R, a1 <= t <= b1 /\ a2 <= t <= b2 /\ a3 <= t <= b3 /\ a4 <= t <= b4.
Proof.
  intros. exists (Rmax (Rmax a1 a2) (Rmax a3 a4)).
  assert (L1 := Rmax_l a1 a2). assert (L2 := Rmax_r a1 a2). assert (L3 := Rmax_l a3 a4). assert (L4 := Rmax_r a3 a4).
  assert (L5 := Rmax_l (Rmax a1 a2) (Rmax a3 a4)). assert (L6 := Rmax_r (Rmax a1 a2) (Rmax a3 a4)).
  repeat split; try lra; repeat apply Rmax_lub; assumption.
Qed.

Lemma box_segment_spec : forall b p q, proper b -> box_segment b p q = true <-> meet (in_segment p q) (in_box b).
Proof.
  intros b p q (P1 & P2 & P3). unfold box_segment. cbn [vx vy vz scale3 sub3 add3 abs3].
  set (e := extents b) in *. set (c := center b).
  set (dx := (vx q - vx p) * / 2). set (dy := (vy q - vy p) * / 2). set (dz := (vz q - vz p) * / 2).
  set (mx := vx p + dx - vx c). set (my := vy p + dy - vy c). set (mz := vz p + dz - vz c).
  assert (Pt : forall t, along p q ((t + 1) / 2) = V3 (vx c + (mx + t * dx)) (vy c + (my + t * dy)) (vz c + (mz + t * dz))).
  { intros. unfold mx, my, mz, dx, dy, dz. apply v3_eq; cbn; field. }
  assert (In : meet (in_segment p q) (in_box b) <-> exists t, -1 <= t <= 1 /\ Rabs (mx + t * dx) <= vx e /\ Rabs (my + t * dy) <= vy e /\ Rabs (mz + t * dz) <= vz e).
  { split.
    - intros (x & (s & Hs & ->) & B). exists (2 * s - 1). split; [lra|].
      replace s with (((2 * s - 1) + 1) / 2) in B by field. rewrite Pt in B. destruct B as (B1 & B2 & B3). fold e c in B1, B2, B3. cbn in B1, B2, B3. rewrite !abs_le. lra.
    - intros (t & Ht & A). rewrite !abs_le in A. exists (along p q ((t + 1) / 2)). split; [exists ((t + 1) / 2); split; [lra|reflexivity]|].
      rewrite Pt. unfold in_box. fold e c. cbn. repeat split; lra. }
  rewrite In. clear In Pt. clearbody dx dy dz. clearbody mx my mz.
  match goal with |- context [if ?A then false else if ?B then false else true] => destruct A eqn:T1; [|destruct B eqn:T2] end.
  - split; [discriminate|]. intros (t & Ht & A1 & A2 & A3). exfalso.
    assert (G : forall m d k, Rabs (m + t * d) <= k -> Rabs m <= k + Rabs d).
    { intros m d k A. replace m with ((m + t * d) + (- t) * d) by ring. eapply Rle_trans; [apply Rabs_triang|]. rewrite Rabs_mult.
      assert (Rabs (- t) <= 1) by (apply abs_le; lra). assert (D := Rabs_pos d). assert (D2 := Rabs_pos (-t)). nra. }
    apply orb_true_iff in T1. destruct T1 as [T1|T1]; [apply orb_true_iff in T1; destruct T1 as [T1|T1]|]; apply ltb_true in T1;
    [assert (K := G _ _ _ A1)|assert (K := G _ _ _ A2)|assert (K := G _ _ _ A3)]; lra.
  - split; [discriminate|]. intros (t & Ht & A1 & A2 & A3). exfalso.
    assert (G : forall m d k n c f, Rabs (m + t * d) <= k -> Rabs (n + t * c) <= f -> Rabs (d * n - c * m) <= k * Rabs c + f * Rabs d).
    { intros m d k n c0 f A B. replace (d * n - c0 * m) with (d * (n + t * c0) + (- c0) * (m + t * d)) by ring. eapply Rle_trans; [apply Rabs_triang|].
      rewrite !Rabs_mult, Rabs_Ropp. assert (D := Rabs_pos d). assert (D2 := Rabs_pos c0). 
      assert (K1 := Rmult_le_compat_l _ _ _ D B). assert (K2 := Rmult_le_compat_l _ _ _ D2 A). lra. }
    apply orb_true_iff in T2. destruct T2 as [T2|T2]; [apply orb_true_iff in T2; destruct T2 as [T2|T2]|]; apply ltb_true in T2;
    [assert (K := G _ _ _ _ _ _ A2 A3)|assert (K := G _ _ _ _ _ _ A3 A1)|assert (K := G _ _ _ _ _ _ A1 A2)]; lra.
  - split; [intros _|reflexivity]. booleans.
    assert (B1 : Rabs mx <= vx e + Rabs dx) by assumption. assert (B2 : Rabs my <= vy e + Rabs dy) by assumption. assert (B3 : Rabs mz <= vz e + Rabs dz) by assumption.
    assert (C1 : Rabs (dy * mz - dz * my) <= vy e * Rabs dz + vz e * Rabs dy) by assumption.
    assert (C2 : Rabs (dz * mx - dx * mz) <= vz e * Rabs dx + vx e * Rabs dz) by assumption.
    assert (C3 : Rabs (dx * my - dy * mx) <= vx e * Rabs dy + vy e * Rabs dx) by assumption.
    assert (C1' : Rabs (dz * my - dy * mz) <= vz e * Rabs dy + vy e * Rabs dz) by (rewrite Rabs_minus_sym; lra).
    assert (C2' : Rabs (dx * mz - dz * mx) <= vx e * Rabs dz + vz e * Rabs dx) by (rewrite Rabs_minus_sym; lra).
    assert (C3' : Rabs (dy * mx - dx * my) <= vy e * Rabs dx + vx e * Rabs dy) by (rewrite Rabs_minus_sym; lra).
    destruct (axis_bounds mx dx (vx e) P1 B1). destruct (axis_bounds my dy (vy e) P2 B2). destruct (axis_bounds mz dz (vz e) P3 B3).
    destruct (helly (-1) 1 (lo_ mx dx (vx e)) (hi_ mx dx (vx e)) (lo_ my dy (vy e)) (hi_ my dy (vy e)) (lo_ mz dz (vz e)) (hi_ mz dz (vz e))) as (t & T & Tx & Ty & Tz);
      try assumption; try (apply axis_self; assumption); try (apply axis_pair; assumption); [lra|].
    exists t. split; [assumption|]. split; [|split]; apply axis_inside; assumption.
Qed.

(* ------------------------------------------------------------------ least boxes *)
Lemma fmm_in : forall lo hi x, in_box (box_from_min_max lo hi) x <-> (vx lo <= vx x <= vx hi /\ vy lo <= vy x <= vy hi /\ vz lo <= vz x <= vz hi).
Proof. intros. unfold in_box, box_from_min_max. cbn. lra. Qed.

Section FOLD.
  Variable (f : v3 -> R) (op : v3 -> v3 -> v3).
  Lemma fold_low : (forall a b, f (op a b) <= f a /\ f (op a b) <= f b) -> forall l p, f (fold_left op l p) <= f p /\ forall x, In x l -> f (fold_left op l p) <= f x.
  Proof.
    intros H. induction l as [|y l IH]; intros p; cbn; [split; [lra|intros ? []]|]. destruct (IH (op p y)) as [A B]. destruct (H p y). split; [lra|].
    intros x [<-|X]; [lra|auto].
  Qed.
  Lemma fold_attained : (forall a b, f (op a b) = f a \/ f (op a b) = f b) -> forall l p, exists x, In x (p :: l) /\ f (fold_left op l p) = f x.
  Proof.
    intros H. induction l as [|y l IH]; intros p; cbn; [exists p; auto|]. destruct (IH (op p y)) as (x & [<-|X] & E); [|exists x; auto].
    destruct (H p y) as [G|G]; [exists p|exists y]; split; auto; congruence.
  Qed.
End FOLD.

Lemma min3_low : forall a b, (vx (min3 a b) <= vx a /\ vx (min3 a b) <= vx b) /\ (vy (min3 a b) <= vy a /\ vy (min3 a b) <= vy b) /\ (vz (min3 a b) <= vz a /\ vz (min3 a b) <= vz b).
Proof. intros. cbn. destruct (minR_spec (vx a) (vx b)) as [[-> ?]|[-> ?]]; destruct (minR_spec (vy a) (vy b)) as [[-> ?]|[-> ?]]; destruct (minR_spec (vz a) (vz b)) as [[-> ?]|[-> ?]]; lra. Qed.
Lemma max3_high : forall a b, (vx a <= vx (max3 a b) /\ vx b <= vx (max3 a b)) /\ (vy a <= vy (max3 a b) /\ vy b <= vy (max3 a b)) /\ (vz a <= vz (max3 a b) /\ vz b <= vz (max3 a b)).
Proof. intros. cbn. destruct (maxR_spec (vx a) (vx b)) as [[-> ?]|[-> ?]]; destruct (maxR_spec (vy a) (vy b)) as [[-> ?]|[-> ?]]; destruct (maxR_spec (vz a) (vz b)) as [[-> ?]|[-> ?]]; lra. Qed.
Lemma min3_pick : forall a b, (vx (min3 a b) = vx a \/ vx (min3 a b) = vx b) /\ (vy (min3 a b) = vy a \/ vy (min3 a b) = vy b) /\ (vz (min3 a b) = vz a \/ vz (min3 a b) = vz b).
Proof. intros. cbn. destruct (minR_spec (vx a) (vx b)) as [[-> ?]|[-> ?]]; destruct (minR_spec (vy a) (vy b)) as [[-> ?]|[-> ?]]; destruct (minR_spec (vz a) (vz b)) as [[-> ?]|[-> ?]]; auto. Qed.
Lemma max3_pick : forall a b, (vx (max3 a b) = vx a \/ vx (max3 a b) = vx b) /\ (vy (max3 a b) = vy a \/ vy (max3 a b) = vy b) /\ (vz (max3 a b) = vz a \/ vz (max3 a b) = vz b).
Proof. intros. cbn. destruct (maxR_spec (vx a) (vx b)) as [[-> ?]|[-> ?]]; destruct (maxR_spec (vy a) (vy b)) as [[-> ?]|[-> ?]]; destruct (maxR_spec (vz a) (vz b)) as [[-> ?]|[-> ?]]; auto. Qed.

Lemma fold_min_low : forall l p x, In x (p :: l) -> vx (fold_min p l) <= vx x /\ vy (fold_min p l) <= vy x /\ vz (fold_min p l) <= vz x.
Proof.
  intros l p x H. unfold fold_min.
  destruct (fold_low vx min3 (fun a b => proj1 (min3_low a b)) l p). destruct (fold_low vy min3 (fun a b => proj1 (proj2 (min3_low a b))) l p). destruct (fold_low vz min3 (fun a b => proj2 (proj2 (min3_low a b))) l p).
  destruct H as [<-|H]; auto.
Qed.
Lemma fold_max_high : forall l p x, In x (p :: l) -> vx x <= vx (fold_max p l) /\ vy x <= vy (fold_max p l) /\ vz x <= vz (fold_max p l).
Proof.
  intros l p x H. unfold fold_max.
  assert (G : forall (f : v3 -> R), (forall a b, f a <= f (max3 a b) /\ f b <= f (max3 a b)) -> f x <= f (fold_left max3 l p)).
  { intros f Hf. destruct (fold_low (fun v => - f v) max3 (fun a b => conj (Ropp_le_contravar _ _ (proj1 (Hf a b))) (Ropp_le_contravar _ _ (proj2 (Hf a b)))) l p) as [A B].
    destruct H as [<-|H]; [lra|assert (C := B x H); lra]. }
  split; [|split]; apply G; intros a b; apply (max3_high a b).
Qed.

Lemma fmm_contains : forall p l x, In x (p :: l) -> in_box (box_from_min_max (fold_min p l) (fold_max p l)) x.
Proof. intros p l x H. rewrite fmm_in. destruct (fold_min_low l p x H) as (A & B & C). destruct (fold_max_high l p x H) as (D & E & F). repeat split; assumption. Qed.
Lemma fmm_least : forall p l q b, (forall x, In x (p :: l) -> in_box b x) -> (forall x, In x (q :: l) -> in_box b x) -> subset (in_box (box_from_min_max (fold_min p l) (fold_max q l))) (in_box b).
Proof.
  intros p l q b H H' x X. rewrite fmm_in in X. unfold fold_min, fold_max in X.
  destruct (fold_attained vx min3 (fun a b => proj1 (min3_pick a b)) l p) as (x1 & I1 & E1). destruct (fold_attained vy min3 (fun a b => proj1 (proj2 (min3_pick a b))) l p) as (x2 & I2 & E2).
  destruct (fold_attained vz min3 (fun a b => proj2 (proj2 (min3_pick a b))) l p) as (x3 & I3 & E3). destruct (fold_attained vx max3 (fun a b => proj1 (max3_pick a b)) l q) as (x4 & I4 & E4).
  destruct (fold_attained vy max3 (fun a b => proj1 (proj2 (max3_pick a b))) l q) as (x5 & I5 & E5). destruct (fold_attained vz max3 (fun a b => proj2 (proj2 (max3_pick a b))) l q) as (x6 & I6 & E6).
  rewrite E1, E2, E3, E4, E5, E6 in X. assert (J1 := H _ I1). assert (J2 := H _ I2). assert (J3 := H _ I3). assert (J4 := H' _ I4). assert (J5 := H' _ I5). assert (J6 := H' _ I6).
  unfold in_box in *. repeat split; lra.
Qed.

Lemma from_points_spec : forall l, l <> [] -> proper (from_points l) /\ (forall x, In x l -> in_box (from_points l) x) /\ forall b, (forall x, In x l -> in_box b x) -> subset (in_box (from_points l)) (in_box b).
Proof.
  intros [|p l] N; [contradiction|]. unfold from_points. split; [|split].
  - destruct (fold_min_low l p p (or_introl eq_refl)) as (A & B & C). destruct (fold_max_high l p p (or_introl eq_refl)) as (D & E & F).
    unfold proper, box_from_min_max. cbn. lra.
  - apply fmm_contains.
  - intros b H. apply fmm_least; assumption.
Qed.

Lemma append_points_spec : forall b l, proper b -> proper (append_points b l) /\ subset (in_box b) (in_box (append_points b l)) /\ (forall x, In x l -> in_box (append_points b l) x) /\
  forall c, subset (in_box b) (in_box c) -> (forall x, In x l -> in_box c x) -> subset (in_box (append_points b l)) (in_box c).
Proof.
  intros b l (P1 & P2 & P3). unfold append_points.
  assert (A : forall x, In x (min_corner b :: l) -> vx (fold_min (min_corner b) l) <= vx x /\ vy (fold_min (min_corner b) l) <= vy x /\ vz (fold_min (min_corner b) l) <= vz x) by apply fold_min_low.
  assert (B : forall x, In x (max_corner b :: l) -> vx x <= vx (fold_max (max_corner b) l) /\ vy x <= vy (fold_max (max_corner b) l) /\ vz x <= vz (fold_max (max_corner b) l)) by apply fold_max_high.
  assert (A0 := A _ (or_introl eq_refl)). assert (B0 := B _ (or_introl eq_refl)).
  assert (C1 : vx (min_corner b) = vx (center b) - vx (extents b) /\ vy (min_corner b) = vy (center b) - vy (extents b) /\ vz (min_corner b) = vz (center b) - vz (extents b)) by (cbn; repeat split; ring).
  assert (C2 : vx (max_corner b) = vx (center b) + vx (extents b) /\ vy (max_corner b) = vy (center b) + vy (extents b) /\ vz (max_corner b) = vz (center b) + vz (extents b)) by (cbn; repeat split; ring).
  assert (M1 : in_box b (min_corner b)) by (unfold in_box; repeat split; lra). assert (M2 : in_box b (max_corner b)) by (unfold in_box; repeat split; lra).
  split; [unfold proper, box_from_min_max; cbn; unfold min_corner, max_corner in *; cbn in *; lra|]. split; [|split].
  - intros x (X1 & X2 & X3). rewrite fmm_in. repeat split; lra.
  - intros x X. rewrite fmm_in. assert (A1 := A x (or_intror X)). assert (B1 := B x (or_intror X)). repeat split; lra.
  - intros c Hb Hl. apply fmm_least; intros x [<-|X]; auto.
Qed.

Lemma append_box_spec : forall b c, proper b -> proper c -> proper (append_box b c) /\ subset (in_box b) (in_box (append_box b c)) /\ subset (in_box c) (in_box (append_box b c)) /\
  forall d, subset (in_box b) (in_box d) -> subset (in_box c) (in_box d) -> subset (in_box (append_box b c)) (in_box d).
Proof.
  intros b c P Q. unfold append_box. destruct (append_points_spec b [min_corner c; max_corner c] P) as (A & B & C & D). split; [assumption|]. split; [assumption|].
  assert (E1 := C _ (or_introl eq_refl)). assert (E2 := C _ (or_intror (or_introl eq_refl))). set (r := append_points b _) in *. clearbody r.
  destruct Q as (Q1 & Q2 & Q3). split.
  - unfold in_box in *. cbn in E1, E2. intros x (X1 & X2 & X3). repeat split; lra.
  - intros d Hb Hc. apply D; [assumption|]. intros x [<-|[<-|[]]]; apply Hc; unfold in_box; cbn; repeat split; lra.
Qed.

(* ------------------------------------------------------------------ transformed boxes *)
Lemma transform_row : forall m1 m2 m3 k lx hx ly hy lz hz, lx <= hx -> ly <= hy -> lz <= hz ->
  let lo := minR (m1 * lx) (m1 * hx) + minR (m2 * ly) (m2 * hy) + minR (m3 * lz) (m3 * hz) in
  let hi := maxR (m1 * lx) (m1 * hx) + maxR (m2 * ly) (m2 * hy) + maxR (m3 * lz) (m3 * hz) in
  (forall x y z, lx <= x <= hx -> ly <= y <= hy -> lz <= z <= hz -> lo + k <= m1 * x + m2 * y + m3 * z + k <= hi + k) /\
  (exists x y z, lx <= x <= hx /\ ly <= y <= hy /\ lz <= z <= hz /\ m1 * x + m2 * y + m3 * z + k = lo + k) /\
  (exists x y z, lx <= x <= hx /\ ly <= y <= hy /\ lz <= z <= hz /\ m1 * x + m2 * y + m3 * z + k = hi + k).
Proof.
  intros m1 m2 m3 k lx hx ly hy lz hz L1 L2 L3 lo hi.
  assert (G : forall m l h, l <= h -> (forall x, l <= x <= h -> minR (m * l) (m * h) <= m * x <= maxR (m * l) (m * h)) /\ (exists x, l <= x <= h /\ m * x = minR (m * l) (m * h)) /\ (exists x, l <= x <= h /\ m * x = maxR (m * l) (m * h))).
  { intros m l h L. split; [|split].
    - intros x X. destruct (minR_spec (m * l) (m * h)) as [[-> A]|[-> A]]; destruct (maxR_spec (m * l) (m * h)) as [[-> B]|[-> B]]; destruct (Rle_dec 0 m); nra.
    - destruct (minR_spec (m * l) (m * h)) as [[-> A]|[-> A]]; [exists l|exists h]; lra.
    - destruct (maxR_spec (m * l) (m * h)) as [[-> A]|[-> A]]; [exists l|exists h]; lra. }
  destruct (G m1 lx hx L1) as (A1 & (x1 & B1 & B1') & (y1 & C1 & C1')). destruct (G m2 ly hy L2) as (A2 & (x2 & B2 & B2') & (y2 & C2 & C2')). destruct (G m3 lz hz L3) as (A3 & (x3 & B3 & B3') & (y3 & C3 & C3')).
  split; [|split].
  - intros x y z X Y Z. assert (D1 := A1 x X). assert (D2 := A2 y Y). assert (D3 := A3 z Z). unfold lo, hi. lra.
  - exists x1, x2, x3. unfold lo. repeat split; lra.
  - exists y1, y2, y3. unfold hi. repeat split; lra.
Qed.

Lemma box_transform_spec : forall b m, proper b ->
  proper (box_transform b m) /\ (forall x, in_box b x -> in_box (box_transform b m) (image m x)) /\ forall c, (forall x, in_box b x -> in_box c (image m x)) -> subset (in_box (box_transform b m)) (in_box c).
Proof.
  intros b m (P1 & P2 & P3).
  set (c := center b). set (e := extents b) in *.
  assert (L1 : vx c - vx e <= vx c + vx e) by lra. assert (L2 : vy c - vy e <= vy c + vy e) by lra. assert (L3 : vz c - vz e <= vz c + vz e) by lra.
  assert (G := fun i => transform_row (get R_ops m i 0%nat) (get R_ops m i 1%nat) (get R_ops m i 2%nat) (get R_ops m i 3%nat) _ _ _ _ _ _ L1 L2 L3). cbv zeta in G.
  set (lo := fun i => minR (get R_ops m i 0%nat * (vx c - vx e)) (get R_ops m i 0%nat * (vx c + vx e)) + minR (get R_ops m i 1%nat * (vy c - vy e)) (get R_ops m i 1%nat * (vy c + vy e)) + minR (get R_ops m i 2%nat * (vz c - vz e)) (get R_ops m i 2%nat * (vz c + vz e))).
  set (hi := fun i => maxR (get R_ops m i 0%nat * (vx c - vx e)) (get R_ops m i 0%nat * (vx c + vx e)) + maxR (get R_ops m i 1%nat * (vy c - vy e)) (get R_ops m i 1%nat * (vy c + vy e)) + maxR (get R_ops m i 2%nat * (vz c - vz e)) (get R_ops m i 2%nat * (vz c + vz e))).
  assert (RT : forall i x, row_times m i x = get R_ops m i 0%nat * vx x + get R_ops m i 1%nat * vy x + get R_ops m i 2%nat * vz x + get R_ops m i 3%nat) by (intros; unfold row_times; cbn; ring).
  assert (G' : forall i, (forall x, in_box b x -> lo i + get R_ops m i 3%nat <= row_times m i x <= hi i + get R_ops m i 3%nat) /\ (exists x, in_box b x /\ row_times m i x = lo i + get R_ops m i 3%nat) /\ (exists x, in_box b x /\ row_times m i x = hi i + get R_ops m i 3%nat)).
  { intros i. destruct (G i) as (A & (x & y & z & B1 & B2 & B3 & B) & (x' & y' & z' & C1 & C2 & C3 & C)). split; [|split].
    - intros x0 (X1 & X2 & X3). rewrite RT. apply A; assumption.
    - exists (V3 x y z). split; [unfold in_box; fold c e; cbn; repeat split; lra|]. rewrite RT. exact B.
    - exists (V3 x' y' z'). split; [unfold in_box; fold c e; cbn; repeat split; lra|]. rewrite RT. exact C. }
  clear G.
  assert (T : forall x, in_box (box_transform b m) x <-> (lo 0%nat + get R_ops m 0 3%nat <= vx x <= hi 0%nat + get R_ops m 0 3%nat /\ lo 1%nat + get R_ops m 1 3%nat <= vy x <= hi 1%nat + get R_ops m 1 3%nat /\ lo 2%nat + get R_ops m 2 3%nat <= vz x <= hi 2%nat + get R_ops m 2 3%nat)).
  { intros x. unfold in_box, box_transform, lo, hi. cbn [center extents vx vy vz add3 sub3 scale3 min3 max3 mcol]. fold c e. lra. }
  assert (LH : forall i, lo i <= hi i) by (intros i; destruct (G' i) as (A & _); assert (I : in_box b c) by (unfold in_box; fold c e; repeat split; lra); assert (Q := A c I); lra).
  split; [|split].
  - assert (H0 := LH 0%nat). assert (H1 := LH 1%nat). assert (H2 := LH 2%nat). unfold proper, box_transform. cbn [extents center vx vy vz add3 sub3 scale3 min3 max3 mcol]. fold c e. unfold lo, hi in *. lra.
  - intros x X. apply T. cbn. split; [|split]; apply G', X.
  - intros d D x X. apply T in X.
    destruct (G' 0%nat) as (_ & (a1 & I1 & E1) & (b1 & J1 & F1)). destruct (G' 1%nat) as (_ & (a2 & I2 & E2) & (b2 & J2 & F2)). destruct (G' 2%nat) as (_ & (a3 & I3 & E3) & (b3 & J3 & F3)).
    assert (K1 := D _ I1). assert (K2 := D _ J1). assert (K3 := D _ I2). assert (K4 := D _ J2). assert (K5 := D _ I3). assert (K6 := D _ J3).
    unfold in_box, image in K1, K2, K3, K4, K5, K6. cbn [vx vy vz] in K1, K2, K3, K4, K5, K6. rewrite E1 in K1. rewrite F1 in K2. rewrite E2 in K3. rewrite F2 in K4. rewrite E3 in K5. rewrite F3 in K6.
    unfold in_box. repeat split; lra.
Qed.
