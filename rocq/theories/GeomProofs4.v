(** Spheres and the measures of triangles. *)
From Coq Require Import Reals Lra Psatz List Bool.
From Verif Require Import Words MatModel VecModel VecSpec QuatModel QuatSpec QuatProofs QuatProofs2 XformSpec XformProofs GeomModel GeomSpec GeomProofs GeomProofs2.
Import ListNotations.
Local Open Scope R_scope.

Lemma sphere_contains_spec : forall s x, sphere_contains s x = true <-> in_ball s x.
Proof. intros. unfold sphere_contains, in_ball. rewrite leb_true, ds_dist2, dist2_sym. reflexivity. Qed.

Lemma jensen : forall p0 p1 p2 a b c x, 0 <= a -> 0 <= b -> 0 <= c -> a + b + c = 1 -> dist2 (mix p0 p1 p2 a b c) x <= a * dist2 p0 x + b * dist2 p1 x + c * dist2 p2 x.
Proof.
  intros p0 p1 p2 a b c x A B C S. replace a with (1 - b - c) in * by lra.
  assert (E : (1 - b - c) * dist2 p0 x + b * dist2 p1 x + c * dist2 p2 x - dist2 (mix p0 p1 p2 (1 - b - c) b c) x = (1 - b - c) * b * dist2 p0 p1 + (1 - b - c) * c * dist2 p0 p2 + b * c * dist2 p1 p2).
  { unfold dist2. cbn. ring. }
  assert (0 <= (1 - b - c) * b * dist2 p0 p1) by (repeat apply Rmult_le_pos; try assumption; apply dist2_pos).
  assert (0 <= (1 - b - c) * c * dist2 p0 p2) by (repeat apply Rmult_le_pos; try assumption; apply dist2_pos).
  assert (0 <= b * c * dist2 p1 p2) by (repeat apply Rmult_le_pos; try assumption; apply dist2_pos). lra.
Qed.
Lemma ball_mix : forall s p0 p1 p2 a b c, in_ball s p0 -> in_ball s p1 -> in_ball s p2 -> 0 <= a -> 0 <= b -> 0 <= c -> a + b + c = 1 -> in_ball s (mix p0 p1 p2 a b c).
Proof.
  intros s p0 p1 p2 a b c P0 P1 P2 A B C S. unfold in_ball in *. assert (J := jensen p0 p1 p2 a b c (scenter s) A B C S). set (r := radius s * radius s) in *.
  assert (K1 := Rmult_le_compat_l _ _ _ A P0). assert (K2 := Rmult_le_compat_l _ _ _ B P1). assert (K3 := Rmult_le_compat_l _ _ _ C P2).
  assert (a * r + b * r + c * r = r) by (transitivity ((a + b + c) * r); [ring|rewrite S; ring]). lra.
Qed.
Lemma along_mix : forall a b t, along a b t = mix a b b (1 - t) t 0.
Proof. intros. apply v3_eq; cbn; ring. Qed.
Lemma sphere_contains_segment_spec : forall s a b, sphere_contains_segment s a b = true <-> subset (in_segment a b) (in_ball s).
Proof.
  intros. unfold sphere_contains_segment. rewrite andb_true_iff, !sphere_contains_spec. split.
  - intros [A B] x (t & T & ->). rewrite along_mix. apply ball_mix; try assumption; lra.
  - intros H. split; apply H, seg_ends.
Qed.
Lemma sphere_contains_triangle_spec : forall s p0 p1 p2, sphere_contains_triangle s p0 p1 p2 = true <-> subset (in_triangle p0 p1 p2) (in_ball s).
Proof.
  intros. unfold sphere_contains_triangle. rewrite !andb_true_iff, !sphere_contains_spec. split.
  - intros [[A B] C] x (u & v & w & U & V & W & T & ->). apply ball_mix; assumption.
  - intros H. destruct (tri_ends p0 p1 p2) as (G1 & G2 & G3). repeat split; apply H; assumption.
Qed.

Lemma cauchy : forall v w, inner3 v w * inner3 v w <= inner3 v v * inner3 w w.
Proof. intros. assert (E := cross_norm v w). assert (0 <= inner3 (cross v w) (cross v w)) by (rewrite inner_eq; assert (G1 := sqr_pos (vx (cross v w))); assert (G2 := sqr_pos (vy (cross v w))); assert (G3 := sqr_pos (vz (cross v w))); lra). lra. Qed.
Lemma inner_nonneg : forall v, 0 <= inner3 v v.
Proof. intros. rewrite inner_eq. assert (G1 := sqr_pos (vx v)). assert (G2 := sqr_pos (vy v)). assert (G3 := sqr_pos (vz v)). lra. Qed.

(** What [closest_point] gives: the nearest point when the point is in the ball, otherwise the offset of the nearest point from
    the centre. *)
Lemma sphere_closest_in : forall s x, in_ball s x -> sphere_closest s x = x /\ nearest (in_ball s) x x.
Proof.
  intros s x H. split.
  - unfold sphere_closest. destruct (leb _ _) eqn:L; [reflexivity|]. apply leb_false in L. unfold in_ball, dist2 in H. unfold length_squared3 in L. cbn in L. lra.
  - split; [assumption|]. intros y _. unfold dist2 at 1. assert (G := dist2_pos y x). lra.
Qed.
Lemma sphere_closest_out : forall s x, 0 <= radius s -> ~ in_ball s x -> nearest (in_ball s) x (add3 (scenter s) (sphere_closest s x)).
Proof.
  intros [c r] x R N. cbn in R. unfold sphere_closest. cbn [scenter radius]. set (d := sub3 x c).
  assert (E : length_squared3 d = dist2 x c) by (unfold length_squared3, dist2, d; cbn; ring).
  unfold in_ball in N. cbn in N. apply Rnot_le_lt in N. rewrite E. destruct (leb (dist2 x c) (r * r)) eqn:L; booleans; [lra|].
  set (l := sqrt (dist2 x c)). assert (Sq : l * l = dist2 x c) by (apply sqrt_sqrt, dist2_pos). assert (Lp : 0 <= l) by apply sqrt_pos.
  assert (Hl : r < l) by nra.
  set (q := add3 c (scale3 (scale3 d (1 / l)) r)).
  assert (Q : q = reach c d (r / l)) by (unfold q; apply v3_eq; cbn; field; lra). rewrite Q.
  assert (I : inner3 d d = l * l) by (rewrite Sq, inner_eq; unfold d, dist2; cbn; ring).
  assert (D : forall k, dist2 (reach c d k) c = k * k * (l * l)) by (intros; rewrite <- I, inner_eq; unfold dist2, reach; cbn [vx vy vz]; ring).
  split.
  - unfold in_ball. cbn. rewrite D. right. field. lra.
  - intros y Y. unfold in_ball in Y. cbn in Y.
    assert (D2 : dist2 (reach c d (r / l)) x = (l - r) * (l - r)).
    { transitivity ((1 - r / l) * (1 - r / l) * inner3 d d); [|rewrite I; field; lra]. rewrite inner_eq. unfold dist2, reach, d. cbn [vx vy vz sub3]. ring. }
    rewrite D2. set (w := sub3 y c). assert (W : inner3 w w <= r * r) by (rewrite inner_eq; unfold w; unfold dist2 in Y; cbn; lra).
    assert (Dy : dist2 y x = inner3 w w - 2 * inner3 d w + inner3 d d) by (rewrite !inner_eq; unfold w, d, dist2; cbn [vx vy vz sub3]; ring).
    rewrite Dy, I. assert (C := cauchy d w). rewrite I in C. set (z := inner3 d w) in *. set (n := inner3 w w) in *. assert (Hn : 0 <= n) by apply inner_nonneg.
    set (m := sqrt n). assert (M : m * m = n) by (apply sqrt_sqrt, Hn). assert (Mp : 0 <= m) by apply sqrt_pos.
    assert (z <= l * m) by (assert (z * z <= (l * m) * (l * m)) by (replace (l * m * (l * m)) with (l * l * (m * m)) by ring; rewrite M; assumption); assert (0 <= l * m) by (apply Rmult_le_pos; assumption); nra).
    assert (m <= r) by nra. assert ((l - r) * (l - r) <= (l - m) * (l - m)) by nra. nra.
Qed.

Lemma sphere_sphere_sound : forall s1 s2, 0 <= radius s1 -> 0 <= radius s2 -> sphere_sphere s1 s2 = true -> meet (in_ball s1) (in_ball s2).
Proof.
  intros [c1 r1] [c2 r2] R1 R2 H. cbn in R1, R2. unfold sphere_sphere in H. apply leb_true in H. rewrite ds_dist2 in H. cbn in H.
  destruct (Req_EM_T (r1 + r2) 0) as [Z|Z].
  - assert (r1 = 0) by lra. assert (r2 = 0) by lra. subst. exists c1. unfold in_ball. cbn. split; [unfold dist2; lra|]. lra.
  - exists (along c1 c2 (r1 / (r1 + r2))). unfold in_ball. cbn [scenter radius]. assert (P : 0 < r1 + r2) by lra.
    assert (B : dist2 c1 c2 <= (r1 + r2) * (r1 + r2)) by nra.
    assert (E1 : dist2 (along c1 c2 (r1 / (r1 + r2))) c1 = r1 * r1 * (dist2 c1 c2 / ((r1 + r2) * (r1 + r2)))) by (unfold dist2, along; cbn; field; lra).
    assert (E2 : dist2 (along c1 c2 (r1 / (r1 + r2))) c2 = r2 * r2 * (dist2 c1 c2 / ((r1 + r2) * (r1 + r2)))) by (unfold dist2, along; cbn; field; lra).
    assert (K : dist2 c1 c2 / ((r1 + r2) * (r1 + r2)) <= 1) by (apply div_le; [nra|lra]).
    rewrite E1, E2. assert (G1 := sqr_pos r1). assert (G2 := sqr_pos r2). nra.
Qed.
Lemma sphere_contains_sphere_complete : forall o i, subset (in_ball i) (in_ball o) -> sphere_contains_sphere o i = true.
Proof.
  intros [co ro] [ci ri] H. unfold sphere_contains_sphere. cbn [scenter radius]. rewrite ds_dist2.
  assert (A := H (V3 (vx ci + ri) (vy ci) (vz ci))). assert (B := H (V3 (vx ci - ri) (vy ci) (vz ci))). unfold in_ball, dist2 in A, B. cbn in A, B.
  assert (A' := A ltac:(lra)). assert (B' := B ltac:(lra)). clear A B H.
  assert (K : dist2 co ci + ri * ri <= ro * ro) by (unfold dist2; lra). assert (0 <= ri * ri) by apply sqr_pos.
  destruct (ltb _ _) eqn:L; booleans; [lra|]. apply leb_true. lra.
Qed.
Lemma from_sphere_spec : forall s, 0 <= radius s -> subset (in_ball s) (in_box (from_sphere s)) /\ forall b, subset (in_ball s) (in_box b) -> subset (in_box (from_sphere s)) (in_box b).
Proof.
  intros [c r] R. cbn in R. split.
  - intros x X. unfold in_ball, dist2 in X. cbn in X. assert (G1 := sqr_pos (vx x - vx c)). assert (G2 := sqr_pos (vy x - vy c)). assert (G3 := sqr_pos (vz x - vz c)).
    assert (K : forall u, u * u <= r * r -> - r <= u <= r) by (intros; split; nra).
    assert (K1 := K (vx x - vx c) ltac:(lra)). assert (K2 := K (vy x - vy c) ltac:(lra)). assert (K3 := K (vz x - vz c) ltac:(lra)). unfold in_box. cbn. repeat split; lra.
  - intros b H x X. unfold in_box in X. cbn in X.
    assert (H1 : in_box b (V3 (vx c - r) (vy c) (vz c))) by (apply H; unfold in_ball, dist2; cbn; lra).
    assert (H2 : in_box b (V3 (vx c + r) (vy c) (vz c))) by (apply H; unfold in_ball, dist2; cbn; lra).
    assert (H3 : in_box b (V3 (vx c) (vy c - r) (vz c))) by (apply H; unfold in_ball, dist2; cbn; lra).
    assert (H4 : in_box b (V3 (vx c) (vy c + r) (vz c))) by (apply H; unfold in_ball, dist2; cbn; lra).
    assert (H5 : in_box b (V3 (vx c) (vy c) (vz c - r))) by (apply H; unfold in_ball, dist2; cbn; lra).
    assert (H6 : in_box b (V3 (vx c) (vy c) (vz c + r))) by (apply H; unfold in_ball, dist2; cbn; lra).
    unfold in_box in *. cbn in *. repeat split; lra.
Qed.

(* ------------------------------------------------------------------ sphere and triangle *)
Lemma inner_mix : forall p0 p1 p2 a b c q, inner3 (mix p0 p1 p2 a b c) q = a * inner3 p0 q + b * inner3 p1 q + c * inner3 p2 q.
Proof. intros. rewrite !inner_eq. cbn. ring. Qed.
Lemma dist_inner : forall x, dist2 x origin = inner3 x x.
Proof. intros. rewrite inner_eq. unfold dist2. cbn. ring. Qed.

(** The point of a triangle nearest to the origin. *)
Lemma nearest_of_three : forall (P1 P2 P3 : v3 -> Prop) x q1 q2 q3, nearest P1 x q1 -> nearest P2 x q2 -> nearest P3 x q3 ->
  exists q, nearest (fun y => P1 y \/ P2 y \/ P3 y) x q.
Proof.
  intros P1 P2 P3 x q1 q2 q3 [A1 B1] [A2 B2] [A3 B3].
  destruct (Rle_dec (dist2 q1 x) (dist2 q2 x)); destruct (Rle_dec (dist2 q1 x) (dist2 q3 x)); destruct (Rle_dec (dist2 q2 x) (dist2 q3 x));
  first [exists q1; split; [tauto|intros y [Y|[Y|Y]]; [assert (G := B1 y Y)|assert (G := B2 y Y)|assert (G := B3 y Y)]; lra]
        |exists q2; split; [tauto|intros y [Y|[Y|Y]]; [assert (G := B1 y Y)|assert (G := B2 y Y)|assert (G := B3 y Y)]; lra]
        |exists q3; split; [tauto|intros y [Y|[Y|Y]]; [assert (G := B1 y Y)|assert (G := B2 y Y)|assert (G := B3 y Y)]; lra]].
Qed.

Lemma proper_distinct : forall p0 p1 p2, proper_triangle p0 p1 p2 -> p0 <> p1 /\ p1 <> p2 /\ p2 <> p0.
Proof.
  intros p0 p1 p2 H. repeat split; intros E; subst; apply H.
  - exists p1, (sub3 p2 p1). split; [|split]; [exists 0|exists 0|exists 1]; apply v3_eq; cbn; ring.
  - exists p2, (sub3 p0 p2). split; [|split]; [exists 1|exists 0|exists 0]; apply v3_eq; cbn; ring.
  - exists p0, (sub3 p1 p0). split; [|split]; [exists 0|exists 1|exists 0]; apply v3_eq; cbn; ring.
Qed.

Lemma exit_point : forall a b c h1 h2 h3, 0 <= a -> 0 <= b -> 0 <= c -> (h1 < 0 \/ h2 < 0 \/ h3 < 0) ->
  exists t, 0 <= t <= 1 /\ 0 <= a + t * (h1 - a) /\ 0 <= b + t * (h2 - b) /\ 0 <= c + t * (h3 - c) /\ (a + t * (h1 - a) = 0 \/ b + t * (h2 - b) = 0 \/ c + t * (h3 - c) = 0).
Proof.
  intros a b c h1 h2 h3 A B C N.
  set (f := fun x h => if Rlt_dec h 0 then x / (x - h) else 1).
  assert (F : forall x h, 0 <= x -> 0 <= f x h <= 1 /\ (forall t, 0 <= t <= f x h -> 0 <= x + t * (h - x)) /\ (h < 0 -> x + f x h * (h - x) = 0 /\ f x h < 1) /\ (0 <= h -> f x h = 1)).
  { intros x h X. unfold f. destruct (Rlt_dec h 0) as [L|L].
    - split; [split; [apply le_div; lra|apply div_le; lra]|]. split; [|split; [intros _; split|lra]].
      + intros t [T1 T2]. assert (t * (x - h) <= x) by (apply Rmult_le_reg_r with (/ (x - h)); [apply Rinv_0_lt_compat; lra|]; rewrite Rmult_assoc, Rinv_r by lra; unfold Rdiv in T2; lra). lra.
      + field. lra.
      + apply Rmult_lt_reg_r with (x - h); [lra|]. unfold Rdiv. rewrite Rmult_assoc, Rinv_l by lra. lra.
    - split; [lra|]. split; [|split; [lra|reflexivity]]. intros t T. nra. }
  destruct (F a h1 A) as (A1 & A2 & A3 & A4). destruct (F b h2 B) as (B1 & B2 & B3 & B4). destruct (F c h3 C) as (C1 & C2 & C3 & C4).
  set (u := f a h1) in *. set (v := f b h2) in *. set (w := f c h3) in *. clearbody u v w.
  assert (Z1 : u < 1 -> a + u * (h1 - a) = 0) by (intros; destruct (Rlt_dec h1 0); [apply A3; assumption|rewrite A4 in H; lra]).
  assert (Z2 : v < 1 -> b + v * (h2 - b) = 0) by (intros; destruct (Rlt_dec h2 0); [apply B3; assumption|rewrite B4 in H; lra]).
  assert (Z3 : w < 1 -> c + w * (h3 - c) = 0) by (intros; destruct (Rlt_dec h3 0); [apply C3; assumption|rewrite C4 in H; lra]).
  assert (M : u < 1 \/ v < 1 \/ w < 1) by (destruct N as [N|[N|N]]; [left; apply A3, N|right; left; apply B3, N|right; right; apply C3, N]).
  assert (Pick : exists t, 0 <= t /\ t <= u /\ t <= v /\ t <= w /\ (t = u \/ t = v \/ t = w) /\ t < 1).
  { destruct (Rle_dec u v); destruct (Rle_dec u w); destruct (Rle_dec v w);
    first [exists u; repeat split; try lra; left; reflexivity|exists v; repeat split; try lra; right; left; reflexivity|exists w; repeat split; try lra; right; right; reflexivity]. }
  destruct Pick as (t & T0 & Tu & Tv & Tw & Te & T1). exists t. split; [lra|].
  split; [apply A2; lra|]. split; [apply B2; lra|]. split; [apply C2; lra|]. destruct Te as [->|[->| ->]]; [left; apply Z1|right; left; apply Z2|right; right; apply Z3]; assumption.
Qed.

Lemma edge_in_triangle : forall p0 p1 p2 y, in_segment p0 p1 y \/ in_segment p1 p2 y \/ in_segment p2 p0 y -> in_triangle p0 p1 p2 y.
Proof.
  intros p0 p1 p2 y [(t & T & ->)|[(t & T & ->)|(t & T & ->)]]; [exists (1 - t), t, 0|exists 0, (1 - t), t|exists t, 0, (1 - t)];
  (repeat (split; [lra|])); apply v3_eq; cbn; ring.
Qed.

Lemma triangle_nearest : forall p0 p1 p2, proper_triangle p0 p1 p2 -> exists q, nearest (in_triangle p0 p1 p2) origin q.
Proof.
  intros p0 p1 p2 H. set (bc := barycentric p0 p1 p2 origin). set (h1 := vx bc). set (h2 := vy bc). set (h3 := vz bc).
  assert (S : h1 + h2 + h3 = 1) by apply barycentric_sum. set (h := mix p0 p1 p2 h1 h2 h3).
  assert (Perp : inner3 h (sub3 p1 p0) = 0 /\ inner3 h (sub3 p2 p0) = 0).
  { assert (D := H). apply proper_cross in D. apply inner_pos in D. rewrite cross_norm in D.
    assert (Hh : h = add3 p0 (add3 (scale3 (sub3 p1 p0) h2) (scale3 (sub3 p2 p0) h3))) by (unfold h; replace h1 with (1 - h2 - h3) by lra; apply v3_eq; cbn [vx vy vz mix add3 scale3 sub3]; ring).
    set (v := sub3 p1 p0) in *. set (w := sub3 p2 p0) in *.
    assert (E2 : h2 = (inner3 w w * (- inner3 p0 v) - inner3 v w * (- inner3 p0 w)) * (1 / (inner3 v v * inner3 w w - inner3 v w * inner3 v w))).
    { unfold h2, bc, barycentric. fold v w. cbn [vy]. rewrite !dot_inner. replace (inner3 (sub3 origin p0) v) with (- inner3 p0 v) by (rewrite !inner_eq; clearbody v w; cbn; ring).
      replace (inner3 (sub3 origin p0) w) with (- inner3 p0 w) by (rewrite !inner_eq; clearbody v w; cbn; ring). reflexivity. }
    assert (E3 : h3 = (inner3 v v * (- inner3 p0 w) - inner3 v w * (- inner3 p0 v)) * (1 / (inner3 v v * inner3 w w - inner3 v w * inner3 v w))).
    { unfold h3, bc, barycentric. fold v w. cbn [vz]. rewrite !dot_inner. replace (inner3 (sub3 origin p0) v) with (- inner3 p0 v) by (rewrite !inner_eq; clearbody v w; cbn; ring).
      replace (inner3 (sub3 origin p0) w) with (- inner3 p0 w) by (rewrite !inner_eq; clearbody v w; cbn; ring). reflexivity. }
    clearbody v w h h1 h2 h3.
    assert (G : forall z, inner3 h z = inner3 p0 z + h2 * inner3 v z + h3 * inner3 w z) by (intros z; rewrite Hh, !inner_eq; cbn; ring).
    rewrite (G v), (G w), E2, E3, (inner3_sym w v). set (A := inner3 v v) in *. set (B := inner3 v w) in *. set (C := inner3 w w) in *. split; field; lra. }
  destruct Perp as [Pv Pw].
  assert (Dh : forall a b c, a + b + c = 1 -> inner3 (mix p0 p1 p2 a b c) h = inner3 h h).
  { intros a b c E. assert (K1 : inner3 p1 h = inner3 p0 h) by (apply Rminus_diag_uniq; rewrite <- Pv, !inner_eq; clearbody h; cbn; ring).
    assert (K2 : inner3 p2 h = inner3 p0 h) by (apply Rminus_diag_uniq; rewrite <- Pw, !inner_eq; clearbody h; cbn; ring).
    assert (Z : forall a b c, a + b + c = 1 -> inner3 (mix p0 p1 p2 a b c) h = inner3 p0 h) by (intros a' b' c' E'; rewrite inner_mix, K1, K2; transitivity ((a' + b' + c') * inner3 p0 h); [ring|rewrite E'; ring]).
    rewrite Z by assumption. unfold h at 2. rewrite Z by assumption. reflexivity. }
  destruct (Rlt_dec h1 0) as [N1|N1]; [|destruct (Rlt_dec h2 0) as [N2|N2]; [|destruct (Rlt_dec h3 0) as [N3|N3]]].
  4:{ exists h. split; [exists h1, h2, h3; repeat split; try lra; reflexivity|]. intros y (a & b & c & _ & _ & _ & E & ->). rewrite !dist_inner.
      set (y := mix p0 p1 p2 a b c). assert (K := Dh a b c E). fold y in K. assert (C := inner_nonneg (sub3 y h)).
      assert (Q : inner3 (sub3 y h) (sub3 y h) = inner3 y y - 2 * inner3 y h + inner3 h h) by (clearbody y h; rewrite !inner_eq; cbn; ring). lra. }
  all: (destruct (proper_distinct _ _ _ H) as (D01 & D12 & D20);
    destruct (segment_closest_spec p0 p1 origin D01) as (q1 & _ & Q1); destruct (segment_closest_spec p1 p2 origin D12) as (q2 & _ & Q2); destruct (segment_closest_spec p2 p0 origin D20) as (q3 & _ & Q3);
    destruct (nearest_of_three _ _ _ _ _ _ _ Q1 Q2 Q3) as (q & QA & QB); exists q; split; [apply edge_in_triangle, QA|];
    intros x (a & b & c & A & B & C & E & ->); 
    destruct (exit_point a b c h1 h2 h3 A B C ltac:(tauto)) as (t & T & Ya & Yb & Yc & Z);
    set (a' := a + t * (h1 - a)) in *; set (b' := b + t * (h2 - b)) in *; set (c' := c + t * (h3 - c)) in *;
    assert (E' : a' + b' + c' = 1) by (unfold a', b', c'; transitivity ((1 - t) * (a + b + c) + t * (h1 + h2 + h3)); [ring|rewrite E, S; ring]);
    apply Rle_trans with (dist2 (mix p0 p1 p2 a' b' c') origin)).
  all: try (apply QB; destruct Z as [Z|[Z|Z]]; rewrite Z in *; [right; left; exists c'|right; right; exists a'|left; exists b']; (split; [lra|]);
      [replace b' with (1 - c') by lra|replace c' with (1 - a') by lra|replace a' with (1 - b') by lra]; apply v3_eq; cbn; ring).
  all: set (x := mix p0 p1 p2 a b c); rewrite !dist_inner; assert (K := Dh a b c E); fold x in K;
    assert (Y : mix p0 p1 p2 a' b' c' = add3 (scale3 x (1 - t)) (scale3 h t)) by (unfold x, h, a', b', c'; apply v3_eq; cbn [vx vy vz mix add3 scale3]; ring);
    rewrite Y; assert (Q : inner3 (add3 (scale3 x (1 - t)) (scale3 h t)) (add3 (scale3 x (1 - t)) (scale3 h t)) = (1 - t) * (1 - t) * inner3 x x + 2 * t * (1 - t) * inner3 x h + t * t * inner3 h h) by (clearbody x h; rewrite !inner_eq; cbn; ring);
    rewrite Q, K; assert (Cc := inner_nonneg (sub3 x h)); assert (Q' : inner3 (sub3 x h) (sub3 x h) = inner3 x x - 2 * inner3 x h + inner3 h h) by (clearbody x h; rewrite !inner_eq; cbn; ring);
    rewrite K in Q'; set (X := inner3 x x) in *; set (Hh := inner3 h h) in *; assert (0 <= t * (2 - t) * (X - Hh)) by (apply Rmult_le_pos; [apply Rmult_le_pos; lra|lra]); lra.
Qed.

Lemma nearest_slack : forall p0 p1 p2 q, nearest (in_triangle p0 p1 p2) origin q -> forall x, in_triangle p0 p1 p2 x -> inner3 q q <= inner3 x q.
Proof.
  intros p0 p1 p2 q [(a & b & c & A & B & C & S & ->) N] x (a' & b' & c' & A' & B' & C' & S' & ->).
  set (q := mix p0 p1 p2 a b c) in *. set (x := mix p0 p1 p2 a' b' c').
  destruct (Rle_dec (inner3 q q) (inner3 x q)) as [L|L]; [assumption|exfalso].
  assert (G : forall t, 0 <= t <= 1 -> 0 <= 2 * t * (inner3 x q - inner3 q q) + t * t * dist2 x q).
  { intros t T. assert (M := N (mix p0 p1 p2 (a + t * (a' - a)) (b + t * (b' - b)) (c + t * (c' - c)))).
    assert (I : in_triangle p0 p1 p2 (mix p0 p1 p2 (a + t * (a' - a)) (b + t * (b' - b)) (c + t * (c' - c)))).
    { eexists _, _, _. split; [|split; [|split; [|split; [|reflexivity]]]]; [nra|nra|nra|]. transitivity ((1 - t) * (a + b + c) + t * (a' + b' + c')); [ring|rewrite S, S'; ring]. }
    assert (M' := M I). rewrite !dist_inner in M'.
    assert (Y : mix p0 p1 p2 (a + t * (a' - a)) (b + t * (b' - b)) (c + t * (c' - c)) = add3 q (scale3 (sub3 x q) t)) by (unfold x, q; apply v3_eq; cbn [vx vy vz mix add3 scale3 sub3]; ring).
    rewrite Y in M'. clearbody x q. rewrite !inner_eq in *. unfold dist2. cbn in M'. lra. }
  set (k := inner3 x q - inner3 q q) in *. assert (K : k < 0) by (unfold k; lra). set (D := dist2 x q) in *. assert (Dp : 0 <= D) by apply dist2_pos.
  set (t := - k / (D - k)). assert (T : 0 < t <= 1) by (unfold t; split; [apply Rdiv_lt_0_compat; lra|apply div_le; lra]).
  assert (G' := G t ltac:(lra)). assert (Et : t * (D - k) = - k) by (unfold t; field; lra). nra.
Qed.

Lemma pos_factors : forall e y, 0 <= e -> 0 < e * y -> 0 < e /\ 0 < y.
Proof.
  intros e y E H. assert (0 < e) by (destruct E as [E|E]; [assumption|rewrite <- E, Rmult_0_l in H; lra]). split; [assumption|].
  apply Rmult_lt_reg_l with e; [assumption|]. lra.
Qed.
Lemma edge_sep : forall A B C x rr a b c, 0 <= a -> 0 <= b -> 0 <= c -> a + b + c = 1 -> x = mix A B C a b c -> inner3 x x <= rr ->
  let AB := sub3 B A in let e := inner3 AB AB in let Q := sub3 (scale3 A e) (scale3 AB (inner3 A AB)) in
  rr * e * e < inner3 Q Q -> 0 < inner3 Q (sub3 (scale3 C e) Q) -> False.
Proof.
  intros A B C x rr a b c Ha Hb Hc S Hx Hr AB e Q H1 H2.
  assert (QAB : inner3 Q AB = 0) by (transitivity (e * inner3 A AB - inner3 A AB * inner3 AB AB); [unfold Q; clearbody AB; clearbody e; rewrite !inner_eq; cbn; ring|unfold e; ring]).
  set (k := inner3 Q A). assert (QB : inner3 Q B = k) by (apply Rminus_diag_uniq; unfold k; rewrite <- QAB; unfold AB; clearbody Q; rewrite !inner_eq; cbn; ring).
  assert (QQ : inner3 Q Q = e * k).
  { transitivity (inner3 Q (sub3 (scale3 A e) (scale3 AB (inner3 A AB)))); [reflexivity|]. transitivity (e * inner3 Q A - inner3 A AB * inner3 Q AB); [|rewrite QAB; unfold k; ring].
    clearbody Q. set (z := inner3 A AB). clearbody z AB. clearbody e. rewrite !inner_eq. cbn. ring. }
  assert (QC : inner3 Q (sub3 (scale3 C e) Q) = e * (inner3 Q C - k)).
  { transitivity (e * inner3 Q C - inner3 Q Q); [clearbody Q; clearbody e; rewrite !inner_eq; cbn; ring|]. rewrite QQ. ring. }
  rewrite QC in H2. assert (E : 0 <= e) by apply inner_nonneg. destruct (pos_factors _ _ E H2) as [Ep Kc'].
  assert (Rr : 0 <= rr) by (assert (G := inner_nonneg x); lra).
  assert (Kp : 0 < k) by (rewrite QQ in H1; assert (0 <= rr * e * e) by (repeat apply Rmult_le_pos; assumption); assert (Pk : 0 < e * k) by lra; apply (pos_factors _ _ E Pk)).
  assert (QX : k <= inner3 Q x).
  { rewrite Hx, inner3_sym, inner_mix, (inner3_sym A), (inner3_sym B), (inner3_sym C), QB. fold k. replace (a * k + b * k + c * inner3 Q C) with ((a + b + c) * k + c * (inner3 Q C - k)) by ring. rewrite S. assert (0 <= c * (inner3 Q C - k)) by (apply Rmult_le_pos; lra). lra. }
  assert (CS := cauchy Q x). rewrite QQ in CS, H1. assert (k * k <= e * k * rr) by (apply Rle_trans with (inner3 Q x * inner3 Q x); [apply Rmult_le_compat; lra|]; apply Rle_trans with (e * k * inner3 x x); [assumption|]; apply Rmult_le_compat_l; [apply Rmult_le_pos; lra|assumption]).
  assert (K1 : k <= e * rr) by (apply Rmult_le_reg_l with k; [assumption|lra]). assert (K2 := Rmult_le_compat_l _ _ _ E K1). lra.
Qed.

Lemma vertex_sep : forall A B C x rr a b c, 0 <= a -> 0 <= b -> 0 <= c -> a + b + c = 1 -> x = mix A B C a b c -> inner3 x x <= rr ->
  rr < inner3 A A -> inner3 A A < inner3 A B -> inner3 A A < inner3 A C -> False.
Proof.
  intros A B C x rr a b c Ha Hb Hc S Hx Hr H1 H2 H3.
  assert (Rr : 0 <= rr) by (assert (G := inner_nonneg x); lra).
  assert (K : inner3 A A <= inner3 A x).
  { rewrite (inner3_sym A x), Hx, inner_mix, (inner3_sym B A), (inner3_sym C A). replace a with (1 - b - c) by lra. assert (0 <= b * (inner3 A B - inner3 A A)) by (apply Rmult_le_pos; lra). assert (0 <= c * (inner3 A C - inner3 A A)) by (apply Rmult_le_pos; lra). lra. }
  assert (CS := cauchy A x). set (aa := inner3 A A) in *. set (y := inner3 A x) in *. set (xx := inner3 x x) in *. assert (0 <= xx) by apply inner_nonneg. clearbody aa y xx.
  assert (aa * aa <= y * y) by (apply Rmult_le_compat; lra). assert (K1 : aa <= xx) by (apply Rmult_le_reg_l with aa; lra). lra.
Qed.

Lemma perp_plane : forall AB AC q, cross AB AC <> origin -> inner3 q AB = 0 -> inner3 q AC = 0 -> exists k, q = scale3 (cross AB AC) k.
Proof.
  intros AB AC q N H1 H2. destruct (cross_zero (cross AB AC) q) as [Z|K]; [|contradiction|assumption].
  rewrite inner_eq in H1, H2. 
  apply v3_eq; cbn;
  [transitivity (vx AC * (vx q * vx AB + vy q * vy AB + vz q * vz AB) - vx AB * (vx q * vx AC + vy q * vy AC + vz q * vz AC))
  |transitivity (vy AC * (vx q * vx AB + vy q * vy AB + vz q * vz AB) - vy AB * (vx q * vx AC + vy q * vy AC + vz q * vz AC))
  |transitivity (vz AC * (vx q * vx AB + vy q * vy AB + vz q * vz AB) - vz AB * (vx q * vx AC + vy q * vy AC + vz q * vz AC))]; try ring; rewrite H1, H2; ring.
Qed.

(** If the nearest point is on the edge from [A] to [B], the test for that edge separates. *)
Lemma edge_found : forall A B C q rr a b, A <> B -> a + b = 1 -> q = mix A B C a b 0 -> inner3 A q = inner3 q q -> inner3 B q = inner3 q q -> inner3 q q < inner3 C q -> rr < inner3 q q ->
  let AB := sub3 B A in let e := inner3 AB AB in let Q := sub3 (scale3 A e) (scale3 AB (inner3 A AB)) in
  rr * e * e < inner3 Q Q /\ 0 < inner3 Q (sub3 (scale3 C e) Q).
Proof.
  intros A B C q rr a b N S Hq HA HB HC Hr AB e Q.
  assert (QAB : inner3 q AB = 0) by (transitivity (inner3 B q - inner3 A q); [unfold AB; clear; rewrite !inner_eq; cbn; ring|rewrite HA, HB; ring]).
  assert (Q0 : q = add3 A (scale3 AB b)) by (rewrite Hq; replace a with (1 - b) by lra; unfold AB; apply v3_eq; cbn; ring).
  assert (D : inner3 A AB = - b * e) by (apply Rminus_diag_uniq; rewrite <- QAB; rewrite Q0; unfold e; clearbody AB; rewrite !inner_eq; cbn; ring).
  assert (QQ : Q = scale3 q e) by (unfold Q; rewrite D, Q0; clearbody AB; clearbody e; apply v3_eq; cbn; ring).
  assert (Ep : 0 < e) by (apply inner_pos; intro Z; apply N; unfold AB, sub3 in Z; injection Z as Z1 Z2 Z3; apply v3_eq; lra).
  rewrite QQ. clearbody e.
  assert (I1 : inner3 (scale3 q e) (scale3 q e) = e * e * inner3 q q) by (clear; rewrite !inner_eq; cbn; ring).
  assert (I2 : inner3 (scale3 q e) (sub3 (scale3 C e) (scale3 q e)) = e * e * (inner3 C q - inner3 q q)) by (clear; rewrite !inner_eq; cbn; ring).
  rewrite I1, I2. split; [|apply Rmult_lt_0_compat; nra]. replace (rr * e * e) with (e * e * rr) by ring. apply Rmult_lt_compat_l; nra.
Qed.

Section SPHERE_TRI.
  Variables (A B C : v3) (rr : R).
  Let V := cross (sub3 B A) (sub3 C A).
  Lemma plane_sep : forall x, in_triangle A B C x -> inner3 x x <= rr -> rr * inner3 V V < inner3 A V * inner3 A V -> False.
  Proof.
    intros x (a & b & c & _ & _ & _ & S & ->) H K. set (x := mix A B C a b c) in *.
    assert (E : inner3 x V = inner3 A V) by (unfold x, V; replace a with (1 - b - c) by lra; rewrite !inner_eq; cbn; ring).
    rewrite <- E in K. assert (CS := cauchy x V). assert (G := inner_nonneg V). nra.
  Qed.
  Lemma plane_found : forall q, V <> origin -> inner3 A q = inner3 q q -> inner3 B q = inner3 q q -> inner3 C q = inner3 q q -> 0 <= rr -> rr < inner3 q q -> rr * inner3 V V < inner3 A V * inner3 A V.
  Proof.
    intros q N HA HB HC Rr H.
    destruct (perp_plane (sub3 B A) (sub3 C A) q N) as (k & K).
    - transitivity (inner3 B q - inner3 A q); [clear; rewrite !inner_eq; cbn; ring|rewrite HA, HB; ring].
    - transitivity (inner3 C q - inner3 A q); [clear; rewrite !inner_eq; cbn; ring|rewrite HA, HC; ring].
    - fold V in K. assert (P := inner_pos V N). clearbody V. 
      assert (E1 : inner3 A q = k * inner3 A V) by (rewrite K, !inner_eq; cbn; ring). assert (E2 : inner3 q q = k * k * inner3 V V) by (rewrite K, !inner_eq; cbn; ring).
      assert (k <> 0) by (intro Z; rewrite Z, !Rmult_0_l in E2; lra).
      assert (E3 : inner3 A V = k * inner3 V V) by (apply Rmult_eq_reg_l with k; [|assumption]; rewrite <- E1, HA, E2; ring).
      rewrite E3. rewrite E2 in H. replace (k * inner3 V V * (k * inner3 V V)) with (k * k * inner3 V V * inner3 V V) by ring. apply Rmult_lt_compat_r; assumption.
  Qed.
End SPHERE_TRI.

Lemma sphere_tri_spec : forall s q0 q1 q2, proper_triangle q0 q1 q2 -> sphere_tri s q0 q1 q2 = true <-> meet (in_triangle q0 q1 q2) (in_ball s).
Proof.
  intros [ct r] q0 q1 q2 P. set (A := sub3 q0 ct). set (B := sub3 q1 ct). set (C := sub3 q2 ct). set (rr := r * r).
  assert (PA : proper_triangle A B C).
  { apply proper_cross. apply proper_cross in P. intro E. apply P. rewrite <- E. unfold A, B, C. apply v3_eq; cbn; ring. }
  assert (M : meet (in_triangle q0 q1 q2) (in_ball (Sphere ct r)) <-> exists x, in_triangle A B C x /\ inner3 x x <= rr).
  { assert (T : forall a b c, a + b + c = 1 -> sub3 (mix q0 q1 q2 a b c) ct = mix A B C a b c) by (intros a b c S; unfold A, B, C; replace a with (1 - b - c) by lra; apply v3_eq; cbn; ring).
    split.
    - intros (x & (a & b & c & Ha & Hb & Hc & S & ->) & I). exists (mix A B C a b c). split; [exists a, b, c; auto 6|]. rewrite <- T by assumption. unfold in_ball, dist2 in I. cbn [scenter radius] in I. rewrite inner_eq. exact I.
    - intros (x & (a & b & c & Ha & Hb & Hc & S & ->) & I). exists (mix q0 q1 q2 a b c). split; [exists a, b, c; auto 6|]. rewrite <- T in I by assumption. unfold in_ball, dist2. cbn [scenter radius]. rewrite inner_eq in I. exact I. }
  rewrite M. clear M. unfold sphere_tri. cbn [scenter radius]. fold A B C. fold rr. clearbody A B C. rewrite !dot_inner.
  assert (Rr : 0 <= rr) by apply sqr_pos. clearbody rr. clear P q0 q1 q2 ct r.
  assert (D1 : inner3 A B - inner3 A A = inner3 A (sub3 B A)) by (rewrite !inner_eq; cbn; ring).
  assert (D2 : inner3 B C - inner3 B B = inner3 B (sub3 C B)) by (rewrite !inner_eq; cbn; ring).
  assert (D3 : inner3 A C - inner3 C C = inner3 C (sub3 A C)) by (rewrite !inner_eq; cbn; ring).
  rewrite D1, D2, D3.
  destruct (ltb _ _) eqn:T1.
  - split; [discriminate|]. intros (x & I & L). exfalso. apply ltb_true in T1. exact (plane_sep A B C rr x I L T1).
  - match goal with |- context [if ?X || ?Y || ?Z then false else if ?U || ?V || ?W then false else true] =>
      destruct X eqn:X1; [|destruct Y eqn:Y1; [|destruct Z eqn:Z1; [|destruct U eqn:U1; [|destruct V eqn:V1; [|destruct W eqn:W1]]]]] end; cbn [orb].
    1-6: split; [discriminate|]; intros (x & (a & b & c & Ha & Hb & Hc & S & E) & L); exfalso.
    + booleans. apply (vertex_sep A B C x rr a b c); assumption.
    + booleans. apply (vertex_sep B C A x rr b c a); try assumption; try lra; [rewrite E; apply v3_eq; cbn; ring|rewrite (inner3_sym B A); assumption].
    + booleans. apply (vertex_sep C A B x rr c a b); try assumption; try lra; [rewrite E; apply v3_eq; cbn; ring|rewrite (inner3_sym C A); assumption|rewrite (inner3_sym C B); assumption].
    + booleans. apply (edge_sep A B C x rr a b c); assumption.
    + booleans. apply (edge_sep B C A x rr b c a); try assumption; try lra. rewrite E; apply v3_eq; cbn; ring.
    + booleans. apply (edge_sep C A B x rr c a b); try assumption; try lra. rewrite E; apply v3_eq; cbn; ring.
    + split; [intros _|reflexivity]. destruct (triangle_nearest A B C PA) as (q & N). assert (Sl := nearest_slack A B C q N).
      destruct (Rle_dec (inner3 q q) rr) as [L|L]; [exists q; split; [apply N|assumption]|exfalso]. assert (Hr : rr < inner3 q q) by lra. clear L.
      destruct (tri_ends A B C) as (EA & EB & EC). assert (SA := Sl A EA). assert (SB := Sl B EB). assert (SC := Sl C EC).
      destruct N as [(a & b & c & Ha & Hb & Hc & S & E) _].
      assert (Sum : a * (inner3 A q - inner3 q q) + b * (inner3 B q - inner3 q q) + c * (inner3 C q - inner3 q q) = 0).
      { assert (G := inner_mix A B C a b c q). rewrite <- E in G. transitivity (inner3 q q - (a + b + c) * inner3 q q); [rewrite G at 4; ring|rewrite S; ring]. }
      assert (Ka : 0 <= a * (inner3 A q - inner3 q q)) by (apply Rmult_le_pos; lra). assert (Kb : 0 <= b * (inner3 B q - inner3 q q)) by (apply Rmult_le_pos; lra). assert (Kc : 0 <= c * (inner3 C q - inner3 q q)) by (apply Rmult_le_pos; lra).
      assert (Za : inner3 A q = inner3 q q \/ (inner3 q q < inner3 A q /\ a = 0)) by (assert (Z : a * (inner3 A q - inner3 q q) = 0) by lra; apply Rmult_integral in Z; destruct Z; [destruct (Req_EM_T (inner3 A q) (inner3 q q)); [left; assumption|right; lra]|left; lra]).
      assert (Zb : inner3 B q = inner3 q q \/ (inner3 q q < inner3 B q /\ b = 0)) by (assert (Z : b * (inner3 B q - inner3 q q) = 0) by lra; apply Rmult_integral in Z; destruct Z; [destruct (Req_EM_T (inner3 B q) (inner3 q q)); [left; assumption|right; lra]|left; lra]).
      assert (Zc : inner3 C q = inner3 q q \/ (inner3 q q < inner3 C q /\ c = 0)) by (assert (Z : c * (inner3 C q - inner3 q q) = 0) by lra; apply Rmult_integral in Z; destruct Z; [destruct (Req_EM_T (inner3 C q) (inner3 q q)); [left; assumption|right; lra]|left; lra]).
      destruct (proper_distinct A B C PA) as (N1 & N2 & N3).
      destruct Za as [Za|[Za Ea]]; destruct Zb as [Zb|[Zb Eb]]; destruct Zc as [Zc|[Zc Ec]]; try subst a; try subst b; try subst c.
      * apply proper_cross in PA. assert (G := plane_found A B C rr q PA Za Zb Zc Rr Hr). apply ltb_false in T1. lra.
      * destruct (edge_found A B C q rr a b N1 ltac:(lra) E Za Zb Zc Hr) as [G1 G2]. cbv zeta in G1, G2. apply andb_false_iff in U1. destruct U1 as [U1|U1]; apply ltb_false in U1; lra.
      * assert (E' : q = mix C A B c a 0) by (rewrite E; apply v3_eq; cbn; ring).
        destruct (edge_found C A B q rr c a N3 ltac:(lra) E' Zc Za Zb Hr) as [G1 G2]. cbv zeta in G1, G2. apply andb_false_iff in W1. destruct W1 as [W1|W1]; apply ltb_false in W1; lra.
      * assert (E' : q = A) by (rewrite E; replace a with 1 by lra; apply v3_eq; cbn; ring). clear E. subst q. rewrite (inner3_sym B A) in Zb. rewrite (inner3_sym C A) in Zc.
        apply andb_false_iff in X1. destruct X1 as [X1|X1]; [apply andb_false_iff in X1; destruct X1 as [X1|X1]|]; apply ltb_false in X1; lra.
      * assert (E' : q = mix B C A b c 0) by (rewrite E; apply v3_eq; cbn; ring).
        destruct (edge_found B C A q rr b c N2 ltac:(lra) E' Zb Zc Za Hr) as [G1 G2]. cbv zeta in G1, G2. apply andb_false_iff in V1. destruct V1 as [V1|V1]; apply ltb_false in V1; lra.
      * assert (E' : q = B) by (rewrite E; replace b with 1 by lra; apply v3_eq; cbn; ring). clear E. subst q. rewrite (inner3_sym C B) in Zc.
        apply andb_false_iff in Y1. destruct Y1 as [Y1|Y1]; [apply andb_false_iff in Y1; destruct Y1 as [Y1|Y1]|]; apply ltb_false in Y1; lra.
      * assert (E' : q = C) by (rewrite E; replace c with 1 by lra; apply v3_eq; cbn; ring). clear E. subst q.
        apply andb_false_iff in Z1. destruct Z1 as [Z1|Z1]; [apply andb_false_iff in Z1; destruct Z1 as [Z1|Z1]|]; apply ltb_false in Z1; lra.
      * lra.
Qed.
