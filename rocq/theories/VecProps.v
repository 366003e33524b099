(** C56, C78, C79: dot and cross products, lengths, normalisation. *)
From Coq Require Import Reals List Lra Psatz.
From Verif Require Import Words MatModel MatSpec VecModel VecSpec VecProofs.
Import ListNotations.
Local Open Scope R_scope.

Lemma v3_eq a b : vx a = vx b -> vy a = vy b -> vz a = vz b -> a = b.
Proof. destruct a, b. cbn. intros -> -> ->. reflexivity. Qed.

(* ------------------------------------------------------------------ C56 *)
(** The dot product is the inner product, in every dimension; in three the written-out one is the same. *)
Theorem C56_dot : forall n v w, (1 <= n)%nat -> List.length v = n -> List.length w = n -> dot n v w = inner v w.
Proof. exact dot_inner. Qed.
Print Assumptions C56_dot.
Theorem C56_dot3 : forall v w, dot3 v w = dot 3 (l3 v) (l3 w) /\ dot3 v w = inner3 v w /\ length_squared3 v = inner3 v v.
Proof. intros v w. unfold dot3, length_squared3, inner3, l3. cbn. repeat split; ring. Qed.
Print Assumptions C56_dot3.

Theorem C56_cross_perpendicular : forall a b, perpendicular (cross a b) a /\ perpendicular (cross a b) b.
Proof. intros a b. unfold perpendicular, inner3. cbn. split; ring. Qed.
Print Assumptions C56_cross_perpendicular.
Theorem C56_cross_anticommutes : forall a b, cross a b = neg3 (cross b a).
Proof. intros a b. apply v3_eq; cbn; ring. Qed.
Print Assumptions C56_cross_anticommutes.
(** Lagrange: |a x b|^2 = |a|^2 |b|^2 - (a.b)^2 *)
Theorem C56_lagrange : forall a b, inner3 (cross a b) (cross a b) = inner3 a a * inner3 b b - inner3 a b * inner3 a b.
Proof. intros a b. unfold inner3. cbn. ring. Qed.
Print Assumptions C56_lagrange.
(** Orientation: a . (b x c) is the determinant with rows a, b, c. *)
Definition R_ops : ops R := {| zero := 0; one := 1; add := Rplus; mul := Rmult; sub := Rminus; neg := Ropp; div := Rdiv |}.
Theorem C56_triple_product : forall a b c, inner3 a (cross b c) = leibniz R_ops 3 (fun r k => nth k (nth r [l3 a; l3 b; l3 c] []) 0).
Proof. intros a b c. unfold inner3, leibniz. cbn. ring. Qed.
Print Assumptions C56_triple_product.
Theorem C56_cross_bilinear : forall a b c s t, cross (add3 (scale3 a s) (scale3 b t)) c = add3 (scale3 (cross a c) s) (scale3 (cross b c) t).
Proof. intros. apply v3_eq; cbn; ring. Qed.
Print Assumptions C56_cross_bilinear.
Theorem C56_jacobi_and_expansion : forall a b c,
  cross a (cross b c) = sub3 (scale3 b (inner3 a c)) (scale3 c (inner3 a b)) /\
  add3 (cross a (cross b c)) (add3 (cross b (cross c a)) (cross c (cross a b))) = origin.
Proof. intros a b c. split; apply v3_eq; unfold inner3; cbn; ring. Qed.
Print Assumptions C56_jacobi_and_expansion.
(** The cross product vanishes exactly for parallel vectors. *)
Theorem C56_cross_zero : forall a b, cross a b = origin <-> parallel a b.
Proof.
  intros [ax ay az] [bx by_ bz]. unfold parallel, cross, origin. cbn [vx vy vz]. split.
  - intros H. injection H as H1 H2 H3.
    destruct (Req_dec ax 0) as [E1|E1]; [|exists bx, ax; repeat split; [right; exact E1|lra..]].
    destruct (Req_dec ay 0) as [E2|E2]; [|exists by_, ay; repeat split; [right; exact E2|lra..]].
    destruct (Req_dec az 0) as [E3|E3]; [|exists bz, az; repeat split; [right; exact E3|lra..]].
    exists 1, 0. repeat split; [left; lra|rewrite E1; ring|rewrite E2; ring|rewrite E3; ring].
  - intros (s & t & N & H1 & H2 & H3). assert (K : forall x, s * x = 0 -> t * x = 0 -> x = 0) by (intros x X1 X2; apply Rmult_integral in X1, X2; tauto).
    assert (G : forall x y x' y', s * x = t * x' -> s * y = t * y' -> x * y' - y * x' = 0).
    { intros x y x' y' E F. apply K.
      - replace (s * (x * y' - y * x')) with ((s * x) * y' - (s * y) * x') by ring. rewrite E, F. ring.
      - replace (t * (x * y' - y * x')) with (x * (t * y') - y * (t * x')) by ring. rewrite <- E, <- F. ring. }
    apply v3_eq; cbn [vx vy vz]; apply G; assumption.
Qed.
Print Assumptions C56_cross_zero.
(** The overloads for a principal axis are the general ones at the unit vector. *)
Theorem C56_axes : forall v a, cross_axis v a = cross v (unit_of a) /\ axis_cross a v = cross (unit_of a) v /\ dot_axis3 v a = inner3 v (unit_of a).
Proof. intros v a. unfold inner3. destruct a; repeat split; try (apply v3_eq; cbn; ring); cbn; ring. Qed.
Print Assumptions C56_axes.
Theorem C56_dot_axis : forall n v d, (d < n)%nat -> List.length v = n -> dot_axis v d = inner v (map (fun i => if Nat.eqb i d then 1 else 0) (seq 0 n)).
Proof.
  intros n v d H L. subst n. unfold dot_axis, at_.
  assert (G : forall (u : list R) k e, (k <= e < k + List.length u)%nat -> nth (e - k) u 0 = inner u (map (fun i => if Nat.eqb i e then 1 else 0) (seq k (List.length u)))).
  { intros u. induction u as [|x u IH]; intros k e He; cbn [List.length] in *; [lia|]. cbn [seq map inner]. destruct (Nat.eqb_spec k e) as [->|N].
    - rewrite Nat.sub_diag. cbn [nth]. assert (Z : inner u (map (fun i => if Nat.eqb i e then 1 else 0) (seq (S e) (List.length u))) = 0).
      { clear. assert (Q : forall k, (e < k)%nat -> inner u (map (fun i => if Nat.eqb i e then 1 else 0) (seq k (List.length u))) = 0); [|apply Q; lia].
        induction u as [|y u IHu]; intros k Hk; cbn; [reflexivity|]. rewrite IHu by lia. destruct (Nat.eqb_spec k e); [lia|]. ring. }
      rewrite Z. ring.
    - replace (e - k)%nat with (S (e - S k)) by lia. cbn [nth]. rewrite (IH (S k) e) by lia. ring. }
  rewrite <- (G v 0%nat d) by lia. rewrite Nat.sub_0_r. reflexivity.
Qed.
Print Assumptions C56_dot_axis.
(** [orthogonal] is perpendicular to its argument and never vanishes for another vector than zero: it keeps at least two
    thirds of the squared length. *)
Theorem C56_orthogonal : forall v, perpendicular (orthogonal v) v /\ 2 * inner3 v v <= 3 * inner3 (orthogonal v) (orthogonal v) /\
  (v <> origin -> orthogonal v <> origin).
Proof.
  intros v. split; [apply C56_cross_perpendicular|].
  assert (Q : 2 * inner3 v v <= 3 * inner3 (orthogonal v) (orthogonal v)).
  { assert (A : forall a b, Rabs a <= Rabs b -> a * a <= b * b) by (intros a b H; apply Rsqr_le_abs_1; exact H).
    unfold orthogonal, inner3. destruct (Rlt_dec (Rabs (vx v)) (Rabs (vy v))) as [H1|H1]; [destruct (Rlt_dec (Rabs (vx v)) (Rabs (vz v))) as [H2|H2]|destruct (Rlt_dec (Rabs (vy v)) (Rabs (vz v))) as [H2|H2]]; cbn.
    - pose proof (A (vx v) (vy v) ltac:(lra)). pose proof (A (vx v) (vz v) ltac:(lra)). lra.
    - pose proof (A (vz v) (vx v) ltac:(lra)). pose proof (A (vz v) (vy v) ltac:(lra)). lra.
    - pose proof (A (vy v) (vx v) ltac:(lra)). pose proof (A (vy v) (vz v) ltac:(lra)). lra.
    - pose proof (A (vz v) (vx v) ltac:(lra)). pose proof (A (vz v) (vy v) ltac:(lra)). lra. }
  split; [exact Q|]. intros N E. apply N. rewrite E in Q. destruct v as [x y z]. unfold inner3, origin in Q |- *. cbn in Q.
  assert (X : x = 0) by nra. assert (Y : y = 0) by nra. assert (Z : z = 0) by nra. rewrite X, Y, Z. reflexivity.
Qed.
Print Assumptions C56_orthogonal.

(* ------------------------------------------------------------------ C78 *)
(** From two dimensions on, [length] is the Euclidean norm: it is never negative, zero only for the zero vector, and
    [distance] is a metric (also in one dimension). *)
Theorem C78_length_partial : forall n v s, (2 <= n)%nat -> List.length v = n ->
  length n v = norm v /\ 0 <= length n v /\ (length n v = 0 <-> null v) /\ length n (scale n v s) = Rabs s * length n v /\ length n v * length n v = length_squared n v.
Proof.
  intros n v s H L. rewrite (scale_times n v s L), !(length_norm n) by (try rewrite times_length; assumption).
  rewrite length_squared_inner by (try lia; assumption). split; [reflexivity|]. split; [apply norm_nonneg|]. split; [apply norm_zero|]. split; [apply norm_times|apply norm_sqr].
Qed.
Print Assumptions C78_length_partial.
Theorem C78_distance_is_a_metric : forall n p q r, (1 <= n)%nat -> List.length p = n -> List.length q = n -> List.length r = n ->
  distance n p q = norm (diff q p) /\ 0 <= distance n p q /\ distance n p q = distance n q p /\ (distance n p q = 0 <-> p = q) /\
  distance n p r <= distance n p q + distance n q r /\ distance n p q * distance n p q = distance_squared n p q.
Proof.
  intros n p q r H Lp Lq Lr. rewrite !distance_norm by assumption. repeat split.
  - apply norm_nonneg.
  - rewrite diff_swap by congruence. rewrite norm_times. rewrite Rabs_left by lra. ring.
  - intros E. apply norm_zero in E. apply diff_null in E; congruence.
  - intros <-. apply norm_zero. apply diff_null; reflexivity.
  - rewrite (diff_chain p q r) by congruence. apply norm_triangle. rewrite !diff_length; congruence.
  - rewrite norm_sqr. unfold distance_squared. rewrite (length_squared_inner n) by (try apply construct_map; exact H). rewrite minus_diff by assumption. reflexivity.
Qed.
Print Assumptions C78_distance_is_a_metric.
(** Points and displacements: adding the difference leads from one point to the other, over the length of what was added. *)
Theorem C78_displacement : forall n p q v s, (2 <= n)%nat -> List.length p = n -> List.length q = n -> List.length v = n ->
  plus n p (minus n q p) = q /\ minus n (plus n p v) p = v /\ plus n p v = plus n v p /\
  scale n (plus n p v) s = plus n (scale n p s) (scale n v s) /\
  distance n p (plus n p v) = length n v /\ length n (plus n p v) <= length n p + length n v.
Proof.
  intros n p q v s H Lp Lq Lv. assert (LS : List.length (sum2 p v) = n) by (rewrite sum2_length; congruence).
  assert (A : minus n (plus n p v) p = v).
  { rewrite plus_sum2, minus_diff by assumption. apply vec_eq; [rewrite diff_length; congruence|]. intros i.
    rewrite diff_nth, sum2_nth by congruence. ring. }
  split; [|split; [exact A|split; [|split; [|split]]]].
  - rewrite minus_diff by assumption. assert (LD : List.length (diff q p) = n) by (rewrite diff_length; congruence).
    rewrite plus_sum2 by assumption. apply vec_eq; [rewrite sum2_length; congruence|]. intros i.
    rewrite sum2_nth, diff_nth by congruence. ring.
  - rewrite !plus_sum2 by assumption. apply vec_eq; [rewrite !sum2_length; congruence|]. intros i. rewrite !sum2_nth by congruence. ring.
  - rewrite (plus_sum2 n p v), !scale_times by assumption. rewrite plus_sum2 by (rewrite times_length; assumption).
    apply vec_eq; [rewrite sum2_length; rewrite !times_length; congruence|]. intros i.
    rewrite sum2_nth by (rewrite !times_length; congruence). rewrite !times_nth, sum2_nth by congruence. ring.
  - unfold distance, distance_squared. rewrite A. unfold length. destruct n as [|[|n]]; [lia|lia|reflexivity].
  - rewrite plus_sum2 by assumption. rewrite !length_norm by assumption. apply norm_triangle. congruence.
Qed.
Print Assumptions C78_displacement.
Theorem C78_cauchy_schwarz : forall n v w, (2 <= n)%nat -> List.length v = n -> List.length w = n -> Rabs (dot n v w) <= length n v * length n w.
Proof. intros n v w H Lv Lw. rewrite dot_inner by (try lia; assumption). rewrite !length_norm by assumption. apply cauchy_norm. Qed.
Print Assumptions C78_cauchy_schwarz.
(** Normalising a vector that is not zero gives the vector of length one in the same direction. *)
Theorem C78_normalize_partial : forall n v, (2 <= n)%nat -> List.length v = n -> ~ null v ->
  norm (fst (normalize n v)) = 1 /\ snd (normalize n v) = norm v /\ times (norm v) (fst (normalize n v)) = v /\
  normalize_lensq n v (length_squared n v) = fst (normalize n v).
Proof.
  intros n v H L N. assert (P : norm v <> 0) by (intros E; apply N, norm_zero, E). assert (P' : 0 < norm v) by (pose proof (norm_nonneg v); lra).
  assert (E : normalize n v = (times (1 / norm v) v, norm v)).
  { destruct n as [|[|n]]; [lia|lia|]. cbn zeta beta iota delta [normalize]. rewrite length_norm, scale_times by assumption. reflexivity. }
  rewrite E. cbn [fst snd]. split; [|split; [reflexivity|split]].
  - rewrite norm_times. rewrite Rabs_pos_eq; [field; exact P|]. apply Rlt_le, Rdiv_lt_0_compat; lra.
  - apply vec_eq; [rewrite !times_length; reflexivity|]. intros i. rewrite !times_nth. field. exact P.
  - unfold normalize_lensq. rewrite length_squared_inner by (try lia; assumption). rewrite scale_times by assumption. reflexivity.
Qed.
Print Assumptions C78_normalize_partial.
Theorem C78_direction : forall n p q, n = 2%nat \/ n = 3%nat -> List.length p = n -> List.length q = n -> p <> q ->
  norm (fst (direction n p q)) = 1 /\ snd (direction n p q) = distance n p q /\ sum2 p (times (distance n p q) (fst (direction n p q))) = q.
Proof.
  intros n p q Hn Lp Lq N. unfold direction. rewrite minus_diff by assumption. assert (LD : List.length (diff q p) = n) by (rewrite diff_length; congruence).
  destruct (C78_normalize_partial n (diff q p)) as (A & B & C & _); [lia|exact LD|intros K; apply N, diff_null; [congruence|exact K]|].
  rewrite distance_norm by (try lia; assumption). split; [exact A|]. split; [exact B|]. rewrite C. apply vec_eq; [rewrite sum2_length; congruence|].
  intros i. rewrite sum2_nth by congruence. rewrite diff_nth by congruence. ring.
Qed.
Print Assumptions C78_direction.
(** The angle lies between 0 and pi, and its cosine is that of the vectors. *)
Theorem C78_angle : forall n v w, n = 2%nat \/ n = 3%nat -> List.length v = n -> List.length w = n ->
  0 <= angle n v w <= PI /\ norm v * norm w * cos (angle n v w) = inner v w.
Proof.
  intros n v w Hn Lv Lw. unfold angle. rewrite !length_norm by (try lia; assumption). rewrite dot_inner by (try lia; assumption).
  pose proof (cauchy_norm v w) as C. destruct (Req_EM_T (norm v * norm w) 0) as [E|E].
  - pose proof PI_RGT_0. split; [lra|]. rewrite E in C. rewrite E, Rmult_0_l. pose proof (Rabs_pos (inner v w)). assert (Z : Rabs (inner v w) = 0) by lra.
    destruct (Req_dec (inner v w) 0) as [K|K]; [congruence|]. apply Rabs_no_R0 in K. contradiction.
  - assert (P : 0 < norm v * norm w) by (pose proof (norm_nonneg v); pose proof (norm_nonneg w); assert (0 <= norm v * norm w) by (apply Rmult_le_pos; assumption); lra).
    assert (B : -1 <= inner v w / (norm v * norm w) <= 1).
    { pose proof (Rle_abs (inner v w)) as A1. pose proof (Rle_abs (- inner v w)) as A2. rewrite Rabs_Ropp in A2.
      split; [apply Rmult_le_reg_r with (norm v * norm w)|apply Rmult_le_reg_r with (norm v * norm w)]; try exact P; unfold Rdiv; rewrite Rmult_assoc, Rinv_l by exact E; lra. }
    assert (K : clampR (inner v w / (norm v * norm w)) (-1) 1 = inner v w / (norm v * norm w)).
    { unfold clampR. destruct (Rlt_dec _ (-1)); [lra|]. destruct (Rlt_dec 1 _); lra. }
    rewrite K. split; [apply acos_bound|]. rewrite cos_acos by exact B. field. split; intros Z; rewrite Z in P; lra.
Qed.
Print Assumptions C78_angle.
(** Interpolation: the ends, and the distances along the way. *)
Theorem C78_lerp : forall n p q t, (1 <= n)%nat -> List.length p = n -> List.length q = n ->
  lerp n p q 0 = p /\ lerp n p q 1 = q /\ distance n p (lerp n p q t) = Rabs t * distance n p q /\ distance n q (lerp n p q t) = Rabs (1 - t) * distance n p q.
Proof.
  intros n p q t H Lp Lq. assert (LL : forall s, List.length (lerp n p q s) = n) by (intros; apply construct_map).
  assert (G : forall s, lerp n p q s = sum2 (times (1 - s) p) (times s q)).
  { intros s. apply construct_nth; [rewrite sum2_length; rewrite !times_length; congruence|]. intros i _. rewrite sum2_nth by (rewrite !times_length; congruence). rewrite !times_nth. ring. }
  split; [rewrite G; apply vec_eq; [rewrite sum2_length; rewrite !times_length; congruence|]; intros i; rewrite sum2_nth by (rewrite !times_length; congruence); rewrite !times_nth; ring|].
  split; [rewrite G; apply vec_eq; [rewrite sum2_length; rewrite !times_length; congruence|]; intros i; rewrite sum2_nth by (rewrite !times_length; congruence); rewrite !times_nth; ring|].
  rewrite !distance_norm by (try apply LL; assumption). rewrite (Rabs_minus_sym 1 t), <- !norm_times.
  assert (D : List.length (sum2 (times (1 - t) p) (times t q)) = n) by (rewrite sum2_length; rewrite !times_length; congruence).
  split; f_equal; apply vec_eq; try (rewrite times_length, !diff_length; rewrite ?LL; congruence); intros i; rewrite times_nth, !diff_nth by (rewrite ?LL; congruence);
    rewrite G, sum2_nth by (rewrite !times_length; congruence); rewrite !times_nth.
  - ring.
  - ring.
Qed.
Print Assumptions C78_lerp.
(** In one dimension the length may be negative, and every vector is normalised to one, whatever its direction. *)
Theorem C78_one_dimension_refuted : (exists v, List.length v = 1%nat /\ length 1 v < 0) /\
  (exists v, List.length v = 1%nat /\ ~ null v /\ times (norm v) (fst (normalize 1 v)) <> v) /\
  (forall x, length 1 [x] = x /\ fst (normalize 1 [x]) = [1]).
Proof.
  split; [exists [-1]; split; [reflexivity|cbn; lra]|]. split; [|intros x; split; reflexivity].
  exists [-1]. split; [reflexivity|]. split; [intros H; pose proof (H (-1) (or_introl eq_refl)); lra|]. cbn. intros E. injection E as E.
  pose proof (norm_nonneg [-1]). lra.
Qed.
Print Assumptions C78_one_dimension_refuted.

(* ------------------------------------------------------------------ C79 *)
(** For integers, [normalized] is false for every vector of two or more dimensions, also for those of length one. *)
Theorem C79_normalized_int_refuted : forall v, (2 <= List.length v)%nat -> normalized_int v = false.
Proof. intros [|x [|y v]] H; cbn in H; [lia|lia|]. reflexivity. Qed.
Print Assumptions C79_normalized_int_refuted.
(** In one dimension, only for 1, not for -1. *)
Theorem C79_normalized_int_one_dimension_partial : forall x, normalized_int [x] = true <-> x = 1%Z.
Proof. intros x. cbn. apply Z.eqb_eq. Qed.
Print Assumptions C79_normalized_int_one_dimension_partial.

(* ------------------------------------------------------------------ witnesses *)
Example C56_witness : cross (V3 1 2 3) (V3 4 5 6) = V3 (-3) 6 (-3) /\ orthogonal (V3 1 0 2) <> origin.
Proof. split; [apply v3_eq; cbn; ring|]. apply C56_orthogonal. intros E. injection E as E. lra. Qed.
Example C78_witness : ~ null [3; 0; 4] /\ norm [3; 0; 4] = 5 /\ distance 3 [0; 0; 0] [3; 0; 4] = 5.
Proof.
  assert (E : norm [3; 0; 4] = 5) by (unfold norm; cbn; replace (3 * 3 + (0 * 0 + (4 * 4 + 0))) with (5 * 5) by ring; apply sqrt_square; lra).
  split; [intros H; pose proof (H 3 (or_introl eq_refl)); lra|]. split; [exact E|].
  rewrite distance_norm by (try reflexivity; lia). rewrite <- E. f_equal. unfold diff. cbn. f_equal; [ring|f_equal; [ring|f_equal; ring]].
Qed.
Example C79_witness : normalized_int [0; 1; 0]%Z = false /\ normalized_int [1]%Z = true.
Proof. split; reflexivity. Qed.
