(** Planes, lines, segments and triangles. *)
From Coq Require Import Reals Lra Psatz List Bool.
From Verif Require Import Words MatModel VecModel VecSpec QuatModel QuatSpec QuatProofs QuatProofs2 XformSpec XformProofs GeomModel GeomSpec.
Import ListNotations.
Local Open Scope R_scope.

(* ------------------------------------------------------------------ booleans *)
Lemma leb_true : forall a b, leb a b = true <-> a <= b.
Proof. intros. unfold leb. destruct (Rle_dec a b); split; intros; try lra; congruence. Qed.
Lemma leb_false : forall a b, leb a b = false <-> b < a.
Proof. intros. unfold leb. destruct (Rle_dec a b); split; intros; try lra; congruence. Qed.
Lemma ltb_true : forall a b, ltb a b = true <-> a < b.
Proof. intros. unfold ltb. destruct (Rlt_dec a b); split; intros; try lra; congruence. Qed.
Lemma ltb_false : forall a b, ltb a b = false <-> b <= a.
Proof. intros. unfold ltb. destruct (Rlt_dec a b); split; intros; try lra; congruence. Qed.
Lemma az_true : forall x e, approx_zero x e = true <-> Rabs x < e.
Proof.
  intros. unfold approx_zero, approx_equal. replace (0 - x) with (- x) by ring. rewrite Rabs_Ropp.
  destruct (Rlt_dec (Rabs x) e); split; intros; try lra; congruence.
Qed.
Lemma minR_spec : forall a b, (minR a b = a /\ a <= b) \/ (minR a b = b /\ b <= a).
Proof. intros. unfold minR, ltb. destruct (Rlt_dec a b); [left|right]; split; lra. Qed.
Lemma maxR_spec : forall a b, (maxR a b = a /\ b <= a) \/ (maxR a b = b /\ a <= b).
Proof. intros. unfold maxR, ltb. destruct (Rlt_dec a b); [right|left]; split; lra. Qed.
Lemma clampR_spec : forall x lo hi, lo <= hi -> (x <= lo /\ clampR x lo hi = lo) \/ (hi <= x /\ clampR x lo hi = hi) \/ (lo <= x <= hi /\ clampR x lo hi = x).
Proof. intros. unfold clampR. destruct (Rlt_dec x lo); [left; lra|]. destruct (Rlt_dec hi x); [right; left; lra|right; right; lra]. Qed.

Lemma clamp_nearest : forall x lo hi y, lo <= hi -> lo <= y <= hi -> (clampR x lo hi - x) * (clampR x lo hi - x) <= (y - x) * (y - x).
Proof.
  intros x lo hi y L H. destruct (clampR_spec x lo hi L) as [[A ->]|[[A ->]|[A ->]]].
  - assert (0 <= (y - lo) * (y + lo - 2 * x)) by (apply Rmult_le_pos; lra). lra.
  - assert (0 <= (hi - y) * (2 * x - y - hi)) by (apply Rmult_le_pos; lra). lra.
  - assert (G := Rle_0_sqr (y - x)). unfold Rsqr in G. lra.
Qed.
Lemma clamp_range : forall x lo hi, lo <= hi -> lo <= clampR x lo hi <= hi.
Proof. intros x lo hi L. destruct (clampR_spec x lo hi L) as [[A ->]|[[A ->]|[A ->]]]; lra. Qed.

Ltac booleans := repeat match goal with
  | H : andb _ _ = true |- _ => apply andb_true_iff in H; destruct H
  | H : orb _ _ = false |- _ => apply orb_false_iff in H; destruct H
  | H : negb _ = true |- _ => apply negb_true_iff in H
  | H : negb _ = false |- _ => apply negb_false_iff in H
  | H : leb _ _ = true |- _ => apply leb_true in H
  | H : leb _ _ = false |- _ => apply leb_false in H
  | H : ltb _ _ = true |- _ => apply ltb_true in H
  | H : ltb _ _ = false |- _ => apply ltb_false in H
  end.

Lemma inner_eq : forall v w, inner3 v w = vx v * vx w + vy v * vy w + vz v * vz w.
Proof. exact inner3_eq. Qed.
Lemma dot_inner : forall v w, dot3 v w = inner3 v w.
Proof. intros. rewrite inner_eq. reflexivity. Qed.
Lemma dist2_eq : forall p q, distance_squared3 p q = dist2 q p.
Proof. reflexivity. Qed.
Lemma dist2_sym : forall p q, dist2 p q = dist2 q p.
Proof. intros. unfold dist2. ring. Qed.
Lemma dist2_pos : forall p q, 0 <= dist2 p q.
Proof. intros. unfold dist2. assert (G := fun x => Rle_0_sqr x). unfold Rsqr in G.
  assert (G1 := G (vx p - vx q)). assert (G2 := G (vy p - vy q)). assert (G3 := G (vz p - vz q)). lra. Qed.
Lemma dist2_zero : forall p q, dist2 p q = 0 -> p = q.
Proof.
  intros p q H. assert (G := fun x => Rle_0_sqr x). unfold Rsqr in G. unfold dist2 in H.
  assert (G1 := G (vx p - vx q)). assert (G2 := G (vy p - vy q)). assert (G3 := G (vz p - vz q)).
  apply v3_eq; apply Rminus_diag_uniq; apply Rsqr_0_uniq; unfold Rsqr; lra.
Qed.
Lemma sqr_pos : forall x : R, 0 <= x * x.
Proof. exact Rle_0_sqr. Qed.

(* ------------------------------------------------------------------ planes *)
Section PLANE.
  Variable p : plane.
  Lemma on_plane_sd : forall x, on_plane p x <-> signed_distance p x = 0.
  Proof. intros. unfold on_plane, signed_distance. rewrite dot_inner. reflexivity. Qed.

  Lemma project_on : is_unit (normal p) -> forall x, on_plane p (project p x).
  Proof.
    intros U x. unfold is_unit in U. rewrite on_plane_sd. rewrite inner_eq in U. unfold project, signed_distance, dot3. cbn.
    destruct p as [[a b c] d]. cbn in *. 
    set (s := a * vx x + b * vy x + c * vz x + d).
    replace (a * (vx x - a * s) + b * (vy x - b * s) + c * (vz x - c * s) + d) with (s - (a * a + b * b + c * c) * s) by (unfold s; ring).
    rewrite U. ring.
  Qed.

  Lemma project_along : forall x, x = reach (project p x) (normal p) (signed_distance p x).
  Proof. intros. unfold project, reach. destruct p as [[a b c] d]. apply v3_eq; cbn; ring. Qed.

  Lemma project_dist : is_unit (normal p) -> forall x, dist2 (project p x) x = plane_distance p x * plane_distance p x.
  Proof.
    intros U x. unfold plane_distance. rewrite <- Rabs_mult, Rabs_pos_eq by apply sqr_pos. 
    unfold is_unit in U. rewrite inner_eq in U. unfold project, dist2. cbn. set (s := signed_distance p x).
    replace (_ + _ + _) with ((vx (normal p) * vx (normal p) + vy (normal p) * vy (normal p) + vz (normal p) * vz (normal p)) * (s * s)) by ring.
    rewrite U. ring.
  Qed.

  Lemma plane_nearest : is_unit (normal p) -> forall x y, on_plane p y -> plane_distance p x * plane_distance p x <= dist2 y x.
  Proof.
    intros U x y H. unfold plane_distance. rewrite <- Rabs_mult, Rabs_pos_eq by apply sqr_pos. 
    unfold is_unit in U. rewrite inner_eq in U. apply on_plane_sd in H.
    assert (E : signed_distance p x = inner3 (normal p) (sub3 x y)).
    { transitivity (signed_distance p x - signed_distance p y); [rewrite H; ring|]. unfold signed_distance, dot3. rewrite inner_eq. cbn. ring. }
    rewrite E, inner_eq. cbn. destruct p as [[a b c] d]. cbn in *. unfold dist2.
    set (u := vx x - vx y). set (v := vy x - vy y). set (w := vz x - vz y).
    replace (vx y - vx x) with (- u) by (unfold u; ring). replace (vy y - vy x) with (- v) by (unfold v; ring). replace (vz y - vz x) with (- w) by (unfold w; ring).
    assert (G : (a * a + b * b + c * c) * (u * u + v * v + w * w) = (a * u + b * v + c * w) * (a * u + b * v + c * w) + (a * v - b * u) * (a * v - b * u) + (a * w - c * u) * (a * w - c * u) + (b * w - c * v) * (b * w - c * v)) by ring.
    rewrite U in G. assert (G1 := sqr_pos (a * v - b * u)). assert (G2 := sqr_pos (a * w - c * u)). assert (G3 := sqr_pos (b * w - c * v)). lra.
  Qed.

  Lemma origin_on : is_unit (normal p) -> on_plane p (plane_origin p).
  Proof.
    intros U. apply on_plane_sd. unfold is_unit in U. rewrite inner_eq in U. unfold signed_distance, plane_origin, dot3. cbn.
    replace (_ + _) with (d_ p - (vx (normal p) * vx (normal p) + vy (normal p) * vy (normal p) + vz (normal p) * vz (normal p)) * d_ p) by ring. rewrite U. ring.
  Qed.

  Lemma sd_along : forall a b t, signed_distance p (along a b t) = (1 - t) * signed_distance p a + t * signed_distance p b.
  Proof. intros. unfold signed_distance, dot3, along. cbn. ring. Qed.

  (** What the test decides: whether no inner point of the segment between two points off the plane is on it. *)
  Lemma segment_test : forall a b, plane_segment p a b = false <-> (~ on_plane p a /\ ~ on_plane p b /\ meet (on_plane p) (in_segment a b)).
  Proof.
    intros a b. unfold plane_segment. rewrite leb_false, !on_plane_sd. set (u := signed_distance p a). set (v := signed_distance p b). split.
    - intros H. assert (u <> 0) by (intro E; rewrite E in H; lra). assert (v <> 0) by (intro E; rewrite E in H; lra).
      split; [assumption|]. split; [assumption|]. exists (along a b (u / (u - v))).
      assert (D : u - v <> 0) by (intro E; replace v with u in H by lra; assert (G := sqr_pos u); lra). split.
      + rewrite on_plane_sd, sd_along. fold u v. field. assumption.
      + exists (u / (u - v)). split; [|reflexivity].
        destruct (Rlt_dec 0 u).
        * assert (v < 0) by nra. split; [apply Rlt_le, Rdiv_lt_0_compat; lra|]. apply Rmult_le_reg_r with (u - v); [lra|]. unfold Rdiv. rewrite Rmult_assoc, Rinv_l by assumption. lra.
        * assert (u < 0) by lra. assert (0 < v) by nra. replace (u / (u - v)) with (- u / (v - u)) by (field; split; lra).
          split; [apply Rlt_le, Rdiv_lt_0_compat; lra|]. apply Rmult_le_reg_r with (v - u); [lra|]. unfold Rdiv. rewrite Rmult_assoc, Rinv_l by lra. lra.
    - intros (Ha & Hb & x & Hx & t & Ht & E). subst x. rewrite on_plane_sd, sd_along in Hx. fold u v in Hx.
      destruct (Rlt_dec 0 u); destruct (Rlt_dec 0 v); nra.
  Qed.
End PLANE.

Lemma plane_at_on : forall pos dir, on_plane (plane_at pos dir) pos.
Proof. intros. unfold on_plane, plane_at. rewrite inner_eq. cbn. unfold dot3. ring. Qed.

Lemma length_zero : forall v, length3 v = 0 <-> v = origin.
Proof.
  intros v. split.
  - intros H. destruct (length3_sqr v) as [E _]. rewrite H in E. rewrite inner_eq in E.
    assert (G1 := sqr_pos (vx v)). assert (G2 := sqr_pos (vy v)). assert (G3 := sqr_pos (vz v)).
    apply v3_eq; cbn; apply Rsqr_0_uniq; unfold Rsqr; lra.
  - intros ->. unfold length3, length_squared3. cbn. transitivity (sqrt 0); [f_equal; ring|apply sqrt_0].
Qed.

Lemma normalize_opt_spec : forall v, (v = origin /\ normalize_opt v = None) \/ (v <> origin /\ normalize_opt v = Some (normalize3 v)).
Proof.
  intros v. unfold normalize_opt. destruct (Req_EM_T (length3 v) 0) as [E|E]; [left|right]; split; try reflexivity.
  - apply length_zero, E.
  - intro G. apply E, length_zero, G.
Qed.

Lemma plane_normalize_spec : forall p q, plane_normalize p = Some q -> is_unit (normal q) /\ forall x, on_plane q x <-> on_plane p x.
Proof.
  intros p q H. unfold plane_normalize in H. destruct (Req_EM_T (length3 (normal p)) 0) as [|E]; [discriminate|]. injection H as <-.
  destruct (length3_sqr (normal p)) as [G _]. rewrite inner_eq in G. set (l := length3 (normal p)) in *. split.
  - unfold is_unit. rewrite inner_eq. cbn. transitivity ((vx (normal p) * vx (normal p) + vy (normal p) * vy (normal p) + vz (normal p) * vz (normal p)) / (l * l)); [field; assumption|]. rewrite <- G. field. assumption.
  - intros x. unfold on_plane. rewrite !inner_eq. cbn. split; intros K.
    + apply Rmult_eq_reg_r with (1 / l); [|intro A; apply E; apply Rinv_0_lt_compat || idtac; exact (False_ind _ (Rinv_neq_0_compat _ E ltac:(unfold Rdiv in A; rewrite Rmult_1_l in A; exact A)))].
      rewrite Rmult_0_l, <- K. ring.
    + transitivity ((vx (normal p) * vx x + vy (normal p) * vy x + vz (normal p) * vz x + d_ p) * (1 / l)); [ring|]. rewrite K. ring.
Qed.

(* ------------------------------------------------------------------ segments *)
Lemma segment_closest_spec : forall a b x, a <> b -> exists q, segment_closest a b x = Some q /\ nearest (in_segment a b) x q.
Proof.
  intros a b x N. unfold segment_closest. destruct (normalize_opt_spec (sub3 b a)) as [[Z _]|[Z E]].
  - exfalso. apply N. symmetry. unfold sub3 in Z. injection Z as Zx Zy Zz. apply v3_eq; lra.
  - rewrite E. eexists. split; [reflexivity|].
    destruct (normalize3_scale _ Z) as (l & L & El & En & U). set (u := normalize3 (sub3 b a)) in *.
    assert (Len : length3 (sub3 b a) = l).
    { destruct (length3_sqr (sub3 b a)) as [G P].
      assert (K : length3 (sub3 b a) * length3 (sub3 b a) = inner3 u u * (l * l)) by (rewrite G, El, !inner_eq; cbn; ring).
      rewrite U, Rmult_1_l in K. assert (M : (length3 (sub3 b a) - l) * (length3 (sub3 b a) + l) = 0) by lra.
      apply Rmult_integral in M. destruct M; lra. }
    rewrite Len. set (s := project_distance a u x).
    assert (B : forall t, along a b t = reach a u (t * l)).
    { intros. unfold along, reach. assert (Q := f_equal vx El). assert (Q2 := f_equal vy El). assert (Q3 := f_equal vz El). clearbody u. cbn in Q, Q2, Q3.
      apply v3_eq; cbn; [transitivity (vx a + t * (vx b - vx a)); [ring|rewrite Q; ring]|transitivity (vy a + t * (vy b - vy a)); [ring|rewrite Q2; ring]|transitivity (vz a + t * (vz b - vz a)); [ring|rewrite Q3; ring]]. }
    assert (D : forall k, dist2 (reach a u k) x = dist2 a x - s * s + (k - s) * (k - s)).
    { intros. unfold s, project_distance, dot3. rewrite inner_eq in U. unfold dist2, reach. clear En El Len B E. clearbody u. cbn.
      set (a1 := vx a - vx x). set (a2 := vy a - vy x). set (a3 := vz a - vz x).
      replace (vx x - vx a) with (- a1) by (unfold a1; ring). replace (vy x - vy a) with (- a2) by (unfold a2; ring). replace (vz x - vz a) with (- a3) by (unfold a3; ring).
      replace (vx a + k * vx u - vx x) with (a1 + k * vx u) by (unfold a1; ring). replace (vy a + k * vy u - vy x) with (a2 + k * vy u) by (unfold a2; ring). replace (vz a + k * vz u - vz x) with (a3 + k * vz u) by (unfold a3; ring).
      transitivity (a1 * a1 + a2 * a2 + a3 * a3 + 2 * k * (a1 * vx u + a2 * vy u + a3 * vz u) + k * k * (vx u * vx u + vy u * vy u + vz u * vz u)); [ring|]. rewrite U. ring. }
    assert (R : add3 a (scale3 u (clampR s 0 l)) = reach a u (clampR s 0 l)) by (unfold reach; apply v3_eq; cbn; ring).
    rewrite R. assert (Hc : 0 <= clampR s 0 l <= l) by (destruct (clampR_spec s 0 l ltac:(lra)) as [[? ->]|[[? ->]|[? ->]]]; lra).
    split.
    + exists (clampR s 0 l / l). split.
      * split; [apply Rmult_le_pos; [lra|apply Rlt_le, Rinv_0_lt_compat, L]|]. apply Rmult_le_reg_r with l; [assumption|]. unfold Rdiv. rewrite Rmult_assoc, Rinv_l by lra. lra.
      * rewrite B. f_equal. field. lra.
    + intros y (t & Ht & ->). rewrite B, !D. assert (0 <= t * l <= l) by nra. set (k := t * l) in *.
      assert (C := clamp_nearest s 0 l k ltac:(lra) ltac:(lra)). lra.
Qed.
Lemma segment_closest_degenerate : forall a x, segment_closest a a x = None.
Proof. intros. unfold segment_closest. destruct (normalize_opt_spec (sub3 a a)) as [[_ ->]|[N _]]; [reflexivity|]. exfalso. apply N. apply v3_eq; cbn; ring. Qed.

Lemma line_project_spec : forall o d x, is_unit d -> nearest (in_line o d) x (line_project o d x).
Proof.
  intros o d x U. unfold is_unit in U. rewrite inner_eq in U. unfold line_project. set (s := project_distance o d x). split.
  - exists s. apply v3_eq; cbn; ring.
  - intros y (t & ->). 
    assert (D : forall k, dist2 (reach o d k) x = dist2 o x - s * s + (k - s) * (k - s)).
    { intros. unfold s, project_distance, dot3. unfold dist2, reach. cbn. 
      transitivity ((vx o - vx x) * (vx o - vx x) + (vy o - vy x) * (vy o - vy x) + (vz o - vz x) * (vz o - vz x) + 2 * k * ((vx o - vx x) * vx d + (vy o - vy x) * vy d + (vz o - vz x) * vz d) + k * k * (vx d * vx d + vy d * vy d + vz d * vz d)); [ring|]. rewrite U. ring. }
    replace (add3 o (scale3 d s)) with (reach o d s) by (apply v3_eq; cbn; ring). rewrite !D. assert (G := sqr_pos (t - s)). lra.
Qed.

(* ------------------------------------------------------------------ triangles *)
Lemma cross_zero : forall v w, cross v w = origin -> v = origin \/ exists k, w = scale3 v k.
Proof.
  intros v w E. unfold cross in E. injection E as E1 E2 E3.
  destruct (Req_EM_T (vx v) 0) as [Zx|Zx]; [destruct (Req_EM_T (vy v) 0) as [Zy|Zy]; [destruct (Req_EM_T (vz v) 0) as [Zz|Zz]|]|].
  - left. apply v3_eq; assumption.
  - right. exists (vz w / vz v). apply v3_eq; cbn; [rewrite Zx|rewrite Zy|field; assumption].
    + rewrite Zx in E2. assert (H0 : vz v * vx w = 0) by lra. apply Rmult_integral in H0. destruct H0; lra.
    + rewrite Zy in E1. assert (H0 : vz v * vy w = 0) by lra. apply Rmult_integral in H0. destruct H0; lra.
  - right. exists (vy w / vy v). apply v3_eq; cbn; [rewrite Zx|field; assumption|].
    + rewrite Zx in E3. assert (H0 : vy v * vx w = 0) by lra. apply Rmult_integral in H0. destruct H0; lra.
    + apply Rmult_eq_reg_r with (vy v); [|assumption]. transitivity (vy v * vz w); [ring|]. replace (vy v * vz w) with (vz v * vy w) by lra. field. assumption.
  - right. exists (vx w / vx v). apply v3_eq; cbn; [field; assumption| |].
    + apply Rmult_eq_reg_r with (vx v); [|assumption]. transitivity (vx v * vy w); [ring|]. replace (vx v * vy w) with (vy v * vx w) by lra. field. assumption.
    + apply Rmult_eq_reg_r with (vx v); [|assumption]. transitivity (vx v * vz w); [ring|]. replace (vx v * vz w) with (vz v * vx w) by lra. field. assumption.
Qed.

Lemma proper_cross : forall p0 p1 p2, proper_triangle p0 p1 p2 <-> cross (sub3 p1 p0) (sub3 p2 p0) <> origin.
Proof.
  intros p0 p1 p2. split.
  - intros H E. apply H. destruct (cross_zero _ _ E) as [K|(k & K)]; unfold sub3 in K; cbn in K.
    + exists p0, (sub3 p2 p0). split; [exists 0; apply v3_eq; cbn; ring|]. split; [exists 0|exists 1]; injection K as K1 K2 K3; apply v3_eq; cbn; lra.
    + exists p0, (sub3 p1 p0). split; [exists 0; apply v3_eq; cbn; ring|]. split; [exists 1; apply v3_eq; cbn; ring|exists k].
      unfold scale3 in K; cbn in K. injection K as K1 K2 K3. apply v3_eq; cbn; lra.
  - intros H (o & d & (a & ->) & (b & ->) & (c & ->)). apply H. apply v3_eq; cbn; ring.
Qed.

Lemma cross_norm : forall v w, inner3 (cross v w) (cross v w) = inner3 v v * inner3 w w - inner3 v w * inner3 v w.
Proof. intros. rewrite !inner_eq. cbn. ring. Qed.

Lemma inner_zero : forall v, inner3 v v = 0 -> v = origin.
Proof. intros v H. apply dist2_zero. unfold dist2. cbn. rewrite inner_eq in H. lra. Qed.
Lemma inner_pos : forall v, v <> origin -> 0 < inner3 v v.
Proof.
  intros v N. destruct (Req_EM_T (inner3 v v) 0) as [E|E]; [exfalso; apply N, inner_zero, E|].
  rewrite inner_eq in *. assert (G1 := sqr_pos (vx v)). assert (G2 := sqr_pos (vy v)). assert (G3 := sqr_pos (vz v)). lra.
Qed.

Lemma barycentric_sum : forall p0 p1 p2 x, let c := barycentric p0 p1 p2 x in vx c + vy c + vz c = 1.
Proof. intros. unfold c, barycentric. cbn. ring. Qed.

Lemma barycentric_mix : forall p0 p1 p2 a b c, proper_triangle p0 p1 p2 -> a + b + c = 1 -> barycentric p0 p1 p2 (mix p0 p1 p2 a b c) = V3 a b c.
Proof.
  intros p0 p1 p2 a b c H S. apply proper_cross in H. apply inner_pos in H. rewrite cross_norm in H.
  set (v := sub3 p1 p0) in *. set (w := sub3 p2 p0) in *.
  assert (E : sub3 (mix p0 p1 p2 a b c) p0 = add3 (scale3 v b) (scale3 w c)).
  { replace a with (1 - b - c) by lra. unfold v, w. apply v3_eq; cbn; ring. }
  unfold barycentric. fold v w. rewrite E, !dot_inner.
  assert (E1 : inner3 (add3 (scale3 v b) (scale3 w c)) v = b * inner3 v v + c * inner3 v w) by (rewrite !inner_eq; cbn; ring).
  assert (E2 : inner3 (add3 (scale3 v b) (scale3 w c)) w = b * inner3 v w + c * inner3 w w) by (rewrite !inner_eq; cbn; ring).
  rewrite E1, E2. set (A := inner3 v v) in *. set (B := inner3 v w) in *. set (C := inner3 w w) in *.
  assert (Y : (C * (b * A + c * B) - B * (b * B + c * C)) * (1 / (A * C - B * B)) = b) by (field; lra).
  assert (Z : (A * (b * B + c * C) - B * (b * A + c * B)) * (1 / (A * C - B * B)) = c) by (field; lra).
  rewrite Y, Z. f_equal. lra.
Qed.

Lemma barycentric_spec : forall p0 p1 p2 x, proper_triangle p0 p1 p2 -> in_affine_hull p0 p1 p2 x ->
  let c := barycentric p0 p1 p2 x in vx c + vy c + vz c = 1 /\ x = mix p0 p1 p2 (vx c) (vy c) (vz c).
Proof.
  intros p0 p1 p2 x H (a & b & c & S & ->) c'. split; [apply barycentric_sum|]. unfold c'. rewrite barycentric_mix by assumption. reflexivity.
Qed.

Lemma contains_coplanar_spec : forall p0 p1 p2 a b c, proper_triangle p0 p1 p2 -> a + b + c = 1 ->
  contains_coplanar_point p0 p1 p2 (mix p0 p1 p2 a b c) = true <-> 0 <= a * b /\ 0 <= a * c.
Proof.
  intros p0 p1 p2 a b c H S. apply proper_cross in H. apply inner_pos in H.
  set (n := cross (sub3 p1 p0) (sub3 p2 p0)) in *. unfold contains_coplanar_point. set (x := mix p0 p1 p2 a b c).
  assert (U : cross (sub3 p1 x) (sub3 p2 x) = scale3 n a).
  { unfold x, n. replace a with (1 - b - c) by lra. apply v3_eq; cbn; ring. }
  assert (V : cross (sub3 p2 x) (sub3 p0 x) = scale3 n b).
  { unfold x, n. replace a with (1 - b - c) by lra. apply v3_eq; cbn; ring. }
  assert (W : cross (sub3 p0 x) (sub3 p1 x) = scale3 n c).
  { unfold x, n. replace a with (1 - b - c) by lra. apply v3_eq; cbn; ring. }
  rewrite U, V, W, andb_true_iff, !leb_true, !dot_inner. rewrite inner_eq in H.
  assert (E1 : inner3 (scale3 n a) (scale3 n b) = (a * b) * (vx n * vx n + vy n * vy n + vz n * vz n)) by (rewrite inner_eq; cbn; ring).
  assert (E2 : inner3 (scale3 n a) (scale3 n c) = (a * c) * (vx n * vx n + vy n * vy n + vz n * vz n)) by (rewrite inner_eq; cbn; ring).
  rewrite E1, E2. split; intros [A B]; split; nra.
Qed.
