(** C156: line segments. *)
From Coq Require Import Reals List Bool Lra Psatz.
From Verif Require Import Words MatModel VecModel VecSpec QuatModel QuatSpec QuatProofs QuatProofs2 XformSpec XformProofs GeomModel GeomSpec GeomProofs GeomProofs2 GeomProofs5 LineModel LineSpec.
Import ListNotations.
Local Open Scope R_scope.

Lemma direction_of a b : a <> b -> exists u l, normalize_opt (sub3 b a) = Some u /\ 0 < l /\ length3 (sub3 b a) = l /\ is_unit u /\ forall t, along a b t = reach a u (t * l).
Proof.
  intros N. destruct (normalize_opt_spec (sub3 b a)) as [[Z _]|[Z E]].
  - exfalso. apply N. symmetry. unfold sub3 in Z. injection Z as Zx Zy Zz. apply v3_eq; lra.
  - destruct (normalize3_scale _ Z) as (l & L & El & En & U). exists (normalize3 (sub3 b a)), l. split; [exact E|]. split; [exact L|].
    set (u := normalize3 (sub3 b a)) in *. split; [|split; [exact U|]].
    + destruct (length3_sqr (sub3 b a)) as [G P].
      assert (K : length3 (sub3 b a) * length3 (sub3 b a) = inner3 u u * (l * l)) by (rewrite G, El, !inner_eq; cbn; ring).
      unfold is_unit in U. rewrite U, Rmult_1_l in K. assert (M : (length3 (sub3 b a) - l) * (length3 (sub3 b a) + l) = 0) by lra.
      apply Rmult_integral in M. destruct M; lra.
    + intros t. unfold along, reach. assert (Q := f_equal vx El). assert (Q2 := f_equal vy El). assert (Q3 := f_equal vz El). clearbody u. cbn in Q, Q2, Q3.
      apply v3_eq; cbn; [rewrite Q | rewrite Q2 | rewrite Q3]; ring.
Qed.
Lemma line_contains_near a b u l p eps : 0 < l -> is_unit u -> (forall t, along a b t = reach a u (t * l)) -> line_contains a u p eps = true <-> near_line a b eps p.
Proof.
  intros L U A. unfold line_contains. rewrite az_true. unfold line_distance_squared. rewrite dist2_eq. rewrite Rabs_pos_eq by apply dist2_pos.
  destruct (line_project_spec a u p U) as [(t & Et) N]. split.
  - intros H. exists (line_project a u p). split; [|exact H]. exists (t / l). rewrite A, Et. f_equal. field. lra.
  - intros (x & (s & ->) & D). apply Rle_lt_trans with (2 := D). apply N. exists (s * l). apply A.
Qed.
Lemma segment_contains_near a b p eps : a <> b -> segment_contains a b p eps = true <-> near_segment a b eps p.
Proof.
  intros N. unfold segment_contains. destruct (segment_closest_spec a b p N) as (q & -> & I & M). rewrite ltb_true, dist2_eq. split.
  - intros D. exists q. split; assumption.
  - intros (x & Ix & D). apply Rle_lt_trans with (2 := D). apply M, Ix.
Qed.

(** The tolerance is one of the square of the distance. *)
Theorem C156_colinear_point : forall a b p eps, a <> b -> segment_colinear a b p eps = true <-> near_line a b eps p.
Proof.
  intros a b p eps N. destruct (direction_of a b N) as (u & l & E & L & _ & U & A). unfold segment_colinear. rewrite E. exact (line_contains_near a b u l p eps L U A).
Qed.
Theorem C156_colinear : forall a b c d eps, a <> b -> segments_colinear a b c d eps = true <-> near_line a b eps c /\ near_line a b eps d.
Proof.
  intros a b c d eps N. destruct (direction_of a b N) as (u & l & E & L & _ & U & A). unfold segments_colinear. rewrite E, andb_true_iff.
  rewrite !(line_contains_near a b u l _ eps L U A). reflexivity.
Qed.
(** With every tolerance exactly when the points are on the line, in either order. *)
Lemma near_all a b p : a <> b -> (forall eps, 0 < eps -> near_line a b eps p) -> on_line a b p.
Proof.
  intros N H. destruct (direction_of a b N) as (u & l & E & L & _ & U & A). destruct (line_project_spec a u p U) as [(t & Et) M].
  assert (Z : dist2 (line_project a u p) p <= 0).
  { apply Rnot_lt_le. intros P. destruct (H _ P) as (x & (s & ->) & D). rewrite A in D. assert (K := M (reach a u (s * l)) (ex_intro _ _ eq_refl)). lra. }
  assert (Q : line_project a u p = p) by (apply dist2_zero; pose proof (dist2_pos (line_project a u p) p); lra).
  exists (t / l). rewrite A, <- Q, Et. f_equal. field. lra.
Qed.
Theorem C156_colinear_exact : forall a b c d, a <> b -> (forall eps, 0 < eps -> segments_colinear a b c d eps = true) <-> on_line a b c /\ on_line a b d.
Proof.
  intros a b c d N. split.
  - intros H. split; apply near_all; try exact N; intros eps P; specialize (H eps P); rewrite (C156_colinear a b c d eps N) in H; apply H.
  - intros [C D] eps P. apply C156_colinear; [exact N|]. assert (Z : forall x, dist2 x x = 0) by (intros; unfold dist2; ring). split; [exists c | exists d]; (split; [assumption | rewrite Z; exact P]).
Qed.
Theorem C156_colinear_exact_symmetric : forall a b c d, a <> b -> c <> d -> on_line a b c /\ on_line a b d <-> on_line c d a /\ on_line c d b.
Proof.
  assert (K : forall a b c d, a <> b -> c <> d -> on_line a b c /\ on_line a b d -> on_line c d a /\ on_line c d b).
  { intros a b c d N N' [(s & ->) (t & ->)]. assert (T : t - s <> 0) by (intros Z; apply N'; replace t with s by lra; reflexivity).
    split; [exists (- s / (t - s)) | exists ((1 - s) / (t - s))]; apply v3_eq; cbn; field; exact T. }
  intros a b c d N N'. split; [apply K; assumption | apply K; assumption].
Qed.
(** The full statement is symmetric for each tolerance. A short segment across a long one is colinear with it one way only. *)
Theorem C156_colinear_symmetric_refuted : exists a b c d eps, a <> b /\ c <> d /\ 0 < eps /\ segments_colinear a b c d eps = true /\ segments_colinear c d a b eps = false.
Proof.
  exists (V3 0 0 0), (V3 1 0 0), (V3 0 0 0), (V3 (1 / 100) (1 / 100) 0), (1 / 1000).
  assert (N : V3 0 0 0 <> V3 1 0 0) by (intros E; injection E; lra). assert (N' : V3 0 0 0 <> V3 (1 / 100) (1 / 100) 0) by (intros E; injection E; lra).
  split; [exact N|]. split; [exact N'|]. split; [lra|]. split.
  - apply C156_colinear; [exact N|]. split; [exists (V3 0 0 0) | exists (V3 (1 / 100) 0 0)]; (split; [eexists; apply v3_eq; cbn; try ring | unfold dist2; cbn; lra]); [instantiate (1 := 0); ring | instantiate (1 := 1 / 100); field].
  - apply not_true_iff_false. intros H. apply C156_colinear in H; [|exact N']. destruct H as [_ (x & (t & ->) & D)]. unfold dist2, along in D. cbn in D.
    assert (K : 0 <= (t / 100 * 2 - 1) * (t / 100 * 2 - 1)) by apply Rle_0_sqr. nra.
Qed.
(** A segment of length zero is colinear with nothing, not even with itself. *)
Theorem C156_colinear_degenerate_refuted : forall a c d eps, segments_colinear a a c d eps = false /\ segment_colinear a a c eps = false /\ on_line a a a.
Proof.
  intros a c d eps. unfold segments_colinear, segment_colinear. destruct (normalize_opt_spec (sub3 a a)) as [[_ ->]|[N _]]; [|exfalso; apply N; apply v3_eq; cbn; ring].
  split; [reflexivity|]. split; [reflexivity|]. exists 0. apply v3_eq; cbn; ring.
Qed.

(** Coplanar segments: the second end of the second is nearer than the tolerance to the plane of the other three points. *)
Lemma coplanar_same a b c d eps : segments_coplanar a b c d eps = coplanar a b c d eps.
Proof.
  unfold segments_coplanar, coplanar. destruct (tri_normal a b c) as [n|]; [|reflexivity]. unfold plane_contains. f_equal. unfold signed_distance, plane_at, dot3. cbn. ring.
Qed.
Theorem C156_coplanar : forall a b c d eps, proper_triangle a b c ->
  segments_coplanar a b c d eps = true <-> exists q, nearest (in_affine_hull a b c) d q /\ 0 < eps /\ dist2 q d < eps * eps.
Proof. intros a b c d eps P. rewrite coplanar_same. exact (coplanar_spec a b c d eps P). Qed.
Theorem C156_coplanar_exact : forall a b c d, proper_triangle a b c -> (forall eps, 0 < eps -> segments_coplanar a b c d eps = true) <-> volume6 a b c d = 0.
Proof.
  intros a b c d P. destruct (tri_normal_spec a b c P) as (n & E & U & N1 & N2 & l & L & C). unfold segments_coplanar. rewrite E. unfold plane_contains.
  assert (S : volume6 a b c d = l * signed_distance (plane_at a n) d).
  { transitivity (dot3 (cross (sub3 b a) (sub3 c a)) (sub3 d a)); [unfold volume6, dot3; cbn; ring|]. rewrite C. unfold signed_distance, plane_at, dot3. cbn. ring. }
  split.
  - intros H. assert (Z : signed_distance (plane_at a n) d = 0).
    { destruct (Req_dec (signed_distance (plane_at a n) d) 0) as [Z|Z]; [exact Z|]. exfalso. specialize (H _ (Rabs_pos_lt _ Z)). rewrite az_true in H. lra. }
    rewrite Z in S. lra.
  - intros V eps Pe. rewrite az_true. assert (Z : l * signed_distance (plane_at a n) d = 0) by lra. apply Rmult_integral in Z as [Z|Z]; [lra|]. rewrite Z, Rabs_R0. exact Pe.
Qed.
(** Segments that share their start are always in one plane; the answer is [false], unless the second is turned around. *)
Theorem C156_coplanar_shared_start_refuted : forall a b d eps, segments_coplanar a b a d eps = false /\ volume6 a b a d = 0.
Proof.
  intros a b d eps. split; [|unfold volume6; ring]. unfold segments_coplanar.
  destruct (tri_normal_none a b a) as [_ ->]; [reflexivity|]. intros P. apply proper_cross in P. apply P. apply v3_eq; cbn; ring.
Qed.
Theorem C156_coplanar_shared_start_reversed : forall a b d eps, proper_triangle a b d -> 0 < eps -> segments_coplanar a b d a eps = true.
Proof. intros a b d eps P E. apply (C156_coplanar_exact a b d a P); [unfold volume6; ring | exact E]. Qed.

(** Containment of a segment: of both ends, and so of everything between. *)
Lemma near_convex a b c d eps t : near_segment a b eps c -> near_segment a b eps d -> 0 <= t <= 1 -> near_segment a b eps (along c d t).
Proof.
  intros (x & (s & S & ->) & D) (y & (r & R & ->) & D') T. exists (along a b (s + t * (r - s))). split.
  - exists (s + t * (r - s)). split; [nra | reflexivity].
  - assert (K : dist2 (along a b (s + t * (r - s))) (along c d t) = (1 - t) * dist2 (along a b s) c + t * dist2 (along a b r) d
      - t * (1 - t) * dist2 (sub3 (along a b s) c) (sub3 (along a b r) d)) by (unfold dist2, along, sub3; cbn; ring).
    assert (P := dist2_pos (sub3 (along a b s) c) (sub3 (along a b r) d)). rewrite K. clear K.
    set (u := dist2 (along a b s) c) in *. set (v := dist2 (along a b r) d) in *. set (w := dist2 (sub3 (along a b s) c) (sub3 (along a b r) d)) in *. clearbody u v w.
    assert (0 <= t * (1 - t) * w) by (apply Rmult_le_pos; [apply Rmult_le_pos; lra | exact P]).
    destruct (Req_dec t 1) as [->|Nt]; [lra|]. assert ((1 - t) * u < (1 - t) * eps) by (apply Rmult_lt_compat_l; lra). assert (t * v <= t * eps) by (apply Rmult_le_compat_l; lra). lra.
Qed.
Theorem C156_contains_segment : forall a b c d eps, a <> b ->
  segment_contains_segment a b c d eps = true <-> (forall p, in_segment c d p -> near_segment a b eps p).
Proof.
  intros a b c d eps N. unfold segment_contains_segment. rewrite andb_true_iff, !(segment_contains_near a b _ eps N). split.
  - intros [C D] p (t & T & ->). apply near_convex; assumption.
  - intros H. destruct (seg_ends c d) as [C D]. split; apply H; assumption.
Qed.
Theorem C156_contains_all : forall a b ps eps, a <> b ->
  segment_contains_all a b ps eps = true <-> ps <> [] /\ forall p, In p ps -> near_segment a b eps p.
Proof.
  intros a b ps eps N. destruct ps as [|p ps]; cbn [segment_contains_all].
  - split; [discriminate | intros [H _]; congruence].
  - rewrite forallb_forall. split.
    + intros H. split; [discriminate|]. intros q I. apply segment_contains_near; [exact N | apply H, I].
    + intros [_ H] q I. apply segment_contains_near; [exact N | apply H, I].
Qed.
(** With every tolerance: exactly the subsegments. *)
Theorem C156_contains_exact : forall a b c d, a <> b ->
  (forall eps, 0 < eps -> segment_contains_segment a b c d eps = true) <-> (forall p, in_segment c d p -> in_segment a b p).
Proof.
  intros a b c d N. split.
  - intros H p I. destruct (segment_closest_spec a b p N) as (q & _ & Iq & M).
    assert (Z : dist2 q p <= 0).
    { apply Rnot_lt_le. intros P. specialize (H _ P). rewrite (C156_contains_segment a b c d _ N) in H. destruct (H p I) as (x & Ix & D). specialize (M x Ix). lra. }
    assert (Q : q = p) by (apply dist2_zero; pose proof (dist2_pos q p); lra). subst q. exact Iq.
  - intros H eps P. apply C156_contains_segment; [exact N|]. intros p I. exists p. split; [apply H, I|]. replace (dist2 p p) with 0 by (unfold dist2; ring). exact P.
Qed.
(** Neither segment's direction matters. *)
Lemma in_segment_reverse a b p : in_segment a b p <-> in_segment b a p.
Proof. split; intros (t & T & ->); exists (1 - t); (split; [lra | apply v3_eq; cbn; ring]). Qed.
Theorem C156_contains_reverse : forall a b c d eps, a <> b ->
  segment_contains_segment b a c d eps = segment_contains_segment a b c d eps /\ segment_contains_segment a b d c eps = segment_contains_segment a b c d eps.
Proof.
  intros a b c d eps N. assert (N' : b <> a) by congruence. split; apply eq_true_iff_eq; rewrite !C156_contains_segment by assumption.
  - split; intros H p I; destruct (H p I) as (x & Ix & D); exists x; (split; [apply in_segment_reverse; exact Ix | exact D]).
  - split; intros H p I; apply H, in_segment_reverse, I.
Qed.

(** Extending: the start stays, the end moves along the line, the length grows by the argument. *)
Lemma along_length a b t : dist2 a (along a b t) = t * t * dist2 a b.
Proof. unfold dist2, along. cbn. ring. Qed.
Lemma segment_length_dist2 a b : segment_length (a, b) * segment_length (a, b) = dist2 a b /\ 0 <= segment_length (a, b).
Proof.
  unfold segment_length, distance3. cbn [fst snd]. split; [|apply sqrt_pos]. change (length_squared3 (sub3 b a)) with (distance_squared3 a b). rewrite dist2_eq.
  rewrite sqrt_sqrt by apply dist2_pos. apply dist2_sym.
Qed.
Lemma segment_length_of a b l : 0 <= l -> l * l = dist2 a b -> segment_length (a, b) = l.
Proof.
  intros P E. destruct (segment_length_dist2 a b) as [S T]. assert (M : (segment_length (a, b) - l) * (segment_length (a, b) + l) = 0) by lra.
  apply Rmult_integral in M. destruct M; lra.
Qed.
Lemma segment_length_positive a b : a <> b -> 0 < segment_length (a, b).
Proof.
  intros N. destruct (segment_length_dist2 a b) as [S [P|P]]; [exact P|]. exfalso. apply N. apply dist2_zero. rewrite <- S, <- P. ring.
Qed.
Lemma extend_along a b s : a <> b -> extend a b s = Some (a, along a b ((segment_length (a, b) + s) / segment_length (a, b))).
Proof.
  intros N. destruct (direction_of a b N) as (u & l & E & L & Ll & U & A). unfold extend. rewrite E, Ll. f_equal. f_equal.
  assert (Q : segment_length (a, b) = l) by exact Ll. rewrite Q, A. unfold reach. apply v3_eq; cbn; field; lra.
Qed.
Theorem C156_extend : forall a b s, a <> b -> exists e, extend a b s = Some (a, e) /\ on_line a b e /\ segment_length (a, e) = Rabs (segment_length (a, b) + s)
  /\ (0 <= s -> in_segment a e b /\ segment_length (b, e) = s)
  /\ (- segment_length (a, b) <= s <= 0 -> in_segment a b e)
  /\ (s < - segment_length (a, b) -> in_segment b e a).
Proof.
  intros a b s N. rewrite (extend_along a b s N). set (l := segment_length (a, b)). assert (L : 0 < l) by apply (segment_length_positive a b N).
  destruct (segment_length_dist2 a b) as [S _]. fold l in S. eexists. split; [reflexivity|]. split; [eexists; reflexivity|]. split; [|split; [|split]].
  - apply segment_length_of; [apply Rabs_pos|]. rewrite along_length, <- S. rewrite <- Rabs_mult, Rabs_pos_eq by apply Rle_0_sqr. field. lra.
  - intros P. split.
    + exists (l / (l + s)). split; [|apply v3_eq; cbn; field; lra]. split; [apply Rmult_le_pos; [lra | left; apply Rinv_0_lt_compat; lra]|].
      apply (Rmult_le_reg_r (l + s)); [lra|]. unfold Rdiv. rewrite Rmult_assoc, Rinv_l by lra. lra.
    + apply segment_length_of; [exact P|]. transitivity ((s / l) * (s / l) * dist2 a b); [rewrite <- S; field; lra|]. unfold dist2, along. cbn. field. lra.
  - intros P. exists ((l + s) / l). split; [|reflexivity]. split; [apply Rmult_le_pos; [lra | left; apply Rinv_0_lt_compat; lra]|].
    apply (Rmult_le_reg_r l); [lra|]. unfold Rdiv. rewrite Rmult_assoc, Rinv_l by lra. lra.
  - intros P. assert (Ns : 0 < - s) by lra. exists (l / - s). split; [|apply v3_eq; cbn; field; lra]. split; [apply Rmult_le_pos; [lra | left; apply Rinv_0_lt_compat; lra]|].
    apply (Rmult_le_reg_r (- s)); [lra|]. unfold Rdiv. rewrite Rmult_assoc, Rinv_l by lra. lra.
Qed.
Theorem C156_extend_degenerate : forall a s, extend a a s = None.
Proof.
  intros a s. unfold extend. destruct (normalize_opt_spec (sub3 a a)) as [[_ ->]|[N _]]; [reflexivity|]. exfalso. apply N. apply v3_eq; cbn; ring.
Qed.
Theorem C156_extend_twice : forall a b s t e, a <> b -> 0 < segment_length (a, b) + s -> extend a b s = Some (a, e) -> extend a e t = extend a b (s + t).
Proof.
  intros a b s t e N P E. rewrite (extend_along a b s N) in E. injection E as <-. set (l := segment_length (a, b)) in *. assert (L : 0 < l) by apply (segment_length_positive a b N).
  destruct (segment_length_dist2 a b) as [S _]. fold l in S.
  assert (K : segment_length (a, along a b ((l + s) / l)) = l + s) by (apply segment_length_of; [lra|]; rewrite along_length, <- S; field; lra).
  assert (N2 : a <> along a b ((l + s) / l)).
  { intros Q. rewrite <- Q in K. assert (Z : segment_length (a, a) = 0) by (apply segment_length_of; [lra | unfold dist2; ring]). lra. }
  rewrite (extend_along a _ t N2), (extend_along a b (s + t) N). fold l. rewrite K. f_equal. f_equal. apply v3_eq; cbn; field; lra.
Qed.
(** The full statement has no bound on [s]. A segment shrunk past its start points the other way, and extending it back goes further away. *)
Theorem C156_extend_back_refuted : exists a b s e e', a <> b /\ extend a b s = Some (a, e) /\ extend a e (- s) = Some (a, e') /\ e' <> b /\ ~ in_segment a b e'.
Proof.
  assert (N : V3 0 0 0 <> V3 1 0 0) by (intros E; injection E; lra). assert (N2 : V3 0 0 0 <> V3 (- (1)) 0 0) by (intros E; injection E; lra).
  assert (L : segment_length (V3 0 0 0, V3 1 0 0) = 1) by (apply segment_length_of; [lra | unfold dist2; cbn; ring]).
  assert (L2 : segment_length (V3 0 0 0, V3 (- (1)) 0 0) = 1) by (apply segment_length_of; [lra | unfold dist2; cbn; ring]).
  exists (V3 0 0 0), (V3 1 0 0), (- (2)), (V3 (- (1)) 0 0), (V3 (- (3)) 0 0). split; [exact N|].
  rewrite (extend_along _ _ _ N), (extend_along _ _ _ N2), L, L2. split; [f_equal; f_equal; apply v3_eq; cbn; field|]. split; [f_equal; f_equal; apply v3_eq; cbn; field|].
  split; [intros E; injection E; lra|]. intros (t & T & E). injection E. lra.
Qed.
Theorem C156_reverse : forall s, reverse (reverse s) = s /\ (reverse s = s -> fst s = snd s) /\ segment_length (reverse s) = segment_length s
  /\ (forall p, in_segment (fst (reverse s)) (snd (reverse s)) p <-> in_segment (fst s) (snd s) p).
Proof.
  intros [a b]. split; [reflexivity|]. cbn [reverse fst snd]. split; [intros E; symmetry; exact (f_equal fst E)|]. split.
  - destruct (segment_length_dist2 a b) as [S P]. apply segment_length_of; [exact P|]. rewrite S. apply dist2_sym.
  - intros p. apply in_segment_reverse.
Qed.
Theorem C156_length : forall a b, segment_length (a, b) * segment_length (a, b) = dist2 a b /\ 0 <= segment_length (a, b) /\ (segment_length (a, b) = 0 <-> a = b).
Proof.
  intros a b. destruct (segment_length_dist2 a b) as [S P]. split; [exact S|]. split; [exact P|]. split.
  - intros Z. apply dist2_zero. rewrite <- S, Z. ring.
  - intros ->. apply segment_length_of; [lra | unfold dist2; ring].
Qed.
(** A segment of length zero contains nothing, not even itself. *)
Theorem C156_contains_degenerate_refuted : forall a eps, segment_contains_segment a a a a eps = false /\ in_segment a a a.
Proof.
  intros a eps. split; [|apply seg_ends]. unfold segment_contains_segment, segment_contains. rewrite segment_closest_degenerate. reflexivity.
Qed.

(** Inhabitants: a segment inside another, a proper triangle, an extension by a half. *)
Example C156_inner : segment_contains_segment (V3 0 0 0) (V3 4 0 0) (V3 1 0 0) (V3 2 (1 / 2) 0) 1 = true.
Proof.
  apply C156_contains_segment; [intros E; injection E; lra|]. intros p (t & T & ->). exists (V3 (1 + t) 0 0). split.
  - exists ((1 + t) / 4). split; [lra | apply v3_eq; cbn; field].
  - unfold dist2. cbn. nra.
Qed.
Example C156_extended : extend (V3 0 0 0) (V3 3 4 0) 5 = Some (V3 0 0 0, V3 6 8 0).
Proof.
  assert (L : segment_length (V3 0 0 0, V3 3 4 0) = 5) by (apply segment_length_of; [lra | unfold dist2; cbn; ring]).
  rewrite extend_along by (intros E; injection E; lra). rewrite L. f_equal. f_equal. apply v3_eq; cbn; field.
Qed.
Example C156_crossing : segments_coplanar (V3 0 0 0) (V3 2 2 0) (V3 2 0 0) (V3 0 2 0) (1 / 10) = true.
Proof.
  apply C156_coplanar_exact; [|unfold volume6; cbn; ring | lra]. apply proper_cross. intros E. injection E. cbn. lra.
Qed.

Print Assumptions C156_colinear_point.
Print Assumptions C156_colinear.
Print Assumptions C156_colinear_exact.
Print Assumptions C156_colinear_exact_symmetric.
Print Assumptions C156_colinear_symmetric_refuted.
Print Assumptions C156_colinear_degenerate_refuted.
Print Assumptions C156_coplanar.
Print Assumptions C156_coplanar_exact.
Print Assumptions C156_coplanar_shared_start_refuted.
Print Assumptions C156_coplanar_shared_start_reversed.
Print Assumptions C156_contains_segment.
Print Assumptions C156_contains_all.
Print Assumptions C156_contains_exact.
Print Assumptions C156_contains_reverse.
Print Assumptions C156_extend.
Print Assumptions C156_extend_degenerate.
Print Assumptions C156_extend_twice.
Print Assumptions C156_extend_back_refuted.
Print Assumptions C156_reverse.
Print Assumptions C156_length.
Print Assumptions C156_contains_degenerate_refuted.
