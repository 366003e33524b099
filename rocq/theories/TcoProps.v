(** Property C180. *)
From Coq Require Import Reals Lra List Bool.
From Verif Require Import MatModel VecModel VecSpec QuatModel GeomModel GeomSpec QuatProofs GeomProofs GeomProps2 TcoModel.
Import ListNotations.
Local Open Scope R_scope.

(** A point of the line through the last two corners that is not between them: there the code takes every point to be contained (C67). *)
Definition stray (p1 p2 x : v3) : Prop := exists t, x = along p1 p2 t /\ ~ 0 <= t <= 1.

Lemma in_hull p0 p1 p2 x : in_triangle p0 p1 p2 x -> in_affine_hull p0 p1 p2 x.
Proof. intros (a & b & c & _ & _ & _ & S & E). exists a, b, c. split; assumption. Qed.
Lemma hull_coplanar p0 p1 p2 x eps : proper_triangle p0 p1 p2 -> 0 < eps -> in_affine_hull p0 p1 p2 x -> coplanar p0 p1 p2 x eps = true.
Proof.
  intros P E H. apply C67_coplanar; [assumption|]. exists x. split; [split; [assumption|]|split; [assumption|]].
  - intros y _. unfold dist2. pose proof (Rle_0_sqr (vx y - vx x)). pose proof (Rle_0_sqr (vy y - vy x)). pose proof (Rle_0_sqr (vz y - vz x)). unfold Rsqr in *. lra.
  - unfold dist2. rewrite !Rminus_diag_eq by reflexivity. nra.
Qed.
Lemma contains_iff p0 p1 p2 x eps : proper_triangle p0 p1 p2 -> 0 < eps -> in_affine_hull p0 p1 p2 x -> ~ stray p1 p2 x ->
  (tri_contains p0 p1 p2 x eps = true <-> in_triangle p0 p1 p2 x).
Proof.
  intros P E H N. unfold tri_contains. rewrite hull_coplanar by assumption. cbn [andb]. rewrite C67_contains_partial by assumption.
  split; [|left; assumption]. intros [T|Z]; [assumption|]. destruct H as (a & b & c & S & ->). rewrite barycentric_mix in Z by assumption. cbn in Z. subst a.
  destruct (Rle_dec 0 c) as [C|C]; [destruct (Rle_dec c 1) as [D|D]|].
  - exists 0, b, c. repeat split; lra.
  - exfalso. apply N. exists c. split; [|lra]. unfold mix, along. replace b with (1 - c) by lra. f_equal; ring.
  - exfalso. apply N. exists c. split; [|lra]. unfold mix, along. replace b with (1 - c) by lra. f_equal; ring.
Qed.
Lemma segment_in p0 p1 p2 s f x : in_triangle p0 p1 p2 s -> in_triangle p0 p1 p2 f -> in_segment s f x -> in_triangle p0 p1 p2 x.
Proof.
  intros (a & b & c & A & B & C & S & ->) (a' & b' & c' & A' & B' & C' & S' & ->) (t & T & ->).
  exists (a + t * (a' - a)), (b + t * (b' - b)), (c + t * (c' - c)). repeat split; try nra.
  unfold along, mix. cbn [vx vy vz]. f_equal; ring.
Qed.
Lemma ends s f : in_segment s f s /\ in_segment s f f.
Proof. destruct s as [a b c], f as [d e g]. split; [exists 0|exists 1]; (split; [lra|]); unfold along; cbn [vx vy vz]; f_equal; ring. Qed.

(** The generator gives the coordinates of every point of the plane of the triangle. *)
Theorem C180_generator : forall p0 p1 p2 a b c, proper_triangle p0 p1 p2 -> a + b + c = 1 -> generate (make_generator p0 p1 p2) (mix p0 p1 p2 a b c) = V3 a b c.
Proof. exact barycentric_mix. Qed.
(** For all points, also those off the plane and of degenerate triangles, it gives what barycentric() gives. *)
Theorem C180_generator_same : forall p0 p1 p2 x, generate (make_generator p0 p1 p2) x = barycentric p0 p1 p2 x.
Proof. reflexivity. Qed.
(** For points off the plane the coordinates are those of the nearest point of the plane. *)
Theorem C180_generator_nearest : forall p0 p1 p2 x, proper_triangle p0 p1 p2 ->
  let c := generate (make_generator p0 p1 p2) x in
  vx c + vy c + vz c = 1 /\ nearest (in_affine_hull p0 p1 p2) x (mix p0 p1 p2 (vx c) (vy c) (vz c)).
Proof.
  intros p0 p1 p2 x H. rewrite C180_generator_same. intros c. assert (S := barycentric_sum p0 p1 p2 x). fold c in S. cbn zeta in S. split; [exact S|].
  split; [exists (vx c), (vy c), (vz c); split; [exact S|reflexivity]|].
  apply proper_cross in H. apply inner_pos in H. rewrite cross_norm in H.
  set (v := sub3 p1 p0) in *. set (w := sub3 p2 p0) in *. set (u := sub3 x p0).
  set (q := mix p0 p1 p2 (vx c) (vy c) (vz c)).
  assert (Q : sub3 q x = sub3 (add3 (scale3 v (vy c)) (scale3 w (vz c))) u).
  { unfold q, v, w, u. replace (vx c) with (1 - vy c - vz c) by lra. apply v3_eq; cbn; ring. }
  assert (Y : vy c = (inner3 w w * inner3 u v - inner3 v w * inner3 u w) * (1 / (inner3 v v * inner3 w w - inner3 v w * inner3 v w))).
  { unfold c, barycentric. cbn [vy]. fold v w u. rewrite !dot_inner. reflexivity. }
  assert (Z : vz c = (inner3 v v * inner3 u w - inner3 v w * inner3 u v) * (1 / (inner3 v v * inner3 w w - inner3 v w * inner3 v w))).
  { unfold c, barycentric. cbn [vz]. fold v w u. rewrite !dot_inner. reflexivity. }
  assert (OV : inner3 (sub3 q x) v = 0).
  { rewrite Q. replace (inner3 _ v) with (vy c * inner3 v v + vz c * inner3 v w - inner3 u v) by (rewrite !inner_eq; cbn; ring). rewrite Y, Z. field. lra. }
  assert (OW : inner3 (sub3 q x) w = 0).
  { rewrite Q. replace (inner3 _ w) with (vy c * inner3 v w + vz c * inner3 w w - inner3 u w) by (rewrite !inner_eq; cbn; ring). rewrite Y, Z. field. lra. }
  intros y (a' & b' & c' & S' & ->). set (y := mix p0 p1 p2 a' b' c').
  assert (D : sub3 y q = add3 (scale3 v (b' - vy c)) (scale3 w (c' - vz c))).
  { unfold y, q, v, w. replace (vx c) with (1 - vy c - vz c) by lra. replace a' with (1 - b' - c') by lra. apply v3_eq; cbn; ring. }
  assert (O : inner3 (sub3 q x) (sub3 y q) = 0).
  { rewrite D. replace (inner3 _ _) with ((b' - vy c) * inner3 (sub3 q x) v + (c' - vz c) * inner3 (sub3 q x) w) by (rewrite !inner_eq; cbn; ring). rewrite OV, OW. ring. }
  assert (T : dist2 y x = dist2 q x + dist2 y q + 2 * inner3 (sub3 q x) (sub3 y q)).
  { rewrite inner_eq. unfold dist2, sub3. cbn [vx vy vz]. ring. }
  assert (N : 0 <= dist2 y q).
  { unfold dist2. pose proof (Rle_0_sqr (vx y - vx q)). pose proof (Rle_0_sqr (vy y - vy q)). pose proof (Rle_0_sqr (vz y - vz q)). unfold Rsqr in *. lra. }
  lra.
Qed.
(** A collection is contained when it is not empty and all of its points are in the triangle. The full statement has all points of the plane. *)
Theorem C180_points_partial : forall p0 p1 p2 points eps, proper_triangle p0 p1 p2 -> 0 < eps ->
  (forall x, In x points -> in_affine_hull p0 p1 p2 x /\ ~ stray p1 p2 x) ->
  (contains_range p0 p1 p2 points eps = true <-> points <> [] /\ forall x, In x points -> in_triangle p0 p1 p2 x).
Proof.
  intros p0 p1 p2 points eps P E H.
  assert (L : contains_loop p0 p1 p2 points eps = true <-> forall x, In x points -> in_triangle p0 p1 p2 x).
  { induction points as [|x rest IH]; [split; [intros _ x []|reflexivity]|]. cbn [contains_loop].
    assert (X := contains_iff p0 p1 p2 x eps P E (proj1 (H x (or_introl eq_refl))) (proj2 (H x (or_introl eq_refl)))).
    specialize (IH (fun y I => H y (or_intror I))).
    destruct (tri_contains p0 p1 p2 x eps); cbn [negb].
    - rewrite IH. split; [intros A y [<-|I]; [apply X; reflexivity|apply A; assumption]|intros A y I; apply A; right; assumption].
    - split; [discriminate|]. intros A. apply X, A. left; reflexivity. }
  destruct points as [|x rest]; cbn [contains_range]; [split; [discriminate|intros [A _]; destruct (A eq_refl)]|].
  rewrite L. split; [intros A; split; [discriminate|assumption]|intros [_ A]; assumption].
Qed.
(** A segment of the plane is contained exactly when each of its points is in the triangle. The full statement has all segments of the plane; a
    segment with an end on the line through the last two corners beyond them is missing. *)
Theorem C180_segment_partial : forall p0 p1 p2 start finish eps, proper_triangle p0 p1 p2 -> 0 < eps ->
  in_affine_hull p0 p1 p2 start -> in_affine_hull p0 p1 p2 finish -> ~ stray p1 p2 start -> ~ stray p1 p2 finish ->
  (contains_segment p0 p1 p2 start finish eps = true <-> forall x, in_segment start finish x -> in_triangle p0 p1 p2 x).
Proof.
  intros p0 p1 p2 s f eps P E Hs Hf Ns Nf. unfold contains_segment. rewrite andb_true_iff, !contains_iff by assumption. split.
  - intros [A B] x. apply segment_in; assumption.
  - intros A. split; apply A, ends.
Qed.
(** A segment of the triangle is always contained. *)
Theorem C180_segment_within : forall p0 p1 p2 start finish eps, proper_triangle p0 p1 p2 -> 0 < eps ->
  (forall x, in_segment start finish x -> in_triangle p0 p1 p2 x) -> contains_segment p0 p1 p2 start finish eps = true.
Proof.
  intros p0 p1 p2 s f eps P E A.
  assert (W : forall x, in_triangle p0 p1 p2 x -> tri_contains p0 p1 p2 x eps = true).
  { intros x I. unfold tri_contains. rewrite hull_coplanar by (try apply in_hull; assumption). apply C67_contains_partial; [assumption|apply in_hull; assumption|left; assumption]. }
  unfold contains_segment. rewrite !W by (apply A, ends). reflexivity.
Qed.
(** A segment can be said to be contained though the triangle does not contain its middle, nor says so. *)
Theorem C180_segment_refuted : exists p0 p1 p2 start finish, proper_triangle p0 p1 p2 /\
  in_affine_hull p0 p1 p2 start /\ in_affine_hull p0 p1 p2 finish /\
  forall eps, 0 < eps -> contains_segment p0 p1 p2 start finish eps = true /\
    ~ in_triangle p0 p1 p2 (midpoint start finish) /\ tri_contains p0 p1 p2 (midpoint start finish) eps = false.
Proof.
  exists origin, (V3 1 0 0), (V3 0 1 0), origin, (V3 5 (-4) 0).
  assert (P : proper_triangle origin (V3 1 0 0) (V3 0 1 0)) by apply C66_ex.
  assert (E : V3 5 (-4) 0 = mix origin (V3 1 0 0) (V3 0 1 0) 0 5 (-4)) by (apply v3_eq; cbn; lra).
  assert (O : origin = mix origin (V3 1 0 0) (V3 0 1 0) 1 0 0) by (apply v3_eq; cbn; lra).
  assert (M : midpoint origin (V3 5 (-4) 0) = mix origin (V3 1 0 0) (V3 0 1 0) (1 / 2) (5 / 2) (-2)) by (apply v3_eq; cbn; lra).
  assert (HO : in_affine_hull origin (V3 1 0 0) (V3 0 1 0) origin) by (exists 1, 0, 0; split; [lra|assumption]).
  assert (HE : in_affine_hull origin (V3 1 0 0) (V3 0 1 0) (V3 5 (-4) 0)) by (exists 0, 5, (-4); split; [lra|assumption]).
  split; [assumption|]. split; [assumption|]. split; [assumption|]. intros eps Z. split; [|split].
  - unfold contains_segment, tri_contains. rewrite !hull_coplanar by assumption. cbn [andb]. apply andb_true_iff. split.
    + pattern origin at 2. rewrite O. apply contains_coplanar_spec; [assumption|lra|lra].
    + rewrite E. apply contains_coplanar_spec; [assumption|lra|lra].
  - rewrite M. intros (a & b & c & A & B & C & S & G). assert (Gy := f_equal vy G). cbn in Gy. lra.
  - unfold tri_contains. apply andb_false_iff. right. rewrite M.
    destruct (contains_coplanar_point origin (V3 1 0 0) (V3 0 1 0) (mix origin (V3 1 0 0) (V3 0 1 0) (1 / 2) (5 / 2) (-2))) eqn:K; [|reflexivity].
    apply contains_coplanar_spec in K; [lra|assumption|lra].
Qed.
Print Assumptions C180_generator.
Print Assumptions C180_generator_same.
Print Assumptions C180_generator_nearest.
Print Assumptions C180_points_partial.
Print Assumptions C180_segment_partial.
Print Assumptions C180_segment_within.
Print Assumptions C180_segment_refuted.

(** A segment from a corner into the triangle meets the hypotheses and is contained. *)
Example C180_ex : let x := V3 (1 / 4) (1 / 4) 0 in let p1 := V3 1 0 0 in let p2 := V3 0 1 0 in
  ~ stray p1 p2 x /\ ~ stray p1 p2 origin /\ in_triangle origin p1 p2 x /\ in_triangle origin p1 p2 origin /\
  contains_segment origin p1 p2 origin x 1 = true /\ contains_range origin p1 p2 [origin; x] 1 = true /\ contains_range origin p1 p2 [] 1 = false.
Proof.
  intros x p1 p2. assert (P : proper_triangle origin p1 p2) by apply C66_ex.
  assert (X : ~ stray p1 p2 x) by (intros (t & G & _); assert (Gx := f_equal vx G); assert (Gy := f_equal vy G); cbn in Gx, Gy; lra).
  assert (O : ~ stray p1 p2 origin) by (intros (t & G & _); assert (Gx := f_equal vx G); assert (Gy := f_equal vy G); cbn in Gx, Gy; lra).
  assert (IX : in_triangle origin p1 p2 x) by (exists (1 / 2), (1 / 4), (1 / 4); repeat split; try lra; apply v3_eq; cbn; lra).
  assert (IO : in_triangle origin p1 p2 origin) by (exists 1, 0, 0; repeat split; try lra; apply v3_eq; cbn; lra).
  repeat (split; [assumption|]). split; [|split; [|reflexivity]].
  - apply C180_segment_within; [assumption|lra|]. intros y. apply segment_in; assumption.
  - apply C180_points_partial; [assumption|lra| |split; [discriminate|]].
    + intros y [<-|[<-|[]]]; split; try assumption; apply in_hull; assumption.
    + intros y [<-|[<-|[]]]; assumption.
Qed.
