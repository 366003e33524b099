(** The test of a box and a triangle finds nothing but common points. *)
From Coq Require Import Reals Lra Psatz List Bool.
From Verif Require Import Words MatModel VecModel VecSpec QuatModel QuatSpec QuatProofs QuatProofs2 XformSpec XformProofs GeomModel GeomSpec GeomProofs GeomProofs2 GeomProofs3 SatProofs.
Import ListNotations.
Local Open Scope R_scope.
Notation co v a := (dot_axis3 v a).

(** The ends of a range are reached. *)
Lemma fold_reached : forall (f : v3 -> R) l s, let r := fold_left (fun s p => sat_add s (f p)) l s in
  (smin r = smin s \/ exists p, In p l /\ smin r = f p) /\ (smax r = smax s \/ exists p, In p l /\ smax r = f p).
Proof.
  intros f. induction l as [|p l IH]; intros s; cbn [fold_left]; [split; now left|]. destruct (IH (sat_add s (f p))) as [A B]. split.
  - destruct A as [A|(q & Q & A)]; [|right; exists q; split; [now right|exact A]]. cbn zeta in A. rewrite A. cbn [sat_add smin]. destruct (minR_spec (f p) (smin s)) as [[-> _]|[-> _]]; [right; exists p; split; [now left|reflexivity]|now left].
  - destruct B as [B|(q & Q & B)]; [|right; exists q; split; [now right|exact B]]. cbn zeta in B. rewrite B. cbn [sat_add smax]. destruct (maxR_spec (f p) (smax s)) as [[-> _]|[-> _]]; [right; exists p; split; [now left|reflexivity]|now left].
Qed.
Lemma sat_reached ax p l : (exists q, In q (p :: l) /\ smin (sat_of ax p l) = dot3 ax q) /\ (exists q, In q (p :: l) /\ smax (sat_of ax p l) = dot3 ax q).
Proof.
  unfold sat_of. destruct (fold_reached (dot3 ax) l (sat_start (dot3 ax p))) as [A B]. cbn zeta in A, B. cbn [sat_start smin smax] in A, B. split.
  - destruct A as [A|(q & Q & A)]; [exists p; split; [now left|exact A]|exists q; split; [now right|exact A]].
  - destruct B as [B|(q & Q & B)]; [exists p; split; [now left|exact B]|exists q; split; [now right|exact B]].
Qed.
Lemma sat_axis_reached a p l : (exists q, In q (p :: l) /\ smin (sat_of_axis a p l) = co q a) /\ (exists q, In q (p :: l) /\ smax (sat_of_axis a p l) = co q a).
Proof.
  unfold sat_of_axis. destruct (fold_reached (fun p => co p a * 1) l (sat_start (co p a * 1))) as [A B]. cbn zeta in A, B. cbn [sat_start smin smax] in A, B. rewrite !Rmult_1_r in *. split.
  - destruct A as [A|(q & Q & A)]; [exists p; split; [now left|exact A]|exists q; split; [now right|rewrite A; ring]].
  - destruct B as [B|(q & Q & B)]; [exists p; split; [now left|exact B]|exists q; split; [now right|rewrite B; ring]].
Qed.

Lemma dot_zero c : dot3 c c = 0 -> c = origin.
Proof.
  destruct c as [x y z]. unfold dot3, origin. cbn [vx vy vz]. intros Z. pose proof (Rle_0_sqr x). pose proof (Rle_0_sqr y). pose proof (Rle_0_sqr z). unfold Rsqr in *.
  f_equal; apply Rsqr_0_uniq; unfold Rsqr; lra.
Qed.
Definition eq_axis (a b : axis) : {a = b} + {a <> b}.
Proof. decide equality. Defined.
(** The product with an axis compares the two other components. *)
Lemma cross_two e i j : i <> j -> exists k d, (d = 1 \/ d = -1) /\ forall x, dot3 (cross_axis e k) x = d * (co e j * co x i - co e i * co x j).
Proof.
  intros N. destruct i, j; try congruence.
  - exists AxisZ, 1. split; [now left|]. intros x. unfold dot3. cbn. ring.
  - exists AxisY, (-1). split; [now right|]. intros x. unfold dot3. cbn. ring.
  - exists AxisZ, (-1). split; [now right|]. intros x. unfold dot3. cbn. ring.
  - exists AxisX, 1. split; [now left|]. intros x. unfold dot3. cbn. ring.
  - exists AxisY, 1. split; [now left|]. intros x. unfold dot3. cbn. ring.
  - exists AxisX, (-1). split; [now right|]. intros x. unfold dot3. cbn. ring.
Qed.

Section Exact.
  Variable lo hi p0 p1 p2 : v3.
  Hypothesis ordered : forall a, co lo a <= co hi a.
  Hypothesis found : box_tri_min_max lo hi p0 p1 p2 = true.
  Definition boxed (x : v3) : Prop := forall a, co lo a <= co x a <= co hi a.
  (** The plane of the triangle *)
  Definition pt (u v : R) : v3 := mix p0 p1 p2 (1 - u - v) u v.
  Lemma pt_co u v a : co (pt u v) a = co p0 a + u * (co p1 a - co p0 a) + v * (co p2 a - co p0 a).
  Proof. destruct a; cbn; ring. Qed.
  (** What must not be positive on this side of the box *)
  Definition g (a : axis) (s : bool) (x : v3) : R := if s then co x a - co hi a else co lo a - co x a.
  Definition sign (s : bool) : R := if s then 1 else -1.
  Definition edge (k : axis) : v3 := match k with AxisX => sub3 p1 p0 | AxisY => sub3 p2 p1 | AxisZ => sub3 p0 p2 end.
  Definition corners : list v3 := lo :: other_corners (corner_min_max lo hi).
  Definition vertex (x : v3) : Prop := In x [p0; p1; p2].

  Lemma corner_boxed x : In x corners -> boxed x.
  Proof using ordered.
    intros I a. pose proof (ordered AxisX) as O1. pose proof (ordered AxisY) as O2. pose proof (ordered AxisZ) as O3. cbn in O1, O2, O3. unfold corners, other_corners, corner_min_max in I. cbn [In] in I.
    repeat (destruct I as [<-|I]; [destruct a; cbn; lra|]). destruct I.
  Qed.
  Lemma parts : box_tri_1 lo hi p0 p1 p2 = true /\ box_tri_2 lo (other_corners (corner_min_max lo hi)) p0 (tri_normal p0 p1 p2) = true /\
    box_tri_3 lo (other_corners (corner_min_max lo hi)) p0 p1 p2 [sub3 p1 p0; sub3 p2 p1; sub3 p0 p2] = true.
  Proof using found.
    pose proof found as F. unfold box_tri_min_max in F. destruct (box_tri_1 _ _ _ _ _); [|discriminate F]. cbn [negb] in F. destruct (box_tri_2 _ _ _ _); [|discriminate F]. cbn [negb] in F. auto.
  Qed.
  (** The three axes of the box *)
  Lemma axis_test a s : exists x, vertex x /\ g a s x <= 0.
  Proof using found.
    destruct parts as (T & _ & _). unfold box_tri_1 in T. rewrite forallb_forall in T. assert (I : In a [AxisX; AxisY; AxisZ]) by (destruct a; cbn; tauto). specialize (T a I). unfold sat_range in T. rewrite andb_true_iff, !leb_true in T.
    destruct (sat_axis_reached a p0 [p1; p2]) as [(x & X & Ex) (y & Y & Ey)]. rewrite Ex, Ey in T. destruct s; [exists x|exists y]; (split; [assumption|]); unfold g; lra.
  Qed.
  (** The normal: a point of the box is in the plane. *)
  Lemma plane_test : exists u v, boxed (pt u v).
  Proof using ordered found.
    destruct parts as (_ & T & _). unfold box_tri_2 in T. destruct (tri_normal p0 p1 p2) as [n|] eqn:N; [|discriminate T]. unfold sat_holds in T. rewrite andb_true_iff, !leb_true in T.
    destruct (sat_reached n lo (other_corners (corner_min_max lo hi))) as [(x & X & Ex) (y & Y & Ey)]. rewrite Ex, Ey in T. apply corner_boxed in X, Y.
    assert (Q : exists q, boxed q /\ dot3 n q = dot3 n p0).
    { destruct (Req_dec (dot3 n x) (dot3 n y)) as [E|E]; [exists x; split; [exact X|lra]|]. set (t := (dot3 n p0 - dot3 n x) / (dot3 n y - dot3 n x)).
      assert (T0 : 0 <= t <= 1). { assert (D : 0 < dot3 n y - dot3 n x) by lra. unfold t. split; [apply Rmult_le_pos; [lra|left; now apply Rinv_0_lt_compat]|]. apply Rmult_le_reg_r with (dot3 n y - dot3 n x); [lra|]. unfold Rdiv. rewrite Rmult_assoc, Rinv_l by lra. lra. }
      exists (along x y t). split.
      - intros a. specialize (X a). specialize (Y a). assert (E1 : co (along x y t) a = co x a * (1 - t) + t * co y a) by (destruct a; cbn; ring). rewrite E1. nra.
      - replace (dot3 n (along x y t)) with (dot3 n x + t * (dot3 n y - dot3 n x)) by (unfold dot3; cbn; ring). unfold t. field. lra. }
    destruct Q as (q & Bq & Dq). unfold tri_normal in N. destruct (normalize_opt_spec (cross (sub3 p1 p0) (sub3 p2 p0))) as [[_ E]|[Nz E]]; rewrite E in N; [discriminate|]. injection N as <-.
    destruct (normalize3_scale _ Nz) as (l & L & _ & En & _). rewrite En in Dq. set (c := cross (sub3 p1 p0) (sub3 p2 p0)) in *. set (d := sub3 q p0).
    assert (D0 : dot3 c d = 0). { assert (H : 1 / l * dot3 c d = 0). { replace (1 / l * dot3 c d) with (dot3 (scale3 c (1 / l)) q - dot3 (scale3 c (1 / l)) p0) by (unfold d, dot3; cbn; ring). lra. }
      apply Rmult_integral in H. destruct H as [H|H]; [|exact H]. exfalso. unfold Rdiv in H. rewrite Rmult_1_l in H. pose proof (Rinv_0_lt_compat l L). lra. }
    assert (C2 : dot3 c c <> 0).
    { clearbody c. intros Z. apply Nz. now apply dot_zero. }
    exists (dot3 c (cross d (sub3 p2 p0)) / dot3 c c), (dot3 c (cross (sub3 p1 p0) d) / dot3 c c).
    replace (pt _ _) with q; [exact Bq|]. 
    assert (Id : forall f : v3 -> R, (f = vx \/ f = vy \/ f = vz) -> dot3 c c * f d = dot3 c (cross d (sub3 p2 p0)) * f (sub3 p1 p0) + dot3 c (cross (sub3 p1 p0) d) * f (sub3 p2 p0) + dot3 c d * f c).
    { intros f [->|[->| ->]]; unfold c, d, dot3; cbn; ring. }
    rewrite D0 in Id. apply v3_eq; [specialize (Id vx (or_introl eq_refl))|specialize (Id vy (or_intror (or_introl eq_refl)))|specialize (Id vz (or_intror (or_intror eq_refl)))]; unfold pt, mix; cbn [vx vy vz]; unfold d in Id at 1; cbn [sub3 vx vy vz] in Id;
      (apply Rmult_eq_reg_l with (dot3 c c); [|exact C2]); set (m := dot3 c (cross d _)) in *; set (k := dot3 c (cross _ d)) in *; set (w := dot3 c c) in *; (field_simplify; [|exact C2]); lra.
  Qed.
  (** An edge and an axis *)
  Lemma edge_test e i j s : i <> j -> exists x y, vertex x /\ boxed y /\ sign s * (co (edge e) j * co x i - co (edge e) i * co x j) <= sign s * (co (edge e) j * co y i - co (edge e) i * co y j).
  Proof using ordered found.
    intros N. destruct (cross_two (edge e) i j N) as (k & d & D & C). destruct parts as (_ & _ & T). unfold box_tri_3 in T. rewrite forallb_forall in T. specialize (T (edge e) ltac:(destruct e; cbn; tauto)). rewrite forallb_forall in T. specialize (T k ltac:(destruct k; cbn; tauto)).
    cbn zeta in T. unfold sat_meets in T. rewrite andb_true_iff, !leb_true in T.
    destruct (sat_reached (cross_axis (edge e) k) lo (other_corners (corner_min_max lo hi))) as [(y & Y & Ey) (y' & Y' & Ey')]. destruct (sat_reached (cross_axis (edge e) k) p0 [p1; p2]) as [(x & X & Ex) (x' & X' & Ex')].
    rewrite Ey, Ey', Ex, Ex', !C in T. apply corner_boxed in Y, Y'.
    destruct D as [-> | ->], s; unfold sign; [exists x, y'|exists x', y|exists x', y|exists x, y']; (split; [assumption|]); (split; [assumption|]); lra.
  Qed.

  (** The half-planes *)
  Inductive con := T (k : axis) | B (a : axis) (s : bool).
  Definition level (k : axis) (u v : R) : R := match k with AxisX => v | AxisY => 1 - u - v | AxisZ => u end.
  Definition holds (c : con) (u v : R) : Prop := match c with T k => 0 <= level k u v | B a s => g a s (pt u v) <= 0 end.
  Definition move_u (k : axis) : R := match k with AxisX => 1 | AxisY => -1 | AxisZ => 0 end.
  Definition move_v (k : axis) : R := match k with AxisX => 0 | AxisY => 1 | AxisZ => -1 end.
  Lemma moved k u v t : level k (u + t * move_u k) (v + t * move_v k) = level k u v /\ forall a s, g a s (pt (u + t * move_u k) (v + t * move_v k)) = g a s (pt u v) + t * (sign s * co (edge k) a).
  Proof. split; [destruct k; cbn; ring|]. intros a s. unfold g, sign. rewrite !pt_co. destruct k, s, a; cbn; ring. Qed.
  (** Along an edge that a coordinate does not change on, it depends on the level only. *)
  Lemma by_level k a s : co (edge k) a = 0 -> exists m n, forall u v, g a s (pt u v) = m + n * level k u v.
  Proof.
    intros E. destruct k.
    - exists (g a s p0), (sign s * (co p2 a - co p0 a)). intros u v. unfold g, sign. rewrite pt_co. assert (co p1 a = co p0 a) as -> by (destruct a; cbn in *; lra). destruct s; cbn [level]; ring.
    - exists (g a s p1), (sign s * (co p0 a - co p1 a)). intros u v. unfold g, sign. rewrite pt_co. assert (co p2 a = co p1 a) as -> by (destruct a; cbn in *; lra). destruct s; cbn [level]; ring.
    - exists (g a s p0), (sign s * (co p1 a - co p0 a)). intros u v. unfold g, sign. rewrite pt_co. assert (co p2 a = co p0 a) as -> by (destruct a; cbn in *; lra). destruct s; cbn [level]; ring.
  Qed.
  Lemma vertex_pt x : vertex x -> exists u v, x = pt u v /\ forall k, 0 <= level k u v.
  Proof.
    intros [<-|[<-|[<-|[]]]]; [exists 0, 0|exists 1, 0|exists 0, 1]; (split; [apply v3_eq; cbn; ring|intros []; cbn; lra]).
  Qed.
  Lemma holds_convex c : convex (holds c).
  Proof.
    intros u v u' v' t H1 H2 T0. destruct c as [k|a s]; cbn [holds] in *.
    - replace (level k _ _) with ((1 - t) * level k u v + t * level k u' v') by (destruct k; cbn; ring). apply Rplus_le_le_0_compat; apply Rmult_le_pos; lra.
    - replace (g a s (pt ((1 - t) * u + t * u') ((1 - t) * v + t * v'))) with ((1 - t) * g a s (pt u v) + t * g a s (pt u' v')) by (unfold g; rewrite !pt_co; destruct s; ring).
      assert (0 <= (1 - t) * - g a s (pt u v)) by (apply Rmult_le_pos; lra). assert (0 <= t * - g a s (pt u' v')) by (apply Rmult_le_pos; lra). lra.
  Qed.

  Lemma two_faces k i s j r : i <> j -> exists u v, holds (T k) u v /\ holds (B i s) u v /\ holds (B j r) u v.
  Proof using ordered found.
    intros N. set (al := sign s * co (edge k) i). set (be := sign r * co (edge k) j). cbn [holds].
    assert (S2 : forall s, sign s = 1 \/ sign s = -1) by (intros []; cbn; auto).
    (* shifting along the edge *)
    assert (Sh : forall u v t, 0 <= level k u v -> g i s (pt u v) + t * al <= 0 -> g j r (pt u v) + t * be <= 0 -> exists u v, 0 <= level k u v /\ g i s (pt u v) <= 0 /\ g j r (pt u v) <= 0).
    { intros u v t L G1 G2. exists (u + t * move_u k), (v + t * move_v k). destruct (moved k u v t) as [M1 M2]. rewrite M1, !M2. auto. }
    assert (One : forall x e, e <> 0 -> exists t, x + t * e <= 0) by (intros x e H; exists (- x / e); apply Req_le; field; exact H).
    destruct (Req_dec al 0) as [A0|A0]; [destruct (Req_dec be 0) as [B0|B0]|destruct (Req_dec be 0) as [B0|B0]].
    - destruct plane_test as (u & v & Bx). assert (G : forall a s, g a s (pt u v) <= 0) by (intros a []; specialize (Bx a); unfold g; lra).
      destruct (Rle_lt_dec 0 (level k u v)) as [L|L]; [exists u, v; auto|].
      assert (Ei : co (edge k) i = 0) by (unfold al in A0; destruct (S2 s) as [E|E]; rewrite E in A0; lra). assert (Ej : co (edge k) j = 0) by (unfold be in B0; destruct (S2 r) as [E|E]; rewrite E in B0; lra).
      assert (Zero : forall a s, co (edge k) a = 0 -> forall u' v', level k u' v' = 0 -> g a s (pt u' v') <= 0).
      { intros a s0 E u' v' L'. destruct (by_level k a s0 E) as (m & n & F). destruct (axis_test a s0) as (x & X & Gx). destruct (vertex_pt x X) as (u1 & v1 & -> & L1). specialize (L1 k). specialize (G a s0). rewrite F in G, Gx. rewrite F, L'.
        assert (P1 : 0 <= - (m + n * level k u v) * level k u1 v1) by (apply Rmult_le_pos; lra). assert (P2 : 0 <= - (m + n * level k u1 v1) * - level k u v) by (apply Rmult_le_pos; lra).
        apply Rmult_le_reg_r with (level k u1 v1 - level k u v); [lra|]. lra. }
      exists (match k with AxisX => 0 | AxisY => 1 | AxisZ => 0 end), 0. assert (L0 : level k (match k with AxisX => 0 | AxisY => 1 | AxisZ => 0 end) 0 = 0) by (destruct k; cbn; ring).
      split; [lra|]. split; apply Zero; assumption.
    - destruct (axis_test i s) as (x & X & Gx). destruct (vertex_pt x X) as (u & v & -> & L). destruct (One (g j r (pt u v)) be B0) as (t & Ht). apply (Sh u v t (L k)); [rewrite A0; lra|exact Ht].
    - destruct (axis_test j r) as (x & X & Gx). destruct (vertex_pt x X) as (u & v & -> & L). destruct (One (g i s (pt u v)) al A0) as (t & Ht). apply (Sh u v t (L k)); [exact Ht|rewrite B0; lra].
    - assert (Lo : forall x e, 0 < e -> forall t, t <= - x / e -> x + t * e <= 0).
      { intros x e He t Ht. assert (H : t * e <= - x / e * e) by (apply Rmult_le_compat_r; lra). replace (- x / e * e) with (- x) in H by (field; lra). lra. }
      assert (L : 0 <= level k 0 0) by (destruct k; cbn; lra).
      (* opposite slopes: the axis across the edge and the two faces *)
      assert (W : forall S, (forall x y, be * (sign s * (co x i - co y i)) - al * (sign r * (co x j - co y j)) = sign S * ((co (edge k) j * co x i - co (edge k) i * co x j) - (co (edge k) j * co y i - co (edge k) i * co y j))) ->
        exists u v, 0 <= level k u v /\ exists y, boxed y /\ be * g i s (pt u v) - al * g j r (pt u v) <= be * g i s y - al * g j r y).
      { intros S HS. destruct (edge_test k i j S N) as (x & y & X & Y & C). destruct (vertex_pt x X) as (u & v & -> & Lx). exists u, v. split; [apply Lx|]. exists y. split; [exact Y|]. specialize (HS (pt u v) y).
        assert (E : be * g i s (pt u v) - al * g j r (pt u v) - (be * g i s y - al * g j r y) = be * (sign s * (co (pt u v) i - co y i)) - al * (sign r * (co (pt u v) j - co y j))) by (destruct s, r; unfold g, sign; ring). lra. }
      assert (W' : forall S, (forall x y, al * (sign r * (co x j - co y j)) - be * (sign s * (co x i - co y i)) = sign S * ((co (edge k) j * co x i - co (edge k) i * co x j) - (co (edge k) j * co y i - co (edge k) i * co y j))) ->
        exists u v, 0 <= level k u v /\ exists y, boxed y /\ al * g j r (pt u v) - be * g i s (pt u v) <= al * g j r y - be * g i s y).
      { intros S HS. destruct (edge_test k i j S N) as (x & y & X & Y & C). destruct (vertex_pt x X) as (u & v & -> & Lx). exists u, v. split; [apply Lx|]. exists y. split; [exact Y|]. specialize (HS (pt u v) y).
        assert (E : al * g j r (pt u v) - be * g i s (pt u v) - (al * g j r y - be * g i s y) = al * (sign r * (co (pt u v) j - co y j)) - be * (sign s * (co (pt u v) i - co y i))) by (destruct s, r; unfold g, sign; ring). lra. }
      assert (Gb : forall y, boxed y -> forall a s, g a s y <= 0) by (intros y Y a []; specialize (Y a); unfold g; lra).
      destruct (Rlt_le_dec 0 al) as [Pa|Pa], (Rlt_le_dec 0 be) as [Pb|Pb].
      + apply (Sh 0 0 (Rmin (- g i s (pt 0 0) / al) (- g j r (pt 0 0) / be)) L); apply Lo; try assumption; [apply Rmin_l|apply Rmin_r].
      + destruct (W' (xorb s r)) as (u & v & Lu & y & Y & C); [intros x y; unfold al, be; destruct s, r; cbn [xorb sign]; ring|].
        pose proof (Gb y Y i s) as G1. pose proof (Gb y Y j r) as G2. assert (N1 : 0 <= al * - g j r y) by (apply Rmult_le_pos; lra). assert (N2 : 0 <= - be * - g i s y) by (apply Rmult_le_pos; lra).
        apply (Sh u v (- g i s (pt u v) / al) Lu); [apply Req_le; field; exact A0|]. replace (g j r (pt u v) + - g i s (pt u v) / al * be) with ((al * g j r (pt u v) - be * g i s (pt u v)) * / al) by (field; exact A0).
        apply Ropp_le_cancel. rewrite Ropp_0, <- Ropp_mult_distr_l_reverse. apply Rmult_le_pos; [lra|left; apply Rinv_0_lt_compat; lra].
      + destruct (W (negb (xorb s r))) as (u & v & Lu & y & Y & C); [intros x y; unfold al, be; destruct s, r; cbn [xorb negb sign]; ring|].
        pose proof (Gb y Y i s) as G1. pose proof (Gb y Y j r) as G2. assert (N1 : 0 <= - al * - g j r y) by (apply Rmult_le_pos; lra). assert (N2 : 0 <= be * - g i s y) by (apply Rmult_le_pos; lra).
        apply (Sh u v (- g i s (pt u v) / al) Lu); [apply Req_le; field; exact A0|]. replace (g j r (pt u v) + - g i s (pt u v) / al * be) with ((be * g i s (pt u v) - al * g j r (pt u v)) * / - al) by (field; lra).
        apply Ropp_le_cancel. rewrite Ropp_0, <- Ropp_mult_distr_l_reverse. apply Rmult_le_pos; [lra|left; apply Rinv_0_lt_compat; lra].
      + assert (Hi : forall x e, e < 0 -> forall t, - x / e <= t -> x + t * e <= 0).
        { intros x e He t Ht. assert (H : - x / e * - e <= t * - e) by (apply Rmult_le_compat_r; lra). replace (- x / e * - e) with x in H by (field; lra). lra. }
        apply (Sh 0 0 (Rmax (- g i s (pt 0 0) / al) (- g j r (pt 0 0) / be)) L); apply Hi; try lra; [apply Rmax_l|apply Rmax_r].
  Qed.
  Lemma same_axis i s r : exists u v, (forall k, 0 <= level k u v) /\ g i s (pt u v) <= 0 /\ g i r (pt u v) <= 0.
  Proof using ordered found.
    destruct (Bool.bool_dec s r) as [<-|N]; [destruct (axis_test i s) as (x & X & Gx); destruct (vertex_pt x X) as (u & v & -> & L); exists u, v; auto|].
    assert (Q : exists u v, (forall k, 0 <= level k u v) /\ g i true (pt u v) <= 0 /\ g i false (pt u v) <= 0).
    { destruct (axis_test i true) as (x & X & Gx). destruct (axis_test i false) as (y & Y & Gy). destruct (vertex_pt x X) as (u & v & -> & L). destruct (vertex_pt y Y) as (u' & v' & -> & L').
      destruct (Rle_lt_dec (g i false (pt u v)) 0) as [C|C]; [exists u, v; auto|]. cbn [g] in Gx, Gy, C. pose proof (ordered i) as O.
      set (x := co (pt u v) i) in *. set (y := co (pt u' v') i) in *. set (t := (co lo i - x) / (y - x)).
      assert (T0 : 0 <= t <= 1). { unfold t. split; [apply Rmult_le_pos; [lra|left; apply Rinv_0_lt_compat; lra]|]. apply Rmult_le_reg_r with (y - x); [lra|]. unfold Rdiv. rewrite Rmult_assoc, Rinv_l by lra. lra. }
      exists ((1 - t) * u + t * u'), ((1 - t) * v + t * v'). split; [intros k; apply (holds_convex (T k)); cbn [holds]; auto|].
      assert (E : co (pt ((1 - t) * u + t * u') ((1 - t) * v + t * v')) i = co lo i). { replace (co (pt _ _) i) with (x + t * (y - x)) by (unfold x, y; rewrite !pt_co; ring). unfold t. field. lra. }
      cbn [g]. rewrite E. lra. }
    destruct Q as (u & v & L & G1 & G2). exists u, v. destruct s, r; try congruence; auto.
  Qed.
  Lemma two_planes k i s j r : exists u v, holds (T k) u v /\ holds (B i s) u v /\ holds (B j r) u v.
  Proof using ordered found.
    destruct (eq_axis i j) as [<-|N]; [|now apply two_faces]. destruct (same_axis i s r) as (u & v & L & G1 & G2). exists u, v. cbn [holds]. auto.
  Qed.
  Lemma triples c d e : exists u v, holds c u v /\ holds d u v /\ holds e u v.
  Proof using ordered found.
    assert (Z : forall k, 0 <= level k 0 0) by (intros []; cbn; lra).
    assert (V : forall a s, exists u v, (forall k, 0 <= level k u v) /\ g a s (pt u v) <= 0) by (intros a s; destruct (axis_test a s) as (x & X & Gx); destruct (vertex_pt x X) as (u & v & -> & L); exists u, v; auto).
    destruct c as [c|a s], d as [d|a' s'], e as [e|a'' s''].
    - exists 0, 0. cbn [holds]. auto.
    - destruct (V a'' s'') as (u & v & H). exists u, v. cbn [holds]. intuition.
    - destruct (V a' s') as (u & v & H). exists u, v. cbn [holds]. intuition.
    - destruct (two_planes c a' s' a'' s'') as (u & v & H). exists u, v. tauto.
    - destruct (V a s) as (u & v & H). exists u, v. cbn [holds]. intuition.
    - destruct (two_planes d a s a'' s'') as (u & v & H). exists u, v. tauto.
    - destruct (two_planes e a s a' s') as (u & v & H). exists u, v. tauto.
    - destruct plane_test as (u & v & Bx). assert (G : forall a s, g a s (pt u v) <= 0) by (intros b []; specialize (Bx b); unfold g; lra). exists u, v. cbn [holds]. auto.
  Qed.
End Exact.

Definition every : list con := [T AxisX; T AxisY; T AxisZ; B AxisX true; B AxisX false; B AxisY true; B AxisY false; B AxisZ true; B AxisZ false].
Lemma box_tri_min_max_sound lo hi p0 p1 p2 : (forall a, co lo a <= co hi a) -> box_tri_min_max lo hi p0 p1 p2 = true ->
  exists a b c, 0 <= a /\ 0 <= b /\ 0 <= c /\ a + b + c = 1 /\ forall k, co lo k <= co (mix p0 p1 p2 a b c) k <= co hi k.
Proof.
  intros O F. destruct (helly (map (holds lo hi p0 p1 p2) every)) as (u & v & H).
  - intros P I. apply in_map_iff in I. destruct I as (c & <- & _). apply holds_convex.
  - intros P Q R I J K. apply in_map_iff in I, J, K. destruct I as (c & <- & _), J as (d & <- & _), K as (e & <- & _). now apply triples.
  - assert (G : forall c, In c every -> holds lo hi p0 p1 p2 c u v) by (intros c I; apply H, in_map, I).
    exists (1 - u - v), u, v. pose proof (G (T AxisX) ltac:(cbn; tauto)) as L1. pose proof (G (T AxisY) ltac:(cbn; tauto)) as L2. pose proof (G (T AxisZ) ltac:(cbn; tauto)) as L3. cbn [holds level] in L1, L2, L3.
    repeat (split; [lra|]). intros k. pose proof (G (B k true) ltac:(destruct k; cbn; tauto)) as H1. pose proof (G (B k false) ltac:(destruct k; cbn; tauto)) as H2. cbn [holds g] in H1, H2. unfold pt in H1, H2. lra.
Qed.
Lemma box_tri_sound b p0 p1 p2 : proper b -> box_tri b p0 p1 p2 = true -> meet (in_box b) (in_triangle p0 p1 p2).
Proof.
  intros (X & Y & Z) F. assert (E : forall a, co (sub3 (center b) (extents b)) a <= co (add3 (center b) (extents b)) a) by (intros []; cbn; lra).
  destruct (box_tri_min_max_sound _ _ _ _ _ E F) as (u & v & w & U & V & W & S & H).
  exists (mix p0 p1 p2 u v w). split; [|exists u, v, w; auto]. pose proof (H AxisX) as H1. pose proof (H AxisY) as H2. pose proof (H AxisZ) as H3. cbn in H1, H2, H3. unfold in_box, mix. cbn [vx vy vz]. auto.
Qed.
Lemma box_tri_proper lo hi p0 p1 p2 : box_tri_min_max lo hi p0 p1 p2 = true -> proper_triangle p0 p1 p2.
Proof.
  intros F N. unfold box_tri_min_max in F. destruct (box_tri_1 _ _ _ _ _); [|discriminate F]. cbn [negb] in F. destruct (tri_normal p0 p1 p2) as [n|] eqn:E; [|discriminate F]. 
  assert (P : proper_triangle p0 p1 p2); [|exact (P N)]. apply proper_cross. intro Z. unfold tri_normal in E. destruct (normalize_opt_spec (cross (sub3 p1 p0) (sub3 p2 p0))) as [[_ G]|[G _]]; [rewrite G in E; discriminate|contradiction].
Qed.
Lemma obb_tri_sound o p0 p1 p2 : proper_obb o -> obb_tri o p0 p1 p2 = true -> meet (in_obb o) (in_triangle p0 p1 p2).
Proof.
  intros O F. assert (E : forall a, co (neg3 (oextents o)) a <= co (oextents o) a) by (destruct O as (X & Y & Z & _); intros []; cbn; lra).
  destruct (box_tri_min_max_sound _ _ _ _ _ E F) as (u & v & w & U & V & W & S & H). rewrite <- to_local_mix in H by exact S.
  exists (mix p0 p1 p2 u v w). split; [|exists u, v, w; auto]. apply (in_obb_coords o O). rewrite to_local_coords in H. pose proof (H AxisX) as H1. pose proof (H AxisY) as H2. pose proof (H AxisZ) as H3. cbn in H1, H2, H3. auto.
Qed.
Lemma obb_tri_proper o p0 p1 p2 : obb_tri o p0 p1 p2 = true -> proper_triangle p0 p1 p2.
Proof.
  intros F (q & d & (a & A) & (b & B) & (c & C)). apply box_tri_proper in F. apply F.
  exists (to_local o q), (V3 (dot3 (ax_x o) d) (dot3 (ax_y o) d) (dot3 (ax_z o) d)). split; [exists a|split; [exists b|exists c]]; subst; unfold to_local, reach, dot3; apply v3_eq; cbn; ring.
Qed.
