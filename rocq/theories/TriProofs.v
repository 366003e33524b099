(** Two triangles in the plane. *)
From Coq Require Import Reals Lra Psatz Bool.
From Verif Require Import Words VecModel VecSpec GeomModel GeomSpec GeomProofs TriModel TriSpec.
Local Open Scope R_scope.

Definition pt := (R * R)%type.
Definition at2 (a b : pt) (t : R) : pt := (fst a + t * (fst b - fst a), snd a + t * (snd b - snd a)).
Definition on2 (a b x : pt) : Prop := exists t, 0 <= t <= 1 /\ x = at2 a b t.
Definition mix2 (p0 p1 p2 : pt) (a b c : R) : pt := (a * fst p0 + b * fst p1 + c * fst p2, a * snd p0 + b * snd p1 + c * snd p2).
Definition in2 (p0 p1 p2 x : pt) : Prop := exists a b c, 0 <= a /\ 0 <= b /\ 0 <= c /\ a + b + c = 1 /\ x = mix2 p0 p1 p2 a b c.
(** Twice the signed area. *)
Definition area2 (p0 p1 p2 : pt) : R := (fst p1 - fst p0) * (snd p2 - snd p0) - (snd p1 - snd p0) * (fst p2 - fst p0).

Lemma pt_eq (a b : pt) : fst a = fst b -> snd a = snd b -> a = b.
Proof. destruct a, b; cbn; congruence. Qed.

Lemma on2_sym a b x : on2 a b x -> on2 b a x.
Proof. intros (t & T & ->). exists (1 - t). split; [lra|]. apply pt_eq; unfold at2; cbn; ring. Qed.
Lemma on2_start a b : on2 a b a.
Proof. exists 0. split; [lra|]. apply pt_eq; unfold at2; cbn; ring. Qed.
Lemma on2_end a b : on2 a b b.
Proof. exists 1. split; [lra|]. apply pt_eq; unfold at2; cbn; ring. Qed.

Lemma in2_rot a b c x : in2 a b c x -> in2 b c a x.
Proof. intros (p & q & r & P & Q & S & E & ->). exists q, r, p. repeat split; try lra. apply pt_eq; unfold mix2; cbn; ring. Qed.
Lemma in2_edge a b c x : on2 a b x -> in2 a b c x.
Proof. intros (t & T & ->). exists (1 - t), t, 0. repeat split; try lra. apply pt_eq; unfold mix2, at2; cbn; ring. Qed.

Lemma area2_rot a b c : area2 b c a = area2 a b c. Proof. unfold area2. ring. Qed.
Lemma area2_sum a b c x : area2 a b x + area2 b c x + area2 c a x = area2 a b c. Proof. unfold area2. ring. Qed.

(** Barycentric coordinates. *)
Lemma in2_sides a b c x : area2 a b c <> 0 -> (0 <= area2 a b x / area2 a b c /\ 0 <= area2 b c x / area2 a b c /\ 0 <= area2 c a x / area2 a b c) <-> in2 a b c x.
Proof.
  intros N. split.
  - intros (A & B & C). exists (area2 b c x / area2 a b c), (area2 c a x / area2 a b c), (area2 a b x / area2 a b c).
    repeat split; try assumption.
    + rewrite <- (area2_sum a b c x) in *. field. exact N.
    + apply pt_eq; unfold mix2; cbn [fst snd]; unfold area2 in *; field; exact N.
  - intros (p & q & r & P & Q & S & E & ->).
    assert (E1 : area2 a b (mix2 a b c p q r) = r * area2 a b c) by (replace p with (1 - q - r) by lra; unfold area2, mix2; cbn; ring).
    assert (E2 : area2 b c (mix2 a b c p q r) = p * area2 a b c) by (replace q with (1 - p - r) by lra; unfold area2, mix2; cbn; ring).
    assert (E3 : area2 c a (mix2 a b c p q r) = q * area2 a b c) by (replace p with (1 - q - r) by lra; unfold area2, mix2; cbn; ring).
    rewrite E1, E2, E3. unfold Rdiv. rewrite !Rmult_assoc, Rinv_r, !Rmult_1_r by exact N. auto.
Qed.

(** ** Edges *)
(** The product of the directions. *)
Definition turn (v0 v1 u0 u1 : pt) : R := (snd v1 - snd v0) * (fst u0 - fst u1) - (fst v1 - fst v0) * (snd u0 - snd u1).

Lemma unit_iff d f : f <> 0 -> (0 <= d / f <= 1) <-> (0 < f /\ 0 <= d <= f) \/ (f < 0 /\ f <= d <= 0).
Proof.
  intros N. assert (E : d = d / f * f) by (field; exact N). set (q := d / f) in *. split.
  - intros (A & B). destruct (Rtotal_order f 0) as [F|[F|F]]; [right|contradiction|left]; (split; [exact F|]); rewrite E.
    + assert (0 <= q * - f) by (apply Rmult_le_pos; lra). assert (0 <= (1 - q) * - f) by (apply Rmult_le_pos; lra). lra.
    + assert (0 <= q * f) by (apply Rmult_le_pos; lra). assert (0 <= (1 - q) * f) by (apply Rmult_le_pos; lra). lra.
  - intros [(F & A)|(F & A)]; rewrite E in A; split.
    + apply Rmult_le_reg_r with f; [exact F|lra].
    + apply Rmult_le_reg_r with f; [exact F|lra].
    + apply Rmult_le_reg_r with (- f); [lra|lra].
    + apply Rmult_le_reg_r with (- f); [lra|lra].
Qed.

Lemma edge_edge_spec v0 v1 u0 u1 :
  edge_edge v0 (fst v1 - fst v0, snd v1 - snd v0) u0 u1 = true <-> turn v0 v1 u0 u1 <> 0 /\ exists x, on2 v0 v1 x /\ on2 u0 u1 x.
Proof.
  unfold edge_edge.
  set (ax := fst v1 - fst v0). set (ay := snd v1 - snd v0). set (bx := fst u0 - fst u1). set (by_ := snd u0 - snd u1).
  set (cx := fst v0 - fst u0). set (cy := snd v0 - snd u0). change (turn v0 v1 u0 u1) with (ay * bx - ax * by_).
  set (f := ay * bx - ax * by_). set (d := by_ * cx - bx * cy). set (e := ax * cy - ay * cx).
  transitivity (f <> 0 /\ 0 <= d / f <= 1 /\ 0 <= e / f <= 1).
  - split.
    + destruct ((ltb 0 f && leb 0 d && leb d f) || (ltb f 0 && leb d 0 && leb f d)) eqn:C; [|discriminate]. apply orb_true_iff in C.
      assert (N : f <> 0) by (destruct C as [C|C]; booleans; lra).
      intros H. split; [exact N|]. rewrite !unit_iff by exact N. destruct (ltb 0 f) eqn:F.
      * booleans. destruct C as [C|C]; booleans; split; left; lra.
      * booleans. destruct C as [C|C]; booleans; try congruence; split; right; lra.
    + intros (N & D & E). rewrite unit_iff in D, E by exact N. destruct D as [D|D], E as [E|E]; try lra.
      * assert (C1 : ltb 0 f = true) by (apply ltb_true; lra). rewrite C1.
        replace (leb 0 d) with true by (symmetry; apply leb_true; lra). replace (leb d f) with true by (symmetry; apply leb_true; lra).
        cbn [andb orb]. apply andb_true_iff. split; apply leb_true; lra.
      * assert (C1 : ltb 0 f = false) by (apply ltb_false; lra). rewrite C1.
        replace (ltb f 0) with true by (symmetry; apply ltb_true; lra).
        replace (leb d 0) with true by (symmetry; apply leb_true; lra). replace (leb f d) with true by (symmetry; apply leb_true; lra).
        cbn [andb orb]. apply andb_true_iff. split; apply leb_true; lra.
  - split.
    + intros (N & D & E). split; [exact N|]. exists (at2 v0 v1 (d / f)). split; [exists (d / f); auto|].
      exists (e / f). split; [exact E|]. apply pt_eq; unfold at2; cbn [fst snd]; unfold d, e, f, ax, ay, bx, by_, cx, cy in *; field; exact N.
    + intros (N & x & (s & S & E1) & (r & Q & E2)). split; [exact N|].
      rewrite E1 in E2. unfold at2 in E2. injection E2 as X Y.
      assert (DS : d = s * f).
      { unfold d, f. assert (X' : cx + s * ax + r * bx = 0) by (unfold cx, ax, bx; lra). assert (Y' : cy + s * ay + r * by_ = 0) by (unfold cy, ay, by_; lra).
        replace cx with (- s * ax - r * bx) by lra. replace cy with (- s * ay - r * by_) by lra. ring. }
      assert (ES : e = r * f).
      { unfold e, f. assert (X' : cx + s * ax + r * bx = 0) by (unfold cx, ax, bx; lra). assert (Y' : cy + s * ay + r * by_ = 0) by (unfold cy, ay, by_; lra).
        replace cx with (- s * ax - r * bx) by lra. replace cy with (- s * ay - r * by_) by lra. ring. }
      rewrite DS, ES. unfold Rdiv. rewrite !Rmult_assoc, Rinv_r, !Rmult_1_r by exact N. lra.
Qed.

(** Two edges of triangles. *)
Definition edge_of (a b c p q : pt) : Prop := (p = a /\ q = b) \/ (p = b /\ q = c) \/ (p = c /\ q = a).

Lemma edges_spec v0 v1 v2 u0 u1 u2 :
  edge_edges v0 v1 u0 u1 u2 || edge_edges v1 v2 u0 u1 u2 || edge_edges v2 v0 u0 u1 u2 = true
  <-> exists p q r s x, edge_of v0 v1 v2 p q /\ edge_of u0 u1 u2 r s /\ turn p q r s <> 0 /\ on2 p q x /\ on2 r s x.
Proof.
  unfold edge_edges. rewrite !orb_true_iff, !edge_edge_spec. unfold edge_of. split.
  - assert (G : forall p q r s, ((p = v0 /\ q = v1) \/ (p = v1 /\ q = v2) \/ (p = v2 /\ q = v0)) -> ((r = u0 /\ s = u1) \/ (r = u1 /\ s = u2) \/ (r = u2 /\ s = u0)) ->
      turn p q r s <> 0 /\ (exists x, on2 p q x /\ on2 r s x) ->
      exists p q r s x, ((p = v0 /\ q = v1) \/ (p = v1 /\ q = v2) \/ (p = v2 /\ q = v0)) /\ ((r = u0 /\ s = u1) \/ (r = u1 /\ s = u2) \/ (r = u2 /\ s = u0)) /\
        turn p q r s <> 0 /\ on2 p q x /\ on2 r s x).
    { intros p q r s A B (N & x & C & D). exists p, q, r, s, x. auto. }
    intros [[[[H|H]|H]|[[H|H]|H]]|[[H|H]|H]]; revert H; apply G; auto.
  - intros (p & q & r & s & x & [(-> & ->)|[(-> & ->)|(-> & ->)]] & [(-> & ->)|[(-> & ->)|(-> & ->)]] & N & A & B); eauto 12.
Qed.

(** Strictly inside. *)
Definition inside2 (a b c x : pt) : Prop :=
  0 < area2 a b x / area2 a b c /\ 0 < area2 b c x / area2 a b c /\ 0 < area2 c a x / area2 a b c.

Lemma point_in_spec x a b c : area2 a b c <> 0 -> point_in x a b c = true <-> inside2 a b c x.
Proof.
  intros N. unfold point_in.
  assert (S1 : side x a b = - area2 a b x) by (unfold side, area2; ring). assert (S2 : side x b c = - area2 b c x) by (unfold side, area2; ring).
  assert (S3 : side x c a = - area2 c a x) by (unfold side, area2; ring). rewrite S1, S2, S3. rewrite andb_true_iff, !ltb_true.
  pose proof (area2_sum a b c x) as SUM. unfold inside2. set (p := area2 a b x) in *. set (q := area2 b c x) in *. set (r := area2 c a x) in *. set (s := area2 a b c) in *.
  assert (DP : forall t, (0 < t / s <-> 0 < t * s)).
  { intros t. assert (P2 : 0 < s * s) by (destruct (Rtotal_order s 0) as [|[|]]; [nra|contradiction|nra]).
    split; intros H.
    - replace (t * s) with (t / s * (s * s)) by (field; exact N). now apply Rmult_lt_0_compat.
    - replace (t / s) with (t * s * / (s * s)) by (field; exact N). apply Rmult_lt_0_compat; [exact H|now apply Rinv_0_lt_compat]. }
  rewrite !DP. split.
  - intros (A & B). destruct (Rtotal_order p 0) as [P|[P|P]].
    + assert (q < 0) by nra. assert (r < 0) by nra. repeat split; nra.
    + rewrite P in A. lra.
    + assert (0 < q) by nra. assert (0 < r) by nra. repeat split; nra.
  - intros (A & B & C). destruct (Rtotal_order s 0) as [P|[P|P]]; [|contradiction|].
    + assert (p < 0) by nra. assert (q < 0) by nra. assert (r < 0) by nra. split; nra.
    + assert (0 < p) by nra. assert (0 < q) by nra. assert (0 < r) by nra. split; nra.
Qed.

(** A segment that leaves a triangle crosses an edge. *)
Lemma first_zero f0 f1 g0 g1 h0 h1 : 0 <= f0 -> 0 <= g0 -> 0 <= h0 -> f1 <= 0 \/ g1 <= 0 \/ h1 <= 0 ->
  exists t, 0 <= t <= 1 /\ 0 <= f0 + t * (f1 - f0) /\ 0 <= g0 + t * (g1 - g0) /\ 0 <= h0 + t * (h1 - h0)
  /\ (f0 + t * (f1 - f0) = 0 \/ g0 + t * (g1 - g0) = 0 \/ h0 + t * (h1 - h0) = 0).
Proof.
  intros F G H E.
  (* the time at which one function is zero, or one if it stays positive *)
  assert (Z : forall a b, 0 <= a -> exists t, 0 <= t <= 1 /\ (forall s, 0 <= s <= t -> 0 <= a + s * (b - a)) /\ (b <= 0 -> a + t * (b - a) = 0)
    /\ (t = 1 \/ a + t * (b - a) = 0)).
  { clear. intros a b A. destruct (Rle_or_lt b 0) as [B|B].
    - destruct (Req_dec a b) as [->|D].
      + exists 0. split; [lra|]. split; [intros s S; lra|]. split; [intros _; lra|]. right. lra.
      + assert (P : 0 < a - b) by lra. pose proof (Rinv_0_lt_compat _ P) as I.
        assert (T : 0 <= a / (a - b) <= 1).
        { unfold Rdiv. split; [apply Rmult_le_pos; lra|]. apply Rmult_le_reg_r with (a - b); [exact P|]. rewrite Rmult_assoc, Rinv_l by lra. lra. }
        exists (a / (a - b)). split; [exact T|]. assert (E0 : a + a / (a - b) * (b - a) = 0) by (field; lra). repeat split; try (intros; exact E0); try (right; exact E0).
        intros s S. replace (a + s * (b - a)) with ((a / (a - b) - s) * (a - b)) by (field; lra). apply Rmult_le_pos; lra.
    - exists 1. split; [lra|]. split; [|split; [intros; lra|left; reflexivity]].
      intros s S. replace (a + s * (b - a)) with ((1 - s) * a + s * b) by ring. apply Rplus_le_le_0_compat; apply Rmult_le_pos; lra. }
  destruct (Z f0 f1 F) as (tf & Tf & Pf & Zf & Of). destruct (Z g0 g1 G) as (tg & Tg & Pg & Zg & Og). destruct (Z h0 h1 H) as (th & Th & Ph & Zh & Oh).
  set (t := Rmin tf (Rmin tg th)).
  assert (LF : t <= tf) by apply Rmin_l. assert (LG : t <= tg) by (apply Rle_trans with (1 := Rmin_r _ _), Rmin_l). assert (LH : t <= th) by (apply Rle_trans with (1 := Rmin_r _ _), Rmin_r).
  assert (T0 : 0 <= t) by (unfold t; repeat apply Rmin_glb; lra).
  exists t. split; [lra|]. split; [apply Pf; lra|]. split; [apply Pg; lra|]. split; [apply Ph; lra|].
  assert (EQ : t = tf \/ t = tg \/ t = th).
  { unfold t, Rmin. destruct (Rle_dec tg th); destruct (Rle_dec tf _); auto. }
  destruct EQ as [EQ|[EQ|EQ]].
  - destruct Of as [O|O]; [|left; rewrite EQ; exact O].
    destruct E as [E|[E|E]]; [left; rewrite EQ; auto| |].
    + right; left. replace t with tg by lra. auto.
    + right; right. replace t with th by lra. auto.
  - destruct Og as [O|O]; [|right; left; rewrite EQ; exact O].
    destruct E as [E|[E|E]]; [|right; left; rewrite EQ; auto|].
    + left. replace t with tf by lra. auto.
    + right; right. replace t with th by lra. auto.
  - destruct Oh as [O|O]; [|right; right; rewrite EQ; exact O].
    destruct E as [E|[E|E]]; [| |right; right; rewrite EQ; auto].
    + left. replace t with tf by lra. auto.
    + right; left. replace t with tg by lra. auto.
Qed.

Lemma area2_along a b p q t : area2 a b (at2 p q t) = area2 a b p + t * (area2 a b q - area2 a b p).
Proof. unfold area2, at2. cbn. ring. Qed.

(** A point of the triangle on the line of an edge is on the edge. *)
Lemma on_edge a b c x : area2 a b c <> 0 -> in2 a b c x -> area2 a b x = 0 -> on2 a b x.
Proof.
  intros N (p & q & r & P & Q & S & E & ->) Z.
  assert (E1 : area2 a b (mix2 a b c p q r) = r * area2 a b c) by (replace p with (1 - q - r) by lra; unfold area2, mix2; cbn; ring).
  rewrite E1 in Z. apply Rmult_integral in Z. destruct Z as [Z|Z]; [|contradiction]. subst r.
  exists q. split; [lra|]. apply pt_eq; unfold mix2, at2; cbn; replace p with (1 - q) by lra; ring.
Qed.

Lemma leaves a b c p q : area2 a b c <> 0 -> in2 a b c p -> ~ inside2 a b c q ->
  exists x r s, on2 p q x /\ edge_of a b c r s /\ on2 r s x.
Proof.
  intros N P Q. pose proof (proj2 (in2_sides a b c p N) P) as (A & B & C).
  assert (O : area2 a b q / area2 a b c <= 0 \/ area2 b c q / area2 a b c <= 0 \/ area2 c a q / area2 a b c <= 0).
  { destruct (Rle_or_lt (area2 a b q / area2 a b c) 0); [auto|]. destruct (Rle_or_lt (area2 b c q / area2 a b c) 0); [auto|].
    destruct (Rle_or_lt (area2 c a q / area2 a b c) 0); [auto|]. exfalso. apply Q. unfold inside2. auto. }
  destruct (first_zero _ _ _ _ _ _ A B C O) as (t & T & X & Y & Z & ZE).
  set (x := at2 p q t). exists x.
  assert (L : forall a' b', area2 a' b' p / area2 a b c + t * (area2 a' b' q / area2 a b c - area2 a' b' p / area2 a b c) = area2 a' b' x / area2 a b c).
  { intros. unfold x. rewrite area2_along. field. exact N. }
  rewrite !L in *. assert (IN : in2 a b c x) by (apply in2_sides; auto).
  assert (ZZ : forall v, v / area2 a b c = 0 -> v = 0).
  { intros v Hv. apply (f_equal (fun z => z * area2 a b c)) in Hv. unfold Rdiv in Hv. rewrite Rmult_assoc, Rinv_l, Rmult_1_r, Rmult_0_l in Hv by exact N. exact Hv. }
  assert (ON : on2 p q x) by (exists t; auto).
  destruct ZE as [E|[E|E]]; apply ZZ in E.
  - exists a, b. split; [exact ON|]. split; [left; auto|]. now apply (on_edge a b c).
  - exists b, c. split; [exact ON|]. split; [right; left; auto|]. apply (on_edge b c a); [now rewrite area2_rot|now apply in2_rot|exact E].
  - exists c, a. split; [exact ON|]. split; [right; right; auto|]. apply (on_edge c a b); [now rewrite <- area2_rot|now apply in2_rot, in2_rot|exact E].
Qed.

Lemma inside_in a b c x : area2 a b c <> 0 -> inside2 a b c x -> in2 a b c x.
Proof. intros N (A & B & C). apply in2_sides; [exact N|]. lra. Qed.

Lemma in2_convex a b c p q x : in2 a b c p -> in2 a b c q -> on2 p q x -> in2 a b c x.
Proof.
  intros (a1 & b1 & c1 & A1 & B1 & C1 & S1 & ->) (a2 & b2 & c2 & A2 & B2 & C2 & S2 & ->) (t & T & ->).
  assert (M : forall u v, 0 <= u -> 0 <= v -> 0 <= (1 - t) * u + t * v) by (intros; apply Rplus_le_le_0_compat; apply Rmult_le_pos; lra).
  exists ((1 - t) * a1 + t * a2), ((1 - t) * b1 + t * b2), ((1 - t) * c1 + t * c2). repeat split; try (apply M; assumption).
  - replace a1 with (1 - b1 - c1) by lra. replace a2 with (1 - b2 - c2) by lra. ring.
  - apply pt_eq; unfold mix2, at2; cbn; ring.
Qed.

Lemma edge_vertices a b c p q : edge_of a b c p q -> in2 a b c p /\ in2 a b c q.
Proof.
  assert (V0 : in2 a b c a) by (apply in2_edge, on2_start). assert (V1 : in2 a b c b) by (apply in2_edge, on2_end).
  assert (V2 : in2 a b c c). { apply in2_rot, in2_edge, on2_start. }
  intros [(-> & ->)|[(-> & ->)|(-> & ->)]]; auto.
Qed.

(** Triangles that meet: some of their edges meet, or one contains the first corner of the other. *)
Lemma meet_edges v0 v1 v2 u0 u1 u2 x : area2 v0 v1 v2 <> 0 -> area2 u0 u1 u2 <> 0 -> in2 v0 v1 v2 x -> in2 u0 u1 u2 x ->
  ~ inside2 u0 u1 u2 v0 -> ~ inside2 v0 v1 v2 u0 ->
  exists p q r s y, edge_of v0 v1 v2 p q /\ edge_of u0 u1 u2 r s /\ on2 p q y /\ on2 r s y.
Proof.
  intros NV NU XV XU OV OU.
  destruct (leaves u0 u1 u2 x v0 NU XU OV) as (y & r & s & Y1 & ER & Y2).
  assert (YV : in2 v0 v1 v2 y) by (apply (in2_convex _ _ _ x v0); [exact XV|apply in2_edge, on2_start|exact Y1]).
  (* along the edge of y to a corner w, and from there to u0 *)
  assert (STEP : forall e g a b, edge_of u0 u1 u2 a b -> on2 a b e -> on2 a b g -> in2 v0 v1 v2 e -> ~ inside2 v0 v1 v2 g ->
    exists p q r s y, edge_of v0 v1 v2 p q /\ edge_of u0 u1 u2 r s /\ on2 p q y /\ on2 r s y).
  { intros e g a b EA OE OG IE OO. destruct (leaves v0 v1 v2 e g NV IE OO) as (z & p & q & Z1 & EP & Z2).
    exists p, q, a, b, z. repeat split; try assumption.
    destruct OE as (t1 & T1 & ->), OG as (t2 & T2 & ->), Z1 as (t & T & ->).
    exists (t1 + t * (t2 - t1)). split; [split|].
    - replace (t1 + t * (t2 - t1)) with ((1 - t) * t1 + t * t2) by ring. apply Rplus_le_le_0_compat; apply Rmult_le_pos; lra.
    - assert (0 <= (1 - t) * (1 - t1) + t * (1 - t2)) by (apply Rplus_le_le_0_compat; apply Rmult_le_pos; lra). lra.
    - apply pt_eq; unfold at2; cbn; ring. }
  destruct ER as [(-> & ->)|[(-> & ->)|(-> & ->)]].
  - apply (STEP y u0 u0 u1); auto; [left; auto|apply on2_start].
  - (* via u1 *)
    destruct (point_in u1 v0 v1 v2) eqn:W.
    + apply (STEP u1 u0 u0 u1); auto; [left; auto|apply on2_end|apply on2_start|].
      apply inside_in; [exact NV|]. now apply point_in_spec.
    + apply (STEP y u1 u1 u2); auto; [right; left; auto|apply on2_start|]. intros I. apply (point_in_spec u1 v0 v1 v2 NV) in I. congruence.
  - apply (STEP y u0 u2 u0); auto; [right; right; auto|apply on2_end].
Qed.

(** Parallel edges that meet: then some others do. *)
Lemma turn_area a b c : turn a b b c = area2 a b c.
Proof. unfold turn, area2. ring. Qed.

Lemma collinear_on a b x r : on2 a b x -> turn a b x r = 0 -> a <> b -> exists t, r = at2 a b t.
Proof.
  intros (t & T & ->) Z D.
  assert (L : 0 < (fst b - fst a) * (fst b - fst a) + (snd b - snd a) * (snd b - snd a)).
  { destruct (Req_dec (fst a) (fst b)) as [E|E].
    - destruct (Req_dec (snd a) (snd b)) as [F|F]; [exfalso; apply D; now apply pt_eq|]. rewrite E. assert (0 < (snd b - snd a) * (snd b - snd a)) by nra. lra.
    - assert (0 < (fst b - fst a) * (fst b - fst a)) by nra. assert (0 <= (snd b - snd a) * (snd b - snd a)) by apply Rle_0_sqr. lra. }
  unfold turn, at2 in Z. cbn [fst snd] in Z. set (dx := fst b - fst a) in *. set (dy := snd b - snd a) in *. set (l := dx * dx + dy * dy) in *.
  exists (((fst r - fst a) * dx + (snd r - snd a) * dy) / l).
  assert (ZZ : dy * (fst r - fst a) = dx * (snd r - snd a)).
  { clear L. subst dx dy. lra. }
  apply pt_eq; unfold at2; cbn [fst snd]; fold dx dy; apply Rmult_eq_reg_r with l; try lra.
  - replace ((fst a + ((fst r - fst a) * dx + (snd r - snd a) * dy) / l * dx) * l) with (fst a * l + ((fst r - fst a) * dx + (snd r - snd a) * dy) * dx) by (field; lra).
    unfold l. replace ((snd r - snd a) * dy * dx) with (dx * (snd r - snd a) * dy) by ring.
    replace (((fst r - fst a) * dx + (snd r - snd a) * dy) * dx) with ((fst r - fst a) * dx * dx + dx * (snd r - snd a) * dy) by ring. rewrite <- ZZ. ring.
  - replace ((snd a + ((fst r - fst a) * dx + (snd r - snd a) * dy) / l * dy) * l) with (snd a * l + ((fst r - fst a) * dx + (snd r - snd a) * dy) * dy) by (field; lra).
    unfold l. replace (((fst r - fst a) * dx + (snd r - snd a) * dy) * dy) with (dy * (fst r - fst a) * dx + (snd r - snd a) * dy * dy) by ring. rewrite ZZ. ring.
Qed.

Lemma turn_anti a b c d : turn c d a b = - turn a b c d. Proof. unfold turn. ring. Qed.

Lemma other_edge a b c r s w : area2 a b c <> 0 -> edge_of a b c r s -> w = r \/ w = s ->
  exists r' s', edge_of a b c r' s' /\ on2 r' s' w /\ turn r s r' s' <> 0.
Proof.
  intros N E W.
  assert (T1 : turn a b b c <> 0) by (rewrite turn_area; exact N). assert (T2 : turn b c c a <> 0) by (rewrite turn_area, area2_rot; exact N).
  assert (T3 : turn c a a b <> 0) by (rewrite turn_area, <- area2_rot; exact N).
  assert (T4 : turn a b c a <> 0) by (rewrite turn_anti; lra). assert (T5 : turn b c a b <> 0) by (rewrite turn_anti; lra). assert (T6 : turn c a b c <> 0) by (rewrite turn_anti; lra).
  destruct E as [(-> & ->)|[(-> & ->)|(-> & ->)]], W as [->| ->].
  - exists c, a. unfold edge_of. repeat split; auto using on2_start, on2_end.
  - exists b, c. unfold edge_of. repeat split; auto using on2_start, on2_end.
  - exists a, b. unfold edge_of. repeat split; auto using on2_start, on2_end.
  - exists c, a. unfold edge_of. repeat split; auto using on2_start, on2_end.
  - exists b, c. unfold edge_of. repeat split; auto using on2_start, on2_end.
  - exists a, b. unfold edge_of. repeat split; auto using on2_start, on2_end.
Qed.

Lemma turn_step p q r s r' s' : turn p q r s = 0 -> turn r s r' s' <> 0 -> p <> q -> turn p q r' s' <> 0.
Proof.
  intros A B D C. apply D. apply pt_eq.
  - assert (turn r s r' s' * (fst q - fst p) = 0).
    { replace (turn r s r' s' * (fst q - fst p)) with (turn p q r' s' * (fst s - fst r) - turn p q r s * (fst s' - fst r')) by (unfold turn; ring). rewrite A, C. ring. }
    apply Rmult_integral in H. destruct H; [contradiction|lra].
  - assert (turn r s r' s' * (snd q - snd p) = 0).
    { replace (turn r s r' s' * (snd q - snd p)) with (turn p q r' s' * (snd s - snd r) - turn p q r s * (snd s' - snd r')) by (unfold turn; ring). rewrite A, C. ring. }
    apply Rmult_integral in H. destruct H; [contradiction|lra].
Qed.

Lemma edge_proper a b c p q : area2 a b c <> 0 -> edge_of a b c p q -> p <> q.
Proof. intros N E ->. apply N. destruct E as [(-> & ->)|[(-> & ->)|(-> & ->)]]; unfold area2; ring. Qed.

(** Overlapping segments of one line: a corner of one is on the other. *)
Lemma overlap p q r s y : p <> q -> r <> s -> turn p q r s = 0 -> on2 p q y -> on2 r s y ->
  (exists w, (w = r \/ w = s) /\ on2 p q w) \/ (exists w, (w = p \/ w = q) /\ on2 r s w).
Proof.
  intros DP DR T Y1 (k & K & E).
  assert (Zr : turn p q y r = 0) by (rewrite E; unfold turn, at2 in *; cbn; nra).
  assert (Zs : turn p q y s = 0) by (rewrite E; unfold turn, at2 in *; cbn; nra).
  destruct (collinear_on p q y r Y1 Zr DP) as (tr & ER). destruct (collinear_on p q y s Y1 Zs DP) as (ts & ES).
  destruct Y1 as (ty & TY & EY).
  assert (M : ty = tr + k * (ts - tr)).
  { assert (X : fst (at2 p q ty) = fst (at2 p q (tr + k * (ts - tr)))) by (rewrite <- EY, E, ER, ES; unfold at2; cbn; ring).
    assert (Y : snd (at2 p q ty) = snd (at2 p q (tr + k * (ts - tr)))) by (rewrite <- EY, E, ER, ES; unfold at2; cbn; ring).
    unfold at2 in X, Y. cbn in X, Y. destruct (Req_dec (fst p) (fst q)) as [F|F].
    - destruct (Req_dec (snd p) (snd q)) as [G|G]; [exfalso; apply DP; now apply pt_eq|]. apply Rmult_eq_reg_r with (snd q - snd p); lra.
    - apply Rmult_eq_reg_r with (fst q - fst p); lra. }
  destruct (Rle_or_lt 0 tr) as [A|A]; [destruct (Rle_or_lt tr 1) as [B|B]|].
  - left. exists r. split; [auto|]. exists tr. auto.
  - destruct (Rle_or_lt 0 ts) as [C|C]; [destruct (Rle_or_lt ts 1) as [D|D]|].
    + left. exists s. split; [auto|]. exists ts. auto.
    + exfalso. assert (0 <= (1 - k) * (tr - 1) + k * (ts - 1)) by (apply Rplus_le_le_0_compat; apply Rmult_le_pos; lra).
      assert (Q : ty = 1) by lra. assert (0 < (1 - k) * (tr - 1) + k * (ts - 1)).
      { destruct (Req_dec k 0) as [-> |KN]; [lra|]. assert (0 < k * (ts - 1)) by (apply Rmult_lt_0_compat; lra). assert (0 <= (1 - k) * (tr - 1)) by (apply Rmult_le_pos; lra). lra. }
      lra.
    + right. exists p. split; [auto|]. exists (tr / (tr - ts)). split.
      * assert (P : 0 < tr - ts) by lra. pose proof (Rinv_0_lt_compat _ P). unfold Rdiv. split; [apply Rmult_le_pos; lra|]. apply Rmult_le_reg_r with (tr - ts); [exact P|]. rewrite Rmult_assoc, Rinv_l by lra. lra.
      * rewrite ER, ES. apply pt_eq; unfold at2; cbn; field; lra.
  - destruct (Rle_or_lt 0 ts) as [C|C]; [destruct (Rle_or_lt ts 1) as [D|D]|].
    + left. exists s. split; [auto|]. exists ts. auto.
    + right. exists p. split; [auto|]. exists (tr / (tr - ts)). split.
      * assert (P : 0 < ts - tr) by lra. pose proof (Rinv_0_lt_compat _ P). replace (tr / (tr - ts)) with (- tr * / (ts - tr)) by (field; lra). split; [apply Rmult_le_pos; lra|]. apply Rmult_le_reg_r with (ts - tr); [exact P|]. rewrite Rmult_assoc, Rinv_l by lra. lra.
      * rewrite ER, ES. apply pt_eq; unfold at2; cbn; field; lra.
    + exfalso. assert (0 < (1 - k) * - tr + k * - ts).
      { destruct (Req_dec k 0) as [-> |KN]; [lra|]. assert (0 < k * - ts) by (apply Rmult_lt_0_compat; lra). assert (0 <= (1 - k) * - tr) by (apply Rmult_le_pos; lra). lra. }
      lra.
Qed.

Lemma cross_edges v0 v1 v2 u0 u1 u2 p q r s y : area2 v0 v1 v2 <> 0 -> area2 u0 u1 u2 <> 0 ->
  edge_of v0 v1 v2 p q -> edge_of u0 u1 u2 r s -> on2 p q y -> on2 r s y ->
  exists p q r s x, edge_of v0 v1 v2 p q /\ edge_of u0 u1 u2 r s /\ turn p q r s <> 0 /\ on2 p q x /\ on2 r s x.
Proof.
  intros NV NU EV EU YV YU. destruct (Req_dec (turn p q r s) 0) as [T|T].
  - pose proof (edge_proper _ _ _ _ _ NV EV) as DP. pose proof (edge_proper _ _ _ _ _ NU EU) as DR.
    destruct (overlap p q r s y DP DR T YV YU) as [(w & W & O)|(w & W & O)].
    + destruct (other_edge _ _ _ _ _ w NU EU W) as (r' & s' & E' & O' & T'). exists p, q, r', s', w. repeat split; try assumption.
      now apply (turn_step p q r s r' s').
    + destruct (other_edge _ _ _ _ _ w NV EV W) as (p' & q' & E' & O' & T'). exists p', q', r, s, w. repeat split; try assumption.
      rewrite turn_anti. apply Ropp_neq_0_compat. apply (turn_step r s p q p' q'); [rewrite turn_anti; lra|exact T'|exact DR].
  - exists p, q, r, s, y. auto.
Qed.

Lemma plane_exact v0 v1 v2 u0 u1 u2 : area2 v0 v1 v2 <> 0 -> area2 u0 u1 u2 <> 0 ->
  edge_edges v0 v1 u0 u1 u2 || edge_edges v1 v2 u0 u1 u2 || edge_edges v2 v0 u0 u1 u2 || point_in v0 u0 u1 u2 || point_in u0 v0 v1 v2 = true
  <-> exists x, in2 v0 v1 v2 x /\ in2 u0 u1 u2 x.
Proof.
  intros NV NU. rewrite orb_true_iff, orb_true_iff. rewrite edges_spec, !point_in_spec by assumption. split.
  - intros [[(p & q & r & s & x & EV & EU & _ & A & B)|I]|I].
    + exists x. destruct (edge_vertices _ _ _ _ _ EV) as (V1 & V2), (edge_vertices _ _ _ _ _ EU) as (U1 & U2).
      split; [apply (in2_convex _ _ _ p q)|apply (in2_convex _ _ _ r s)]; assumption.
    + exists v0. split; [apply in2_edge, on2_start|now apply inside_in].
    + exists u0. split; [now apply inside_in|apply in2_edge, on2_start].
  - intros (x & XV & XU). destruct (point_in v0 u0 u1 u2) eqn:P1; [left; right; now apply point_in_spec|].
    destruct (point_in u0 v0 v1 v2) eqn:P2; [right; now apply point_in_spec|]. left; left.
    assert (O1 : ~ inside2 u0 u1 u2 v0) by (intros I; apply (point_in_spec v0 u0 u1 u2 NU) in I; congruence).
    assert (O2 : ~ inside2 v0 v1 v2 u0) by (intros I; apply (point_in_spec u0 v0 v1 v2 NV) in I; congruence).
    destruct (meet_edges v0 v1 v2 u0 u1 u2 x NV NU XV XU O1 O2) as (p & q & r & s & y & EV & EU & A & B).
    now apply (cross_edges v0 v1 v2 u0 u1 u2 p q r s y).
Qed.
