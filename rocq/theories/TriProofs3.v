(** The triangle test is exact when no corner is near the plane of the other triangle. *)
From Coq Require Import Reals Lra Psatz Bool.
From Verif Require Import Words VecModel VecSpec GeomModel GeomSpec GeomProofs TriModel TriSpec TriProofs TriProofs2.
Local Open Scope R_scope.

(** ** Intervals on a line *)
Definition between (a b x : R) : Prop := a <= x <= b \/ b <= x <= a.

Lemma overlap_spec a b c d :
  (let (s0, s1) := sort a b in let (t0, t1) := sort c d in if ltb s1 t0 || ltb t1 s0 then false else true) = true
  <-> exists x, between a b x /\ between c d x.
Proof.
  unfold sort, between. destruct (ltb b a) eqn:A, (ltb d c) eqn:C; booleans;
    match goal with |- context [if ?B1 || ?B2 then _ else _] => destruct B1 eqn:E1; destruct B2 eqn:E2; cbn [orb]; booleans end;
    split; try discriminate; try reflexivity; try (intros (x & X & Y); lra); intros _.
  - exists (Rmax b d). unfold Rmax. destruct (Rle_dec b d); lra.
  - exists (Rmax b c). unfold Rmax. destruct (Rle_dec b c); lra.
  - exists (Rmax a d). unfold Rmax. destruct (Rle_dec a d); lra.
  - exists (Rmax a c). unfold Rmax. destruct (Rle_dec a c); lra.
Qed.

Lemma between_scale k a b x : k <> 0 -> between (k * a) (k * b) (k * x) <-> between a b x.
Proof.
  intros N. unfold between.
  assert (P : forall u v, 0 < k -> (k * u <= k * v <-> u <= v)) by (intros u v K; split; intros H; [now apply Rmult_le_reg_l with k|apply Rmult_le_compat_l; lra]).
  assert (M : forall u v, k < 0 -> (k * u <= k * v <-> v <= u)).
  { intros u v K. split; intros H; [apply Rmult_le_reg_l with (- k); lra|]. assert (- k * v <= - k * u) by (apply Rmult_le_compat_l; lra). lra. }
  destruct (Rtotal_order k 0) as [K|[K|K]]; [|contradiction|].
  - rewrite !M by exact K. tauto.
  - rewrite !P by exact K. tauto.
Qed.

Section Line.
  Variable L : v3 -> Prop.
  Variable co : v3 -> R.
  Hypothesis co_along : forall a b t, co (along a b t) = (1 - t) * co a + t * co b.
  Hypothesis L_along : forall a b t, L a -> L b -> L (along a b t).
  Hypothesis inj : forall x y, L x -> L y -> co x = co y -> x = y.

  Lemma segment_between a b x : L a -> L b -> in_segment a b x <-> L x /\ between (co a) (co b) (co x).
  Proof using co_along L_along inj.
    intros A B. split.
    - intros (t & T & ->). split; [auto|]. rewrite co_along. unfold between. destruct (Rle_or_lt (co a) (co b)) as [H|H]; [left|right].
      + assert (0 <= t * (co b - co a)) by (apply Rmult_le_pos; lra). assert (0 <= (1 - t) * (co b - co a)) by (apply Rmult_le_pos; lra). lra.
      + assert (0 <= t * (co a - co b)) by (apply Rmult_le_pos; lra). assert (0 <= (1 - t) * (co a - co b)) by (apply Rmult_le_pos; lra). lra.
    - intros (X & H). destruct (Req_dec (co a) (co b)) as [E|E].
      + exists 0. split; [lra|]. apply inj; auto. rewrite co_along. unfold between in H. lra.
      + exists ((co x - co a) / (co b - co a)). split.
        * apply unit_iff; [lra|]. unfold between in H. destruct (Rtotal_order (co b - co a) 0) as [K|[K|K]]; [right|lra|left]; lra.
        * apply inj; auto. rewrite co_along. field. lra.
  Qed.

  Lemma meet_between a b c d : L a -> L b -> L c -> L d ->
    meet (in_segment a b) (in_segment c d) <-> exists x, between (co a) (co b) x /\ between (co c) (co d) x.
  Proof using co_along L_along inj.
    intros A B C D. split.
    - intros (x & X & Y). apply (segment_between a b x A B) in X. apply (segment_between c d x C D) in Y. exists (co x). tauto.
    - intros (z & X & Y).
      assert (E : exists x, L x /\ co x = z).
      { unfold between in X. destruct (Req_dec (co a) (co b)) as [E|E]; [exists a; split; [exact A|lra]|].
        exists (along a b ((z - co a) / (co b - co a))). split; [auto|]. rewrite co_along. field. lra. }
      destruct E as (x & LX & <-). exists x. rewrite !segment_between by assumption. tauto.
  Qed.

  (** The choice of the ends. *)
  Lemma chosen a1 a2 b1 b2 s0 s1 t0 t1 f1 f2 x : L a1 -> L a2 -> L b1 -> L b2 ->
    sort2 (co a1) (co a2) = (s0, s1, f1) -> sort2 (co b1) (co b2) = (t0, t1, f2) -> ltb s1 t0 || ltb t1 s0 = false ->
    in_segment (if ltb t0 s0 then (if f1 then a2 else a1) else (if f2 then b2 else b1))
               (if ltb t0 s0 then (if ltb t1 s1 then (if f2 then b1 else b2) else (if f1 then a1 else a2)) else (if ltb s1 t1 then (if f1 then a1 else a2) else (if f2 then b1 else b2))) x
    <-> in_segment a1 a2 x /\ in_segment b1 b2 x.
  Proof using co_along L_along inj.
    intros A1 A2 B1 B2 S T O. rewrite !segment_between; try assumption; try (repeat match goal with |- context [if ?b then _ else _] => destruct b end; assumption).
    unfold sort2 in S, T. apply orb_false_iff in O. destruct O as (O1 & O2). unfold between.
    destruct (ltb (co a2) (co a1)) eqn:E1, (ltb (co b2) (co b1)) eqn:E2; injection S as <- <- <-; injection T as <- <- <-; booleans;
      repeat match goal with |- context [ltb ?p ?q] => let E := fresh "E" in destruct (ltb p q) eqn:E end; booleans;
      (split; [intros (X & Y); split; split; try exact X; lra|intros ((X & Y) & (_ & Z)); split; [exact X|lra]]).
  Qed.
End Line.

(** ** One plane *)
Lemma cross_fields n m : cross n m = origin -> vy n * vz m - vz n * vy m = 0 /\ vz n * vx m - vx n * vz m = 0 /\ vx n * vy m - vy n * vx m = 0.
Proof. destruct n, m. unfold cross, origin. cbn. intros E. injection E as E1 E2 E3. auto. Qed.
Lemma sub_zero x y : sub3 x y = origin -> x = y.
Proof. destruct x, y. unfold sub3, origin. cbn. intros Z. injection Z as Z1 Z2 Z3. f_equal; lra. Qed.
Lemma axes_spec n : n <> origin ->
  (axes n = (1, 2)%nat /\ vx n <> 0) \/ (axes n = (0, 1)%nat /\ vz n <> 0) \/ (axes n = (0, 2)%nat /\ vy n <> 0).
Proof.
  intros N. unfold axes, abs3. cbn [vx vy vz].
  assert (G : forall a, Rabs a <= 0 -> a = 0) by (intros a H; pose proof (Rabs_pos a); destruct (Req_dec a 0) as [|Y]; [assumption|apply Rabs_no_R0 in Y; lra]).
  pose proof (Rabs_pos (vx n)). pose proof (Rabs_pos (vy n)). pose proof (Rabs_pos (vz n)).
  destruct (ltb (Rabs (vy n)) (Rabs (vx n))) eqn:A; booleans.
  - destruct (ltb (Rabs (vz n)) (Rabs (vx n))) eqn:B; booleans.
    + left. split; [reflexivity|]. intros Z. rewrite Z, Rabs_R0 in *. lra.
    + right; left. split; [reflexivity|]. intros Z. rewrite Z, Rabs_R0 in *. lra.
  - destruct (ltb (Rabs (vy n)) (Rabs (vz n))) eqn:B; booleans.
    + right; left. split; [reflexivity|]. intros Z. rewrite Z, Rabs_R0 in *. lra.
    + right; right. split; [reflexivity|]. intros Z. rewrite Z, Rabs_R0 in *. apply N. apply v3_eq; cbn; first [exact Z|apply G; lra].
Qed.

Lemma volume_plane p0 p1 p2 x y : volume p0 p1 p2 x = 0 -> volume p0 p1 p2 y = 0 -> dot3 (normal_of p0 p1 p2) (sub3 x y) = 0.
Proof. intros X Y. rewrite volume_dot in X, Y. transitivity (dot3 (normal_of p0 p1 p2) (sub3 x p0) - dot3 (normal_of p0 p1 p2) (sub3 y p0)); [unfold dot3, sub3; cbn; ring|lra]. Qed.

Lemma coord_sub a b k : coord (sub3 a b) k = coord a k - coord b k.
Proof. destruct k as [|[|k]]; reflexivity. Qed.

Lemma flat_meet i0 i1 v0 v1 v2 u0 u1 u2 : in_one_plane v0 v1 v2 u0 u1 u2 ->
  (forall e, dot3 (normal_of v0 v1 v2) e = 0 -> coord e i0 = 0 -> coord e i1 = 0 -> e = origin) ->
  (exists x, in2 (flat i0 i1 v0) (flat i0 i1 v1) (flat i0 i1 v2) x /\ in2 (flat i0 i1 u0) (flat i0 i1 u1) (flat i0 i1 u2) x)
  <-> meet (in_triangle v0 v1 v2) (in_triangle u0 u1 u2).
Proof.
  intros (P0 & P1 & P2) J.
  assert (F : forall p q r a b c, mix2 (flat i0 i1 p) (flat i0 i1 q) (flat i0 i1 r) a b c = flat i0 i1 (mix p q r a b c)).
  { intros. unfold flat, mix2, mix. apply pt_eq; cbn [fst snd]; [destruct i0 as [|[|]]|destruct i1 as [|[|]]]; reflexivity. }
  split.
  - intros (x & (a & b & c & A & B & C & S & E1) & (a' & b' & c' & A' & B' & C' & S' & E2)). rewrite F in E1, E2.
    exists (mix v0 v1 v2 a b c). split; [exists a, b, c; auto|].
    assert (EQ : mix v0 v1 v2 a b c = mix u0 u1 u2 a' b' c').
    { rewrite E1 in E2. unfold flat in E2. injection E2 as X Y.
      assert (Z : sub3 (mix v0 v1 v2 a b c) (mix u0 u1 u2 a' b' c') = origin).
      { apply J; [|rewrite coord_sub; lra|rewrite coord_sub; lra]. apply volume_plane.
        - apply volume_self. exists a, b, c. auto.
        - rewrite volume_mix by exact S'. rewrite P0, P1, P2. ring. }
      now apply sub_zero. }
    rewrite EQ. exists a', b', c'. auto.
  - intros (x & (a & b & c & A & B & C & S & E1) & (a' & b' & c' & A' & B' & C' & S' & E2)).
    exists (flat i0 i1 x). split; [exists a, b, c|exists a', b', c']; rewrite F; repeat split; try assumption; congruence.
Qed.

Lemma coplanar_exact v0 v1 v2 u0 u1 u2 : normal_of v0 v1 v2 <> origin -> normal_of u0 u1 u2 <> origin -> in_one_plane v0 v1 v2 u0 u1 u2 ->
  coplanar_tri_tri (normal_of v0 v1 v2) v0 v1 v2 u0 u1 u2 = true <-> meet (in_triangle v0 v1 v2) (in_triangle u0 u1 u2).
Proof.
  intros NV NU PL. pose proof PL as (P0 & P1 & P2).
  assert (PAR : cross (normal_of v0 v1 v2) (normal_of u0 u1 u2) = origin).
  { apply orth_parallel; now apply volume_plane. }
  destruct (cross_fields _ _ PAR) as (C1 & C2 & C3). set (m := normal_of u0 u1 u2) in *.
  assert (G : forall a b, a <> 0 -> a * b = 0 -> b = 0) by (intros a b Na H; apply Rmult_integral in H; tauto).
  unfold coplanar_tri_tri. destruct (axes_spec _ NV) as [(-> & N)|[(-> & N)|(-> & N)]].
  - rewrite plane_exact.
    + apply flat_meet; [exact PL|]. intros e D E1 E2. cbn [coord] in E1, E2. apply v3_eq; cbn; auto. apply (G _ _ N). unfold dot3 in D. rewrite E1, E2 in D. lra.
    + replace (area2 _ _ _) with (vx (normal_of v0 v1 v2)); [exact N|]. unfold area2, flat, normal_of, cross, sub3, coord. cbn. ring.
    + replace (area2 _ _ _) with (vx m); [|unfold m, area2, flat, normal_of, cross, sub3, coord; cbn; ring].
      intros Z. apply NU. rewrite Z in C2, C3. apply v3_eq; [exact Z|change (vy m = 0); apply (G _ _ N); lra|change (vz m = 0); apply (G _ _ N); lra].
  - rewrite plane_exact.
    + apply flat_meet; [exact PL|]. intros e D E1 E2. cbn [coord] in E1, E2. apply v3_eq; cbn; auto. apply (G _ _ N). unfold dot3 in D. rewrite E1, E2 in D. lra.
    + replace (area2 _ _ _) with (vz (normal_of v0 v1 v2)); [exact N|]. unfold area2, flat, normal_of, cross, sub3, coord. cbn. ring.
    + replace (area2 _ _ _) with (vz m); [|unfold m, area2, flat, normal_of, cross, sub3, coord; cbn; ring].
      intros Z. apply NU. rewrite Z in C1, C2. apply v3_eq; [change (vx m = 0); apply (G _ _ N); lra|change (vy m = 0); apply (G _ _ N); lra|exact Z].
  - rewrite plane_exact.
    + apply flat_meet; [exact PL|]. intros e D E1 E2. cbn [coord] in E1, E2. apply v3_eq; cbn; auto. apply (G _ _ N). unfold dot3 in D. rewrite E1, E2 in D. lra.
    + replace (area2 _ _ _) with (- vy (normal_of v0 v1 v2)); [lra|]. unfold area2, flat, normal_of, cross, sub3, coord. cbn. ring.
    + replace (area2 _ _ _) with (- vy m); [|unfold m, area2, flat, normal_of, cross, sub3, coord; cbn; ring].
      intros Z. assert (Z' : vy m = 0) by lra. apply NU. rewrite Z' in C1, C3. apply v3_eq; [change (vx m = 0); apply (G _ _ N); lra|exact Z'|change (vz m = 0); apply (G _ _ N); lra].
Qed.

(** The two planes agree. *)
Lemma plane_swap v0 v1 v2 u0 u1 u2 : normal_of v0 v1 v2 <> origin -> normal_of u0 u1 u2 <> origin ->
  in_one_plane u0 u1 u2 v0 v1 v2 -> in_one_plane v0 v1 v2 u0 u1 u2.
Proof.
  intros NV NU (P0 & P1 & P2).
  assert (PAR : cross (normal_of v0 v1 v2) (normal_of u0 u1 u2) = origin) by (apply cross_anti, orth_parallel; now apply volume_plane).
  assert (Z : forall x, volume u0 u1 u2 x = 0 -> volume v0 v1 v2 x = 0).
  { intros x X. rewrite volume_dot. apply (parallel_orth _ _ _ PAR NU). now apply volume_plane. }
  assert (I : forall a b c, 0 <= a -> 0 <= b -> 0 <= c -> a + b + c = 1 -> volume v0 v1 v2 (mix u0 u1 u2 a b c) = 0).
  { intros. apply Z, volume_self. exists a, b, c. auto. }
  repeat split.
  - replace u0 with (mix u0 u1 u2 1 0 0) by (apply v3_eq; unfold mix; cbn; ring). apply I; lra.
  - replace u1 with (mix u0 u1 u2 0 1 0) at 1 by (apply v3_eq; unfold mix; cbn; ring). apply I; lra.
  - replace u2 with (mix u0 u1 u2 0 0 1) at 1 by (apply v3_eq; unfold mix; cbn; ring). apply I; lra.
Qed.

(** ** The general case *)
Definition form (vv0 vv1 vv2 d0 d1 d2 : R) : R * R * R * R * R := (vv0, (vv1 - vv0) * d0, (vv2 - vv0) * d0, d0 - d1, d0 - d2).

Lemma intervals_pick vv0 vv1 vv2 d0 d1 d2 : intervals vv0 vv1 vv2 d0 d1 d2 =
  match pick d0 d1 d2 with None => None | Some O => Some (form vv0 vv1 vv2 d0 d1 d2) | Some (S O) => Some (form vv1 vv0 vv2 d1 d0 d2) | Some _ => Some (form vv2 vv0 vv1 d2 d0 d1) end.
Proof.
  unfold intervals, pick, form. destruct (ltb 0 (d0 * d1)); [reflexivity|]. destruct (ltb 0 (d0 * d2)); [reflexivity|].
  destruct (ltb 0 (d1 * d2) || nonzero d0); [reflexivity|]. destruct (nonzero d1); [reflexivity|]. destruct (nonzero d2); reflexivity.
Qed.
Lemma isectline_pick x0 x1 x2 vv0 vv1 vv2 d0 d1 d2 : isectline x0 x1 x2 vv0 vv1 vv2 d0 d1 d2 =
  match pick d0 d1 d2 with None => None | Some O => Some (isect2 x0 x1 x2 vv0 vv1 vv2 d0 d1 d2) | Some (S O) => Some (isect2 x1 x0 x2 vv1 vv0 vv2 d1 d0 d2)
  | Some _ => Some (isect2 x2 x0 x1 vv2 vv0 vv1 d2 d0 d1) end.
Proof.
  unfold isectline, pick. destruct (ltb 0 (d0 * d1)); [reflexivity|]. destruct (ltb 0 (d0 * d2)); [reflexivity|].
  destruct (ltb 0 (d1 * d2) || nonzero d0); [reflexivity|]. destruct (nonzero d1); [reflexivity|]. destruct (nonzero d2); reflexivity.
Qed.

(** The part of a triangle in another plane. *)
Lemma cut_exists k v0 v1 v2 p0 p1 p2 : let f := volume p0 p1 p2 in
  ~ (0 < f v0 * f v1 /\ 0 < f v0 * f v2) -> ~ (f v0 = 0 /\ f v1 = 0 /\ f v2 = 0) ->
  exists a b c, lone (f a) (f b) (f c) /\ (forall x, in_triangle a b c x <-> in_triangle v0 v1 v2 x) /\
    intervals (coord v0 k) (coord v1 k) (coord v2 k) (f v0) (f v1) (f v2) = Some (form (coord a k) (coord b k) (coord c k) (f a) (f b) (f c)) /\
    isectline v0 v1 v2 (coord v0 k) (coord v1 k) (coord v2 k) (f v0) (f v1) (f v2) = Some (isect2 a b c (coord a k) (coord b k) (coord c k) (f a) (f b) (f c)).
Proof.
  intros f N Z. rewrite intervals_pick, isectline_pick. destruct (pick (f v0) (f v1) (f v2)) as [j|] eqn:E.
  - destruct (pick_lone _ _ _ _ N E) as [(-> & L)|[(-> & L)|(-> & L)]].
    + exists v0, v1, v2. repeat split; auto; apply L.
    + exists v1, v0, v2. repeat split; try apply L; try apply triangle_102; auto.
    + exists v2, v0, v1. repeat split; try apply L; try apply triangle_201; auto.
  - apply pick_none in E. contradiction.
Qed.

Lemma coord_along a b t k : coord (along a b t) k = (1 - t) * coord a k + t * coord b k.
Proof. destruct k as [|[|k]]; cbn; ring. Qed.

Lemma isect2_cut a b c k da db dc : da <> db -> da <> dc -> isect2 a b c (coord a k) (coord b k) (coord c k) da db dc
  = Some (coord (cutp a b da db) k, coord (cutp a c da dc) k, cutp a b da db, cutp a c da dc).
Proof.
  intros N1 N2. assert (Z1 : nonzero (da - db) = true) by (apply nonzero_true; lra). assert (Z2 : nonzero (da - dc) = true) by (apply nonzero_true; lra).
  unfold isect2, cutp. rewrite Z1, Z2. cbn [andb]. rewrite !coord_along. set (s := da / (da - db)). set (t := da / (da - dc)).
  assert (E1 : coord a k + (coord b k - coord a k) * s = (1 - s) * coord a k + s * coord b k) by ring.
  assert (E2 : coord a k + (coord c k - coord a k) * t = (1 - t) * coord a k + t * coord c k) by ring.
  assert (E3 : add3 (scale3 (sub3 b a) s) a = along a b s) by (apply v3_eq; unfold add3, scale3, sub3, along; cbn; ring).
  assert (E4 : add3 a (scale3 (sub3 c a) t) = along a c t) by (apply v3_eq; unfold add3, scale3, sub3, along; cbn; ring).
  rewrite E1, E2, E3, E4. reflexivity.
Qed.

Lemma sort2_sort a b s t f : sort2 a b = (s, t, f) -> sort a b = (s, t).
Proof. unfold sort, sort2. destruct (ltb b a); intros E; injection E as <- <- _; reflexivity. Qed.

Section Exact.
  Variable eps : R.
  Variables v0 v1 v2 u0 u1 u2 : v3.
  Hypothesis NV : normal_of v0 v1 v2 <> origin.
  Hypothesis NU : normal_of u0 u1 u2 <> origin.
  Hypothesis SET : all_settled eps v0 v1 v2 u0 u1 u2.
  Let fu := volume v0 v1 v2.
  Let fv := volume u0 u1 u2.
  Let k := main_axis (cross (normal_of v0 v1 v2) (normal_of u0 u1 u2)).
  Let L (x : v3) : Prop := fu x = 0 /\ fv x = 0.

  Lemma same_side p0 p1 p2 q0 q1 q2 : 0 < volume p0 p1 p2 q0 * volume p0 p1 p2 q1 -> 0 < volume p0 p1 p2 q0 * volume p0 p1 p2 q2 ->
    ~ meet (in_triangle p0 p1 p2) (in_triangle q0 q1 q2).
  Proof.
    clear. intros A B (x & X & (a & b & c & PA & PB & PC & S & ->)). apply volume_self in X. rewrite volume_mix in X by exact S.
    set (g0 := volume p0 p1 p2 q0) in *. set (g1 := volume p0 p1 p2 q1) in *. set (g2 := volume p0 p1 p2 q2) in *.
    assert (Y : a * (g0 * g0) + b * (g0 * g1) + c * (g0 * g2) = 0) by (transitivity (g0 * (a * g0 + b * g1 + c * g2)); [ring|rewrite X; ring]).
    assert (G0 : 0 < g0 * g0) by (destruct (Rtotal_order g0 0) as [|[E|]]; [nra|rewrite E in A; lra|nra]).
    assert (0 <= a * (g0 * g0)) by (apply Rmult_le_pos; lra). assert (0 <= b * (g0 * g1)) by (apply Rmult_le_pos; lra). assert (0 <= c * (g0 * g2)) by (apply Rmult_le_pos; lra).
    assert (a * (g0 * g0) = 0) by lra. assert (b * (g0 * g1) = 0) by lra. assert (c * (g0 * g2) = 0) by lra.
    assert (a = 0) by (apply Rmult_eq_reg_r with (g0 * g0); lra). assert (b = 0) by (apply Rmult_eq_reg_r with (g0 * g1); lra). assert (c = 0) by (apply Rmult_eq_reg_r with (g0 * g2); lra). lra.
  Qed.

  (** Normals of planes that are not parallel. *)
  Lemma not_parallel : ~ (0 < fv v0 * fv v1 /\ 0 < fv v0 * fv v2) -> ~ (fv v0 = 0 /\ fv v1 = 0 /\ fv v2 = 0) ->
    cross (normal_of v0 v1 v2) (normal_of u0 u1 u2) <> origin.
  Proof using NV.
    intros A B C. apply cross_anti in C. destruct (parallel_same _ _ _ _ C NV) as (E1 & E2).
    assert (F1 : fv v1 = fv v0) by (unfold fv; rewrite !volume_dot; unfold dot3, sub3 in *; cbn in *; lra).
    assert (F2 : fv v2 = fv v0) by (unfold fv; rewrite !volume_dot; unfold dot3, sub3 in *; cbn in *; lra).
    rewrite F1, F2 in A, B. destruct (Req_dec (fv v0) 0) as [Z|Z]; [apply B; auto|]. apply A.
    assert (0 < fv v0 * fv v0) by (destruct (Rtotal_order (fv v0) 0) as [|[|]]; [nra|contradiction|nra]). auto.
  Qed.

  Lemma line_inj : cross (normal_of v0 v1 v2) (normal_of u0 u1 u2) <> origin -> forall x y, L x -> L y -> coord x k = coord y k -> x = y.
  Proof using.
    intros D x y (X1 & X2) (Y1 & Y2) E.
    assert (Z : sub3 x y = origin).
    { apply (coord_line (normal_of v0 v1 v2) (normal_of u0 u1 u2) _ k); try (apply volume_plane; assumption).
      - now apply main_axis_nonzero.
      - rewrite coord_sub. lra. }
    now apply sub_zero.
  Qed.
  Lemma line_along a b t : L a -> L b -> L (along a b t).
  Proof using. intros (A1 & A2) (B1 & B2). unfold L, fu, fv in *. rewrite !volume_along, A1, A2, B1, B2. split; ring. Qed.

  (** The ends of the cut are on the common line. *)
  Lemma cut_ends p0 p1 p2 a b c : lone (volume p0 p1 p2 a) (volume p0 p1 p2 b) (volume p0 p1 p2 c) ->
    let P := cutp a b (volume p0 p1 p2 a) (volume p0 p1 p2 b) in let Q := cutp a c (volume p0 p1 p2 a) (volume p0 p1 p2 c) in
    (in_triangle a b c P /\ volume p0 p1 p2 P = 0) /\ (in_triangle a b c Q /\ volume p0 p1 p2 Q = 0).
  Proof using.
    intros LO P Q. split; apply (cut_triangle a b c p0 p1 p2 _ LO); fold P Q.
    - exists 0. split; [lra|]. apply v3_eq; unfold along; cbn; ring.
    - exists 1. split; [lra|]. apply v3_eq; unfold along; cbn; ring.
  Qed.

  (** Everything about the general case. *)
  Lemma general : ~ (0 < fv v0 * fv v1 /\ 0 < fv v0 * fv v2) -> ~ (0 < fu u0 * fu u1 /\ 0 < fu u0 * fu u2) -> ~ (fv v0 = 0 /\ fv v1 = 0 /\ fv v2 = 0) ->
    exists a b c d e f P1 Q1 P2 Q2,
      lone (fv a) (fv b) (fv c) /\ lone (fu d) (fu e) (fu f) /\
      P1 = cutp a b (fv a) (fv b) /\ Q1 = cutp a c (fv a) (fv c) /\ P2 = cutp d e (fu d) (fu e) /\ Q2 = cutp d f (fu d) (fu f) /\
      L P1 /\ L Q1 /\ L P2 /\ L Q2 /\
      (forall x, in_triangle v0 v1 v2 x /\ in_triangle u0 u1 u2 x <-> in_segment P1 Q1 x /\ in_segment P2 Q2 x) /\
      intervals (coord v0 k) (coord v1 k) (coord v2 k) (fv v0) (fv v1) (fv v2) = Some (form (coord a k) (coord b k) (coord c k) (fv a) (fv b) (fv c)) /\
      intervals (coord u0 k) (coord u1 k) (coord u2 k) (fu u0) (fu u1) (fu u2) = Some (form (coord d k) (coord e k) (coord f k) (fu d) (fu e) (fu f)) /\
      isectline v0 v1 v2 (coord v0 k) (coord v1 k) (coord v2 k) (fv v0) (fv v1) (fv v2) = Some (Some (coord P1 k, coord Q1 k, P1, Q1)) /\
      isectline u0 u1 u2 (coord u0 k) (coord u1 k) (coord u2 k) (fu u0) (fu u1) (fu u2) = Some (Some (coord P2 k, coord Q2 k, P2, Q2)).
  Proof using NV NU.
    intros A B C.
    assert (C' : ~ (fu u0 = 0 /\ fu u1 = 0 /\ fu u2 = 0)).
    { intros H. apply C. apply (plane_swap u0 u1 u2 v0 v1 v2 NU NV). exact H. }
    destruct (cut_exists k v0 v1 v2 u0 u1 u2 A C) as (a & b & c & LA & TA & IA & JA).
    destruct (cut_exists k u0 u1 u2 v0 v1 v2 B C') as (d & e & f & LD & TD & ID & JD).
    fold fv in LA, IA, JA. fold fu in LD, ID, JD. rewrite isect2_cut in JA by apply LA. rewrite isect2_cut in JD by apply LD.
    destruct (cut_ends _ _ _ _ _ _ LA) as ((X1 & Y1) & (X2 & Y2)). destruct (cut_ends _ _ _ _ _ _ LD) as ((X3 & Y3) & (X4 & Y4)).
    exists a, b, c, d, e, f, (cutp a b (fv a) (fv b)), (cutp a c (fv a) (fv c)), (cutp d e (fu d) (fu e)), (cutp d f (fu d) (fu f)).
    do 6 (split; [first [assumption|reflexivity]|]).
    split; [split; [apply volume_self, TA; exact X1|exact Y1]|]. split; [split; [apply volume_self, TA; exact X2|exact Y2]|].
    split; [split; [exact Y3|apply volume_self, TD; exact X3]|]. split; [split; [exact Y4|apply volume_self, TD; exact X4]|].
    split; [|auto].
    intros x. unfold fv, fu. rewrite (cut_triangle a b c u0 u1 u2 x LA), (cut_triangle d e f v0 v1 v2 x LD), TA, TD.
    split; [intros (H & K)|tauto]. split; (split; [assumption|]); now apply volume_self.
  Qed.

  Lemma snaps : let n1 := normal_of v0 v1 v2 in let n2 := normal_of u0 u1 u2 in
    (snap eps (height n1 v0 u0) = fu u0 /\ snap eps (height n1 v0 u1) = fu u1 /\ snap eps (height n1 v0 u2) = fu u2) /\
    (snap eps (height n2 u0 v0) = fv v0 /\ snap eps (height n2 u0 v1) = fv v1 /\ snap eps (height n2 u0 v2) = fv v2).
  Proof using SET. destruct SET as (A & B & C & D & E & F). repeat split; now apply snap_settled. Qed.

  Lemma scaled a b c da db dc yy : da <> db -> da <> dc ->
    a * ((da - db) * (da - dc) * yy) + (b - a) * da * (da - dc) * yy = (da - db) * (da - dc) * yy * ((1 - da / (da - db)) * a + da / (da - db) * b)
    /\ a * ((da - db) * (da - dc) * yy) + (c - a) * da * (da - db) * yy = (da - db) * (da - dc) * yy * ((1 - da / (da - dc)) * a + da / (da - dc) * c).
  Proof using. intros. split; field; lra. Qed.

  Lemma intersects_exact : intersects eps v0 v1 v2 u0 u1 u2 = true <-> meet (in_triangle v0 v1 v2) (in_triangle u0 u1 u2).
  Proof using NV NU SET.
    unfold intersects. fold (normal_of v0 v1 v2) (normal_of u0 u1 u2). fold k. destruct snaps as ((-> & -> & ->) & (-> & -> & ->)).
    destruct (ltb 0 (fu u0 * fu u1) && ltb 0 (fu u0 * fu u2)) eqn:A.
    { apply andb_true_iff in A. rewrite !ltb_true in A. destruct A as (A1 & A2). split; [discriminate|]. intros M. exfalso. revert M. now apply same_side. }
    destruct (ltb 0 (fv v0 * fv v1) && ltb 0 (fv v0 * fv v2)) eqn:B.
    { apply andb_true_iff in B. rewrite !ltb_true in B. destruct B as (B1 & B2). split; [discriminate|]. intros (x & X & Y). exfalso. apply (same_side u0 u1 u2 v0 v1 v2 B1 B2). exists x. auto. }
    assert (A' : ~ (0 < fu u0 * fu u1 /\ 0 < fu u0 * fu u2)) by (rewrite <- !ltb_true, <- andb_true_iff; congruence).
    assert (B' : ~ (0 < fv v0 * fv v1 /\ 0 < fv v0 * fv v2)) by (rewrite <- !ltb_true, <- andb_true_iff; congruence).
    assert (DEC : (fv v0 = 0 /\ fv v1 = 0 /\ fv v2 = 0) \/ ~ (fv v0 = 0 /\ fv v1 = 0 /\ fv v2 = 0)).
    { destruct (Req_dec (fv v0) 0), (Req_dec (fv v1) 0), (Req_dec (fv v2) 0); tauto. }
    destruct DEC as [C|C].
    - rewrite intervals_pick. rewrite (proj2 (pick_none _ _ _) C). apply coplanar_exact; [exact NV|exact NU|]. now apply plane_swap.
    - destruct (general B' A' C) as (a & b & c & d & e & f & P1 & Q1 & P2 & Q2 & LA & LD & EP1 & EQ1 & EP2 & EQ2 & L1 & L2 & L3 & L4 & T & -> & -> & _).
      unfold form. cbv zeta. destruct LA as (_ & _ & N1 & N2 & _). destruct LD as (_ & _ & N3 & N4 & _).
      pose proof (not_parallel B' C) as D.
      transitivity (meet (in_segment P1 Q1) (in_segment P2 Q2)).
      2:{ split; intros (x & X); exists x; apply T; exact X. }
      rewrite (meet_between L (fun x => coord x k) (fun p q t => coord_along p q t k) line_along (line_inj D) P1 Q1 P2 Q2) by assumption.
      set (xx := (fv a - fv b) * (fv a - fv c)). set (yy := (fu d - fu e) * (fu d - fu f)).
      assert (NX : xx * yy <> 0) by (unfold xx, yy; repeat apply Rmult_integral_contrapositive_currified; lra).
      destruct (scaled (coord a k) (coord b k) (coord c k) _ _ _ yy N1 N2) as (S1 & S2). fold xx in S1, S2.
      destruct (scaled (coord d k) (coord e k) (coord f k) _ _ _ xx N3 N4) as (S3 & S4). fold yy in S3, S4.
      rewrite <- coord_along in S1, S2, S3, S4. fold (cutp a b (fv a) (fv b)) in S1. fold (cutp a c (fv a) (fv c)) in S2. fold (cutp d e (fu d) (fu e)) in S3. fold (cutp d f (fu d) (fu f)) in S4.
      rewrite <- EP1 in S1. rewrite <- EQ1 in S2. rewrite <- EP2 in S3. rewrite <- EQ2 in S4.
      rewrite S1, S2.
      replace (coord d k * (xx * yy) + (coord e k - coord d k) * fu d * xx * (fu d - fu f)) with (xx * yy * coord P2 k) by lra.
      replace (coord d k * (xx * yy) + (coord f k - coord d k) * fu d * xx * (fu d - fu e)) with (xx * yy * coord Q2 k) by lra.
      rewrite overlap_spec. split.
      + intros (z & Z1 & Z2). exists (z / (xx * yy)). replace z with (xx * yy * (z / (xx * yy))) in Z1, Z2 by (field; split; intros E; apply NX; rewrite E; ring).
        rewrite between_scale in Z1, Z2 by exact NX. auto.
      + intros (z & Z1 & Z2). exists (xx * yy * z). rewrite !between_scale by exact NX. auto.
  Qed.

  (** The version with the segment. *)
  Lemma segment_exact : exists b seg, intersects_segment eps v0 v1 v2 u0 u1 u2 = Result b seg /\
    (b = true <-> meet (in_triangle v0 v1 v2) (in_triangle u0 u1 u2)) /\
    match seg with
    | Some (p, q) => b = true /\ ~ in_one_plane v0 v1 v2 u0 u1 u2 /\ forall x, in_segment p q x <-> in_triangle v0 v1 v2 x /\ in_triangle u0 u1 u2 x
    | None => b = false \/ in_one_plane v0 v1 v2 u0 u1 u2
    end.
  Proof using NV NU SET.
    unfold intersects_segment. fold (normal_of v0 v1 v2) (normal_of u0 u1 u2). fold k. destruct snaps as ((-> & -> & ->) & (-> & -> & ->)).
    destruct (ltb 0 (fu u0 * fu u1) && ltb 0 (fu u0 * fu u2)) eqn:A.
    { apply andb_true_iff in A. rewrite !ltb_true in A. destruct A as (A1 & A2). exists false, None. split; [reflexivity|]. split; [|auto]. split; [discriminate|]. intros M. exfalso. revert M. now apply same_side. }
    destruct (ltb 0 (fv v0 * fv v1) && ltb 0 (fv v0 * fv v2)) eqn:B.
    { apply andb_true_iff in B. rewrite !ltb_true in B. destruct B as (B1 & B2). exists false, None. split; [reflexivity|]. split; [|auto]. split; [discriminate|]. intros (x & X & Y). exfalso. apply (same_side u0 u1 u2 v0 v1 v2 B1 B2). exists x. auto. }
    assert (A' : ~ (0 < fu u0 * fu u1 /\ 0 < fu u0 * fu u2)) by (rewrite <- !ltb_true, <- andb_true_iff; congruence).
    assert (B' : ~ (0 < fv v0 * fv v1 /\ 0 < fv v0 * fv v2)) by (rewrite <- !ltb_true, <- andb_true_iff; congruence).
    assert (DEC : (fv v0 = 0 /\ fv v1 = 0 /\ fv v2 = 0) \/ ~ (fv v0 = 0 /\ fv v1 = 0 /\ fv v2 = 0)).
    { destruct (Req_dec (fv v0) 0), (Req_dec (fv v1) 0), (Req_dec (fv v2) 0); tauto. }
    destruct DEC as [C|C].
    - rewrite isectline_pick. rewrite (proj2 (pick_none _ _ _) C).
      assert (PL : in_one_plane v0 v1 v2 u0 u1 u2) by (apply plane_swap; assumption).
      exists (coplanar_tri_tri (normal_of v0 v1 v2) v0 v1 v2 u0 u1 u2), None. split; [reflexivity|]. split; [now apply coplanar_exact|]. right; exact PL.
    - destruct (general B' A' C) as (a & b & c & d & e & f & P1 & Q1 & P2 & Q2 & LA & LD & EP1 & EQ1 & EP2 & EQ2 & L1 & L2 & L3 & L4 & T & _ & _ & -> & ->).
      pose proof (not_parallel B' C) as D. cbv zeta.
      destruct (sort2 (coord P1 k) (coord Q1 k)) as ((s0, s1), f1) eqn:S1. destruct (sort2 (coord P2 k) (coord Q2 k)) as ((t0, t1), f2) eqn:S2.
      assert (OV := overlap_spec (coord P1 k) (coord Q1 k) (coord P2 k) (coord Q2 k)).
      rewrite <- (meet_between L (fun x => coord x k) (fun p q t => coord_along p q t k) line_along (line_inj D) P1 Q1 P2 Q2) in OV by assumption.
      assert (M : meet (in_segment P1 Q1) (in_segment P2 Q2) <-> meet (in_triangle v0 v1 v2) (in_triangle u0 u1 u2)) by (split; intros (x & X); exists x; apply T; exact X).
      rewrite M in OV. clear M.
      assert (SO : sort (coord P1 k) (coord Q1 k) = (s0, s1)) by exact (sort2_sort _ _ _ _ _ S1).
      assert (TO : sort (coord P2 k) (coord Q2 k) = (t0, t1)) by exact (sort2_sort _ _ _ _ _ S2).
      rewrite SO, TO in OV. destruct (ltb s1 t0 || ltb t1 s0) eqn:O.
      + exists false, None. split; [reflexivity|]. split; [exact OV|auto].
      + eexists true, (Some (_, _)). split; [|split; [exact OV|split; [reflexivity|split; [intros PL; apply C, (plane_swap u0 u1 u2 v0 v1 v2 NU NV), PL|]]]].
        2:{ intros x. rewrite T. apply (chosen L (fun x => coord x k) (fun p q t => coord_along p q t k) line_along (line_inj D) P1 Q1 P2 Q2 s0 s1 t0 t1 f1 f2 x L1 L2 L3 L4 S1 S2 O). }
        destruct (ltb t0 s0); reflexivity.
  Qed.
End Exact.
