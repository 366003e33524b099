(** Separating axes and oriented boxes. *)
From Coq Require Import Reals Lra Psatz List Bool.
From Verif Require Import Words MatModel VecModel VecSpec QuatModel QuatSpec QuatProofs QuatProofs2 XformSpec XformProofs GeomModel GeomSpec GeomProofs GeomProofs2.
Import ListNotations.
Local Open Scope R_scope.

(* ------------------------------------------------------------------ ranges *)
Definition within (s : sat) (x : R) : Prop := smin s <= x <= smax s.

Lemma sat_fold : forall (f : v3 -> R) l s, let r := fold_left (fun s p => sat_add s (f p)) l s in
  smin r <= smin s /\ smax s <= smax r /\ forall p, In p l -> within r (f p).
Proof.
  intros f. induction l as [|p l IH]; intros s; cbn; [repeat split; try lra; contradiction|].
  destruct (IH (sat_add s (f p))) as (A & B & C). cbn in A, B.
  assert (M1 : minR (f p) (smin s) <= f p /\ minR (f p) (smin s) <= smin s) by (destruct (minR_spec (f p) (smin s)) as [[-> ?]|[-> ?]]; lra).
  assert (M2 : f p <= maxR (f p) (smax s) /\ smax s <= maxR (f p) (smax s)) by (destruct (maxR_spec (f p) (smax s)) as [[-> ?]|[-> ?]]; lra).
  split; [lra|]. split; [lra|]. intros q [<-|Q]; [unfold within; lra|apply C, Q].
Qed.
Lemma sat_of_in : forall ax p l q, In q (p :: l) -> within (sat_of ax p l) (dot3 ax q).
Proof.
  intros ax p l q H. unfold sat_of. destruct (sat_fold (dot3 ax) l (sat_start (dot3 ax p))) as (A & B & C). cbn in A, B.
  destruct H as [<-|H]; [split; assumption|apply C, H].
Qed.
Lemma sat_of_axis_in : forall a p l q, In q (p :: l) -> within (sat_of_axis a p l) (dot_axis3 q a * 1).
Proof.
  intros a p l q H. unfold sat_of_axis. destruct (sat_fold (fun p => dot_axis3 p a * 1) l (sat_start (dot_axis3 p a * 1))) as (A & B & C). cbn in A, B.
  destruct H as [<-|H]; [split; assumption|apply C, H].
Qed.

Lemma within_mix : forall s u v w a b c, within s u -> within s v -> within s w -> 0 <= a -> 0 <= b -> 0 <= c -> a + b + c = 1 -> within s (a * u + b * v + c * w).
Proof.
  intros [lo hi] u v w a b c U V W A B C S. unfold within in *. cbn in *.
  assert (a * lo + b * lo + c * lo = lo) by (transitivity ((a + b + c) * lo); [ring|rewrite S; ring]).
  assert (a * hi + b * hi + c * hi = hi) by (transitivity ((a + b + c) * hi); [ring|rewrite S; ring]).
  assert (K : forall k m n, 0 <= k -> m <= n -> k * m <= k * n) by (intros; apply Rmult_le_compat_l; assumption).
  assert (K1 := K a lo u A ltac:(lra)). assert (K2 := K b lo v B ltac:(lra)). assert (K3 := K c lo w C ltac:(lra)).
  assert (K4 := K a u hi A ltac:(lra)). assert (K5 := K b v hi B ltac:(lra)). assert (K6 := K c w hi C ltac:(lra)). lra.
Qed.
Lemma sat_triangle : forall ax p0 p1 p2 x, in_triangle p0 p1 p2 x -> within (sat_of ax p0 [p1; p2]) (dot3 ax x).
Proof.
  intros ax p0 p1 p2 x (a & b & c & A & B & C & S & ->).
  replace (dot3 ax (mix p0 p1 p2 a b c)) with (a * dot3 ax p0 + b * dot3 ax p1 + c * dot3 ax p2) by (unfold dot3; cbn; ring).
  apply within_mix; try assumption; apply sat_of_in; cbn; auto.
Qed.
Lemma sat_axis_triangle : forall a p0 p1 p2 x, in_triangle p0 p1 p2 x -> within (sat_of_axis a p0 [p1; p2]) (dot_axis3 x a).
Proof.
  intros ax p0 p1 p2 x (a & b & c & A & B & C & S & ->).
  replace (dot_axis3 (mix p0 p1 p2 a b c) ax) with (a * (dot_axis3 p0 ax * 1) + b * (dot_axis3 p1 ax * 1) + c * (dot_axis3 p2 ax * 1)) by (destruct ax; cbn; ring).
  apply within_mix; try assumption; apply sat_of_axis_in; cbn; auto.
Qed.

(** All eight corners are tried. *)
Lemma corners_all : forall (f : bool -> bool -> bool -> v3) x y z, In (f x y z) (f false false false :: other_corners f).
Proof. intros f [] [] []; cbn; tauto. Qed.
Lemma pick : forall a lo hi x, lo <= x <= hi -> (exists b : bool, a * (if b then hi else lo) <= a * x) /\ (exists b : bool, a * x <= a * (if b then hi else lo)).
Proof. intros a lo hi x H. destruct (Rle_dec 0 a); split; [exists false|exists true|exists true|exists false]; nra. Qed.
Lemma sat_box : forall (r : sat) (g : bool -> bool -> bool -> R) k a b c lx hx ly hy lz hz x y z,
  (forall i j l, within r (g i j l)) -> (forall i j l : bool, g i j l = k + a * (if i then hx else lx) + b * (if j then hy else ly) + c * (if l then hz else lz)) ->
  lx <= x <= hx -> ly <= y <= hy -> lz <= z <= hz -> within r (k + a * x + b * y + c * z).
Proof.
  intros r g k a b c lx hx ly hy lz hz x y z W G X Y Z.
  destruct (pick a lx hx x X) as [(i & I) (i' & I')]. destruct (pick b ly hy y Y) as [(j & J) (j' & J')]. destruct (pick c lz hz z Z) as [(l & L) (l' & L')].
  assert (W1 := W i j l). assert (W2 := W i' j' l'). rewrite G in W1, W2. unfold within in *. lra.
Qed.

Lemma sat_min_max : forall ax lo hi x, vx lo <= vx x <= vx hi -> vy lo <= vy x <= vy hi -> vz lo <= vz x <= vz hi -> within (sat_corners ax (corner_min_max lo hi)) (dot3 ax x).
Proof.
  intros ax lo hi x X Y Z. replace (dot3 ax x) with (0 + vx ax * vx x + vy ax * vy x + vz ax * vz x) by (unfold dot3; ring).
  eapply sat_box with (g := fun i j l => dot3 ax (corner_min_max lo hi i j l)); [|..]; try eassumption.
  - intros. apply sat_of_in, corners_all.
  - intros. unfold dot3. cbn. ring.
Qed.
Lemma sat_aabb : forall ax b x, in_box b x -> within (sat_corners ax (corner b)) (dot3 ax x).
Proof.
  intros ax b x (X & Y & Z). replace (dot3 ax x) with (0 + vx ax * vx x + vy ax * vy x + vz ax * vz x) by (unfold dot3; ring).
  eapply sat_box with (g := fun i j l => dot3 ax (corner b i j l)); [|..]; try eassumption.
  - intros. apply sat_of_in, corners_all.
  - intros i j l. unfold dot3. cbn. destruct i, j, l; ring.
Qed.
Definition obb_point (o : obb) (r s t : R) : v3 :=
  V3 (vx (ocenter o) + r * vx (ax_x o) + s * vx (ax_y o) + t * vx (ax_z o))
     (vy (ocenter o) + r * vy (ax_x o) + s * vy (ax_y o) + t * vy (ax_z o))
     (vz (ocenter o) + r * vz (ax_x o) + s * vz (ax_y o) + t * vz (ax_z o)).
Lemma corner_point : forall o i j l, obb_corner o i j l = obb_point o (if i then vx (oextents o) else - vx (oextents o)) (if j then vy (oextents o) else - vy (oextents o)) (if l then vz (oextents o) else - vz (oextents o)).
Proof. intros. unfold obb_corner, obb_point. apply v3_eq; cbn; ring. Qed.
Lemma sat_obb : forall ax o x, in_obb o x -> within (sat_corners ax (obb_corner o)) (dot3 ax x).
Proof.
  intros ax o x (r & s & t & X & Y & Z & ->). fold (obb_point o r s t).
  replace (dot3 ax (obb_point o r s t)) with (dot3 ax (ocenter o) + dot3 ax (ax_x o) * r + dot3 ax (ax_y o) * s + dot3 ax (ax_z o) * t) by (unfold dot3; cbn; ring).
  eapply sat_box with (g := fun i j l => dot3 ax (obb_corner o i j l)); [|..]; try eassumption.
  - intros. apply sat_of_in, corners_all.
  - intros i j l. rewrite corner_point. unfold dot3. cbn. destruct i, j, l; ring.
Qed.
Lemma sat_axis_obb : forall a o x, in_obb o x -> within (sat_of_axis a (obb_corner o false false false) (other_corners (obb_corner o))) (dot_axis3 x a).
Proof.
  intros a o x (r & s & t & X & Y & Z & ->). fold (obb_point o r s t).
  replace (dot_axis3 (obb_point o r s t) a) with (dot_axis3 (ocenter o) a + dot_axis3 (ax_x o) a * r + dot_axis3 (ax_y o) a * s + dot_axis3 (ax_z o) a * t) by (destruct a; cbn; ring).
  eapply sat_box with (g := fun i j l => dot_axis3 (obb_corner o i j l) a * 1); [|..]; try eassumption.
  - intros. apply sat_of_axis_in, corners_all.
  - intros i j l. rewrite corner_point. destruct a; cbn; destruct i, j, l; ring.
Qed.

Lemma meets_common : forall s t x, within s x -> within t x -> sat_meets s t = true.
Proof. intros s t x [A B] [C D]. unfold sat_meets. rewrite andb_true_iff, !leb_true. lra. Qed.
Lemma range_common : forall s lo hi x, within s x -> lo <= x <= hi -> sat_range s lo hi = true.
Proof. intros s lo hi x [A B] C. unfold sat_range. rewrite andb_true_iff, !leb_true. lra. Qed.

Lemma normal_flat : forall p0 p1 p2 n x, tri_normal p0 p1 p2 = Some n -> in_triangle p0 p1 p2 x -> dot3 n x = dot3 n p0.
Proof.
  intros p0 p1 p2 n x H (a & b & c & _ & _ & _ & S & ->). unfold tri_normal in H. destruct (normalize_opt_spec (cross (sub3 p1 p0) (sub3 p2 p0))) as [[_ E]|[N E]]; rewrite E in H; [discriminate|].
  injection H as <-. destruct (normalize3_scale _ N) as (l & L & _ & En & _). rewrite En. replace a with (1 - b - c) by lra. unfold dot3. cbn. ring.
Qed.

Lemma box_tri_min_max_complete : forall lo hi p0 p1 p2 x, proper_triangle p0 p1 p2 -> in_triangle p0 p1 p2 x ->
  vx lo <= vx x <= vx hi -> vy lo <= vy x <= vy hi -> vz lo <= vz x <= vz hi -> box_tri_min_max lo hi p0 p1 p2 = true.
Proof.
  intros lo hi p0 p1 p2 x P T X Y Z. unfold box_tri_min_max.
  assert (T1 : box_tri_1 lo hi p0 p1 p2 = true).
  { unfold box_tri_1. apply forallb_forall. intros a _. apply range_common with (dot_axis3 x a); [apply sat_axis_triangle, T|]. destruct a; assumption. }
  rewrite T1. cbn [negb].
  assert (Lo : lo = corner_min_max lo hi false false false) by (destruct lo; reflexivity).
  assert (T2 : box_tri_2 lo (other_corners (corner_min_max lo hi)) p0 (tri_normal p0 p1 p2) = true).
  { destruct (tri_normal p0 p1 p2) as [n|] eqn:N.
    - cbn. unfold sat_holds. rewrite <- (normal_flat p0 p1 p2 n x N T). assert (W := sat_min_max n lo hi x X Y Z). unfold sat_corners in W. rewrite <- Lo in W. destruct W. rewrite andb_true_iff, !leb_true. split; assumption.
    - exfalso. apply proper_cross in P. unfold tri_normal in N. destruct (normalize_opt_spec (cross (sub3 p1 p0) (sub3 p2 p0))) as [[E _]|[_ E]]; [contradiction|]. rewrite E in N. discriminate. }
  rewrite T2. cbn [negb]. unfold box_tri_3. apply forallb_forall. intros ed _. apply forallb_forall. intros a _.
  apply meets_common with (dot3 (cross_axis ed a) x); [|apply sat_triangle, T].
  assert (W := sat_min_max (cross_axis ed a) lo hi x X Y Z). unfold sat_corners in W. rewrite <- Lo in W. exact W.
Qed.
Lemma box_tri_complete : forall b p0 p1 p2, proper_triangle p0 p1 p2 -> meet (in_box b) (in_triangle p0 p1 p2) -> box_tri b p0 p1 p2 = true.
Proof. intros b p0 p1 p2 P (x & (X & Y & Z) & T). apply box_tri_min_max_complete with x; assumption. Qed.
Lemma box_tri_degenerate : forall b p0 p1 p2, ~ proper_triangle p0 p1 p2 -> box_tri b p0 p1 p2 = false.
Proof.
  intros b p0 p1 p2 N. unfold box_tri, box_tri_min_max. destruct (box_tri_1 _ _ _ _ _); [|reflexivity]. cbn [negb].
  destruct (tri_normal p0 p1 p2) as [n|] eqn:E; [|reflexivity]. exfalso. apply N, proper_cross. intro Z. unfold tri_normal in E.
  destruct (normalize_opt_spec (cross (sub3 p1 p0) (sub3 p2 p0))) as [[_ G]|[G _]]; [rewrite G in E; discriminate|contradiction].
Qed.
Lemma box_obb_complete : forall b o, meet (in_box b) (in_obb o) -> box_obb b o = true.
Proof.
  intros b o (x & B & I). unfold box_obb.
  assert (T : forallb (fun a => sat_range (sat_of_axis a (obb_corner o false false false) (other_corners (obb_corner o))) (dot_axis3 (min_corner b) a) (dot_axis3 (max_corner b) a)) [AxisX; AxisY; AxisZ] = true).
  { apply forallb_forall. intros a _. apply range_common with (dot_axis3 x a); [apply sat_axis_obb, I|]. destruct B as (B1 & B2 & B3). destruct a; cbn; lra. }
  rewrite T. cbn [negb]. apply forallb_forall. intros ax _. apply meets_common with (dot3 ax x); [apply sat_obb, I|apply sat_aabb, B].
Qed.
Lemma obb_obb_complete : forall o1 o2, meet (in_obb o1) (in_obb o2) -> obb_obb o1 o2 = true.
Proof. intros o1 o2 (x & A & B). unfold obb_obb. apply forallb_forall. intros ax _. apply meets_common with (dot3 ax x); apply sat_obb; assumption. Qed.

(* ------------------------------------------------------------------ orthonormal axes *)
Lemma orthonormal_basis : forall a b c, orthonormal a b c -> forall v, v = add3 (add3 (scale3 a (inner3 v a)) (scale3 b (inner3 v b))) (scale3 c (inner3 v c)).
Proof.
  intros a b c O v. assert (T := orthonormal_triple a b c O). unfold orthonormal in O. destruct O as (A & B & C & AB & AC & BC).
  set (d := sub3 v (add3 (add3 (scale3 a (inner3 v a)) (scale3 b (inner3 v b))) (scale3 c (inner3 v c)))).
  assert (D : forall w, inner3 d w = inner3 v w - inner3 v a * inner3 a w - inner3 v b * inner3 b w - inner3 v c * inner3 c w).
  { intros w. unfold d. rewrite (inner_eq (sub3 _ _) w), (inner_eq v w), (inner_eq a w), (inner_eq b w), (inner_eq c w). cbn. ring. }
  assert (Da : inner3 d a = 0) by (rewrite D, A, (inner3_sym b a), (inner3_sym c a), AB, AC; ring).
  assert (Db : inner3 d b = 0) by (rewrite D, AB, B, (inner3_sym c b), BC; ring).
  assert (Dc : inner3 d c = 0) by (rewrite D, AC, BC, C; ring).
  clear D. assert (Z : d = origin).
  { clearbody d. assert (K : forall i, triple a b c * comp d i = comp (add3 (add3 (scale3 (cross b c) (inner3 d a)) (scale3 (cross c a) (inner3 d b))) (scale3 (cross a b) (inner3 d c))) i \/ (3 <= i)%nat).
    { intros [|[|[|i]]]; [left|left|left|right; repeat apply le_n_S; apply PeanoNat.Nat.le_0_l]; unfold triple; rewrite !inner_eq; cbn; ring. }
    rewrite Da, Db, Dc in K. assert (K0 := K 0%nat). assert (K1 := K 1%nat). assert (K2 := K 2%nat). cbn in K0, K1, K2.
    assert (N : triple a b c <> 0) by (destruct T; lra).
    apply v3_eq; cbn; apply Rmult_eq_reg_l with (triple a b c); try assumption; rewrite Rmult_0_r.
    - destruct K0 as [->|K0]; [ring|exfalso; inversion K0].
    - destruct K1 as [->|K1]; [ring|exfalso; inversion K1 as [|? Q]; inversion Q].
    - destruct K2 as [->|K2]; [ring|exfalso; inversion K2 as [|? Q]; inversion Q as [|? Q']; inversion Q']. }
  unfold d in Z. unfold sub3 in Z. injection Z as Z1 Z2 Z3. apply v3_eq; cbn [vx vy vz add3 scale3] in *; lra.
Qed.

Section OBB.
  Variable o : obb.
  Hypothesis P : proper_obb o.
  Lemma coords : forall x, x = obb_point o (inner3 (sub3 x (ocenter o)) (ax_x o)) (inner3 (sub3 x (ocenter o)) (ax_y o)) (inner3 (sub3 x (ocenter o)) (ax_z o)).
  Proof.
    intros x. destruct P as (_ & _ & _ & O). assert (B := orthonormal_basis _ _ _ O (sub3 x (ocenter o))).
    assert (B1 := f_equal vx B). assert (B2 := f_equal vy B). assert (B3 := f_equal vz B). unfold obb_point. 
    set (r := inner3 _ (ax_x o)) in *. set (s := inner3 _ (ax_y o)) in *. set (t := inner3 _ (ax_z o)) in *. clearbody r s t. cbn in B1, B2, B3. apply v3_eq; cbn; lra.
  Qed.
  Lemma point_coords : forall r s t, let x := obb_point o r s t in
    inner3 (sub3 x (ocenter o)) (ax_x o) = r /\ inner3 (sub3 x (ocenter o)) (ax_y o) = s /\ inner3 (sub3 x (ocenter o)) (ax_z o) = t.
  Proof.
    intros r s t x. destruct P as (_ & _ & _ & A & B & C & AB & AC & BC).
    assert (G : forall w, inner3 (sub3 x (ocenter o)) w = r * inner3 (ax_x o) w + s * inner3 (ax_y o) w + t * inner3 (ax_z o) w).
    { intros w. unfold x. rewrite !inner_eq. cbn. ring. }
    rewrite !G, A, B, C, AB, AC, BC, (inner3_sym (ax_y o) (ax_x o)), (inner3_sym (ax_z o) (ax_x o)), (inner3_sym (ax_z o) (ax_y o)), AB, AC, BC. lra.
  Qed.
  Lemma in_obb_coords : forall x, in_obb o x <-> (- vx (oextents o) <= inner3 (sub3 x (ocenter o)) (ax_x o) <= vx (oextents o) /\
    - vy (oextents o) <= inner3 (sub3 x (ocenter o)) (ax_y o) <= vy (oextents o) /\ - vz (oextents o) <= inner3 (sub3 x (ocenter o)) (ax_z o) <= vz (oextents o)).
  Proof.
    intros x. split.
    - intros (r & s & t & A & B & C & E). fold (obb_point o r s t) in E. subst x. destruct (point_coords r s t) as (-> & -> & ->). auto.
    - intros (A & B & C). eexists _, _, _. split; [exact A|]. split; [exact B|]. split; [exact C|]. apply coords.
  Qed.
  Lemma obb_contains_spec : forall x, obb_contains o x = true <-> in_obb o x.
  Proof. intros. rewrite in_obb_coords. unfold obb_contains. rewrite !andb_true_iff, !leb_true, !abs_le, !dot_inner. tauto. Qed.

  Lemma dist_coords : forall r s t x, dist2 (obb_point o r s t) x = (r - inner3 (sub3 x (ocenter o)) (ax_x o)) * (r - inner3 (sub3 x (ocenter o)) (ax_x o)) +
    (s - inner3 (sub3 x (ocenter o)) (ax_y o)) * (s - inner3 (sub3 x (ocenter o)) (ax_y o)) + (t - inner3 (sub3 x (ocenter o)) (ax_z o)) * (t - inner3 (sub3 x (ocenter o)) (ax_z o)).
  Proof.
    intros r s t x. rewrite (coords x) at 1. set (r' := inner3 _ (ax_x o)). set (s' := inner3 _ (ax_y o)). set (t' := inner3 _ (ax_z o)). clearbody r' s' t'.
    destruct P as (_ & _ & _ & A & B & C & AB & AC & BC). rewrite inner_eq in A, B, C, AB, AC, BC.
    transitivity ((r - r') * (r - r') * 1 + (s - s') * (s - s') * 1 + (t - t') * (t - t') * 1 + 2 * (r - r') * (s - s') * 0 + 2 * (r - r') * (t - t') * 0 + 2 * (s - s') * (t - t') * 0); [|ring].
    rewrite <- A at 1. rewrite <- B at 1. rewrite <- C at 1. rewrite <- AB at 1. rewrite <- AC at 1. rewrite <- BC. unfold dist2, obb_point. cbn. ring.
  Qed.
  Lemma obb_closest_spec : forall x, nearest (in_obb o) x (obb_closest o x).
  Proof.
    intros x. destruct P as (P1 & P2 & P3 & _).
    assert (E : obb_closest o x = obb_point o (clampR (inner3 (sub3 x (ocenter o)) (ax_x o)) (- vx (oextents o)) (vx (oextents o)))
       (clampR (inner3 (sub3 x (ocenter o)) (ax_y o)) (- vy (oextents o)) (vy (oextents o))) (clampR (inner3 (sub3 x (ocenter o)) (ax_z o)) (- vz (oextents o)) (vz (oextents o)))).
    { unfold obb_closest. rewrite !dot_inner. unfold obb_point. apply v3_eq; cbn; ring. }
    rewrite E. split.
    - eexists _, _, _. split; [|split; [|split; [|reflexivity]]]; apply clamp_range; lra.
    - intros y (r & s & t & A & B & C & ->). fold (obb_point o r s t). rewrite !dist_coords.
      assert (G1 := clamp_nearest (inner3 (sub3 x (ocenter o)) (ax_x o)) _ _ r (Rle_trans _ _ _ (proj1 A) (proj2 A)) A). assert (G2 := clamp_nearest (inner3 (sub3 x (ocenter o)) (ax_y o)) _ _ s (Rle_trans _ _ _ (proj1 B) (proj2 B)) B).
      assert (G3 := clamp_nearest (inner3 (sub3 x (ocenter o)) (ax_z o)) _ _ t (Rle_trans _ _ _ (proj1 C) (proj2 C)) C). lra.
  Qed.
  Lemma obb_sphere_spec : forall s, obb_sphere o (scenter s) (radius s) = true <-> meet (in_obb o) (in_ball s).
  Proof. intros s. unfold obb_sphere. rewrite leb_true, ds_dist2. apply nearest_meets, obb_closest_spec. Qed.

  Lemma to_local_mix : forall p0 p1 p2 a b c, a + b + c = 1 -> to_local o (mix p0 p1 p2 a b c) = mix (to_local o p0) (to_local o p1) (to_local o p2) a b c.
  Proof. intros. unfold to_local, dot3. replace a with (1 - b - c) by lra. apply v3_eq; cbn; ring. Qed.
  Lemma to_local_coords : forall x, to_local o x = V3 (inner3 (sub3 x (ocenter o)) (ax_x o)) (inner3 (sub3 x (ocenter o)) (ax_y o)) (inner3 (sub3 x (ocenter o)) (ax_z o)).
  Proof. intros. unfold to_local. rewrite !dot_inner, (inner3_sym (ax_x o)), (inner3_sym (ax_y o)), (inner3_sym (ax_z o)). reflexivity. Qed.
  Lemma from_local : forall x, x = obb_point o (vx (to_local o x)) (vy (to_local o x)) (vz (to_local o x)).
  Proof. intros. rewrite to_local_coords. apply coords. Qed.
  Lemma to_local_proper : forall p0 p1 p2, proper_triangle p0 p1 p2 -> proper_triangle (to_local o p0) (to_local o p1) (to_local o p2).
  Proof.
    intros p0 p1 p2 H (q & d & (a & A) & (b & B) & (c & C)). apply H.
    exists (obb_point o (vx q) (vy q) (vz q)), (V3 (vx d * vx (ax_x o) + vy d * vx (ax_y o) + vz d * vx (ax_z o)) (vx d * vy (ax_x o) + vy d * vy (ax_y o) + vz d * vy (ax_z o)) (vx d * vz (ax_x o) + vy d * vz (ax_y o) + vz d * vz (ax_z o))).
    split; [exists a|split; [exists b|exists c]]; [rewrite (from_local p0), A|rewrite (from_local p1), B|rewrite (from_local p2), C]; unfold obb_point, reach; apply v3_eq; cbn; ring.
  Qed.
  Lemma obb_tri_complete : forall p0 p1 p2, proper_triangle p0 p1 p2 -> meet (in_obb o) (in_triangle p0 p1 p2) -> obb_tri o p0 p1 p2 = true.
  Proof.
    intros p0 p1 p2 T (x & I & (a & b & c & A & B & C & S & ->)). unfold obb_tri. apply in_obb_coords in I.
    set (x := mix p0 p1 p2 a b c) in *. assert (L := to_local_coords x). destruct I as (I1 & I2 & I3).
    apply box_tri_min_max_complete with (to_local o x); [apply to_local_proper, T| |rewrite L; cbn; assumption|rewrite L; cbn; assumption|rewrite L; cbn; assumption].
    exists a, b, c. repeat (split; [assumption|]). apply to_local_mix, S.
  Qed.
End OBB.

Lemma box_contains_obb_spec : forall b o, 0 <= vx (oextents o) -> 0 <= vy (oextents o) -> 0 <= vz (oextents o) -> box_contains_obb b o = true <-> subset (in_obb o) (in_box b).
Proof.
  intros b o P1 P2 P3. unfold box_contains_obb. rewrite forallb_forall. split.
  - intros H x (r & s & t & X & Y & Z & ->). fold (obb_point o r s t).
    assert (W : forall i j l, in_box b (obb_corner o i j l)) by (intros; apply box_contains_spec, H, corners_all).
    assert (G : forall f : v3 -> R, (f = vx \/ f = vy \/ f = vz) -> forall lo hi, (forall i j l, lo <= f (obb_corner o i j l) <= hi) -> lo <= f (obb_point o r s t) <= hi).
    { intros f F lo hi K. assert (E : f (obb_point o r s t) = f (ocenter o) + f (ax_x o) * r + f (ax_y o) * s + f (ax_z o) * t) by (destruct F as [->|[->| ->]]; cbn; ring).
      rewrite E. apply (sat_box (Sat lo hi) (fun i j l => f (obb_corner o i j l)) _ _ _ _ _ _ _ _ _ _ _ _ _ K) with (4 := Z) (3 := Y) (2 := X).
      intros i j l. rewrite corner_point. destruct F as [->|[->| ->]]; cbn; ring. }
    split; [|split]; [apply (G vx)|apply (G vy)|apply (G vz)]; auto; intros i j l; apply (W i j l).
  - intros H x X. apply box_contains_spec, H.
    assert (K : forall i j l, in_obb o (obb_corner o i j l)).
    { intros. rewrite corner_point. eexists _, _, _. split; [|split; [|split; [|reflexivity]]]; [destruct i|destruct j|destruct l]; lra. }
    cbn in X. repeat (destruct X as [<-|X]; [apply K|]). contradiction.
Qed.
Lemma from_obb_spec : forall o, 0 <= vx (oextents o) -> 0 <= vy (oextents o) -> 0 <= vz (oextents o) ->
  subset (in_obb o) (in_box (from_obb o)) /\ forall b, subset (in_obb o) (in_box b) -> subset (in_box (from_obb o)) (in_box b).
Proof.
  intros o P1 P2 P3. unfold from_obb. destruct (from_points_spec (obb_corner o false false false :: other_corners (obb_corner o)) ltac:(discriminate)) as (A & B & C). split.
  - apply box_contains_obb_spec; try assumption. apply forallb_forall. intros x X. apply box_contains_spec, B, X.
  - intros b H. apply C. apply box_contains_obb_spec in H; try assumption. unfold box_contains_obb in H. rewrite forallb_forall in H. intros x X. apply box_contains_spec, H, X.
Qed.
