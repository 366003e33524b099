(** Property C182. *)
From Coq Require Import Reals Lra.
From Verif Require Import MatModel VecModel VecSpec QuatModel XformSpec QuatProofs GeomModel GeomSpec GeomProofs GeomProofs5 GeomProps2 PtrModel.
Local Open Scope R_scope.

Lemma decompose : forall u v w, let c := cross v w in
  scale3 u (inner3 c c) = add3 (add3 (scale3 c (inner3 u c)) (scale3 v (inner3 (cross u w) c))) (scale3 w (inner3 (cross v u) c)).
Proof. intros u v w c. unfold c. apply v3_eq; rewrite !inner_eq; cbn; ring. Qed.
Lemma plane_hull p0 p1 p2 n x : proper_triangle p0 p1 p2 -> tri_normal p0 p1 p2 = Some n -> (inner3 (sub3 x p0) n = 0 <-> in_affine_hull p0 p1 p2 x).
Proof.
  intros P E. destruct (tri_normal_spec _ _ _ P) as (n' & E' & U & N1 & N2 & l & L & C). replace n' with n in * by congruence. split.
  - intros O. assert (D := decompose (sub3 x p0) (sub3 p1 p0) (sub3 p2 p0)). cbn zeta in D.
    assert (Z : 0 < inner3 (cross (sub3 p1 p0) (sub3 p2 p0)) (cross (sub3 p1 p0) (sub3 p2 p0))) by (apply inner_pos, proper_cross, P).
    assert (O' : inner3 (sub3 x p0) (cross (sub3 p1 p0) (sub3 p2 p0)) = 0).
    { rewrite C. replace (inner3 _ _) with (l * inner3 (sub3 x p0) n) by (rewrite !inner_eq; cbn; ring). rewrite O. ring. }
    rewrite O' in D. set (k := inner3 (cross (sub3 p1 p0) (sub3 p2 p0)) (cross (sub3 p1 p0) (sub3 p2 p0))) in *.
    set (c := cross (sub3 p1 p0) (sub3 p2 p0)) in *. set (s := inner3 (cross (sub3 x p0) (sub3 p2 p0)) c) in *. set (t := inner3 (cross (sub3 p1 p0) (sub3 x p0)) c) in *.
    clearbody k s t c. exists (1 - s / k - t / k), (s / k), (t / k). split; [ring|].
    assert (Dx := f_equal vx D). assert (Dy := f_equal vy D). assert (Dz := f_equal vz D). cbn in Dx, Dy, Dz.
    apply v3_eq; cbn; apply (Rmult_eq_reg_r k); try lra; field_simplify; lra.
  - intros (a & b & c & S & ->). replace (inner3 _ _) with (b * inner3 n (sub3 p1 p0) + c * inner3 n (sub3 p2 p0)).
    + rewrite N1, N2. ring.
    + replace a with (1 - b - c) by lra. rewrite !inner_eq. cbn. ring.
Qed.

(** The plane of a triangle has a normal of length one, and its points are exactly the combinations of the three corners. *)
Theorem C182_plane : forall p0 p1 p2, proper_triangle p0 p1 p2 -> exists p, from_triangle p0 p1 p2 = Some p /\ is_unit (normal p) /\
  (forall x, on_plane p x <-> in_affine_hull p0 p1 p2 x) /\ on_plane p p0 /\ on_plane p p1 /\ on_plane p p2.
Proof.
  intros p0 p1 p2 P. destruct (tri_normal_spec _ _ _ P) as (n & E & U & N1 & N2 & _). exists (plane_at p0 n). unfold from_triangle. rewrite E.
  assert (H : forall x, on_plane (plane_at p0 n) x <-> in_affine_hull p0 p1 p2 x).
  { intros x. rewrite <- (plane_hull p0 p1 p2 n x P E). unfold on_plane, plane_at. rewrite !inner_eq. cbn. unfold dot3. split; intros; lra. }
  split; [reflexivity|]. split; [assumption|]. split; [assumption|].
  repeat split; apply H; [exists 1, 0, 0|exists 0, 1, 0|exists 0, 0, 1]; (split; [lra|]); apply v3_eq; cbn; ring.
Qed.
(** There is none when the corners are on one line. *)
Theorem C182_none : forall p0 p1 p2, from_triangle p0 p1 p2 = None <-> ~ proper_triangle p0 p1 p2.
Proof. intros p0 p1 p2. rewrite <- tri_normal_none. unfold from_triangle. destruct (tri_normal p0 p1 p2); split; congruence. Qed.
(** It does not matter with which corner one starts; going around the other way turns the plane over. *)
Theorem C182_cyclic : forall p0 p1 p2, from_triangle p1 p2 p0 = from_triangle p0 p1 p2.
Proof.
  intros p0 p1 p2. unfold from_triangle.
  assert (N : tri_normal p1 p2 p0 = tri_normal p0 p1 p2) by (unfold tri_normal; f_equal; apply v3_eq; cbn; ring).
  rewrite N. destruct (tri_normal p0 p1 p2) as [n|] eqn:E; [|reflexivity]. f_equal. unfold plane_at. f_equal.
  destruct (C87_normal p0 p1 p2) as [A B]. assert (P : ~ ~ proper_triangle p0 p1 p2) by (intros K; apply B in K; congruence).
  destruct (Req_EM_T (dot3 p1 n) (dot3 p0 n)) as [Q|Q]; [rewrite Q; reflexivity|]. exfalso. apply P. intros T. destruct (A T) as (m & Em & _ & M & _).
  replace m with n in M by congruence. rewrite inner_eq in M. cbn in M. unfold dot3 in Q. lra.
Qed.
Theorem C182_reversed : forall p0 p1 p2 p, from_triangle p0 p1 p2 = Some p -> from_triangle p0 p2 p1 = Some (Plane (scale3 (normal p) (-1)) (- d_ p)).
Proof.
  intros p0 p1 p2 p. unfold from_triangle, tri_normal.
  assert (X : cross (sub3 p2 p0) (sub3 p1 p0) = scale3 (cross (sub3 p1 p0) (sub3 p2 p0)) (-1)) by (apply v3_eq; cbn; ring).
  rewrite X. set (c := cross (sub3 p1 p0) (sub3 p2 p0)). clearbody c.
  assert (L : length3 (scale3 c (-1)) = length3 c) by (unfold length3, length_squared3, scale3; cbn [vx vy vz]; f_equal; ring).
  unfold normalize_opt. rewrite L. destruct (Req_EM_T (length3 c) 0) as [Z|Z]; [discriminate|]. intros [= <-]. cbn [normal d_ plane_at].
  unfold plane_at. f_equal. unfold normalize3. rewrite L.
  assert (G : scale3 (scale3 c (-1)) (1 / length3 c) = scale3 (scale3 c (1 / length3 c)) (-1)) by (apply v3_eq; cbn; ring).
  rewrite G. f_equal. cbn [normal]. unfold dot3, scale3. cbn [vx vy vz]. ring.
Qed.
(** Seen from the side the normal points to (positive distance) the corners go around counterclockwise: the signed volume is positive. *)
Theorem C182_side : forall p0 p1 p2 p x, from_triangle p0 p1 p2 = Some p ->
  (0 < signed_distance p x <-> 0 < inner3 (cross (sub3 p1 p0) (sub3 p2 p0)) (sub3 x p0)).
Proof.
  intros p0 p1 p2 p x H. destruct (C87_normal p0 p1 p2) as [A B].
  assert (P : proper_triangle p0 p1 p2).
  { apply proper_cross. intros K. unfold from_triangle, tri_normal in H. destruct (normalize_opt_spec (cross (sub3 p1 p0) (sub3 p2 p0))) as [[_ N]|[N _]]; [rewrite N in H; discriminate|contradiction]. }
  destruct (A P) as (n & E & _ & _ & _ & l & L & C). unfold from_triangle in H. rewrite E in H. injection H as <-. rewrite C.
  replace (inner3 (scale3 n l) (sub3 x p0)) with (l * signed_distance (plane_at p0 n) x) by (unfold signed_distance, plane_at, dot3; rewrite inner_eq; cbn; ring).
  set (s := signed_distance _ _). split; intros K; [apply Rmult_lt_0_compat; assumption|]. apply (Rmult_lt_reg_l l); lra.
Qed.
(** triangle::plane and plane::from_triangle agree. *)
Theorem C182_same : forall p0 p1 p2, triangle_plane p0 p1 p2 = from_triangle p0 p1 p2.
Proof. reflexivity. Qed.
Print Assumptions C182_plane.
Print Assumptions C182_none.
Print Assumptions C182_cyclic.
Print Assumptions C182_reversed.
Print Assumptions C182_side.
Print Assumptions C182_same.

Example C182_ex : exists p, from_triangle origin (V3 1 0 0) (V3 0 1 0) = Some p /\ on_plane p (V3 5 7 0) /\ 0 < signed_distance p (V3 0 0 2) /\
  from_triangle origin (V3 1 0 0) (V3 2 0 0) = None.
Proof.
  assert (P : proper_triangle origin (V3 1 0 0) (V3 0 1 0)) by apply C66_ex. destruct (C182_plane _ _ _ P) as (p & E & U & H & _). exists p. split; [assumption|]. split; [|split].
  - apply H. exists (-11), 5, 7. split; [lra|apply v3_eq; cbn; ring].
  - apply (C182_side _ _ _ _ _ E). rewrite inner_eq. cbn. lra.
  - apply C182_none. intros K. apply K. exists origin, (V3 1 0 0). repeat split; [exists 0|exists 1|exists 2]; apply v3_eq; cbn; ring.
Qed.
