(** Measures of triangles, and rays. *)
From Coq Require Import Reals Lra Psatz List Bool.
From Verif Require Import Words MatModel VecModel VecSpec QuatModel QuatSpec QuatProofs QuatProofs2 XformSpec XformProofs GeomModel GeomSpec GeomProofs GeomProofs2 GeomProofs4.
Import ListNotations.
Local Open Scope R_scope.

Lemma tri_normal_spec : forall p0 p1 p2, proper_triangle p0 p1 p2 -> exists n, tri_normal p0 p1 p2 = Some n /\ is_unit n /\ inner3 n (sub3 p1 p0) = 0 /\ inner3 n (sub3 p2 p0) = 0 /\
  exists l, 0 < l /\ cross (sub3 p1 p0) (sub3 p2 p0) = scale3 n l.
Proof.
  intros p0 p1 p2 P. apply proper_cross in P. unfold tri_normal. destruct (normalize_opt_spec (cross (sub3 p1 p0) (sub3 p2 p0))) as [[E _]|[_ E]]; [contradiction|].
  destruct (normalize3_scale _ P) as (l & L & El & En & U). eexists. split; [exact E|]. split; [exact U|]. rewrite En. split; [|split].
  - rewrite !inner_eq. cbn. ring.
  - rewrite !inner_eq. cbn. ring.
  - exists l. split; [assumption|]. rewrite <- En. exact El.
Qed.
Lemma tri_normal_none : forall p0 p1 p2, tri_normal p0 p1 p2 = None <-> ~ proper_triangle p0 p1 p2.
Proof.
  intros p0 p1 p2. split.
  - intros H P. destruct (tri_normal_spec _ _ _ P) as (n & E & _). congruence.
  - intros H. unfold tri_normal. destruct (normalize_opt_spec (cross (sub3 p1 p0) (sub3 p2 p0))) as [[_ E]|[N _]]; [assumption|]. exfalso. apply H, proper_cross, N.
Qed.

Lemma heron : forall p0 p1 p2, area p0 p1 p2 = length3 (cross (sub3 p1 p0) (sub3 p2 p0)) / 2.
Proof.
  intros p0 p1 p2. unfold area.
  destruct (length3_sqr (sub3 p1 p0)) as [A Ap]. destruct (length3_sqr (sub3 p2 p1)) as [B Bp]. destruct (length3_sqr (sub3 p0 p2)) as [C Cp].
  assert (Sw : forall p q, distance3 p q = length3 (sub3 q p)).
  { intros. unfold distance3, length3. f_equal; try (unfold length_squared3; cbn; ring). }
  rewrite !Sw. set (a := length3 (sub3 p1 p0)) in *. set (b := length3 (sub3 p2 p1)) in *. set (c := length3 (sub3 p0 p2)) in *.
  set (V := cross (sub3 p1 p0) (sub3 p2 p0)). destruct (length3_sqr V) as [D Dp]. set (l := length3 V) in *.
  transitivity (sqrt (l / 2 * (l / 2))); [f_equal|apply sqrt_square; lra].
  transitivity ((2 * (a * a) * (b * b) + 2 * (b * b) * (c * c) + 2 * (c * c) * (a * a) - (a * a) * (a * a) - (b * b) * (b * b) - (c * c) * (c * c)) / 16); [field|].
  transitivity (l * l / 4); [|field]. rewrite A, B, C, D. unfold V. rewrite !inner_eq. cbn. field.
Qed.
Lemma area_zero : forall p0 p1 p2, area p0 p1 p2 = 0 <-> ~ proper_triangle p0 p1 p2.
Proof.
  intros p0 p1 p2. rewrite heron, proper_cross. assert (Z := length_zero (cross (sub3 p1 p0) (sub3 p2 p0))). split.
  - intros H N. apply N, Z. lra.
  - intros H. destruct (Req_EM_T (length3 (cross (sub3 p1 p0) (sub3 p2 p0))) 0) as [E|E]; [lra|]. exfalso. apply H. intro G. apply E, Z, G.
Qed.
Lemma eq3_true : forall a b, eq3 a b = true <-> a = b.
Proof.
  intros a b. unfold eq3. destruct (Req_EM_T (vx a) (vx b)); destruct (Req_EM_T (vy a) (vy b)); destruct (Req_EM_T (vz a) (vz b)); split; intros H; try discriminate; try reflexivity; try (apply v3_eq; assumption); subst; contradiction.
Qed.
Lemma degenerate_spec : forall p0 p1 p2, tri_degenerate p0 p1 p2 = true <-> p0 = p1 \/ p0 = p2 \/ p1 = p2.
Proof. intros. unfold tri_degenerate. rewrite !orb_true_iff, !eq3_true. tauto. Qed.

(** The distance to the plane of the triangle decides [coplanar]. *)
Lemma coplanar_spec : forall p0 p1 p2 x eps, proper_triangle p0 p1 p2 -> coplanar p0 p1 p2 x eps = true <-> exists q, nearest (in_affine_hull p0 p1 p2) x q /\ 0 < eps /\ dist2 q x < eps * eps.
Proof.
  intros p0 p1 p2 x eps P. destruct (tri_normal_spec _ _ _ P) as (n & E & U & N1 & N2 & l & L & C). unfold coplanar. rewrite E, az_true, dot_inner.
  set (s := inner3 (sub3 x p0) n). set (q := sub3 x (scale3 n s)).
  assert (Dq : dist2 q x = s * s). { transitivity (s * s * inner3 n n); [unfold q, dist2; rewrite inner_eq; cbn [vx vy vz sub3 scale3]; ring|]. unfold is_unit in U. rewrite U. ring. }
  assert (Hull : forall y, in_affine_hull p0 p1 p2 y -> inner3 (sub3 y p0) n = 0).
  { intros y (a & b & c & S & ->). transitivity (b * inner3 n (sub3 p1 p0) + c * inner3 n (sub3 p2 p0)); [|rewrite N1, N2; ring]. replace a with (1 - b - c) by lra. rewrite !inner_eq. cbn. ring. }
  assert (Back : forall y, inner3 (sub3 y p0) n = 0 -> in_affine_hull p0 p1 p2 y).
  { intros y Y. set (v := sub3 p1 p0) in *. set (w := sub3 p2 p0) in *. set (d := sub3 y p0) in *.
    assert (DV : inner3 d (cross v w) = 0) by (rewrite C; transitivity (l * inner3 d n); [rewrite !inner_eq; clearbody d; cbn; ring|rewrite Y; ring]).
    apply proper_cross in P. assert (Pp := inner_pos _ P). fold v w in Pp. set (V := cross v w) in *.
    (* d = (d x w . V / V.V) v + (v x d . V / V.V) w *)
    set (kb := inner3 (cross d w) V / inner3 V V). set (kc := inner3 (cross v d) V / inner3 V V).
    exists (1 - kb - kc), kb, kc. split; [ring|].
    assert (K : scale3 d (inner3 V V) = add3 (scale3 v (inner3 (cross d w) V)) (scale3 w (inner3 (cross v d) V))).
    { assert (Z : forall i : nat, comp (scale3 d (inner3 V V)) i = comp (add3 (add3 (scale3 v (inner3 (cross d w) V)) (scale3 w (inner3 (cross v d) V))) (scale3 V (inner3 d V))) i).
      { intros [|[|[|i]]]; unfold V; clearbody v w d; rewrite !inner_eq; cbn; ring. }
      rewrite DV in Z. assert (Z0 := Z 0%nat). assert (Z1 := Z 1%nat). assert (Z2 := Z 2%nat). set (k1 := inner3 (cross d w) V) in *. set (k2 := inner3 (cross v d) V) in *. set (k3 := inner3 V V) in *. clearbody k1 k2 k3 V v w d. cbn in Z0, Z1, Z2. apply v3_eq; cbn; lra. }
    assert (Kx := f_equal vx K). assert (Ky := f_equal vy K). assert (Kz := f_equal vz K).
    assert (Gx : vx d = kb * vx v + kc * vx w /\ vy d = kb * vy v + kc * vy w /\ vz d = kb * vz v + kc * vz w).
    { unfold kb, kc. set (k1 := inner3 (cross d w) V) in *. set (k2 := inner3 (cross v d) V) in *. set (k3 := inner3 V V) in *. clearbody k1 k2 k3 V v w d. cbn in Kx, Ky, Kz.
      assert (k3 <> 0) by lra. repeat split; apply Rmult_eq_reg_r with k3; try assumption; [rewrite Kx|rewrite Ky|rewrite Kz]; field; assumption. }
    clearbody kb kc. destruct Gx as (G1 & G2 & G3). unfold d, v, w in G1, G2, G3. cbn in G1, G2, G3. apply v3_eq; cbn; lra. }
  assert (Near : nearest (in_affine_hull p0 p1 p2) x q).
  { split.
    - apply Back. transitivity (s - s * inner3 n n); [unfold q, s; rewrite !inner_eq; cbn; ring|]. unfold is_unit in U. rewrite U. ring.
    - intros y Y. rewrite Dq. apply Hull in Y. assert (Es : s = inner3 (sub3 x y) n) by (transitivity (s - inner3 (sub3 y p0) n); [rewrite Y; ring|]; unfold s; rewrite !inner_eq; cbn; ring).
      assert (CS := cauchy (sub3 x y) n). unfold is_unit in U. rewrite U, <- Es in CS. apply Rle_trans with (1 := CS). right. rewrite inner_eq. unfold dist2. cbn. ring. }
  split.
  - intros H. exists q. split; [assumption|]. assert (G := Rabs_pos s). split; [lra|]. rewrite Dq, <- abs_sq. nra.
  - intros (q' & [I' N'] & Ep & D'). destruct Near as [I N]. assert (M := N q' I'). rewrite Dq, <- abs_sq in M. assert (G := Rabs_pos s). nra.
Qed.

(* ------------------------------------------------------------------ rays and planes *)
Lemma sd_reach : forall p o d t, signed_distance p (reach o d t) = signed_distance p o + t * dot3 d (normal p).
Proof. intros. unfold signed_distance, dot3, reach. cbn. ring. Qed.

Lemma hits_plane_spec : forall o d p nz,
  match hits_plane o d p nz with
  | Some r => exists t, r = Fin t /\ 0 <= t /\ on_plane p (reach o d t) /\ forall u, on_plane p (reach o d u) -> u = t
  | None => (forall t, 0 <= t -> ~ on_plane p (reach o d t)) \/ (forall t, on_plane p (reach o d t))
  end.
Proof.
  intros o d p nz. unfold hits_plane. set (sd := signed_distance p o). set (nd := dot3 d (normal p)).
  assert (S : forall t, on_plane p (reach o d t) <-> sd + t * nd = 0) by (intros; rewrite on_plane_sd, sd_reach; reflexivity).
  assert (E : - d_ p - dot3 o (normal p) = - sd) by (unfold sd, signed_distance, dot3; ring). rewrite E. clearbody sd nd.
  destruct (ltb 0 sd && leb 0 nd || ltb sd 0 && leb nd 0) eqn:T.
  - left. intros t Ht. rewrite S. apply orb_true_iff in T. destruct T as [T|T]; booleans; nra.
  - apply orb_false_iff in T. destruct T as [T1 T2]. unfold xdiv. destruct (Req_EM_T nd 0) as [Z|Z].
    + subst nd. assert (sd = 0). { apply andb_false_iff in T1. apply andb_false_iff in T2. destruct T1 as [T1|T1]; destruct T2 as [T2|T2]; booleans; lra. } subst sd.
      destruct (Req_EM_T (- 0) 0) as [|N]; [|exfalso; apply N; ring]. right. intros t. apply S. ring.
    + assert (P : 0 <= - sd / nd).
      { apply andb_false_iff in T1. apply andb_false_iff in T2. destruct (Rlt_dec 0 nd) as [L|L].
        - apply le_div; [assumption|]. destruct T1 as [T1|T1]; destruct T2 as [T2|T2]; booleans; lra.
        - replace (- sd / nd) with (sd / - nd) by (field; lra). apply le_div; [lra|]. destruct T1 as [T1|T1]; destruct T2 as [T2|T2]; booleans; lra. }
      destruct (leb 0 (- sd / nd)) eqn:L; booleans; [|lra]. exists (- sd / nd). split; [reflexivity|]. split; [assumption|]. split; [apply S; field; assumption|].
      intros u U. apply S in U. apply Rmult_eq_reg_r with nd; [|assumption]. transitivity (- sd); [lra|field; assumption].
Qed.

(* ------------------------------------------------------------------ rays and triangles *)

Lemma hits_triangle_spec : forall o d p0 p1 p2 eps, 0 < eps ->
  match hits_triangle o d p0 p1 p2 eps with
  | Some t => in_triangle p0 p1 p2 (reach o d t) /\ forall u, in_triangle p0 p1 p2 (reach o d u) -> u = t
  | None => Rabs (det_of d p0 p1 p2) < eps \/ forall t, ~ in_triangle p0 p1 p2 (reach o d t)
  end.
Proof.
  intros o d p0 p1 p2 eps Ep. unfold hits_triangle.
  set (e1 := sub3 p1 p0). set (e2 := sub3 p2 p0). set (T := sub3 o p0).
  assert (Dd : dot3 e1 (cross d e2) = det_of d p0 p1 p2) by (unfold det_of; fold e1 e2; rewrite inner_eq; unfold dot3; cbn; ring).
  rewrite Dd. set (det := det_of d p0 p1 p2) in *. destruct (ltb (Rabs det) eps) eqn:L; booleans; [left; assumption|].
  assert (Z : det <> 0) by (intro E; rewrite E, Rabs_R0 in L; lra).
  set (u := dot3 T (cross d e2) * (1 / det)). set (v := dot3 d (cross T e1) * (1 / det)). set (t := dot3 e2 (cross T e1) * (1 / det)).
  (* Cramer: o + t d = p0 + u e1 + v e2 is the only solution *)
  assert (Sol : reach o d t = mix p0 p1 p2 (1 - u - v) u v).
  { assert (G : forall f : v3 -> R, (f = vx \/ f = vy \/ f = vz) -> det * (f T) = dot3 T (cross d e2) * f e1 + dot3 d (cross T e1) * f e2 - dot3 e2 (cross T e1) * f d).
    { intros f F. rewrite <- Dd. clearbody e1 e2 T. destruct F as [->|[->| ->]]; unfold dot3; cbn; ring. }
    assert (G' : forall f : v3 -> R, (f = vx \/ f = vy \/ f = vz) -> f T = u * f e1 + v * f e2 - t * f d).
    { intros f F. apply Rmult_eq_reg_l with det; [|assumption]. rewrite (G f F). unfold u, v, t. field. assumption. }
    assert (Gx := G' vx ltac:(auto)). assert (Gy := G' vy ltac:(auto)). assert (Gz := G' vz ltac:(auto)). clearbody u v t. unfold T, e1, e2 in Gx, Gy, Gz. cbn in Gx, Gy, Gz. apply v3_eq; cbn; lra. }
  assert (Uniq : forall t' u' v', reach o d t' = mix p0 p1 p2 (1 - u' - v') u' v' -> t' = t /\ u' = u /\ v' = v).
  { intros t' u' v' H.
    assert (Hd : forall f : v3 -> R, (f = vx \/ f = vy \/ f = vz) -> f T = u' * f e1 + v' * f e2 - t' * f d).
    { intros f F. assert (Q := f_equal f H). unfold T, e1, e2. destruct F as [->|[->| ->]]; cbn in Q |- *; lra. }
    assert (Hx := Hd vx ltac:(auto)). assert (Hy := Hd vy ltac:(auto)). assert (Hz := Hd vz ltac:(auto)).
    assert (HT : T = V3 (u' * vx e1 + v' * vx e2 - t' * vx d) (u' * vy e1 + v' * vy e2 - t' * vy d) (u' * vz e1 + v' * vz e2 - t' * vz d)) by (apply v3_eq; assumption).
    assert (A : dot3 T (cross d e2) = u' * det) by (rewrite HT, <- Dd; clearbody e1 e2; unfold dot3; cbn; ring).
    assert (B : dot3 d (cross T e1) = v' * det) by (rewrite HT, <- Dd; clearbody e1 e2; unfold dot3; cbn; ring).
    assert (C : dot3 e2 (cross T e1) = t' * det) by (rewrite HT, <- Dd; clearbody e1 e2; unfold dot3; cbn; ring).
    unfold t, u, v. rewrite A, B, C. repeat split; field; assumption. }
  assert (NotIn : u < 0 \/ v < 0 \/ 1 < u + v -> forall s, ~ in_triangle p0 p1 p2 (reach o d s)).
  { intros H s (a & b & c & A & B & C & S & E). replace a with (1 - b - c) in * by lra. destruct (Uniq s b c E) as (_ & -> & ->). lra. }
  destruct (ltb u 0 || ltb 1 u) eqn:U.
  - destruct (ltb v 0) eqn:V; booleans; [right; apply NotIn; lra|]. right. apply NotIn. apply orb_true_iff in U. destruct U as [U|U]; booleans; lra.
  - booleans. destruct (ltb v 0 || ltb 1 (u + v)) eqn:V.
    + right. apply NotIn. apply orb_true_iff in V. destruct V as [V|V]; booleans; lra.
    + booleans. split.
      * rewrite Sol. exists (1 - u - v), u, v. repeat (split; [lra|]). reflexivity.
      * intros s (a & b & c & A & B & C & S & E). replace a with (1 - b - c) in * by lra. apply (Uniq s b c E).
Qed.

(* ------------------------------------------------------------------ rays and spheres *)
Section RAY_SPHERE.
  Variables (o d : v3) (s : sphere).
  Hypothesis U : is_unit d.
  Local Notation chord2 := (half_chord2 o d s).
  Lemma sphere_param : forall t, on_sphere s (reach o d t) <-> (t - inner3 (sub3 (scenter s) o) d) * (t - inner3 (sub3 (scenter s) o) d) = chord2.
  Proof.
    intros t. unfold on_sphere, half_chord2. set (a := inner3 (sub3 (scenter s) o) d).
    assert (E : dist2 (reach o d t) (scenter s) = dist2 o (scenter s) - 2 * t * a + t * t * inner3 d d) by (unfold a, dist2, reach; rewrite !inner_eq; cbn; ring).
    unfold is_unit in U. rewrite E, U. lra.
  Qed.
  Lemma hits_sphere_spec : forall eps, 0 <= eps -> 0 <= radius s ->
    match hits_sphere o d s eps with
    | Some t => 0 <= t /\ on_sphere s (reach o d t) /\ forall u, 0 <= u -> on_sphere s (reach o d u) -> t <= u
    | None => (inner3 (sub3 (scenter s) o) d < 0 /\ in_ball s o) \/ chord2 < eps \/ forall t, 0 <= t -> ~ on_sphere s (reach o d t)
    end.
  Proof.
    intros eps Ep Rp. unfold hits_sphere. rewrite !dot_inner. set (a := inner3 (sub3 (scenter s) o) d).
    assert (E2 : length_squared3 (sub3 (scenter s) o) = dist2 o (scenter s)) by (unfold length_squared3, dist2; cbn; ring). rewrite E2. set (e2 := dist2 o (scenter s)). set (r2 := radius s * radius s).
    assert (Ch : chord2 = r2 - e2 + a * a) by reflexivity.
    assert (Par := sphere_param). fold a in Par. rewrite Ch in Par.
    assert (CS : a * a <= e2). { assert (C := cauchy (sub3 (scenter s) o) d). unfold is_unit in U. rewrite U in C. fold a in C. assert (K : inner3 (sub3 (scenter s) o) (sub3 (scenter s) o) = e2) by (rewrite inner_eq; unfold e2, dist2; cbn; ring). lra. }
    destruct (ltb a 0) eqn:A; booleans.
    - destruct (Rle_dec e2 r2) as [I|I]; [left; split; [assumption|exact I]|]. right. right. intros t T H. apply Par in H. nra.
    - destruct (ltb (r2 - e2 + a * a) eps) eqn:L; booleans; [right; left; rewrite Ch; assumption|].
      assert (B : sqrt (e2 - a * a) * sqrt (e2 - a * a) = e2 - a * a) by (apply sqrt_sqrt; lra). rewrite B.
      set (f := sqrt (r2 - (e2 - a * a))). assert (F : f * f = r2 - (e2 - a * a)) by (apply sqrt_sqrt; lra). assert (Fp : 0 <= f) by apply sqrt_pos. clearbody f.
      assert (Or : forall u, (u - a) * (u - a) = r2 - e2 + a * a -> u = a + f \/ u = a - f).
      { intros u Hu. assert (G : (u - a - f) * (u - a + f) = 0) by lra. apply Rmult_integral in G. destruct G; [left|right]; lra. }
      destruct (ltb e2 r2) eqn:I; booleans.
      + split; [lra|]. split; [apply Par; lra|]. intros u Hu H. apply Par in H. destruct (Or u H); nra.
      + assert (f <= a) by nra. split; [lra|]. split; [apply Par; lra|]. intros u Hu H'. apply Par in H'. destruct (Or u H'); lra.
  Qed.
End RAY_SPHERE.

(* ------------------------------------------------------------------ rays and boxes *)
(** [low l t]: t is not below l; [high h t]: t is not above h. *)
Definition low (l : xr) (t : R) : Prop := match l with Fin x => x <= t | MInf => True | PInf => False | NaN => False end.
Definition high (h : xr) (t : R) : Prop := match h with Fin x => t <= x | PInf => True | MInf => False | NaN => False end.
Definition num (x : xr) : Prop := x <> NaN.

Lemma xmin_num : forall a b, num a -> num b -> num (xmin a b).
Proof. intros a b A B. unfold xmin. destruct (xltb a b); assumption. Qed.
Lemma xmax_num : forall a b, num a -> num b -> num (xmax a b).
Proof. intros a b A B. unfold xmax. destruct (xltb a b); assumption. Qed.
Lemma low_max : forall a b t, num a -> num b -> low (xmax a b) t <-> low a t /\ low b t.
Proof. intros a b t A B. unfold xmax. destruct a, b; try (exfalso; apply A; reflexivity); try (exfalso; apply B; reflexivity); cbn; try tauto. destruct (ltb x x0) eqn:L; booleans; cbn; lra. Qed.
Lemma high_min : forall a b t, num a -> num b -> high (xmin a b) t <-> high a t /\ high b t.
Proof. intros a b t A B. unfold xmin. destruct a, b; try (exfalso; apply A; reflexivity); try (exfalso; apply B; reflexivity); cbn; try tauto. destruct (ltb x x0) eqn:L; booleans; cbn; lra. Qed.

Section SLAB.
  Variables (o d lo hi : R) (nz : bool).
  Hypothesis C : clear_of o d lo hi.
  Hypothesis LH : lo <= hi.
  Let t1 := xdiv (lo - o) d nz.
  Let t2 := xdiv (hi - o) d nz.
  Lemma slab_num : num t1 /\ num t2.
  Proof.
    unfold t1, t2, xdiv, num. destruct (Req_EM_T d 0) as [Z|Z]; [|split; discriminate]. destruct (C Z) as [A B].
    destruct (Req_EM_T (lo - o) 0); [exfalso; lra|]. destruct (Req_EM_T (hi - o) 0); [exfalso; lra|]. destruct (xorb _ _), (xorb _ _); split; discriminate.
  Qed.
  Lemma slab_spec : forall t, low (xmin t1 t2) t /\ high (xmax t1 t2) t <-> lo <= o + t * d <= hi.
  Proof.
    intros t. unfold t1, t2, xdiv. destruct (Req_EM_T d 0) as [Z|Z].
    - subst d. destruct (C eq_refl) as [A B]. destruct (Req_EM_T (lo - o) 0); [exfalso; lra|]. destruct (Req_EM_T (hi - o) 0); [exfalso; lra|].
      destruct (ltb (lo - o) 0) eqn:L1; destruct (ltb (hi - o) 0) eqn:L2; booleans; destruct nz; cbn; try lra; (split; [tauto|lra]) || (split; [lra|tauto]).
    - unfold xmin, xmax. cbn. destruct (Rlt_dec 0 d) as [P|P].
      + assert (K1 : (lo - o) / d <= t <-> lo <= o + t * d). { split; intros H; [|apply div_le; lra]. apply Rmult_le_compat_r with (r := d) in H; [|lra]. unfold Rdiv in H. rewrite Rmult_assoc, Rinv_l in H by assumption. lra. }
        assert (K2 : t <= (hi - o) / d <-> o + t * d <= hi). { split; intros H; [|apply le_div; lra]. apply Rmult_le_compat_r with (r := d) in H; [|lra]. unfold Rdiv in H. rewrite Rmult_assoc, Rinv_l in H by assumption. lra. }
        assert (Or : (lo - o) / d <= (hi - o) / d) by (unfold Rdiv; apply Rmult_le_compat_r; [apply Rlt_le, Rinv_0_lt_compat, P|lra]).
        destruct (ltb _ _) eqn:L; booleans; cbn; [lra|]. assert (E : (lo - o) / d = (hi - o) / d) by lra. rewrite E in *. lra.
      + assert (K1 : t <= (lo - o) / d <-> lo <= o + t * d). { replace ((lo - o) / d) with ((o - lo) / - d) by (field; lra). split; intros H; [|apply le_div; lra]. apply Rmult_le_compat_r with (r := - d) in H; [|lra]. unfold Rdiv in H. rewrite Rmult_assoc, Rinv_l in H by lra. lra. }
        assert (K2 : (hi - o) / d <= t <-> o + t * d <= hi). { replace ((hi - o) / d) with ((o - hi) / - d) by (field; lra). split; intros H; [|apply div_le; lra]. apply Rmult_le_compat_r with (r := - d) in H; [|lra]. unfold Rdiv in H. rewrite Rmult_assoc, Rinv_l in H by lra. lra. }
        assert (Or : (hi - o) / d <= (lo - o) / d) by (replace ((lo - o) / d) with ((o - lo) / - d) by (field; lra); replace ((hi - o) / d) with ((o - hi) / - d) by (field; lra); unfold Rdiv; apply Rmult_le_compat_r; [apply Rlt_le, Rinv_0_lt_compat; lra|lra]).
        destruct (ltb _ _) eqn:L; booleans; cbn; [lra|]. lra.
  Qed.
  (** A finite bound is where the ray crosses one of the two planes. *)
  Lemma slab_bound : forall x, xmin t1 t2 = Fin x \/ xmax t1 t2 = Fin x -> o + x * d = lo \/ o + x * d = hi.
  Proof.
    intros x. unfold t1, t2, xdiv. destruct (Req_EM_T d 0) as [Z|Z].
    - destruct (Req_EM_T (lo - o) 0), (Req_EM_T (hi - o) 0); try destruct (xorb (ltb (lo - o) 0) nz); try destruct (xorb (ltb (hi - o) 0) nz); cbn; intros [H|H]; discriminate.
    - unfold xmin, xmax. cbn. destruct (ltb _ _); intros [H|H]; injection H as <-; [left|right|right|left]; field; assumption.
  Qed.
  Lemma slab_finite : d <> 0 -> (exists x, xmin t1 t2 = Fin x) /\ (exists x, xmax t1 t2 = Fin x).
  Proof. intros Z. unfold t1, t2, xdiv. destruct (Req_EM_T d 0); [contradiction|]. unfold xmin, xmax. cbn. destruct (ltb _ _); split; eexists; reflexivity. Qed.
End SLAB.

Lemma xmax3_pick : forall a b c x, xmax (xmax a b) c = Fin x -> a = Fin x \/ b = Fin x \/ c = Fin x.
Proof. intros a b c x. unfold xmax. destruct (xltb a b), (xltb _ c); auto. Qed.
Lemma xmin3_pick : forall a b c x, xmin (xmin a b) c = Fin x -> a = Fin x \/ b = Fin x \/ c = Fin x.
Proof. intros a b c x. unfold xmin. destruct (xltb a b), (xltb _ c); auto. Qed.
Lemma low_finite : forall a, num a -> (exists t, low a t) -> (exists y, ~ low a y) -> exists x, a = Fin x.
Proof. intros [x| | |] N (t & T) (y & Y); cbn in *; [eauto|contradiction|tauto|contradiction]. Qed.
Lemma high_finite : forall a, num a -> (exists t, high a t) -> (exists y, ~ high a y) -> exists x, a = Fin x.
Proof. intros [x| | |] N (t & T) (y & Y); cbn in *; [eauto|tauto|contradiction|contradiction]. Qed.

Lemma hits_min_max_spec : forall o d lo hi nx ny nz, vx lo <= vx hi -> vy lo <= vy hi -> vz lo <= vz hi -> d <> origin ->
  clear_of (vx o) (vx d) (vx lo) (vx hi) -> clear_of (vy o) (vy d) (vy lo) (vy hi) -> clear_of (vz o) (vz d) (vz lo) (vz hi) ->
  let inside x := vx lo <= vx x <= vx hi /\ vy lo <= vy x <= vy hi /\ vz lo <= vz x <= vz hi in
  match hits_min_max o d lo hi nx ny nz with
  | Some r => exists t, r = Fin t /\ 0 <= t /\ on_box_surface lo hi (reach o d t) /\
                ((~ inside o -> forall u, 0 <= u -> inside (reach o d u) -> t <= u) /\ (forall u, 0 <= u < t -> on_box_surface lo hi (reach o d u) -> inside o))
  | None => forall t, 0 <= t -> ~ inside (reach o d t)
  end.
Proof.
  intros o d lo hi nx ny nz Lx Ly Lz D Cx Cy Cz inside. unfold hits_min_max.
  destruct (slab_num _ _ _ _ nx Cx Lx) as [N1 N2]. destruct (slab_num _ _ _ _ ny Cy Ly) as [N3 N4]. destruct (slab_num _ _ _ _ nz Cz Lz) as [N5 N6].
  assert (Sx := slab_spec _ _ _ _ nx Cx Lx). assert (Sy := slab_spec _ _ _ _ ny Cy Ly). assert (Sz := slab_spec _ _ _ _ nz Cz Lz).
  assert (Bx := slab_bound (vx o) (vx d) (vx lo) (vx hi) nx). assert (By := slab_bound (vy o) (vy d) (vy lo) (vy hi) ny). assert (Bz := slab_bound (vz o) (vz d) (vz lo) (vz hi) nz).
  assert (Fx := slab_finite (vx o) (vx d) (vx lo) (vx hi) nx). assert (Fy := slab_finite (vy o) (vy d) (vy lo) (vy hi) ny). assert (Fz := slab_finite (vz o) (vz d) (vz lo) (vz hi) nz).
  set (t1 := xdiv (vx lo - vx o) (vx d) nx) in *. set (t2 := xdiv (vx hi - vx o) (vx d) nx) in *. set (t3 := xdiv (vy lo - vy o) (vy d) ny) in *. set (t4 := xdiv (vy hi - vy o) (vy d) ny) in *.
  set (t5 := xdiv (vz lo - vz o) (vz d) nz) in *. set (t6 := xdiv (vz hi - vz o) (vz d) nz) in *.
  assert (M1 := xmin_num _ _ N1 N2). assert (M2 := xmin_num _ _ N3 N4). assert (M3 := xmin_num _ _ N5 N6). assert (X1 := xmax_num _ _ N1 N2). assert (X2 := xmax_num _ _ N3 N4). assert (X3 := xmax_num _ _ N5 N6).
  set (l1 := xmin t1 t2) in *. set (l2 := xmin t3 t4) in *. set (l3 := xmin t5 t6) in *. set (h1 := xmax t1 t2) in *. set (h2 := xmax t3 t4) in *. set (h3 := xmax t5 t6) in *.
  clearbody l1 l2 l3 h1 h2 h3. clear N1 N2 N3 N4 N5 N6 t1 t2 t3 t4 t5 t6.
  set (tmin := xmax (xmax l1 l2) l3). set (tmax := xmin (xmin h1 h2) h3).
  assert (In : forall t, inside (reach o d t) <-> low tmin t /\ high tmax t).
  { intros t. unfold inside, tmin, tmax, reach. cbn [vx vy vz]. rewrite <- Sx, <- Sy, <- Sz, !low_max, !high_min; try assumption; [tauto|apply xmin_num|apply xmax_num]; assumption. }
  assert (Nmin : num tmin) by (unfold tmin; repeat apply xmax_num; assumption). assert (Nmax : num tmax) by (unfold tmax; repeat apply xmin_num; assumption).
  (* some axis moves, so that both ends are bounded on one side *)
  assert (Bd : (exists y, ~ low tmin y) /\ (exists y, ~ high tmax y)).
  { unfold tmin, tmax. assert (Lo : forall y, low (xmax (xmax l1 l2) l3) y -> low l1 y /\ low l2 y /\ low l3 y) by (intros y H; rewrite !low_max in H; try assumption; [tauto|apply xmax_num; assumption]).
    assert (Hi : forall y, high (xmin (xmin h1 h2) h3) y -> high h1 y /\ high h2 y /\ high h3 y) by (intros y H; rewrite !high_min in H; try assumption; [tauto|apply xmin_num; assumption]).
    destruct (Req_EM_T (vx d) 0) as [Zx|Zx]; [destruct (Req_EM_T (vy d) 0) as [Zy|Zy]; [destruct (Req_EM_T (vz d) 0) as [Zz|Zz]; [exfalso; apply D; apply v3_eq; assumption|]|]|];
    [destruct (Fz Zz) as [(l & ->) (h & ->)]|destruct (Fy Zy) as [(l & ->) (h & ->)]|destruct (Fx Zx) as [(l & ->) (h & ->)]];
    (split; [exists (l - 1); intro H; apply Lo in H|exists (h + 1); intro H; apply Hi in H]; cbn in H; lra). }
  destruct Bd as [Bl Bh].
  destruct (xltb tmax (Fin 0) || xltb tmax tmin) eqn:T.
  - intros t Ht I. apply In in I. destruct I as [I1 I2]. apply orb_true_iff in T. destruct tmin, tmax; cbn in *; try contradiction; destruct T as [T|T]; booleans; try discriminate; lra.
  - apply orb_false_iff in T. destruct T as [T1 T2].
    assert (Fm : exists a b, tmin = Fin a /\ tmax = Fin b).
    { destruct tmin as [a| | |], tmax as [b| | |]; cbn in *; try discriminate; try (exfalso; apply Nmin; reflexivity); try (exfalso; apply Nmax; reflexivity); eauto.
      all: exfalso; destruct Bl as (y & Y); destruct Bh as (z & Zz); cbn in *; tauto. }
    destruct Fm as (a & b & Ea & Eb). rewrite Eb in T1. rewrite Ea, Eb in T2. cbn in T1, T2. booleans.
    assert (Surf : forall x, (x = a \/ x = b) -> on_box_surface lo hi (reach o d x)).
    { intros x H. assert (I : inside (reach o d x)) by (apply In; rewrite Ea, Eb; cbn; lra). split; [exact I|]. cbn [reach vx vy vz].
      destruct H as [->| ->]; [destruct (xmax3_pick _ _ _ _ Ea) as [G|[G|G]]|destruct (xmin3_pick _ _ _ _ Eb) as [G|[G|G]]].
      - destruct (Bx a (or_introl G)) as [Gq|Gq]; clear - Gq; auto 7. - destruct (By a (or_introl G)) as [Gq|Gq]; clear - Gq; auto 7. - destruct (Bz a (or_introl G)) as [Gq|Gq]; clear - Gq; auto 7.
      - destruct (Bx b (or_intror G)) as [Gq|Gq]; clear - Gq; auto 7. - destruct (By b (or_intror G)) as [Gq|Gq]; clear - Gq; auto 7. - destruct (Bz b (or_intror G)) as [Gq|Gq]; clear - Gq; auto 7. }
    assert (O0 : inside o <-> inside (reach o d 0)) by (unfold inside, reach; cbn; lra).
    rewrite Ea, Eb. cbn. destruct (ltb a 0) eqn:L; booleans.
    + exists b. split; [reflexivity|]. split; [assumption|]. split; [apply Surf; auto|]. assert (I0 : inside o) by (apply O0, In; rewrite Ea, Eb; cbn; lra). split; [contradiction|auto].
    + exists a. split; [reflexivity|]. split; [assumption|]. split; [apply Surf; auto|]. split; [intros _ u Hu I; apply In in I; rewrite Ea in I; apply I|].
      intros u Hu [I _]. apply In in I. rewrite Ea in I. cbn in I. lra.
Qed.

Lemma hits_box_spec : forall o d b nx ny nz, proper b -> d <> origin -> clear_of_planes o d b ->
  match hits_box o d b nx ny nz with
  | Some r => exists t, r = Fin t /\ 0 <= t /\ on_surface b (reach o d t) /\ ((~ in_box b o -> forall u, 0 <= u -> in_box b (reach o d u) -> t <= u) /\ (forall u, 0 <= u < t -> on_surface b (reach o d u) -> in_box b o))
  | None => forall t, 0 <= t -> ~ in_box b (reach o d t)
  end.
Proof.
  intros o d b nx ny nz (P1 & P2 & P3) D (C1 & C2 & C3). apply (hits_min_max_spec o d (sub3 (center b) (extents b)) (add3 (center b) (extents b)) nx ny nz); cbn; try assumption; lra.
Qed.
