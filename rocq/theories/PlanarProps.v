(** C170: transformations of the plane, and orthonormalized. *)
From Coq Require Import Reals List Lra Psatz Lia.
From Verif Require Import Words MatModel MatSpec VecModel VecSpec QuatModel XformModel XformSpec XformProps GeomProofs PlanarModel.
Import ListNotations.
Local Open Scope R_scope.

(** The shapes of transformations of the plane; a point of the plane as an operand with [n] components: the third one is 1. *)
Definition planar (rows cols : nat) : Prop := (rows = 2 /\ cols = 2 \/ rows = 2 /\ cols = 3 \/ rows = 3 /\ cols = 3)%nat.
Definition point (n : nat) (x y : R) : list R := if (n =? 3)%nat then [x; y; 1] else [x; y].
Local Ltac shapes := repeat match goal with H : planar _ _ |- _ => destruct H as [[-> ->]|[[-> ->]|[-> ->]]] end.
Local Ltac crunch := cbv [point from_2d_rotation from_2d_axes from_2d_scale from_2d_translation convert rget mat_vec col_2x2 col_3x3 col_any mat_mul mul_3x3 identity set fresh fresh_vec get MatModel.at_]; cbn; repeat match goal with |- cons _ _ = cons _ _ => apply f_equal2; [ring|] | |- nil = nil => reflexivity end.

(** Whatever the two shapes, exactly the rotation is taken over: no translation, no projection. *)
Theorem C170_rotation : forall j rows cols r c rot x y, planar rows cols -> planar r c ->
  mat_vec R_ops j rows cols (from_2d_rotation rows cols r c rot) (point cols x y) =
  point rows (get R_ops rot 0 0 * x + get R_ops rot 0 1 * y) (get R_ops rot 1 0 * x + get R_ops rot 1 1 * y).
Proof. intros j rows cols r c rot x y P Q. shapes; crunch. Qed.
Print Assumptions C170_rotation.
Theorem C170_axes : forall j rows cols a b c d x y, planar rows cols ->
  mat_vec R_ops j rows cols (from_2d_axes rows cols a b c d) (point cols x y) = point rows (x * a + y * c) (x * b + y * d).
Proof. intros j rows cols a b c d x y P. shapes; crunch. Qed.
Print Assumptions C170_axes.
Theorem C170_scale : forall j rows cols a b x y, planar rows cols -> mat_vec R_ops j rows cols (from_2d_scale rows cols a b) (point cols x y) = point rows (a * x) (b * y).
Proof. intros j rows cols a b x y P. shapes; crunch. Qed.
Print Assumptions C170_scale.
Theorem C170_translation : forall j rows cols a b x y, planar rows cols -> cols = 3%nat -> mat_vec R_ops j rows cols (from_2d_translation rows cols a b) (point cols x y) = point rows (x + a) (y + b).
Proof. intros j rows cols a b x y P E. shapes; try discriminate; crunch. Qed.
Print Assumptions C170_translation.
(** Scaled, then turned, then moved. *)
Definition placed (j tx ty a b c d sx sy : R) : list (list R) :=
  mat_mul R_ops j 3 3 3 (mat_mul R_ops j 3 3 3 (from_2d_translation 3 3 tx ty) (from_2d_axes 3 3 a b c d)) (from_2d_scale 3 3 sx sy).
Lemma mul3_eq j a b c d e f g h i a' b' c' d' e' f' g' h' i' : mat_mul R_ops j 3 3 3 [[a; b; c]; [d; e; f]; [g; h; i]] [[a'; b'; c']; [d'; e'; f']; [g'; h'; i']] =
  [[a * a' + d * b' + g * c'; b * a' + e * b' + h * c'; c * a' + f * b' + i * c'];
   [a * d' + d * e' + g * f'; b * d' + e * e' + h * f'; c * d' + f * e' + i * f'];
   [a * g' + d * h' + g * i'; b * g' + e * h' + h * i'; c * g' + f * h' + i * i']].
Proof. reflexivity. Qed.
Lemma placed_eq j tx ty a b c d sx sy : placed j tx ty a b c d sx sy = [[a * sx; b * sx; 0]; [c * sy; d * sy; 0]; [tx; ty; 1]].
Proof.
  unfold placed. change (from_2d_translation 3 3 tx ty) with [[1; 0; 0]; [0; 1; 0]; [tx; ty; 1]]. change (from_2d_axes 3 3 a b c d) with [[a; b; 0]; [c; d; 0]; [0; 0; 1]]. change (from_2d_scale 3 3 sx sy) with [[sx; 0; 0]; [0; sy; 0]; [0; 0; 1]].
  rewrite !mul3_eq. repeat match goal with |- cons _ _ = cons _ _ => apply f_equal2; [try ring|] | |- nil = nil => reflexivity end.
Qed.
Theorem C170_placed : forall j tx ty a b c d sx sy x y,
  mat_vec R_ops j 3 3 (placed j tx ty a b c d sx sy) (point 3 x y) = point 3 ((sx * x) * a + (sy * y) * c + tx) ((sx * x) * b + (sy * y) * d + ty).
Proof. intros. rewrite placed_eq. crunch. Qed.
Print Assumptions C170_placed.
Lemma placed_columns j tx ty a b c d sx sy : column2 (placed j tx ty a b c d sx sy) 0 = [a * sx; b * sx] /\ column2 (placed j tx ty a b c d sx sy) 1 = [c * sy; d * sy].
Proof. rewrite placed_eq. split; reflexivity. Qed.
Lemma length2_eq x y : VecModel.length 2 [x; y] = sqrt (x * x + y * y).
Proof. cbv [VecModel.length length_squared accumulate at_]; cbn. f_equal; ring. Qed.
Theorem C170_extract_scale : forall j tx ty a b c d sx sy, a * a + b * b = 1 -> c * c + d * d = 1 -> extract_2d_scale (placed j tx ty a b c d sx sy) = (Rabs sx, Rabs sy).
Proof.
  intros j tx ty a b c d sx sy U V. unfold extract_2d_scale. destruct (placed_columns j tx ty a b c d sx sy) as [-> ->]. rewrite !length2_eq. f_equal; rewrite <- sqrt_Rsqr_abs; f_equal; unfold Rsqr.
  - transitivity ((a * a + b * b) * (sx * sx)); [ring|rewrite U; ring].
  - transitivity ((c * c + d * d) * (sy * sy)); [ring|rewrite V; ring].
Qed.
Print Assumptions C170_extract_scale.
(** There is shear if the cosine of the angle between the images of the axes is one thousandth or more. *)
Theorem C170_shear : forall m, let a := get R_ops m 0 0 in let b := get R_ops m 1 0 in let c := get R_ops m 0 1 in let d := get R_ops m 1 1 in
  0 < a * a + b * b -> 0 < c * c + d * d ->
  (has_2d_shear m = true <-> (a * a + b * b) * (c * c + d * d) <= 1000000 * ((a * c + b * d) * (a * c + b * d))).
Proof.
  intros m a b c d U V. unfold has_2d_shear. change (column2 m 0) with [a; b]. change (column2 m 1) with [c; d]. cbn [normalize fst]. rewrite !length2_eq.
  set (u := sqrt (a * a + b * b)). set (v := sqrt (c * c + d * d)). assert (Pu : 0 < u) by (apply sqrt_lt_R0; exact U). assert (Pv : 0 < v) by (apply sqrt_lt_R0; exact V).
  assert (Eu : u * u = a * a + b * b) by (apply sqrt_sqrt; lra). assert (Ev : v * v = c * c + d * d) by (apply sqrt_sqrt; lra).
  assert (E : VecModel.dot 2 (scale 2 [a; b] (1 / u)) (scale 2 [c; d] (1 / v)) = (a * c + b * d) / (u * v)). { cbv [VecModel.dot scale construct accumulate at_]; cbn. field. lra. }
  rewrite E, <- Eu, <- Ev. set (w := a * c + b * d). unfold approx_equal. rewrite Rminus_0_l, Rabs_Ropp. 
  assert (Puv : 0 < u * v) by nra. assert (Q : Rabs (w / (u * v)) = Rabs w * / (u * v)) by (unfold Rdiv; rewrite (Rabs_mult w (/ (u * v))), (Rabs_pos_eq (/ (u * v))) by (left; apply Rinv_0_lt_compat; exact Puv); reflexivity). assert (W : Rabs w * Rabs w = w * w) by (rewrite <- Rabs_mult; apply Rabs_pos_eq; nra). pose proof (Rabs_pos w) as Pw.
  destruct (Rlt_dec (Rabs (w / (u * v))) (1 / 1000)) as [L|L]; rewrite Q in L; cbn [negb].
  - split; [discriminate|]. intros C. exfalso. assert (L' : 1000 * Rabs w < u * v). { apply Rmult_lt_compat_r with (r := 1000 * (u * v)) in L; [|nra]. replace (Rabs w * / (u * v) * (1000 * (u * v))) with (1000 * Rabs w) in L by (field; lra). lra. } nra.
  - split; [intros _|reflexivity]. apply Rnot_lt_le in L. assert (L' : u * v <= 1000 * Rabs w). { apply Rmult_le_compat_r with (r := 1000 * (u * v)) in L; [|nra]. replace (Rabs w * / (u * v) * (1000 * (u * v))) with (1000 * Rabs w) in L by (field; lra). lra. }
    replace (u * u * (v * v)) with ((u * v) * (u * v)) by ring. replace (1000000 * (w * w)) with ((1000 * Rabs w) * (1000 * Rabs w)) by (rewrite <- W; ring). apply Rmult_le_compat; lra.
Qed.
Print Assumptions C170_shear.
Theorem C170_placed_no_shear : forall j tx ty a b c d sx sy, a * a + b * b = 1 -> c * c + d * d = 1 -> a * c + b * d = 0 -> sx <> 0 -> sy <> 0 ->
  has_2d_shear (placed j tx ty a b c d sx sy) = false.
Proof.
  intros j tx ty a b c d sx sy U V O X Y. destruct (placed_columns j tx ty a b c d sx sy) as [C0 C1]. unfold column2, rget in C0, C1. injection C0 as G00 G10. injection C1 as G01 G11.
  pose proof (C170_shear (placed j tx ty a b c d sx sy)) as S. cbn zeta in S. rewrite G00, G10, G01, G11 in S.
  assert (X2 : 0 < sx * sx) by nra. assert (Y2 : 0 < sy * sy) by nra.
  replace (a * sx * (a * sx) + b * sx * (b * sx)) with ((a * a + b * b) * (sx * sx)) in S by ring. replace (c * sy * (c * sy) + d * sy * (d * sy)) with ((c * c + d * d) * (sy * sy)) in S by ring.
  replace (a * sx * (c * sy) + b * sx * (d * sy)) with ((a * c + b * d) * (sx * sy)) in S by ring. rewrite U, V, O in S.
  destruct (has_2d_shear (placed j tx ty a b c d sx sy)); [|reflexivity]. exfalso. assert (P1 : 0 < 1 * (sx * sx)) by lra. assert (P2 : 0 < 1 * (sy * sy)) by lra. pose proof (proj1 (S P1 P2) eq_refl) as K. assert (0 < (1 * (sx * sx)) * (1 * (sy * sy))) by nra. lra.
Qed.
Print Assumptions C170_placed_no_shear.
(** orthonormalized() is true for what orthonormalize() makes, whatever the tolerances, and says no more and no less than that lengths and angles are within them. *)
Theorem C170_orthonormalized : forall eps eps_axes m, let x := column3 m 0 in let y := column3 m 1 in let z := column3 m 2 in
  orthonormalized eps eps_axes m = true <->
  Rabs (inner3 x x - 1) < eps /\ Rabs (inner3 y y - 1) < eps /\ Rabs (inner3 z z - 1) < eps /\ Rabs (inner3 x y) < eps_axes /\ Rabs (inner3 x z) < eps_axes /\ Rabs (inner3 y z) < eps_axes.
Proof.
  intros eps eps_axes m x y z. unfold orthonormalized. fold x y z. rewrite !Bool.andb_true_iff.
  assert (A : forall t e, approx_equal t 0 e = true <-> Rabs t < e) by (intros t e; unfold approx_equal; rewrite Rminus_0_l, Rabs_Ropp; destruct (Rlt_dec (Rabs t) e); intuition (discriminate || lra)).
  assert (N : forall v e, normalized3 e v = true <-> Rabs (inner3 v v - 1) < e).
  { intros v e. unfold normalized3, approx_equal. replace (length_squared3 v) with (inner3 v v) by (rewrite inner_eq; unfold length_squared3; ring). rewrite Rabs_minus_sym. destruct (Rlt_dec (Rabs (inner3 v v - 1)) e); intuition (discriminate || lra). }
  rewrite !A, !N, !dot_inner. tauto.
Qed.
Print Assumptions C170_orthonormalized.
Theorem C170_orthonormalize : forall eps eps_axes rows cols m, 0 < eps -> 0 < eps_axes -> shape rows cols -> dims rows cols m -> triple (column3 m 0) (column3 m 1) (column3 m 2) <> 0 ->
  orthonormalized eps eps_axes (orthonormalize rows m) = true.
Proof.
  intros eps eps_axes rows cols m E E' Sh D T. destruct (C83_orthonormalize rows cols m Sh D T) as (_ & (XX & YY & ZZ & XY & XZ & YZ) & _). apply C170_orthonormalized. rewrite XX, YY, ZZ, XY, XZ, YZ, Rminus_diag_eq, Rabs_R0 by reflexivity. tauto.
Qed.
Print Assumptions C170_orthonormalize.

(** A quarter turn with stretching and a translation; a shear. *)
Example C170_witness : planar 3 3 /\ planar 2 3 /\ 0 * 0 + 1 * 1 = 1 /\ -1 * -1 + 0 * 0 = 1 /\ 0 * -1 + 1 * 0 = 0 /\
  extract_2d_scale (placed 0 5 6 0 1 (-1) 0 2 (-3)) = (Rabs 2, Rabs (-3)) /\ has_2d_shear (from_2d_axes 2 2 1 0 1 1) = true.
Proof.
  split; [unfold planar; tauto|]. split; [unfold planar; tauto|]. split; [ring|]. split; [ring|]. split; [ring|]. split; [apply C170_extract_scale; ring|].
  apply C170_shear; cbn; lra.
Qed.
