(** C112, C113: the intersection of two triangles. *)
From Coq Require Import Reals Lra Bool.
From Verif Require Import Words VecModel VecSpec GeomModel GeomSpec GeomProofs TriModel TriSpec TriProofs TriProofs2 TriProofs3 TriProofs4.
Local Open Scope R_scope.

(** C112. The test is exact, touching included, for triangles of nonzero area such that every corner is on the plane of the other triangle or
    far enough from it. *)
Theorem C112_exact : forall eps v0 v1 v2 u0 u1 u2, proper_triangle v0 v1 v2 -> proper_triangle u0 u1 u2 -> all_settled eps v0 v1 v2 u0 u1 u2 ->
  intersects eps v0 v1 v2 u0 u1 u2 = true <-> meet (in_triangle v0 v1 v2) (in_triangle u0 u1 u2).
Proof. intros eps v0 v1 v2 u0 u1 u2 V U S. rewrite proper_cross in V, U. now apply intersects_exact. Qed.
Print Assumptions C112_exact.

(** The order of the triangles does not matter. *)
Theorem C112_symmetric : forall eps v0 v1 v2 u0 u1 u2, proper_triangle v0 v1 v2 -> proper_triangle u0 u1 u2 -> all_settled eps v0 v1 v2 u0 u1 u2 ->
  intersects eps u0 u1 u2 v0 v1 v2 = intersects eps v0 v1 v2 u0 u1 u2.
Proof.
  intros eps v0 v1 v2 u0 u1 u2 V U S.
  assert (S' : all_settled eps u0 u1 u2 v0 v1 v2) by (unfold all_settled in *; tauto).
  pose proof (C112_exact eps v0 v1 v2 u0 u1 u2 V U S) as A. pose proof (C112_exact eps u0 u1 u2 v0 v1 v2 U V S') as B.
  apply eq_true_iff_eq. rewrite A, B. unfold meet. split; intros (x & X & Y); exists x; auto.
Qed.
Print Assumptions C112_symmetric.

(** Without the condition on the distances both answers can be wrong. However far apart, triangles that are small enough are said to intersect. *)
Theorem C112_apart_refuted : forall eps h, 0 < eps -> 0 < h -> exists v0 v1 v2 u0 u1 u2,
  proper_triangle v0 v1 v2 /\ proper_triangle u0 u1 u2 /\
  (forall x y, in_triangle v0 v1 v2 x -> in_triangle u0 u1 u2 y -> h * h <= dist2 x y) /\ intersects eps v0 v1 v2 u0 u1 u2 = true.
Proof. exact apart. Qed.
Print Assumptions C112_apart_refuted.

Theorem C112_missed_refuted : forall eps, 0 < eps -> exists v0 v1 v2 u0 u1 u2,
  proper_triangle v0 v1 v2 /\ proper_triangle u0 u1 u2 /\ meet (in_triangle v0 v1 v2) (in_triangle u0 u1 u2) /\ intersects eps v0 v1 v2 u0 u1 u2 = false.
Proof. exact missed. Qed.
Print Assumptions C112_missed_refuted.

(** C113. Under the conditions of C112 the test with a segment has the same answer; a segment is given exactly when the triangles meet and are not
    in one plane, and it is their intersection. *)
Theorem C113_segment : forall eps v0 v1 v2 u0 u1 u2, proper_triangle v0 v1 v2 -> proper_triangle u0 u1 u2 -> all_settled eps v0 v1 v2 u0 u1 u2 ->
  exists b seg, intersects_segment eps v0 v1 v2 u0 u1 u2 = Result b seg /\
    (b = true <-> meet (in_triangle v0 v1 v2) (in_triangle u0 u1 u2)) /\
    match seg with
    | Some (p, q) => b = true /\ ~ in_one_plane v0 v1 v2 u0 u1 u2 /\ forall x, in_segment p q x <-> in_triangle v0 v1 v2 x /\ in_triangle u0 u1 u2 x
    | None => b = false \/ in_one_plane v0 v1 v2 u0 u1 u2
    end.
Proof. intros eps v0 v1 v2 u0 u1 u2 V U S. rewrite proper_cross in V, U. now apply segment_exact. Qed.
Print Assumptions C113_segment.

Theorem C113_same_answer : forall eps v0 v1 v2 u0 u1 u2, proper_triangle v0 v1 v2 -> proper_triangle u0 u1 u2 -> all_settled eps v0 v1 v2 u0 u1 u2 ->
  exists seg, intersects_segment eps v0 v1 v2 u0 u1 u2 = Result (intersects eps v0 v1 v2 u0 u1 u2) seg.
Proof.
  intros eps v0 v1 v2 u0 u1 u2 V U S. destruct (C113_segment eps v0 v1 v2 u0 u1 u2 V U S) as (b & seg & -> & B & _). exists seg. f_equal.
  apply eq_true_iff_eq. rewrite B. symmetry. now apply C112_exact.
Qed.
Print Assumptions C113_same_answer.

(** Without the condition it can read variables that were never written. *)
Theorem C113_uninitialised_refuted : forall eps, 0 < eps <= 1 -> exists v0 v1 v2 u0 u1 u2,
  proper_triangle v0 v1 v2 /\ proper_triangle u0 u1 u2 /\ meet (in_triangle v0 v1 v2) (in_triangle u0 u1 u2) /\ intersects_segment eps v0 v1 v2 u0 u1 u2 = ReadsUnwritten.
Proof. exact uninitialised. Qed.
Print Assumptions C113_uninitialised_refuted.

(** ** Triangles that meet the conditions *)
Definition w0 := V3 0 0 0. Definition w1 := V3 4 0 0. Definition w2 := V3 0 4 0.

Ltac settle := unfold all_settled, settled, volume, w0, w1, w2; cbn; repeat split;
  match goal with |- ?a = 0 \/ _ => let r := fresh in first [left; lra|right; unfold Rabs; destruct (Rcase_abs _); lra] end.
Ltac is_proper := apply normal_nonzero; unfold normal_of, cross, sub3, w0, w1, w2; cbn; lra.

(** Crossing. *)
Example C112_crossing : proper_triangle w0 w1 w2 /\ proper_triangle (V3 1 1 (-1)) (V3 1 1 1) (V3 1 2 0) /\
  all_settled (/ 100000) w0 w1 w2 (V3 1 1 (-1)) (V3 1 1 1) (V3 1 2 0) /\ intersects (/ 100000) w0 w1 w2 (V3 1 1 (-1)) (V3 1 1 1) (V3 1 2 0) = true.
Proof.
  assert (A : proper_triangle w0 w1 w2) by is_proper. assert (B : proper_triangle (V3 1 1 (-1)) (V3 1 1 1) (V3 1 2 0)) by is_proper.
  assert (C : all_settled (/ 100000) w0 w1 w2 (V3 1 1 (-1)) (V3 1 1 1) (V3 1 2 0)) by settle.
  do 3 (split; [assumption|]). apply C112_exact; [assumption..|]. exists (V3 1 1 0). split.
  - exists (/ 2), (/ 4), (/ 4). repeat split; try lra. apply v3_eq; unfold mix, w0, w1, w2; cbn; lra.
  - exists (/ 2), (/ 2), 0. repeat split; try lra. apply v3_eq; unfold mix; cbn; lra.
Qed.
(** In one plane, one inside the other. *)
Example C112_inside : proper_triangle (V3 1 1 0) (V3 2 1 0) (V3 1 2 0) /\
  all_settled (/ 100000) w0 w1 w2 (V3 1 1 0) (V3 2 1 0) (V3 1 2 0) /\ intersects (/ 100000) w0 w1 w2 (V3 1 1 0) (V3 2 1 0) (V3 1 2 0) = true.
Proof.
  assert (A : proper_triangle w0 w1 w2) by is_proper. assert (B : proper_triangle (V3 1 1 0) (V3 2 1 0) (V3 1 2 0)) by is_proper.
  assert (C : all_settled (/ 100000) w0 w1 w2 (V3 1 1 0) (V3 2 1 0) (V3 1 2 0)) by settle.
  do 2 (split; [assumption|]). apply C112_exact; [assumption..|]. exists (V3 1 1 0). split.
  - exists (/ 2), (/ 4), (/ 4). repeat split; try lra. apply v3_eq; unfold mix, w0, w1, w2; cbn; lra.
  - exists 1, 0, 0. repeat split; try lra. apply v3_eq; unfold mix; cbn; lra.
Qed.
(** The planes cross both triangles, yet they do not meet. *)
Example C112_outside : proper_triangle (V3 9 1 (-1)) (V3 9 1 1) (V3 8 3 0) /\
  all_settled (/ 100000) w0 w1 w2 (V3 9 1 (-1)) (V3 9 1 1) (V3 8 3 0) /\ intersects (/ 100000) w0 w1 w2 (V3 9 1 (-1)) (V3 9 1 1) (V3 8 3 0) = false.
Proof.
  assert (A : proper_triangle w0 w1 w2) by is_proper. assert (B : proper_triangle (V3 9 1 (-1)) (V3 9 1 1) (V3 8 3 0)) by is_proper.
  assert (C : all_settled (/ 100000) w0 w1 w2 (V3 9 1 (-1)) (V3 9 1 1) (V3 8 3 0)) by settle.
  do 2 (split; [assumption|]). apply not_true_is_false. intros T. apply C112_exact in T; [|assumption..].
  destruct T as (x & (a & b & c & ? & ? & ? & ? & ->) & (a' & b' & c' & ? & ? & ? & ? & E)). unfold mix, w0, w1, w2 in E. cbn in E. injection E as E1 E2 E3. lra.
Qed.
