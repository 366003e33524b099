(** C166: the test of a box and a triangle is exact. *)
From Coq Require Import Reals Lra List Bool.
From Verif Require Import VecModel VecSpec QuatModel QuatSpec QuatProofs QuatProofs2 XformSpec XformProofs GeomModel GeomSpec GeomProofs GeomProofs3 MoveModel MoveProps SatProofs2.
Import ListNotations.
Local Open Scope R_scope.

(** Thirteen directions are enough: whatever none of them separates has a common point. *)
Theorem C166_box : forall b p0 p1 p2, proper b -> (box_tri b p0 p1 p2 = true <-> proper_triangle p0 p1 p2 /\ meet (in_box b) (in_triangle p0 p1 p2)).
Proof.
  intros b p0 p1 p2 P. split.
  - intros H. split; [exact (box_tri_proper _ _ _ _ _ H)|now apply box_tri_sound].
  - intros [T M]. now apply box_tri_complete.
Qed.
Theorem C166_oriented_box : forall o p0 p1 p2, proper_obb o -> (obb_tri o p0 p1 p2 = true <-> proper_triangle p0 p1 p2 /\ meet (in_obb o) (in_triangle p0 p1 p2)).
Proof.
  intros o p0 p1 p2 P. split.
  - intros H. split; [exact (obb_tri_proper _ _ _ _ H)|now apply obb_tri_sound].
  - intros [T M]. now apply obb_tri_complete.
Qed.
(** The same from the smallest and the largest corner *)
Theorem C166_min_max : forall lo hi p0 p1 p2, vx lo <= vx hi -> vy lo <= vy hi -> vz lo <= vz hi ->
  (box_tri_min_max lo hi p0 p1 p2 = true <->
   proper_triangle p0 p1 p2 /\ exists x, in_triangle p0 p1 p2 x /\ vx lo <= vx x <= vx hi /\ vy lo <= vy x <= vy hi /\ vz lo <= vz x <= vz hi).
Proof.
  intros lo hi p0 p1 p2 X Y Z. split.
  - intros H. split; [exact (box_tri_proper _ _ _ _ _ H)|]. destruct (box_tri_min_max_sound lo hi p0 p1 p2) as (a & b & c & A & B & C & S & K); [intros []; assumption|exact H|].
    exists (mix p0 p1 p2 a b c). split; [exists a, b, c; auto|]. exact (conj (K AxisX) (conj (K AxisY) (K AxisZ))).
  - intros [T (x & I & X' & Y' & Z')]. now apply box_tri_min_max_complete with x.
Qed.
Theorem C166_testers : forall b p0 p1 p2, proper b ->
  (box_test_triangle (box_tester_of b) p0 p1 p2 = true <-> proper_triangle p0 p1 p2 /\ meet (in_box b) (in_triangle p0 p1 p2)) /\
  (box_test_tri_tester (box_tester_of b) (tri_tester_of p0 p1 p2) = true <-> proper_triangle p0 p1 p2 /\ meet (in_box b) (in_triangle p0 p1 p2)).
Proof.
  intros b p0 p1 p2 P. change (box_test_tri_tester (box_tester_of b) (tri_tester_of p0 p1 p2)) with (box_test_triangle (box_tester_of b) p0 p1 p2). rewrite tester_triangle. split; now apply C166_box.
Qed.
(** The order of the three points makes no difference. *)
Theorem C166_order : forall b p0 p1 p2, proper b -> box_tri b p0 p1 p2 = box_tri b p1 p2 p0 /\ box_tri b p0 p1 p2 = box_tri b p1 p0 p2.
Proof.
  assert (K : forall b p0 p1 p2 q0 q1 q2, proper b -> (proper_triangle p0 p1 p2 <-> proper_triangle q0 q1 q2) -> (forall x, in_triangle p0 p1 p2 x <-> in_triangle q0 q1 q2 x) -> box_tri b p0 p1 p2 = box_tri b q0 q1 q2).
  { intros b p0 p1 p2 q0 q1 q2 P A B. apply eq_true_iff_eq. rewrite !C166_box by exact P. rewrite A. unfold meet. split; intros [T (x & I & J)]; (split; [exact T|exists x; split; [exact I|now apply B]]). }
  intros b p0 p1 p2 P. split; apply K; try exact P.
  - unfold proper_triangle. split; intros N (o & d & H); apply N; exists o, d; tauto.
  - intros x. split; intros (u & v & w & U & V & W & S & ->); [exists v, w, u|exists w, u, v]; repeat (split; [assumption|]); (split; [lra|]); apply v3_eq; cbn; ring.
  - unfold proper_triangle. split; intros N (o & d & H); apply N; exists o, d; tauto.
  - intros x. split; intros (u & v & w & U & V & W & S & ->); exists v, u, w; repeat (split; [assumption|]); (split; [lra|]); apply v3_eq; cbn; ring.
Qed.

(** A triangle beside an edge of the box: only a direction at right angles to an edge of each separates them. *)
Example C166_beside : let b := Box origin (V3 1 1 1) in let p0 := V3 3 0 0 in let p1 := V3 0 3 0 in let p2 := V3 3 3 5 in
  proper b /\ proper_triangle p0 p1 p2 /\ box_tri b p0 p1 p2 = false.
Proof.
  cbv zeta. assert (P : proper (Box origin (V3 1 1 1))) by (unfold proper; cbn; lra). split; [exact P|]. split.
  - apply proper_cross. unfold cross, sub3, origin. cbn. intro G. injection G as _ _ G. lra.
  - apply not_true_is_false. intros F. apply C166_box in F; [|exact P]. destruct F as [_ (x & (X & Y & Z) & (u & v & w & U & V & W & S & ->))]. unfold mix in *. cbn in *. lra.
Qed.
Example C166_inside : let b := Box origin (V3 1 1 1) in let p0 := V3 (-9) (-9) 0 in let p1 := V3 9 (-9) 0 in let p2 := V3 0 9 (1 / 2) in
  proper b /\ box_tri b p0 p1 p2 = true.
Proof.
  cbv zeta. assert (P : proper (Box origin (V3 1 1 1))) by (unfold proper; cbn; lra). split; [exact P|]. apply C166_box; [exact P|]. split.
  - apply proper_cross. unfold cross, sub3, origin. cbn. intro G. injection G as _ _ G. lra.
  - exists (V3 0 0 (1 / 4)). split; [unfold in_box; cbn; lra|]. exists (1 / 4), (1 / 4), (1 / 2). repeat (split; [lra|]). apply v3_eq; cbn; lra.
Qed.
Example C166_turned : proper_obb (Obb origin (V3 1 2 3) (V3 0 1 0) (V3 (-1) 0 0) (V3 0 0 1)).
Proof. unfold proper_obb, orthonormal, inner3. cbn. lra. Qed.

Print Assumptions C166_box.
Print Assumptions C166_oriented_box.
Print Assumptions C166_min_max.
Print Assumptions C166_testers.
Print Assumptions C166_order.
