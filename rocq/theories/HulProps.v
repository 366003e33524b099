(** Property C181. *)
From Coq Require Import Reals Lra Psatz List Bool.
From Verif Require Import MatModel VecModel VecSpec QuatModel XformSpec QuatProofs GeomModel GeomSpec GeomProofs GeomProofs2 GeomProofs3 GeomProofs4 GeomProps2 HulModel.
Import ListNotations.
Local Open Scope R_scope.

(** The convex hull of a collection: its points and everything between points of the hull. *)
Inductive hull (l : list v3) : v3 -> Prop :=
| hull_point x : In x l -> hull l x
| hull_between a b x : hull l a -> hull l b -> in_segment a b x -> hull l x.
Definition convex (P : v3 -> Prop) : Prop := forall a b, P a -> P b -> subset (in_segment a b) P.

Lemma box_convex b : convex (in_box b).
Proof. intros p q A B. apply box_contains_segment_spec. unfold box_contains_segment. apply andb_true_iff. split; apply box_contains_spec; assumption. Qed.
Lemma ball_convex s : convex (in_ball s).
Proof. intros p q A B. apply sphere_contains_segment_spec. unfold sphere_contains_segment. apply andb_true_iff. split; apply sphere_contains_spec; assumption. Qed.
Lemma between u v t lo hi : lo <= u <= hi -> lo <= v <= hi -> 0 <= t <= 1 -> lo <= u + t * (v - u) <= hi.
Proof. intros. nra. Qed.
Lemma obb_convex o : convex (in_obb o).
Proof.
  intros p q (r & s & t & A & B & C & ->) (r' & s' & t' & A' & B' & C' & ->) x (k & K & ->).
  exists (r + k * (r' - r)), (s + k * (s' - s)), (t + k * (t' - t)). repeat (split; [apply between; assumption|]).
  unfold along. cbn [vx vy vz]. f_equal; ring.
Qed.
Lemma hull_in (P : v3 -> Prop) l : convex P -> (forall x, In x l -> P x) -> subset (hull l) P.
Proof. intros C H x I. induction I as [x I|a b x A HA B HB S]; [apply H, I|]. exact (C a b HA HB x S). Qed.
Lemma range_spec (f : v3 -> bool) (P : v3 -> Prop) l : (forall x, f x = true <-> P x) -> convex P ->
  (in_range f l = true <-> l <> [] /\ subset (hull l) P).
Proof.
  intros F C.
  assert (L : range_loop f l = true <-> subset (hull l) P).
  { transitivity (forall x, In x l -> P x).
    - induction l as [|x l IH]; cbn [range_loop]; [split; [intros _ x []|reflexivity]|]. specialize (F x).
      destruct (f x); cbn [negb]; [rewrite IH; split; [intros A y [<-|I]; [apply F; reflexivity|apply A, I]|intros A y I; apply A; right; assumption]|].
      split; [discriminate|]. intros A. apply F, A. left; reflexivity.
    - split; [apply hull_in, C|]. intros A x I. apply A, hull_point, I. }
  destruct l as [|x l]; cbn [in_range]; [split; [discriminate|intros [A _]; destruct (A eq_refl)]|].
  rewrite L. split; [intros A; split; [discriminate|assumption]|intros [_ A]; assumption].
Qed.

(** A collection is contained exactly when it is not empty and its whole convex hull is in the object. *)
Theorem C181_box : forall b points, box_contains_range b points = true <-> points <> [] /\ subset (hull points) (in_box b).
Proof. intros b points. apply range_spec; [apply box_contains_spec|apply box_convex]. Qed.
Theorem C181_sphere : forall s points, sphere_contains_range s points = true <-> points <> [] /\ subset (hull points) (in_ball s).
Proof. intros s points. apply range_spec; [apply sphere_contains_spec|apply ball_convex]. Qed.
Theorem C181_obb : forall o points, proper_obb o -> (obb_contains_range o points = true <-> points <> [] /\ subset (hull points) (in_obb o)).
Proof. intros o points P. apply range_spec; [intros x; apply obb_contains_spec, P|apply obb_convex]. Qed.
(** An oriented box contains a segment or a triangle exactly when all of its points are in the box. *)
Theorem C181_obb_segment : forall o start finish, proper_obb o -> (obb_contains_segment o start finish = true <-> subset (in_segment start finish) (in_obb o)).
Proof.
  intros o s f P. unfold obb_contains_segment. rewrite andb_true_iff, !obb_contains_spec by apply P. split; [intros [A B]; apply obb_convex; assumption|].
  intros A. destruct s as [a b c], f as [d e g]. split; apply A; [exists 0|exists 1]; (split; [lra|]); unfold along; cbn [vx vy vz]; f_equal; ring.
Qed.
Theorem C181_obb_triangle : forall o p0 p1 p2, proper_obb o -> (obb_contains_triangle o p0 p1 p2 = true <-> subset (in_triangle p0 p1 p2) (in_obb o)).
Proof.
  intros o p0 p1 p2 P. unfold obb_contains_triangle. rewrite !andb_true_iff, !obb_contains_spec by apply P. split.
  - intros [[(r & s & t & A & B & C & ->) (r' & s' & t' & A' & B' & C' & ->)] (r'' & s'' & t'' & A'' & B'' & C'' & ->)] x (a & b & c & Ha & Hb & Hc & S & ->).
    exists (a * r + b * r' + c * r''), (a * s + b * s' + c * s''), (a * t + b * t' + c * t'').
    assert (K : forall u v w m, - m <= u <= m -> - m <= v <= m -> - m <= w <= m -> - m <= a * u + b * v + c * w <= m).
    { intros u v w m U V W. assert (a * (m - u) >= 0 /\ a * (m + u) >= 0 /\ b * (m - v) >= 0 /\ b * (m + v) >= 0 /\ c * (m - w) >= 0 /\ c * (m + w) >= 0) by (repeat split; apply Rle_ge, Rmult_le_pos; lra).
      assert (m = (a + b + c) * m) by (rewrite S; ring). nra. }
    repeat (split; [apply K; assumption|]). unfold mix. cbn [vx vy vz]. replace a with (1 - b - c) by lra. f_equal; ring.
  - intros A. repeat split; apply A; [exists 1, 0, 0|exists 0, 1, 0|exists 0, 0, 1]; repeat split; try lra; apply v3_eq; cbn; ring.
Qed.
(** Leaving points out keeps a collection contained, unless none is left; two collections are contained together when each is. *)
Theorem C181_together : forall b points more, points <> [] -> more <> [] ->
  (box_contains_range b (points ++ more) = true <-> box_contains_range b points = true /\ box_contains_range b more = true).
Proof.
  intros b l m L M. rewrite !C181_box. split.
  - intros [_ A]. split; (split; [assumption|]); apply hull_in; try apply box_convex; intros x I; apply A, hull_point, in_or_app; [left|right]; assumption.
  - intros [[_ A] [_ B]]. split; [destruct l; [contradiction|discriminate]|]. apply hull_in; [apply box_convex|].
    intros x I. apply in_app_or in I. destruct I as [I|I]; [apply A|apply B]; apply hull_point, I.
Qed.
Print Assumptions C181_box.
Print Assumptions C181_sphere.
Print Assumptions C181_obb.
Print Assumptions C181_obb_segment.
Print Assumptions C181_obb_triangle.
Print Assumptions C181_together.

(** Two points whose hull is in the box, the ball and the oriented box; and an empty collection, which none of them contains. *)
Example C181_ex : let p := V3 2 (1 / 2) (9 / 4) in let b := Box p (V3 1 1 1) in let s := Sphere p 1 in
  box_contains_range b [p; V3 3 (1 / 2) (9 / 4)] = true /\ sphere_contains_range s [p; V3 3 (1 / 2) (9 / 4)] = true /\
  proper_obb rod2 /\ obb_contains_range rod2 [p; p] = true /\ box_contains_range b [] = false /\ box_contains_range b [p; V3 4 0 2] = false.
Proof.
  cbv zeta. split; [apply C181_box; split; [discriminate|]; apply hull_in; [apply box_convex|]; intros x [<-|[<-|[]]]; unfold in_box; cbn; lra|].
  split; [apply C181_sphere; split; [discriminate|]; apply hull_in; [apply ball_convex|]; intros x [<-|[<-|[]]]; unfold in_ball, dist2; cbn; lra|].
  split; [apply C86_ex|]. split.
  - unfold obb_contains_range, in_range, range_loop. rewrite (proj1 (proj2 C86_ex)). reflexivity.
  - split; [reflexivity|]. destruct (box_contains_range _ _) eqn:E; [|reflexivity]. exfalso. apply C181_box in E. destruct E as [_ E].
    assert (G := E (V3 4 0 2)). clear E. assert (E : in_box (Box (V3 2 (1 / 2) (9 / 4)) (V3 1 1 1)) (V3 4 0 2)) by (apply G, hull_point; right; left; reflexivity). unfold in_box in E. cbn in E. lra.
Qed.
