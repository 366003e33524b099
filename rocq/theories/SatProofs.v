(** Helly's theorem in the plane, for the converse of the separating axis test of a box and a triangle. *)
From Coq Require Import Reals Lra Psatz List Bool.
Import ListNotations.
Local Open Scope R_scope.

Definition convex (P : R -> R -> Prop) : Prop :=
  forall u v u' v' t, P u v -> P u' v' -> 0 <= t <= 1 -> P ((1 - t) * u + t * u') ((1 - t) * v + t * v').

Lemma weighted (P : R -> R -> Prop) u1 v1 u2 v2 u3 v3 w1 w2 w3 W U V : convex P -> P u1 v1 -> P u2 v2 -> P u3 v3 -> 0 <= w1 -> 0 <= w2 -> 0 <= w3 ->
  W = w1 + w2 + w3 -> 0 < W -> U = w1 * u1 + w2 * u2 + w3 * u3 -> V = w1 * v1 + w2 * v2 + w3 * v3 -> P (U / W) (V / W).
Proof.
  intros C P1 P2 P3 A1 A2 A3 EW W0 -> ->. destruct (Req_dec (w1 + w2) 0) as [Z|Z].
  - assert (w1 = 0) by lra. assert (w2 = 0) by lra. subst w1 w2. replace ((0 * u1 + 0 * u2 + w3 * u3) / W) with u3 by (rewrite EW; field; lra). replace ((0 * v1 + 0 * v2 + w3 * v3) / W) with v3 by (rewrite EW; field; lra). exact P3.
  - assert (S : 0 < w1 + w2) by lra.
    assert (D : forall a b, 0 <= a <= b -> 0 < b -> 0 <= a / b <= 1).
    { intros a b [H1 H2] H3. split; [apply Rmult_le_pos; [lra|left; now apply Rinv_0_lt_compat]|]. apply Rmult_le_reg_r with b; [lra|]. unfold Rdiv. rewrite Rmult_assoc, Rinv_l by lra. lra. }
    pose proof (C u1 v1 u2 v2 (w2 / (w1 + w2)) P1 P2 (D w2 (w1 + w2) ltac:(lra) S)) as Q.
    pose proof (C _ _ u3 v3 (w3 / W) Q P3 (D w3 W ltac:(lra) W0)) as Q'. 
    replace ((w1 * u1 + w2 * u2 + w3 * u3) / W) with ((1 - w3 / W) * ((1 - w2 / (w1 + w2)) * u1 + w2 / (w1 + w2) * u2) + w3 / W * u3) by (rewrite EW; field; lra).
    replace ((w1 * v1 + w2 * v2 + w3 * v3) / W) with ((1 - w3 / W) * ((1 - w2 / (w1 + w2)) * v1 + w2 / (w1 + w2) * v2) + w3 / W * v3) by (rewrite EW; field; lra).
    exact Q'.
Qed.

(** Three vectors in the plane are linearly dependent. *)
Lemma dependent a1 a2 b1 b2 c1 c2 : exists x y z, (x <> 0 \/ y <> 0 \/ z <> 0) /\ x * a1 + y * b1 + z * c1 = 0 /\ x * a2 + y * b2 + z * c2 = 0.
Proof.
  destruct (Req_dec (b1 * c2 - b2 * c1) 0) as [X|X]; [destruct (Req_dec (c1 * a2 - c2 * a1) 0) as [Y|Y]; [destruct (Req_dec (a1 * b2 - a2 * b1) 0) as [Z|Z]|]|].
  - destruct (Req_dec (a1 * a1 + a2 * a2) 0) as [N|N].
    + exists 1, 0, 0. pose proof (Rle_0_sqr a1) as S1. pose proof (Rle_0_sqr a2) as S2. unfold Rsqr in *. assert (a1 = 0) by (apply Rsqr_0_uniq; unfold Rsqr; lra). assert (a2 = 0) by (apply Rsqr_0_uniq; unfold Rsqr; lra). repeat split; [left; lra|lra|lra].
    + exists (a1 * b1 + a2 * b2), (- (a1 * a1 + a2 * a2)), 0. split; [right; left; lra|]. split.
      * replace ((a1 * b1 + a2 * b2) * a1 + - (a1 * a1 + a2 * a2) * b1 + 0 * c1) with (a2 * (a1 * b2 - a2 * b1)) by ring. rewrite Z. ring.
      * replace ((a1 * b1 + a2 * b2) * a2 + - (a1 * a1 + a2 * a2) * b2 + 0 * c2) with (- a1 * (a1 * b2 - a2 * b1)) by ring. rewrite Z. ring.
  - exists (b1 * c2 - b2 * c1), (c1 * a2 - c2 * a1), (a1 * b2 - a2 * b1). split; [tauto|]. split; ring.
  - exists (b1 * c2 - b2 * c1), (c1 * a2 - c2 * a1), (a1 * b2 - a2 * b1). split; [tauto|]. split; ring.
  - exists (b1 * c2 - b2 * c1), (c1 * a2 - c2 * a1), (a1 * b2 - a2 * b1). split; [tauto|]. split; ring.
Qed.

Lemma four (A B C D : R -> R -> Prop) : convex A -> convex B -> convex C -> convex D ->
  (exists u v, B u v /\ C u v /\ D u v) -> (exists u v, A u v /\ C u v /\ D u v) -> (exists u v, A u v /\ B u v /\ D u v) -> (exists u v, A u v /\ B u v /\ C u v) ->
  exists u v, A u v /\ B u v /\ C u v /\ D u v.
Proof.
  intros KA KB KC KD (a & a' & aB & aC & aD) (b & b' & bA & bC & bD) (c & c' & cA & cB & cD) (d & d' & dA & dB & dC).
  destruct (dependent (b - a) (b' - a') (c - a) (c' - a') (d - a) (d' - a')) as (y & z & w & N & E1 & E2). set (x := - (y + z + w)).
  assert (Part : forall k, 0 <= Rmax k 0 /\ 0 <= Rmax (- k) 0 /\ Rmax k 0 - Rmax (- k) 0 = k /\ (0 < k -> Rmax (- k) 0 = 0) /\ (k <= 0 -> Rmax k 0 = 0)).
  { intros k. unfold Rmax. destruct (Rle_dec k 0), (Rle_dec (- k) 0); repeat split; lra. }
  destruct (Part x) as (X1 & X2 & X3 & X4 & X5). destruct (Part y) as (Y1 & Y2 & Y3 & Y4 & Y5). destruct (Part z) as (Z1 & Z2 & Z3 & Z4 & Z5). destruct (Part w) as (W1 & W2 & W3 & W4 & W5).
  set (xp := Rmax x 0) in *. set (xm := Rmax (- x) 0) in *. set (yp := Rmax y 0) in *. set (ym := Rmax (- y) 0) in *. set (zp := Rmax z 0) in *. set (zm := Rmax (- z) 0) in *. set (wp := Rmax w 0) in *. set (wm := Rmax (- w) 0) in *.
  set (W := xp + yp + zp + wp). assert (EW : W = xm + ym + zm + wm) by (unfold W, x in *; lra).
  assert (W0 : 0 < W).
  { destruct (Rle_lt_dec W 0) as [H|H]; [exfalso|exact H]. assert (xp = 0 /\ yp = 0 /\ zp = 0 /\ wp = 0) by (unfold W in H; lra). assert (xm = 0 /\ ym = 0 /\ zm = 0 /\ wm = 0) by lra. destruct N as [N|[N|N]]; apply N; lra. }
  set (U := xp * a + yp * b + zp * c + wp * d). set (V := xp * a' + yp * b' + zp * c' + wp * d').
  assert (EU : U = xm * a + ym * b + zm * c + wm * d).
  { unfold U. assert (H : x * a + y * b + z * c + w * d = 0) by (unfold x; lra). rewrite <- X3, <- Y3, <- Z3, <- W3 in H. lra. }
  assert (EV : V = xm * a' + ym * b' + zm * c' + wm * d').
  { unfold V. assert (H : x * a' + y * b' + z * c' + w * d' = 0) by (unfold x; lra). rewrite <- X3, <- Y3, <- Z3, <- W3 in H. lra. }
  exists (U / W), (V / W). clearbody x xp xm yp ym zp zm wp wm. split; [|split; [|split]].
  - destruct (Rlt_le_dec 0 x) as [H|H]; [apply (weighted A b b' c c' d d' ym zm wm); try assumption; try lra; rewrite ?EU, ?EV, ?EW, (X4 H); ring|apply (weighted A b b' c c' d d' yp zp wp); try assumption; unfold U, V, W; rewrite (X5 H); ring].
  - destruct (Rlt_le_dec 0 y) as [H|H]; [apply (weighted B a a' c c' d d' xm zm wm); try assumption; try lra; rewrite ?EU, ?EV, ?EW, (Y4 H); ring|apply (weighted B a a' c c' d d' xp zp wp); try assumption; unfold U, V, W; rewrite (Y5 H); ring].
  - destruct (Rlt_le_dec 0 z) as [H|H]; [apply (weighted C a a' b b' d d' xm ym wm); try assumption; try lra; rewrite ?EU, ?EV, ?EW, (Z4 H); ring|apply (weighted C a a' b b' d d' xp yp wp); try assumption; unfold U, V, W; rewrite (Z5 H); ring].
  - destruct (Rlt_le_dec 0 w) as [H|H]; [apply (weighted D a a' b b' c c' xm ym zm); try assumption; try lra; rewrite ?EU, ?EV, ?EW, (W4 H); ring|apply (weighted D a a' b b' c c' xp yp zp); try assumption; unfold U, V, W; rewrite (W5 H); ring].
Qed.

(** If every three of finitely many convex sets have a common point, all of them have. *)
Lemma helly : forall L : list (R -> R -> Prop), (forall P, In P L -> convex P) ->
  (forall A B C, In A L -> In B L -> In C L -> exists u v, A u v /\ B u v /\ C u v) -> exists u v, forall P, In P L -> P u v.
Proof.
  intros L. remember (length L) as n eqn:E. revert L E. induction n as [|n IH]; intros L E K H.
  - destruct L; [|discriminate]. exists 0, 0. intros P [].
  - destruct L as [|A [|B M]]; [discriminate| |].
    + destruct (H A A A ltac:(now left) ltac:(now left) ltac:(now left)) as (u & v & P & _). exists u, v. intros Q [<-|[]]. exact P.
    + destruct (IH ((fun u v => A u v /\ B u v) :: M)) as (u & v & G).
      * cbn in *. congruence.
      * intros P [<-|I]; [|apply K; now right; right]. intros u v u' v' t [X1 X2] [X3 X4] T. split; [apply (K A (or_introl eq_refl))|apply (K B (or_intror (or_introl eq_refl)))]; assumption.
      * assert (F : forall C D, In C (A :: B :: M) -> In D (A :: B :: M) -> exists u v, A u v /\ B u v /\ C u v /\ D u v).
        { intros C D IC ID. apply four; try (apply K; cbn; auto); try (now apply K); apply H; cbn; auto. }
        assert (IM : forall P, In P M -> In P (A :: B :: M)) by (intros; cbn; auto).
        intros C D G [<-|IC] [<-|ID] [<-|IG].
        -- destruct (F A A) as (u & v & X); cbn; auto. exists u, v. tauto.
        -- destruct (F G A) as (u & v & X); cbn; auto. exists u, v. tauto.
        -- destruct (F D A) as (u & v & X); cbn; auto. exists u, v. tauto.
        -- destruct (F D G) as (u & v & X); auto. exists u, v. tauto.
        -- destruct (F C A) as (u & v & X); cbn; auto. exists u, v. tauto.
        -- destruct (F C G) as (u & v & X); auto. exists u, v. tauto.
        -- destruct (F C D) as (u & v & X); auto. exists u, v. tauto.
        -- apply H; auto.
      * exists u, v. intros P [<-|[<-|I]]; [apply (G _ (or_introl eq_refl))|apply (G _ (or_introl eq_refl))|apply G; now right].
Qed.
