(** Proofs about volumes as integrals. *)
From Coq Require Import Reals Lra Lia Bool.
From Coquelicot Require Import Coquelicot.
From Verif Require Import VecModel QuatModel GeomModel GeomSpec VolModel VolSpec.
Local Open Scope R_scope.

Lemma const_int : forall c a b, is_RInt (fun _ => c) a b (c * (b - a)).
Proof. intros. replace (c * (b - a)) with (Hierarchy.scal (b - a) c) by (unfold Hierarchy.scal; cbn; unfold Hierarchy.mult; cbn; ring). apply @is_RInt_const. Qed.
(** A function that is [g] from a to b and zero elsewhere. *)
Lemma piece : forall (f g : R -> R) M a b (I : R), - M <= a -> a <= b -> b <= M -> is_RInt g a b I ->
  (forall x, a < x < b -> f x = g x) -> (forall x, x < a \/ b < x -> f x = 0) -> is_RInt f (- M) M I.
Proof.
  intros f g M a b I Ha Hab Hb G E O.
  assert (Z : forall u v, u <= v -> (forall x, u < x < v -> f x = 0) -> is_RInt f u v 0).
  { intros u v H N. apply (is_RInt_ext (fun _ => 0)).
    - intros x Hx. rewrite Rmin_left, Rmax_right in Hx by exact H. now rewrite N.
    - pose proof (const_int 0 u v) as K. rewrite Rmult_0_l in K. exact K. }
  replace I with (Hierarchy.plus (Hierarchy.plus 0 I) 0) by (unfold Hierarchy.plus; cbn; ring).
  apply (@is_RInt_Chasles R_NormedModule f (- M) b M); [apply (@is_RInt_Chasles R_NormedModule f (- M) a b)|].
  - apply Z; [lra|]. intros x Hx. apply O. lra.
  - apply (is_RInt_ext g); [|exact G]. intros x Hx. rewrite Rmin_left, Rmax_right in Hx by exact Hab. now rewrite E.
  - apply Z; [lra|]. intros x Hx. apply O. lra.
Qed.
Lemma nothing : forall (f : R -> R) M, 0 <= M -> (forall x, - M < x < M -> f x = 0) -> is_RInt f (- M) M 0.
Proof.
  intros f M H N. apply (is_RInt_ext (fun _ => 0)).
  - intros x Hx. rewrite Rmin_left, Rmax_right in Hx by lra. now rewrite N.
  - pose proof (const_int 0 (- M) M) as K. rewrite Rmult_0_l in K. exact K.
Qed.

(** Volumes are unique. *)
Lemma within_unique : forall M S V V', volume_within M S V -> volume_within M S V' -> V = V'.
Proof.
  intros M S V V' (f & len & area & F & L & A & H) (f' & len' & area' & F' & L' & A' & H').
  assert (E1 : forall x y z, f x y z = f' x y z) by (intros x y z; destruct (F x y z) as [[i E]|[i E]], (F' x y z) as [[i' E']|[i' E']]; congruence || contradiction).
  assert (E2 : forall y z, len y z = len' y z).
  { intros y z. rewrite <- (is_RInt_unique _ _ _ _ (L y z)), <- (is_RInt_unique _ _ _ _ (L' y z)). apply RInt_ext. intros x _. apply E1. }
  assert (E3 : forall z, area z = area' z).
  { intros z. rewrite <- (is_RInt_unique _ _ _ _ (A z)), <- (is_RInt_unique _ _ _ _ (A' z)). apply RInt_ext. intros y _. apply E2. }
  rewrite <- (is_RInt_unique _ _ _ _ H), <- (is_RInt_unique _ _ _ _ H'). apply RInt_ext. intros z _. apply E3.
Qed.

(** Boxes. *)
Definition step (c e x : R) : R := if Rle_dec (c - e) x then if Rle_dec x (c + e) then 1 else 0 else 0.
Lemma step_int : forall k c e M, 0 <= e -> - M <= c - e -> c + e <= M -> is_RInt (fun x => k * step c e x) (- M) M (k * (2 * e)).
Proof.
  intros k c e M He H1 H2. replace (2 * e) with ((c + e) - (c - e)) by ring. apply (piece _ (fun _ => k) M (c - e) (c + e)); try lra.
  - apply const_int.
  - intros x Hx. unfold step. destruct (Rle_dec (c - e) x); [|lra]. destruct (Rle_dec x (c + e)); lra.
  - intros x Hx. unfold step. destruct (Rle_dec (c - e) x); [|lra]. destruct (Rle_dec x (c + e)); lra.
Qed.
Lemma step_cases : forall c e x, c - e <= x <= c + e /\ step c e x = 1 \/ ~ (c - e <= x <= c + e) /\ step c e x = 0.
Proof. intros. unfold step. destruct (Rle_dec (c - e) x), (Rle_dec x (c + e)); [left|right|right|right]; lra. Qed.
Lemma box_inside : forall M b, proper b -> inside M (in_box b) ->
  - M <= vx (center b) - vx (extents b) /\ vx (center b) + vx (extents b) <= M /\ - M <= vy (center b) - vy (extents b) /\ vy (center b) + vy (extents b) <= M /\
  - M <= vz (center b) - vz (extents b) /\ vz (center b) + vz (extents b) <= M.
Proof.
  intros M [[cx cy cz] [ex ey ez]] (Px & Py & Pz) I. cbn [center extents vx vy vz] in *.
  destruct (I (V3 (cx - ex) (cy - ey) (cz - ez))) as (A & B & C); [unfold in_box; cbn [center extents vx vy vz]; lra|].
  destruct (I (V3 (cx + ex) (cy + ey) (cz + ez))) as (A' & B' & C'); [unfold in_box; cbn [center extents vx vy vz]; lra|].
  cbn [vx vy vz] in *. apply Rabs_le_between in A, B, C, A', B', C'. lra.
Qed.
Lemma box_measured : forall b, proper b -> has_volume (in_box b) (box_volume b).
Proof.
  intros b P M I. pose proof (box_inside M b P I) as H. destruct b as [[cx cy cz] [ex ey ez]]. destruct P as (Px & Py & Pz). cbn [center extents vx vy vz] in *.
  exists (fun x y z => step cz ez z * step cy ey y * step cx ex x), (fun y z => step cz ez z * (2 * ex) * step cy ey y), (fun z => (2 * ex) * (2 * ey) * step cz ez z).
  split; [|split; [|split]].
  - intros x y z. unfold in_box; cbn [center extents vx vy vz].
    destruct (step_cases cx ex x) as [[A E]|[A E]], (step_cases cy ey y) as [[B F]|[B F]], (step_cases cz ez z) as [[C G]|[C G]]; rewrite E, F, G; (left; split; [lra|ring]) || (right; split; [lra|ring]).
  - intros y z. replace (step cz ez z * (2 * ex) * step cy ey y) with (step cz ez z * step cy ey y * (2 * ex)) by ring. apply step_int; lra.
  - intros z. replace (2 * ex * (2 * ey) * step cz ez z) with (step cz ez z * (2 * ex) * (2 * ey)) by ring. apply step_int; lra.
  - unfold box_volume. cbn [extents vx vy vz]. replace (ex * ey * ez * 8) with (2 * ex * (2 * ey) * (2 * ez)) by ring. apply step_int; lra.
Qed.

(** Discs: the integral of 2 sqrt(s^2 - (y - c)^2). *)
Lemma cont_chord : forall k c y, continuous (fun y => 2 * sqrt (k - (y - c) * (y - c))) y.
Proof.
  intros k c y. apply (continuous_mult (fun _ : R => 2) (fun y => sqrt (k - (y - c) * (y - c)))); [apply continuous_const|].
  apply continuous_comp; [|apply continuous_sqrt]. apply (continuous_minus (fun _ : R => k) (fun y => (y - c) * (y - c))); [apply continuous_const|].
  assert (L : continuous (fun y => y - c) y) by (apply (continuous_minus (fun y : R => y) (fun _ => c)); [apply continuous_id|apply continuous_const]).
  apply (continuous_mult (fun y => y - c) (fun y => y - c)); exact L.
Qed.
Lemma half_disc : forall c s, 0 <= s -> is_RInt (fun y => 2 * sqrt (s * s - (y - c) * (y - c))) (c - s) (c + s) (PI * (s * s)).
Proof.
  intros c s H. pose proof PI_RGT_0 as Hpi.
  pose proof (is_RInt_comp (fun y => 2 * sqrt (s * s - (y - c) * (y - c))) (fun t => c + s * sin t) (fun t => s * cos t) (- (PI / 2)) (PI / 2)) as S.
  assert (C1 : forall t, Rmin (- (PI / 2)) (PI / 2) <= t <= Rmax (- (PI / 2)) (PI / 2) -> continuous (fun y => 2 * sqrt (s * s - (y - c) * (y - c))) (c + s * sin t)) by (intros; apply cont_chord).
  assert (C2 : forall t, Rmin (- (PI / 2)) (PI / 2) <= t <= Rmax (- (PI / 2)) (PI / 2) -> is_derive (fun t => c + s * sin t) t (s * cos t) /\ continuous (fun t => s * cos t) t).
  { intros t _. split; [auto_derive; [exact I|ring]|]. apply (continuous_mult (fun _ : R => s) cos); [apply continuous_const|apply continuous_cos]. }
  specialize (S C1 C2). clear C1 C2.
  assert (A : is_RInt (fun t => 2 * (s * s) * (cos t * cos t)) (- (PI / 2)) (PI / 2) (PI * (s * s))).
  { replace (PI * (s * s)) with (Hierarchy.minus (s * s * (PI / 2 + sin (PI / 2) * cos (PI / 2))) (s * s * (- (PI / 2) + sin (- (PI / 2)) * cos (- (PI / 2))))).
    - apply (is_RInt_derive (fun t => s * s * (t + sin t * cos t))).
      + intros t _. auto_derive; [exact I|]. pose proof (sin2_cos2 t) as E. unfold Rsqr in E. replace 1 with (sin t * sin t + cos t * cos t) at 1 by exact E. ring.
      + intros t _. apply (continuous_mult (fun _ : R => 2 * (s * s)) (fun t => cos t * cos t)); [apply continuous_const|]. apply (continuous_mult cos cos); apply continuous_cos.
    - unfold Hierarchy.minus, Hierarchy.plus, Hierarchy.opp; cbn. rewrite sin_neg, cos_neg, cos_PI2, sin_PI2. field. }
  assert (B : is_RInt (fun t => 2 * (s * s) * (cos t * cos t)) (- (PI / 2)) (PI / 2) (RInt (fun y => 2 * sqrt (s * s - (y - c) * (y - c))) (c - s) (c + s))).
  { cbv beta in S. replace (c + s * sin (- (PI / 2))) with (c - s) in S by (rewrite sin_neg, sin_PI2; ring). replace (c + s * sin (PI / 2)) with (c + s) in S by (rewrite sin_PI2; ring).
    apply (is_RInt_ext (fun y => Hierarchy.scal (s * cos y) (2 * sqrt (s * s - (c + s * sin y - c) * (c + s * sin y - c))))); [|exact S].
    intros t Ht. rewrite Rmin_left, Rmax_right in Ht by lra. assert (Hc : 0 <= cos t) by (apply cos_ge_0; lra).
    replace (s * s - (c + s * sin t - c) * (c + s * sin t - c)) with ((s * cos t) * (s * cos t)).
    - rewrite sqrt_square by (apply Rmult_le_pos; lra). unfold Hierarchy.scal; cbn; unfold Hierarchy.mult; cbn. ring.
    - pose proof (sin2_cos2 t) as E. unfold Rsqr in E. replace (s * s) with (s * s * (sin t * sin t + cos t * cos t)) by (rewrite E; ring). ring. }
  rewrite <- (is_RInt_unique _ _ _ _ A), (is_RInt_unique _ _ _ _ B). apply @RInt_correct. apply @ex_RInt_continuous. intros y _. apply cont_chord.
Qed.

(** Balls. *)
Definition ball_ind (cx cy cz r x y z : R) : R := if Rle_dec ((x - cx) * (x - cx) + (y - cy) * (y - cy) + (z - cz) * (z - cz)) (r * r) then 1 else 0.
Definition pos (x : R) : R := if Rle_dec 0 x then x else 0.
Lemma square_between : forall k x, 0 <= k -> x * x <= k * k <-> - k <= x <= k.
Proof. intros k x Hk. split; [intros H; split; nra|intros H; nra]. Qed.
Lemma ball_inside : forall M c r, 0 <= r -> inside M (in_ball (Sphere c r)) ->
  - M <= vx c - r /\ vx c + r <= M /\ - M <= vy c - r /\ vy c + r <= M /\ - M <= vz c - r /\ vz c + r <= M.
Proof.
  intros M [cx cy cz] r Hr I. cbn [vx vy vz].
  assert (P : forall x y z, (x - cx) * (x - cx) + (y - cy) * (y - cy) + (z - cz) * (z - cz) <= r * r -> Rabs x <= M /\ Rabs y <= M /\ Rabs z <= M).
  { intros x y z H. apply (I (V3 x y z)). exact H. }
  assert (A1 := P (cx - r) cy cz ltac:(nra)). assert (A2 := P (cx + r) cy cz ltac:(nra)). assert (A3 := P cx (cy - r) cz ltac:(nra)).
  assert (A4 := P cx (cy + r) cz ltac:(nra)). assert (A5 := P cx cy (cz - r) ltac:(nra)). assert (A6 := P cx cy (cz + r) ltac:(nra)).
  destruct A1 as (A1 & _), A2 as (A2 & _), A3 as (_ & A3 & _), A4 as (_ & A4 & _), A5 as (_ & _ & A5), A6 as (_ & _ & A6).
  apply Rabs_le_between in A1, A2, A3, A4, A5, A6. lra.
Qed.
Lemma ball_measured : forall s, 0 <= radius s -> has_volume (in_ball s) (4 / 3 * PI * (radius s * radius s * radius s)).
Proof.
  intros [[cx cy cz] r] Hr M I. cbn [radius] in *. destruct (ball_inside M (V3 cx cy cz) r Hr I) as (X1 & X2 & Y1 & Y2 & Z1 & Z2). cbn [vx vy vz] in *. clear I.
  assert (HM : 0 <= M) by lra.
  exists (ball_ind cx cy cz r), (fun y z => 2 * sqrt (r * r - (z - cz) * (z - cz) - (y - cy) * (y - cy))), (fun z => PI * pos (r * r - (z - cz) * (z - cz))).
  split; [|split; [|split]].
  - intros x y z. unfold in_ball, dist2, ball_ind. cbn [scenter radius vx vy vz]. destruct (Rle_dec _ _) as [l|n]; [left|right]; split; auto.
  - intros y z. set (k := r * r - (z - cz) * (z - cz) - (y - cy) * (y - cy)). destruct (Rle_lt_dec 0 k) as [K|K].
    + pose proof (sqrt_sqrt k K) as E. pose proof (sqrt_pos k) as Q. set (q := sqrt k) in *.
      pose proof (Rle_0_sqr (z - cz)) as S1. pose proof (Rle_0_sqr (y - cy)) as S2. unfold Rsqr in S1, S2.
      assert (Hq : q <= r) by (apply Rsqr_incr_0_var; [unfold Rsqr; unfold k in E; lra|exact Hr]).
      replace (2 * q) with (1 * ((cx + q) - (cx - q))) by ring. apply (piece _ (fun _ => 1) M (cx - q) (cx + q)); try lra.
      * apply const_int.
      * intros x Hx. unfold ball_ind. destruct (Rle_dec _ _) as [l|n]; [reflexivity|]. exfalso. apply n. assert (B : (x - cx) * (x - cx) <= q * q) by (apply square_between; lra). rewrite E in B. unfold k in B. lra.
      * intros x Hx. unfold ball_ind. destruct (Rle_dec _ _) as [l|n]; [|reflexivity]. exfalso. assert (B : (x - cx) * (x - cx) <= q * q) by (unfold k in E; lra). apply square_between in B; lra.
    + rewrite sqrt_neg_0 by lra. rewrite Rmult_0_r. apply nothing; [exact HM|]. intros x _. unfold ball_ind. destruct (Rle_dec _ _) as [l|n]; [|reflexivity]. exfalso. unfold k in K. pose proof (Rle_0_sqr (x - cx)) as S1. unfold Rsqr in S1. lra.
  - intros z. unfold pos. set (k := r * r - (z - cz) * (z - cz)). destruct (Rle_dec 0 k) as [K|K].
    + pose proof (sqrt_sqrt k K) as E. pose proof (sqrt_pos k) as Q. set (q := sqrt k) in *.
      pose proof (Rle_0_sqr (z - cz)) as S1. unfold Rsqr in S1.
      assert (Hq : q <= r) by (apply Rsqr_incr_0_var; [unfold Rsqr; unfold k in E; lra|exact Hr]).
      rewrite <- E. apply (piece _ (fun y => 2 * sqrt (q * q - (y - cy) * (y - cy))) M (cy - q) (cy + q)); try lra.
      * apply half_disc. exact Q.
      * intros y Hy. reflexivity.
      * intros y Hy. rewrite sqrt_neg_0; [ring|]. apply Rnot_lt_le. intros B. assert (B' : (y - cy) * (y - cy) <= q * q) by lra. apply square_between in B'; lra.
    + rewrite Rmult_0_r. apply nothing; [exact HM|]. intros y _. rewrite sqrt_neg_0; [ring|]. pose proof (Rle_0_sqr (y - cy)) as S1. unfold Rsqr in S1. lra.
  - apply (piece _ (fun z => PI * (r * r - (z - cz) * (z - cz))) M (cz - r) (cz + r)); try lra.
    + replace (4 / 3 * PI * (r * r * r)) with (Hierarchy.minus (PI * (r * r * (cz + r) - (cz + r - cz) * (cz + r - cz) * (cz + r - cz) / 3)) (PI * (r * r * (cz - r) - (cz - r - cz) * (cz - r - cz) * (cz - r - cz) / 3))) by (unfold Hierarchy.minus, Hierarchy.plus, Hierarchy.opp; cbn; field).
      apply (is_RInt_derive (fun z => PI * (r * r * z - (z - cz) * (z - cz) * (z - cz) / 3))).
      * intros z _. auto_derive; [exact I|]. field.
      * intros z _. apply (continuous_mult (fun _ : R => PI) (fun z => r * r - (z - cz) * (z - cz))); [apply continuous_const|].
        apply (continuous_minus (fun _ : R => r * r) (fun z => (z - cz) * (z - cz))); [apply continuous_const|].
        assert (L : continuous (fun y => y - cz) z) by (apply (continuous_minus (fun y : R => y) (fun _ => cz)); [apply continuous_id|apply continuous_const]).
        apply (continuous_mult (fun y => y - cz) (fun y => y - cz)); exact L.
    + intros z Hz. unfold pos. destruct (Rle_dec _ _) as [l|n]; [reflexivity|]. exfalso. apply n. assert ((z - cz) * (z - cz) <= r * r) by (apply square_between; lra). lra.
    + intros z Hz. unfold pos. destruct (Rle_dec _ _) as [l|n]; [|ring]. assert ((z - cz) * (z - cz) <= r * r) as B by lra. apply square_between in B; lra.
Qed.
