(** Property C179. *)
From Coq Require Import ZArith Reals Lra Lia Bool List.
From Flocq Require Import Core BinarySingleNaN.
From Verif Require Import FpModel OeqModel OeqProps AeqProps VmmModel.
Import ListNotations.
Local Open Scope R_scope.

(** The order of the numbers and infinities; NaN is not in it. *)
Definition below (v w : number) : Prop :=
  match v, w with
  | Not_a_number, _ | _, Not_a_number => False
  | Infinite true, Infinite true => False | Infinite true, _ => True
  | _, Infinite true => False
  | Infinite false, _ => False | _, Infinite false => True
  | Real r, Real s => r < s
  end.
Definition at_most (v w : number) : Prop := below v w \/ equal v w.
Definition ordered (v : number) : Prop := v <> Not_a_number.

Lemma total v w : ordered v -> ordered w -> below v w \/ at_most w v.
Proof.
  unfold ordered, at_most, equal. destruct v as [r|[]|], w as [s|[]|]; intros V W; try contradiction; cbn; auto. destruct (Rlt_le_dec r s) as [L|L]; [left; exact L|right]. destruct L as [L|L]; [left; exact L|right; subst; split; [reflexivity|discriminate]].
Qed.
Lemma below_trans v w u : at_most v w -> at_most w u -> at_most v u.
Proof.
  unfold at_most, equal. intros [A|[-> A]] [B|[-> B]]; auto. left. destruct v as [r|[]|], w as [s|[]|], u as [t|[]|]; cbn in *; try contradiction; trivial. lra.
Qed.
Lemma at_most_antisym v w : at_most v w -> at_most w v -> v = w.
Proof. intros [A|[A _]] [B|[B _]]; auto. exfalso. destruct v as [r|[]|], w as [s|[]|]; cbn in *; try contradiction. lra. Qed.
Lemma at_most_refl v : ordered v -> at_most v v.
Proof. intros V. right. split; [reflexivity|exact V]. Qed.

Section Format.
  Context {p e : Z}.
  Notation float := (binary_float p e).
  Lemma bltb (x y : float) : Bltb x y = true <-> below (value x) (value y).
  Proof.
    destruct (is_finite x) eqn:Fx, (is_finite y) eqn:Fy.
    - rewrite Bltb_correct by assumption. rewrite (finite_value _ _ x Fx), (finite_value _ _ y Fy). cbn [below]. destruct (Rlt_bool_spec (B2R x) (B2R y)); split; try discriminate; try reflexivity; intros; lra.
    - destruct x; try discriminate Fx; destruct y; try discriminate Fy; cbn; repeat match goal with s : bool |- _ => destruct s end; cbn; split; try discriminate; try contradiction; trivial.
    - destruct x; try discriminate Fx; destruct y; try discriminate Fy; cbn; repeat match goal with s : bool |- _ => destruct s end; cbn; split; try discriminate; try contradiction; trivial.
    - destruct x; try discriminate Fx; destruct y; try discriminate Fy; cbn; repeat match goal with s : bool |- _ => destruct s end; cbn; split; try discriminate; try contradiction; trivial.
  Qed.
  Definition is_number (x : float) : Prop := ordered (value x).
  (** [x] is the least, or the greatest, of a list of numbers: one of them, and not above or below any. *)
  Definition is_least (x : float) (l : list float) : Prop := In x l /\ Forall (fun y => at_most (value x) (value y)) l.
  Definition is_greatest (x : float) (l : list float) : Prop := In x l /\ Forall (fun y => at_most (value y) (value x)) l.
  Definition extreme (f : float -> float -> float) (P : float -> list float -> Prop) : Prop := f = fmin /\ P = is_least \/ f = fmax /\ P = is_greatest.
  Lemma fmin_two x y : is_number x -> is_number y -> (fmin x y = x \/ fmin x y = y) /\ at_most (value (fmin x y)) (value x) /\ at_most (value (fmin x y)) (value y).
  Proof.
    intros X Y. unfold fmin. destruct (Bltb x y) eqn:B.
    - apply bltb in B. repeat split; auto; [apply at_most_refl, X|left; exact B].
    - repeat split; auto; [|apply at_most_refl, Y]. destruct (total (value x) (value y) X Y) as [L|L]; [apply bltb in L; congruence|exact L].
  Qed.
  Lemma fmax_two x y : is_number x -> is_number y -> (fmax x y = x \/ fmax x y = y) /\ at_most (value x) (value (fmax x y)) /\ at_most (value y) (value (fmax x y)).
  Proof.
    intros X Y. unfold fmax. destruct (Bltb x y) eqn:B.
    - apply bltb in B. repeat split; auto; [left; exact B|apply at_most_refl, Y].
    - repeat split; auto; [apply at_most_refl, X|]. destruct (total (value x) (value y) X Y) as [L|L]; [apply bltb in L; congruence|exact L].
  Qed.
  (** Joining the extreme of one list and that of another. *)
  Lemma extreme_join f P x y l m : extreme f P -> Forall is_number l -> Forall is_number m -> P x l -> P y m -> P (f x y) (l ++ m).
  Proof.
    intros [(-> & ->)|(-> & ->)] L M [Ix Ax] [Iy Ay]; pose proof (proj1 (Forall_forall _ _) L x Ix) as X; pose proof (proj1 (Forall_forall _ _) M y Iy) as Y.
    - destruct (fmin_two x y X Y) as (I & A & B). split; [apply in_or_app; destruct I as [-> | ->]; auto|]. apply Forall_app. split; [revert Ax|revert Ay]; apply Forall_impl; intros z; apply below_trans; assumption.
    - destruct (fmax_two x y X Y) as (I & A & B). split; [apply in_or_app; destruct I as [-> | ->]; auto|]. apply Forall_app. split; [revert Ax|revert Ay]; apply Forall_impl; intros z Hz; eapply below_trans; eassumption.
  Qed.
  Lemma extreme_one f P x : extreme f P -> is_number x -> P x [x].
  Proof. intros [(-> & ->)|(-> & ->)] X; (split; [left; reflexivity|]); (constructor; [apply at_most_refl, X|constructor]). Qed.
  Lemma extreme_unique f P x y l : extreme f P -> P x l -> P y l -> value x = value y.
  Proof.
    intros [(-> & ->)|(-> & ->)] [Ix Ax] [Iy Ay]; pose proof (proj1 (Forall_forall _ _) Ax y Iy) as A; pose proof (proj1 (Forall_forall _ _) Ay x Ix) as B; apply at_most_antisym; assumption.
  Qed.

  (** The [k]-th component of a vector. *)
  Definition comp (k : nat) (v : list float) : float := nth k v (B754_zero false).
  Lemma comp_vec2 (f : float -> float -> float) v w k : (k < length v)%nat -> (k < length w)%nat -> comp k (vec2 f v w) = f (comp k v) (comp k w).
  Proof.
    unfold comp, vec2. revert w k. induction v as [|x v IH]; intros [|y w] [|k] A B; cbn in *; try lia; [reflexivity|]. apply IH; lia.
  Qed.
  Lemma vec2_length (f : float -> float -> float) (v w : list float) n : length v = n -> length w = n -> length (vec2 f v w) = n.
  Proof. intros A B. unfold vec2. rewrite map_length, combine_length, A, B. apply Nat.min_id. Qed.
  Lemma variadic_length (f : float -> float -> float) n : forall (vecs : list (list float)) v1 v2, length v1 = n -> length v2 = n -> Forall (fun v => length v = n) vecs -> length (variadic f v1 v2 vecs) = n.
  Proof.
    induction vecs as [|v3 vecs IH]; intros v1 v2 A B F; cbn [variadic]; [apply vec2_length; assumption|]. inversion F. apply vec2_length; [exact A|]. apply IH; assumption.
  Qed.

  (** Without NaN the minimum and maximum are, in each component, the least and greatest of the vectors given as arguments, *)
  Theorem C179_arguments : forall f P n k v1 v2 vecs, extreme f P -> Forall (fun v => length v = n) (v1 :: v2 :: vecs) -> (k < n)%nat -> Forall (fun v => is_number (comp k v)) (v1 :: v2 :: vecs) ->
    P (comp k (variadic f v1 v2 vecs)) (map (comp k) (v1 :: v2 :: vecs)).
  Proof.
    intros f P n k v1 v2 vecs X. revert v1 v2. induction vecs as [|v3 vecs IH]; intros v1 v2 L K N; inversion L as [|? ? L1 L']; inversion L' as [|? ? L2 L'']; inversion N as [|? ? N1 N']; inversion N' as [|? ? N2 N'']; subst; cbn [variadic].
    - rewrite comp_vec2 by lia. apply (extreme_join f P _ _ [comp k v1] [comp k v2] X); try (constructor; [assumption|constructor]); apply (extreme_one f); assumption.
    - rewrite comp_vec2; [|lia|rewrite (variadic_length f (length v1)); [lia|exact L2| |]; inversion L''; assumption].
      apply (extreme_join f P _ _ [comp k v1] (map (comp k) (v2 :: v3 :: vecs)) X); [constructor; [exact N1|constructor]|apply Forall_map, N'|apply (extreme_one f); assumption|apply IH; assumption].
  Qed.
  (** and of those in a range or an initializer list. *)
  Theorem C179_range : forall f P n k v l, extreme f P -> Forall (fun v => length v = n) (v :: l) -> (k < n)%nat -> Forall (fun v => is_number (comp k v)) (v :: l) ->
    P (comp k (range f n (v :: l))) (map (comp k) (v :: l)) /\ P (comp k (init_list f n (v :: l))) (map (comp k) (v :: l)).
  Proof.
    intros f P n k v l X L K N.
    assert (R : forall l o s, length o = n -> Forall (fun v => length v = n) l -> Forall is_number s -> Forall (fun v => is_number (comp k v)) l -> P (comp k o) s -> P (comp k (fold_left (vec2 f) l o)) (s ++ map (comp k) l)).
    { clear v l L N. induction l as [|w l IH]; intros o s O L S N H; cbn [fold_left map]; [rewrite app_nil_r; exact H|]. inversion L as [|? ? L1 L2]. inversion N as [|? ? N1 N2].
      change (comp k w :: map (comp k) l) with ([comp k w] ++ map (comp k) l). rewrite app_assoc. apply IH; [apply vec2_length; assumption|assumption|apply Forall_app; split; [exact S|constructor; [exact N1|constructor]]|assumption|].
      rewrite comp_vec2 by lia. apply (extreme_join f P); [exact X|exact S|constructor; [exact N1|constructor]|exact H|apply (extreme_one f); assumption]. }
    inversion L as [|? ? L1 L2]. inversion N as [|? ? N1 N2].
    assert (G : P (comp k (range f n (v :: l))) (map (comp k) (v :: l))) by (apply (R l v [comp k v]); [exact L1|exact L2|constructor; [exact N1|constructor]|exact N2|apply (extreme_one f); assumption]).
    split; [exact G|]. destruct l as [|w [|u l]]; exact G.
  Qed.
  (** So both ways stand for the same numbers. *)
  Theorem C179_same : forall f P n k v1 v2 vecs, extreme f P -> Forall (fun v => length v = n) (v1 :: v2 :: vecs) -> (k < n)%nat -> Forall (fun v => is_number (comp k v)) (v1 :: v2 :: vecs) ->
    value (comp k (variadic f v1 v2 vecs)) = value (comp k (init_list f n (v1 :: v2 :: vecs))).
  Proof.
    intros f P n k v1 v2 vecs X L K N. apply (extreme_unique f P _ _ (map (comp k) (v1 :: v2 :: vecs)) X); [apply (C179_arguments f P n); assumption|]. apply (C179_range f P n k v1 (v2 :: vecs)); assumption.
  Qed.
  (** With NaN: of two vectors the minimum is NaN where the second one is, the maximum where the first one is; elsewhere a NaN gives way to the other. *)
  Theorem C179_nan : forall (x y : float), (~ is_number y -> fmin x y = y /\ fmax x y = x) /\ (~ is_number x -> fmin x y = y /\ fmax x y = x).
  Proof.
    assert (Z : forall x y : float, ~ is_number x \/ ~ is_number y -> Bltb x y = false).
    { intros x y H. destruct (Bltb x y) eqn:B; [|reflexivity]. apply bltb in B. unfold is_number, ordered in H. exfalso. destruct (value x) as [r|[]|], (value y) as [s|[]|]; cbn in B; try contradiction; destruct H as [H|H]; apply H; discriminate. }
    intros x y. split; intros H; unfold fmin, fmax; rewrite Z by auto; split; reflexivity.
  Qed.
  (** Clamping: nearest in the interval; a NaN stays. *)
  Theorem C179_clamp : forall n k v low high, length v = n -> length low = n -> length high = n -> (k < n)%nat -> at_most (value (comp k low)) (value (comp k high)) ->
    let r := comp k (vclamp v low high) in
    (is_number (comp k v) -> at_most (value (comp k low)) (value r) /\ at_most (value r) (value (comp k high)) /\
      (at_most (value (comp k low)) (value (comp k v)) -> at_most (value (comp k v)) (value (comp k high)) -> r = comp k v) /\ (below (value (comp k v)) (value (comp k low)) -> r = comp k low) /\ (below (value (comp k high)) (value (comp k v)) -> r = comp k high)) /\
    (~ is_number (comp k v) -> r = comp k v).
  Proof.
    intros n k v low high A B C K LH r.
    assert (E : r = fclamp (comp k v) (comp k low) (comp k high)).
    { unfold r, comp, vclamp. clear LH r. revert low high k n A B C K. induction v as [|x v IH]; intros [|y low] [|z high] [|k] [|n] A B C K; cbn in *; try lia; [reflexivity|]. apply (IH low high k n); lia. }
    rewrite E. clear E r. unfold fclamp. set (x := comp k v). set (a := comp k low) in *. set (b := comp k high) in *. clearbody x a b. clear v low high A B C K n k.
    assert (NB : forall v w, below v w -> at_most w v -> False) by (intros v w G [H|[H _]]; destruct v as [r|[]|], w as [s|[]|]; cbn in *; try contradiction; try (injection H as H); try discriminate; lra).
    assert (Na : is_number a) by (destruct LH as [H|[_ H]]; [|exact H]; unfold is_number, ordered; intros V; rewrite V in H; destruct (value b) as [|[]|]; contradiction).
    assert (Nb : is_number b) by (destruct LH as [H|[H1 H]]; [|unfold is_number, ordered; congruence]; unfold is_number, ordered; intros V; rewrite V in H; destruct (value a) as [|[]|]; contradiction).
    split.
    - intros X. destruct (Bltb x a) eqn:L1.
      + apply bltb in L1. split; [apply at_most_refl, Na|]. split; [exact LH|]. split; [intros H _; exfalso; exact (NB _ _ L1 H)|]. split; [reflexivity|]. intros H. exfalso. apply (NB _ _ H). apply below_trans with (value a); [left; exact L1|exact LH].
      + assert (H1 : at_most (value a) (value x)) by (destruct (total _ _ X Na) as [H|H]; [apply bltb in H; congruence|exact H]). destruct (Bltb b x) eqn:L2.
        * apply bltb in L2. split; [exact LH|]. split; [apply at_most_refl, Nb|]. split; [intros _ H; exfalso; exact (NB _ _ L2 H)|]. split; [intros H; exfalso; exact (NB _ _ H H1)|reflexivity].
        * assert (H2 : at_most (value x) (value b)) by (destruct (total _ _ Nb X) as [H|H]; [apply bltb in H; congruence|exact H]). repeat split; auto; intros H; exfalso; [exact (NB _ _ H H1)|exact (NB _ _ H H2)].
    - intros X. assert (V : value x = Not_a_number) by (unfold is_number, ordered in X; destruct (value x); try reflexivity; exfalso; apply X; discriminate).
      destruct (Bltb x a) eqn:L1; [apply bltb in L1; rewrite V in L1; contradiction|]. destruct (Bltb b x) eqn:L2; [|reflexivity]. apply bltb in L2. rewrite V in L2. destruct (value b) as [|[]|]; contradiction.
  Qed.
End Format.
Print Assumptions C179_arguments.
Print Assumptions C179_range.
Print Assumptions C179_same.
Print Assumptions C179_nan.
Print Assumptions C179_clamp.
(** With a NaN among them, the arguments and the list of the same vectors have different minima, and that of the list is not the least of the numbers. *)
Theorem C179_nan_refuted : exists v1 v2 v3 : list float32, comp 0 (variadic fmin v1 v2 [v3]) = f_of 1 /\ comp 0 (init_list fmin 1 [v1; v2; v3]) = f_of 2 /\ comp 0 v1 = f_of 1 /\ comp 0 v3 = f_of 2.
Proof. exists [f_of 1], [B754_nan], [f_of 2]. repeat split; try reflexivity; apply B2SF_inj; vm_compute; reflexivity. Qed.
Print Assumptions C179_nan_refuted.
Example C179_witness : let l := [[f_of 1; f_of 5]; [B754_infinity true; f_of 7]; [f_of 2; B754_zero true]] in
  map B2SF (init_list fmin 2 l) = map B2SF [B754_infinity true; B754_zero true : float32] /\ map B2SF (init_list fmax 2 l) = map B2SF [f_of 2; f_of 7] /\ Forall (fun v => length v = 2%nat) l.
Proof. split; [vm_compute; reflexivity|]. split; [vm_compute; reflexivity|]. repeat constructor. Qed.
