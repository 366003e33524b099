(** Property C174. *)
From Coq Require Import ZArith Lia Bool List.
From Flocq Require Import IEEE754.Binary IEEE754.Bits.
From Verif Require Import Words FpModel FpProps FinModel.
Import ListNotations.
Local Open Scope Z_scope.

(** All the scalars of an object. *)
Definition scalars (i : item) : list Z :=
  match i with
  | Scalar x => [x] | Vector v => v | Matrix m => concat m | Quaternion s v => s :: v | AxisAngle axis angle => axis ++ [angle]
  | Euler y p r => [y; p; r] | Plane n d => n ++ [d] | Ray o d => o ++ d | Segment a b => a ++ b | Triangle a b c => a ++ b ++ c
  | Box c e => c ++ e | Oriented c e a => c ++ e ++ concat a | Sphere c r => c ++ [r]
  end.
Definition is_ray (i : item) : Prop := match i with Ray _ _ => True | _ => False end.
(** The bit patterns of the infinities and of what is no number. *)
Definition unusual32 (x : Z) : Prop := is_nan 24 128 (b32_of_bits x) = true \/ exists s, b32_of_bits x = B754_infinity 24 128 s.
Definition unusual64 (x : Z) : Prop := is_nan 53 1024 (b64_of_bits x) = true \/ exists s, b64_of_bits x = B754_infinity 53 1024 s.
(** The two formats. *)
Definition format (mask : Z) (unusual : Z -> Prop) : Prop := mask = mask32 /\ unusual = unusual32 \/ mask = mask64 /\ unusual = unusual64.

Lemma not_finite p e (f : binary_float p e) : negb (is_finite p e f) = true <-> is_nan p e f = true \/ exists s, f = B754_infinity p e s.
Proof. destruct f; cbn; split; intros H; try discriminate; try (left; reflexivity); try (right; eexists; reflexivity); destruct H as [H|(s' & H)]; try discriminate; reflexivity. Qed.
Lemma bad_scalar mask U : format mask U -> forall x, bad mask x = true <-> U x.
Proof. intros [(-> & ->)|(-> & ->)] x; unfold bad; [rewrite C96_float|rewrite C96_double]; apply not_finite. Qed.
Section Any.
  Variables (mask : Z) (U : Z -> Prop).
  Hypothesis F : forall x, bad mask x = true <-> U x.
  Lemma vector_any v : bad_vector mask v = true <-> Exists U v.
  Proof.
    induction v as [|x v IH]; cbn [bad_vector]; [rewrite Exists_nil; split; [discriminate|contradiction]|]. rewrite Exists_cons, <- IH, <- F. destruct (bad mask x); intuition congruence.
  Qed.
  Lemma columns_any m : bad_columns mask m = true <-> Exists U (concat m).
  Proof.
    induction m as [|c m IH]; cbn [bad_columns concat]; [rewrite Exists_nil; split; [discriminate|contradiction]|]. rewrite Exists_app, <- IH, <- vector_any. destruct (bad_vector mask c); intuition congruence.
  Qed.
  Lemma one_any x : Exists U [x] <-> bad mask x = true.
  Proof. rewrite Exists_cons, Exists_nil, F. tauto. Qed.
  Lemma item_any i : ~ is_ray i -> (bad_item mask i = true <-> Exists U (scalars i)).
  Proof.
    destruct i; intros N; cbn [bad_item scalars]; rewrite ?orb_true_iff, ?Exists_app, ?one_any, ?Exists_cons, ?Exists_nil, ?columns_any, ?vector_any, ?F; try tauto. exfalso. apply N. exact I.
  Qed.
  Lemma array_any l : bad_array mask l = existsb (bad_item mask) l.
  Proof. induction l as [|i l IH]; [reflexivity|]. cbn [bad_array existsb]. rewrite IH. destruct (bad_item mask i); reflexivity. Qed.
  Lemma fold_any l : forall r, fold_left (fun r i => r || bad_item mask i) l r = r || existsb (bad_item mask) l.
  Proof. induction l as [|i l IH]; intros r; cbn [fold_left existsb]; [rewrite orb_false_r; reflexivity|]. rewrite IH, orb_assoc. reflexivity. Qed.
  Lemma existsb_any l : Forall (fun i => ~ is_ray i) l -> (existsb (bad_item mask) l = true <-> Exists U (flat_map scalars l)).
  Proof.
    induction 1 as [|i l N _ IH]; cbn [existsb flat_map]; [rewrite Exists_nil; split; [discriminate|contradiction]|]. rewrite orb_true_iff, Exists_app, IH, (item_any i N). reflexivity.
  Qed.
End Any.

(** [infinity_or_nan] of everything but a ray: whether one of the scalars is an infinity or NaN. *)
Theorem C174_item_partial : forall mask unusual i, format mask unusual -> ~ is_ray i -> (bad_item mask i = true <-> Exists unusual (scalars i)).
Proof. intros mask U i F N. apply item_any; [exact (bad_scalar mask U F)|exact N]. Qed.
Print Assumptions C174_item_partial.
(** The same of arrays and of several arguments. *)
Theorem C174_several_partial : forall mask unusual l, format mask unusual -> Forall (fun i => ~ is_ray i) l ->
  (bad_array mask l = true <-> Exists unusual (flat_map scalars l)) /\
  forall a b r, l = a :: b :: r -> (bad_any mask a b r = true <-> Exists unusual (flat_map scalars l)).
Proof.
  intros mask U l F N. split; [rewrite array_any; apply existsb_any; [exact (bad_scalar mask U F)|exact N]|].
  intros a b r ->. rewrite <- (existsb_any mask U (bad_scalar mask U F) _ N). unfold bad_any. rewrite fold_any. cbn [existsb]. rewrite orb_assoc. reflexivity.
Qed.
Print Assumptions C174_several_partial.
(** The full statement has rays as well, but a ray is only reported if both its origin and its direction have such a scalar. *)
Theorem C174_ray_refuted : forall mask unusual o d, format mask unusual ->
  (bad_item mask (Ray o d) = true <-> Exists unusual o /\ Exists unusual d) /\
  (Forall (fun x => ~ unusual x) d -> bad_item mask (Ray o d) = false) /\ (Forall (fun x => ~ unusual x) o -> bad_item mask (Ray o d) = false).
Proof.
  intros mask U o d F. pose proof (bad_scalar mask U F) as B.
  assert (K : bad_item mask (Ray o d) = true <-> Exists U o /\ Exists U d) by (cbn [bad_item]; rewrite andb_true_iff, !(vector_any mask U B); reflexivity).
  split; [exact K|]. split; intros H; apply not_true_iff_false; rewrite K; intros (E1 & E2); rewrite Forall_Exists_neg in H; contradiction.
Qed.
Print Assumptions C174_ray_refuted.
(** A ray from a point that is no number: not reported. *)
Example C174_ray_nan : unusual32 0x7FC00000 /\ bad_item mask32 (Ray [0x7FC00000; 0; 0] [0; 0; 0x3F800000]) = false /\ bad_item mask32 (Segment [0x7FC00000; 0; 0] [0; 0; 0x3F800000]) = true /\ bad_item mask32 (Sphere [0; 0; 0] 0x3F800000) = false.
Proof. split; [left; vm_compute; reflexivity|]. repeat split; vm_compute; reflexivity. Qed.
