(** Property C176. *)
From Coq Require Import ZArith Reals Lra Lia Bool List.
From Flocq Require Import Core BinarySingleNaN.
From Verif Require Import FpModel FpProofs SqrtModel SqrtProofs4 OeqModel.
Import ListNotations.
Local Open Scope Z_scope.

(** What a scalar stands for, and when two of these are equal: NaN to nothing, and the two zeros to each other. *)
Inductive number := Real (r : R) | Infinite (negative : bool) | Not_a_number.
Definition value {p e} (x : binary_float p e) : number := match x with B754_nan => Not_a_number | B754_infinity s => Infinite s | x => Real (B2R x) end.
Definition equal (v w : number) : Prop := v = w /\ v <> Not_a_number.
(** All the scalars of an object. *)
Definition scalars {A} (i : object A) : list A :=
  match i with
  | Vector v => v | Matrix m => concat m | Quaternion s v => s :: v | Plane n d => n ++ [d] | Ray o d => o ++ d | Segment a b => a ++ b | Triangle a b c => a ++ b ++ c
  | Box c e => c ++ e | Oriented c e a => c ++ e ++ concat a | Sphere c r => c ++ [r]
  end.
(** The class and the dimensions. *)
Definition shape {A} (i : object A) : nat * list nat :=
  let l := @length A in
  match i with
  | Vector v => (0, [l v]) | Matrix m => (1, map l m) | Quaternion _ v => (2, [l v]) | Plane n _ => (3, [l n]) | Ray o d => (4, [l o; l d]) | Segment a b => (5, [l a; l b])
  | Triangle a b c => (6, [l a; l b; l c]) | Box c e => (7, [l c; l e]) | Oriented c e a => (8, l c :: l e :: map l a) | Sphere c _ => (9, [l c])
  end%nat.
(** Scalars of one or of two types, by what they stand for. *)
Inductive pairing : forall A B : Type, (A -> B -> bool) -> (A -> number) -> (B -> number) -> Prop :=
| Floats : pairing _ _ eq32 value value
| Doubles : pairing _ _ eq64 value value
| Float_double : pairing _ _ eq32_64 value value
| Double_float : pairing _ _ eq64_32 value value.
Inductive scalar_type : forall A : Type, (A -> bool) -> (A -> number) -> Prop :=
| Of_float : scalar_type _ zero32 value
| Of_double : scalar_type _ zero64 value.

Lemma beqb p e (x y : binary_float p e) : Beqb x y = true <-> equal (value x) (value y).
Proof.
  unfold equal. destruct (is_finite x) eqn:Fx, (is_finite y) eqn:Fy.
  - rewrite Beqb_correct by assumption. assert (Vx : value x = Real (B2R x)) by (destruct x; try discriminate Fx; reflexivity). assert (Vy : value y = Real (B2R y)) by (destruct y; try discriminate Fy; reflexivity).
    rewrite Vx, Vy. destruct (Req_bool_spec (B2R x) (B2R y)) as [E|E]; split.
    + intros _. rewrite E. split; [reflexivity|discriminate].
    + reflexivity.
    + discriminate.
    + intros [G _]. injection G as G. contradiction.
  - destruct x; try discriminate Fx; destruct y; try discriminate Fy; cbn; try destruct s; try destruct s0; cbn; split; try discriminate; intros [G _]; discriminate.
  - destruct x; try discriminate Fx; destruct y; try discriminate Fy; cbn; try destruct s; try destruct s0; cbn; split; try discriminate; intros [G N]; try discriminate; contradiction N; reflexivity.
  - destruct x; try discriminate Fx; destruct y; try discriminate Fy; cbn; try destruct s; try destruct s0; cbn; split; try discriminate; try (intros _; split; [reflexivity|discriminate]); try reflexivity; intros [G N]; try discriminate; contradiction N; reflexivity.
Qed.
Lemma cast_value (x : float32) : value (fp_cast 24 128 53 1024 p53 e1024 x) = value x.
Proof.
  destruct (is_finite x) eqn:F; [|destruct x; try discriminate F; reflexivity]. destruct (widen 24 128 53 1024 p53 e1024 ltac:(lia) ltac:(lia) x F) as [G E].
  assert (V : value x = Real (B2R x)) by (destruct x; try discriminate F; reflexivity). rewrite V, <- E. destruct (fp_cast _ _ _ _ _ _ x); try discriminate G; reflexivity.
Qed.
Lemma pairing_ok A B eqs va vb : pairing A B eqs va vb -> forall x y, eqs x y = true <-> equal (va x) (vb y).
Proof.
  intros [] x y; [apply beqb|apply beqb|unfold eq32_64; rewrite beqb, cast_value; reflexivity|unfold eq64_32; rewrite beqb, cast_value; reflexivity].
Qed.
Lemma zero_value p e (x : binary_float p e) : Beqb x (B754_zero false) = true <-> value x = Real 0.
Proof. rewrite beqb. unfold equal. cbn [value B2R]. split; [tauto|]. intros E. rewrite E. split; [reflexivity|discriminate]. Qed.
Lemma scalar_type_ok A z v : scalar_type A z v -> forall x, z x = true <-> v x = Real 0.
Proof. intros [] x; apply zero_value. Qed.

Section Each.
  Context {A B : Type} (eqs : A -> B -> bool) (P : A -> B -> Prop).
  Hypothesis E : forall x y, eqs x y = true <-> P x y.
  Lemma vector_each v : forall w, eq_vector eqs v w = true <-> Forall2 P v w.
  Proof.
    induction v as [|x v IH]; intros [|y w]; cbn [eq_vector]; [split; [constructor|reflexivity]| | |]; try (split; [discriminate|intros H; inversion H]).
    destruct (eqs x y) eqn:X.
    - rewrite IH. split; [intros H; constructor; [apply E, X|exact H]|intros H; inversion H; assumption].
    - split; [discriminate|]. intros H. inversion H as [|? ? ? ? H1 _]. apply E in H1. congruence.
  Qed.
  Lemma each_app v w v' w' : length v = length v' -> (Forall2 P (v ++ w) (v' ++ w') <-> Forall2 P v v' /\ Forall2 P w w').
  Proof.
    revert v'. induction v as [|x v IH]; intros [|y v'] L; try discriminate L; cbn [app].
    - split; [intros H; split; [constructor|exact H]|tauto].
    - injection L as L. specialize (IH v' L). split.
      + intros H. inversion H as [|? ? ? ? H1 H2]. apply IH in H2. split; [constructor; [exact H1|apply H2]|apply H2].
      + intros [H K]. inversion H as [|? ? ? ? H1 H2]. constructor; [exact H1|]. apply IH. split; assumption.
  Qed.
  Lemma columns_each m : forall n, map (@length A) m = map (@length B) n -> (eq_columns eqs m n = true <-> Forall2 P (concat m) (concat n)).
  Proof.
    induction m as [|c m IH]; intros [|d n] L; try discriminate L; cbn [eq_columns concat]; [split; [constructor|reflexivity]|]. cbn [map] in L. injection L as L1 L2. rewrite each_app by exact L1. rewrite <- vector_each, <- (IH n L2).
    destruct (eq_vector eqs c d); cbn [negb]; intuition discriminate.
  Qed.
  Lemma one_each x y : Forall2 P [x] [y] <-> eqs x y = true.
  Proof. rewrite E. split; [intros H; inversion H; assumption|intros H; constructor; [exact H|constructor]]. Qed.
  Lemma cons_each x y v w : Forall2 P (x :: v) (y :: w) <-> P x y /\ Forall2 P v w.
  Proof. split; [intros H; inversion H; split; assumption|intros [? ?]; constructor; assumption]. Qed.
  Lemma object_each i j : shape i = shape j -> (eq_object eqs i j = true <-> Forall2 P (scalars i) (scalars j)).
  Proof.
    intros S. destruct i, j; try discriminate S; cbn [shape map] in S; injection S as; cbn [eq_object scalars]; rewrite ?andb_true_iff.
    all: rewrite ?cons_each, ?each_app by assumption; rewrite ?one_each; rewrite ?columns_each by assumption; rewrite ?vector_each, ?E; try tauto.
  Qed.
End Each.
Section Nought.
  Context {A : Type} (z : A -> bool) (P : A -> Prop).
  Hypothesis Z0 : forall x, z x = true <-> P x.
  Lemma vector_nought v : zero_vector z v = true <-> Forall P v.
  Proof. induction v as [|x v IH]; cbn [zero_vector]; [split; [constructor|reflexivity]|]. rewrite Forall_cons_iff, <- IH, <- Z0. destruct (z x); intuition discriminate. Qed.
  Lemma columns_nought m : zero_columns z m = true <-> Forall P (concat m).
  Proof. induction m as [|c m IH]; cbn [zero_columns concat]; [split; [constructor|reflexivity]|]. rewrite Forall_app, <- IH, <- vector_nought. destruct (zero_vector z c); cbn [negb]; intuition discriminate. Qed.
  Lemma one_nought x : Forall P [x] <-> z x = true.
  Proof. rewrite Forall_cons_iff, Z0. intuition. Qed.
  Lemma object_nought i b : zero_object z i = Some b -> (b = true <-> Forall P (scalars i)).
  Proof.
    destruct i; cbn [zero_object scalars]; intros G; try discriminate G; injection G as <-; rewrite ?andb_true_iff, ?Forall_app, ?one_nought, ?Forall_cons_iff, ?columns_nought, ?vector_nought, ?Z0; tauto.
  Qed.
End Nought.

(** Two objects of the same class, with scalars of the same or of different types, are equal exactly if each scalar of one stands for the same number as that of the other. *)
Theorem C176_equal : forall A B eqs va vb (i : object A) (j : object B), pairing A B eqs va vb -> shape i = shape j ->
  (eq_object eqs i j = true <-> Forall2 (fun x y => equal (va x) (vb y)) (scalars i) (scalars j)).
Proof. intros A B eqs va vb i j H S. apply object_each; [exact (pairing_ok _ _ _ _ _ H)|exact S]. Qed.
Print Assumptions C176_equal.
(** So an object equals itself unless one of its scalars is NaN; *)
Theorem C176_itself : forall A eqs va (i : object A), pairing A A eqs va va -> (eq_object eqs i i = true <-> Forall (fun x => va x <> Not_a_number) (scalars i)).
Proof.
  intros A eqs va i H. rewrite (C176_equal _ _ _ _ _ i i H eq_refl). induction (scalars i) as [|x l IH]; [split; constructor|]. rewrite cons_each, Forall_cons_iff, IH. unfold equal. tauto.
Qed.
Print Assumptions C176_itself.
(** the order does not matter; *)
Theorem C176_either_way : forall A B eqs eqs' va vb (i : object A) (j : object B), pairing A B eqs va vb -> pairing B A eqs' vb va -> shape i = shape j -> eq_object eqs i j = eq_object eqs' j i.
Proof.
  intros A B eqs eqs' va vb i j H H' S. apply eq_true_iff_eq. rewrite (C176_equal _ _ _ _ _ i j H S), (C176_equal _ _ _ _ _ j i H' (eq_sym S)). unfold equal.
  split; intros F.
  - induction F as [|x y l m X F IH]; constructor; [destruct X as [X N]; split; congruence|exact IH].
  - induction F as [|x y l m X F IH]; constructor; [destruct X as [X N]; split; congruence|exact IH].
Qed.
Print Assumptions C176_either_way.
(** and what equals the same object is equal, also across types. *)
Theorem C176_transitive : forall A B C e1 e2 e3 va vb vc (i : object A) (j : object B) (k : object C), pairing A B e1 va vb -> pairing B C e2 vb vc -> pairing A C e3 va vc -> shape i = shape j -> shape j = shape k ->
  eq_object e1 i j = true -> eq_object e2 j k = true -> eq_object e3 i k = true.
Proof.
  intros A B C e1 e2 e3 va vb vc i j k H1 H2 H3 S1 S2. rewrite (C176_equal _ _ _ _ _ i j H1 S1), (C176_equal _ _ _ _ _ j k H2 S2), (C176_equal _ _ _ _ _ i k H3 (eq_trans S1 S2)).
  intros F. revert F. generalize (scalars i) (scalars j) (scalars k). intros a b c F. revert c. induction F as [|x y a b X F IH]; intros c G; inversion G as [|? z ? c' Y G']; subst; constructor; [|apply IH, G'].
  destruct X as [X N], Y as [Y _]. split; congruence.
Qed.
Print Assumptions C176_transitive.
(** [zero] is true exactly if every scalar is a zero, of either sign. *)
Theorem C176_zero : forall A z v (i : object A) b, scalar_type A z v -> zero_object z i = Some b -> (b = true <-> Forall (fun x => v x = Real 0) (scalars i)).
Proof. intros A z v i b H G. apply (object_nought z); [exact (scalar_type_ok _ _ _ H)|exact G]. Qed.
Print Assumptions C176_zero.
(** Only rays lack it. *)
Theorem C176_zero_of_all_but_rays : forall A (z : A -> bool) i, zero_object z i = None <-> exists o d, i = Ray o d.
Proof. intros A z i. destruct i; cbn [zero_object]; split; try discriminate; try (intros (? & ? & G); discriminate G); [intros _; do 2 eexists; reflexivity|reflexivity]. Qed.
Print Assumptions C176_zero_of_all_but_rays.
(** A vector of integers and one of floats: exact up to 2^24, *)
Theorem C176_int_float : forall v w, Forall (fun n => Z.abs n <= 2 ^ 24) v -> (eq_vector eq_int_float v w = true <-> Forall2 (fun n y => equal (Real (IZR n)) (value y)) v w).
Proof.
  intros v. induction v as [|n v IH]; intros [|y w] F; cbn [eq_vector]; [split; [constructor|reflexivity]| | |]; try (split; [discriminate|intros H; inversion H]).
  apply Forall_cons_iff in F. destruct F as [Fn F]. rewrite cons_each, <- (IH w F).
  assert (V : value (of_Z 24 128 p24 e128 n) = Real (IZR n)).
  { assert (G : generic_format radix2 (FLT_exp (3 - 128 - 24) 24) (IZR n)).
    { destruct (Z.eq_dec (Z.abs n) (2 ^ 24)) as [E|E].
      - assert (N : n = 2 ^ 24 \/ n = - 2 ^ 24) by lia. assert (K : generic_format radix2 (FLT_exp (3 - 128 - 24) 24) (bpow radix2 24)) by (apply generic_format_bpow; unfold FLT_exp; lia).
        destruct N as [-> | ->]; [exact K|]. apply generic_format_opp in K. exact K.
      - apply generic_format_FLT. exists (Float radix2 n 0); cbn [Fnum Fexp]; [unfold F2R; cbn; lra|change (radix2 ^ 24) with (2 ^ 24); lia|lia]. }
    assert (L : (Rabs (IZR n) < bpow radix2 128)%R). { rewrite <- abs_IZR. apply Rle_lt_trans with (IZR (2 ^ 24)); [apply IZR_le, Fn|]. change (IZR (2 ^ 24)) with (bpow radix2 24). apply bpow_lt. lia. }
    destruct (of_Z_val 24 128 p24 e128 n G L) as [B Fi]. rewrite <- B. destruct (of_Z 24 128 p24 e128 n); try discriminate Fi; reflexivity. }
  destruct (eq_int_float n y) eqn:X.
  - apply beqb in X. rewrite V in X. tauto.
  - split; [discriminate|]. intros [G _]. rewrite <- V in G. apply beqb in G. unfold eq_int_float in X. congruence.
Qed.
Print Assumptions C176_int_float.
(** and not above: two different vectors of integers equal the same vector of floats. *)
Definition float_2_24 : float32 := of_Z 24 128 p24 e128 16777216.
Theorem C176_int_float_refuted : exists v v' w, eq_vector eq_int_float v w = true /\ eq_vector eq_int_float v' w = true /\ v <> v' /\ Forall (fun n => Z.abs n < 2 ^ 31) (v ++ v').
Proof.
  exists [16777216], [16777217], [float_2_24]. split; [vm_compute; reflexivity|]. split; [vm_compute; reflexivity|]. split; [discriminate|]. repeat constructor; cbn; lia.
Qed.
Print Assumptions C176_int_float_refuted.

Definition f_of (n : Z) : float32 := of_Z 24 128 p24 e128 n.
Definition d_of (n : Z) : float64 := of_Z 53 1024 p53 e1024 n.
(** Zeros of both signs, mixed types, NaN. *)
Example C176_witness :
  eq_object eq32_64 (Triangle [f_of 1; f_of 2; f_of 3] [f_of 4; f_of 5; B754_zero true] [f_of 7; f_of 8; B754_infinity true]) (Triangle [d_of 1; d_of 2; d_of 3] [d_of 4; d_of 5; B754_zero false] [d_of 7; d_of 8; B754_infinity true]) = true /\
  eq_object eq64_32 (Plane [d_of 0; d_of 1; d_of 0] (d_of 16777217)) (Plane [f_of 0; f_of 1; f_of 0] (f_of 16777216)) = false /\
  eq_object eq32 (Sphere [f_of 0; f_of 1; f_of 0] B754_nan) (Sphere [f_of 0; f_of 1; f_of 0] B754_nan) = false /\
  zero_object zero64 (Segment [d_of 0; B754_zero true; d_of 0] [d_of 0; d_of 0; B754_zero true]) = Some true /\
  zero_object zero64 (Matrix [[d_of 0; d_of 0]; [d_of 0; d_of 1]]) = Some false.
Proof. vm_compute. repeat split. Qed.
