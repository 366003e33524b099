(** C54, C55: the matrix product, transpose, determinant and inverse. *)
From Coq Require Import Ring Field Permutation QArith Qcanon.
From Verif Require Import Words MatModel MatSpec MatProofs MatProofs2.
Local Open Scope nat_scope.

(* ------------------------------------------------------------------ C54 *)
(** The element in row [r] and column [c] of the product is the sum of the products of the elements of the row and the
    column, for the written-out sizes as for the loops. *)
Theorem C54_product {K} (F : ops K) : exact_ring F -> forall j rows n cols A B, 0 < n ->
  dims rows cols (mat_mul F j rows n cols A B) /\
  forall r c, r < rows -> c < cols -> get F (mat_mul F j rows n cols A B) r c = sum F n (fun k => mul F (get F A r k) (get F B k c)).
Proof. intros H j rows n cols A B Hn. exact (mul_spec F H j rows n cols A B Hn). Qed.
Print Assumptions C54_product.

(** The written-out products agree with the loop, whatever was in the memory of the results. *)
Theorem C54_unrolled_agrees {K} (F : ops K) : exact_ring F -> forall j j' rows n cols A B, 0 < n ->
  mat_mul F j rows n cols A B = mul_any F j' rows n cols A B.
Proof.
  intros H j j' rows n cols A B Hn. destruct (mul_spec F H j rows n cols A B Hn) as [D1 G1]. destruct (mul_any_spec F H j' rows n cols A B Hn) as [D2 G2].
  apply (mat_ext F rows cols); [exact D1|exact D2|]. intros r c Hr Hc. rewrite G1, G2 by assumption. reflexivity.
Qed.
Print Assumptions C54_unrolled_agrees.

Theorem C54_associative {K} (F : ops K) : exact_ring F -> forall j1 j2 j3 j4 r n m c A B D, 0 < n -> 0 < m ->
  mat_mul F j1 r m c (mat_mul F j2 r n m A B) D = mat_mul F j3 r n c A (mat_mul F j4 n m c B D).
Proof. intros H j1 j2 j3 j4 r n m c A B D Hn Hm. exact (mul_assoc_ F H j1 j2 j3 j4 r n m c A B D Hn Hm). Qed.
Print Assumptions C54_associative.

(** [identity] has ones where the row is the column and zeros elsewhere, also when it is not square. *)
Theorem C54_identity_elements {K} (F : ops K) : forall rows cols, 0 < rows -> 0 < cols ->
  dims rows cols (identity F rows cols) /\
  forall r c, r < rows -> c < cols -> get F (identity F rows cols) r c = if r =? c then one F else zero F.
Proof. intros rows cols Hr Hc. exact (identity_spec F rows cols Hr Hc). Qed.
Print Assumptions C54_identity_elements.

Theorem C54_identity {K} (F : ops K) : exact_ring F -> forall j r n A, 0 < r -> 0 < n -> dims r n A ->
  mat_mul F j r n n A (identity F n n) = A /\ mat_mul F j r r n (identity F r r) A = A.
Proof. intros H j r n A Hr Hn D. split; [exact (mul_identity_r_ F H j r n A Hn D)|exact (mul_identity_l_ F H j r n A Hr D)]. Qed.
Print Assumptions C54_identity.

Theorem C54_transpose {K} (F : ops K) : forall j rows cols m, dims cols rows (transpose F j rows cols m) /\
  forall r c, r < cols -> c < rows -> get F (transpose F j rows cols m) r c = get F m c r.
Proof. intros j rows cols m. exact (transpose_spec F j rows cols m). Qed.
Print Assumptions C54_transpose.
Theorem C54_transpose_twice {K} (F : ops K) : forall j1 j2 r c A, dims r c A -> transpose F j1 c r (transpose F j2 r c A) = A.
Proof. intros j1 j2 r c A. exact (transpose_transpose_ F j1 j2 r c A). Qed.
Print Assumptions C54_transpose_twice.
Theorem C54_transpose_reverses {K} (F : ops K) : exact_ring F -> forall j1 j2 j3 j4 j5 r n c A B, 0 < n ->
  transpose F j1 r c (mat_mul F j2 r n c A B) = mat_mul F j3 c n r (transpose F j4 n c B) (transpose F j5 r n A).
Proof. intros H j1 j2 j3 j4 j5 r n c A B Hn. exact (transpose_mul_ F H j1 j2 j3 j4 j5 r n c A B Hn). Qed.
Print Assumptions C54_transpose_reverses.

(** Matrix times column vector and row vector times matrix: elements, composition, and each as the other's transpose. *)
Theorem C54_vector_products {K} (F : ops K) : exact_ring F -> forall j rows cols A v w, 0 < rows -> 0 < cols ->
  length (mat_vec F j rows cols A v) = rows /\ length (vec_mat F j rows cols w A) = cols /\
  (forall r, r < rows -> at_ F (mat_vec F j rows cols A v) r = sum F cols (fun k => mul F (get F A r k) (at_ F v k))) /\
  (forall c, c < cols -> at_ F (vec_mat F j rows cols w A) c = sum F rows (fun k => mul F (at_ F w k) (get F A k c))).
Proof.
  intros H j rows cols A v w Hr Hc. destruct (mat_vec_spec F H j rows cols A v Hc) as [L1 G1]. destruct (vec_mat_spec F H j rows cols w A Hr) as [L2 G2]. repeat split; assumption.
Qed.
Print Assumptions C54_vector_products.
Theorem C54_vector_composition {K} (F : ops K) : exact_ring F -> forall j1 j2 j3 j4 r n c A B v w, 0 < r -> 0 < n -> 0 < c ->
  mat_vec F j1 r c (mat_mul F j2 r n c A B) v = mat_vec F j3 r n A (mat_vec F j4 n c B v) /\
  vec_mat F j1 r c w (mat_mul F j2 r n c A B) = vec_mat F j3 n c (vec_mat F j4 r n w A) B.
Proof.
  intros H j1 j2 j3 j4 r n c A B v w Hr Hn Hc. split; [exact (mat_vec_mul_ F H j1 j2 j3 j4 r n c A B v Hn Hc)|].
  first [exact (vec_mat_mul_ F H j1 j2 j3 j4 r n c w A B Hn Hr)|symmetry; exact (vec_mat_mul_ F H j3 j4 j1 j2 r n c w A B Hn Hr)].
Qed.
Print Assumptions C54_vector_composition.
Theorem C54_row_is_transposed_column {K} (F : ops K) : exact_ring F -> forall j1 j2 j3 r c v A, 0 < r ->
  vec_mat F j1 r c v A = mat_vec F j2 c r (transpose F j3 r c A) v.
Proof. intros H j1 j2 j3 r c v A Hr. exact (vec_mat_transpose_ F H j1 j2 j3 r c v A Hr). Qed.
Print Assumptions C54_row_is_transposed_column.

(* ------------------------------------------------------------------ C55 *)
(** [arrangements] lists every permutation exactly once, so [leibniz] is the sum over all permutations. *)
Theorem C55_leibniz_runs_over_all_permutations : forall n, NoDup (arrangements (seq 0 n)) /\ forall p, In p (arrangements (seq 0 n)) <-> Permutation (seq 0 n) p.
Proof. intros n. split; [apply arrangements_nodup, seq_NoDup|]. intros p. apply arrangements_in. Qed.
Print Assumptions C55_leibniz_runs_over_all_permutations.
Theorem C55_determinant_is_leibniz {K} (F : ops K) : exact_ring F -> forall n A, 1 <= n <= 4 ->
  determinant F n A = Some (leibniz F n (get F A)).
Proof. intros H n A Hn. exact (determinant_leibniz F H n A Hn). Qed.
Print Assumptions C55_determinant_is_leibniz.
Theorem C55_determinant_multiplicative {K} (F : ops K) : exact_ring F -> forall n j A B a b,
  determinant F n A = Some a -> determinant F n B = Some b -> determinant F n (mat_mul F j n n n A B) = Some (mul F a b).
Proof. intros H n j A B a b Ha Hb. exact (determinant_mul F H n j A B a b Ha Hb). Qed.
Print Assumptions C55_determinant_multiplicative.
Theorem C55_determinant_of_transpose_and_identity {K} (F : ops K) : exact_ring F -> forall n j A, 1 <= n <= 4 ->
  determinant F n (transpose F j n n A) = determinant F n A /\ determinant F n (identity F n n) = Some (one F).
Proof. intros H n j A Hn. split; [exact (determinant_transpose F H n j A)|exact (determinant_identity F H n Hn)]. Qed.
Print Assumptions C55_determinant_of_transpose_and_identity.

(** Over a field, [invert] gives the two-sided inverse of every matrix whose determinant is not zero, ... *)
Theorem C55_inverse {K} (F : ops K) : exact_field F -> forall n j A d, 1 <= n <= 4 -> determinant F n A = Some d -> d <> zero F ->
  exists B, invert F n A = Some B /\ mat_mul F j n n n A B = identity F n n /\ mat_mul F j n n n B A = identity F n n.
Proof.
  intros H n j A d Hn Hd Z. assert (X : exists B, invert F n A = Some B) by (destruct n as [|[|[|[|[|n]]]]]; try lia; eexists; reflexivity).
  destruct X as [B HB]. exists B. split; [exact HB|]. exact (invert_both F H n j A d B Hd Z HB).
Qed.
Print Assumptions C55_inverse.
(** ... which is the only one, and no other matrix has one. *)
Theorem C55_inverse_is_the_only_one {K} (F : ops K) : exact_field F -> forall n j A B, 1 <= n <= 4 -> dims n n B ->
  mat_mul F j n n n A B = identity F n n \/ mat_mul F j n n n B A = identity F n n ->
  determinant F n A <> Some (zero F) /\ (dims n n A -> invert F n A = Some B).
Proof.
  intros H n j A B Hn DB HAB. pose proof (F_R H) as RT.
  assert (ND : determinant F n A <> Some (zero F)).
  { intros HA. destruct (determinant F n B) as [b|] eqn:HB; [|rewrite (determinant_leibniz F RT n B Hn) in HB; discriminate].
    pose proof (determinant_identity F RT n Hn) as HI. apply (F_1_neq_0 H).
    destruct HAB as [E|E]; rewrite <- E in HI.
    - rewrite (determinant_mul F RT n j A B _ _ HA HB) in HI. injection HI as HI. rewrite <- HI. apply (ARmul_0_l (Rth_ARth (Eqsth K) (Eq_ext _ _ _) RT)).
    - rewrite (determinant_mul F RT n j B A _ _ HB HA) in HI. injection HI as HI. rewrite <- HI, (Rmul_comm RT). apply (ARmul_0_l (Rth_ARth (Eqsth K) (Eq_ext _ _ _) RT)). }
  split; [exact ND|]. intros DA. destruct (determinant F n A) as [d|] eqn:Hd; [|rewrite (determinant_leibniz F RT n A Hn) in Hd; discriminate].
  destruct (C55_inverse F H n j A d Hn Hd ltac:(congruence)) as (C & HC & E1 & E2). rewrite HC. f_equal.
  assert (DC : dims n n C).
  { destruct n as [|[|[|[|[|n]]]]]; try lia; injection HC as <-; split; try reflexivity; intros col Hcol; cbn in Hcol; repeat (destruct Hcol as [<-|Hcol]; [reflexivity|]); contradiction. }
  destruct HAB as [E|E].
  - transitivity (mat_mul F j n n n C (mat_mul F j n n n A B)).
    + rewrite E. symmetry. apply (mul_identity_r_ F RT); [lia|exact DC].
    + rewrite <- (mul_assoc_ F RT j j j j n n n n C A B) by lia. rewrite E2. apply (mul_identity_l_ F RT); [lia|exact DB].
  - transitivity (mat_mul F j n n n (mat_mul F j n n n B A) C).
    + rewrite E. symmetry. apply (mul_identity_l_ F RT); [lia|exact DC].
    + rewrite (mul_assoc_ F RT j j j j n n n n B A C) by lia. rewrite E1. apply (mul_identity_r_ F RT); [lia|exact DB].
Qed.
Print Assumptions C55_inverse_is_the_only_one.

(* ------------------------------------------------------------------ witnesses *)
(** The integers and the rational numbers are such scalars. *)
Definition Z_ops : ops Z := {| zero := 0%Z; one := 1%Z; add := Z.add; mul := Z.mul; sub := Z.sub; neg := Z.opp; div := Z.div |}.
Definition Q_ops : ops Qc := {| zero := 0%Qc; one := 1%Qc; add := Qcplus; mul := Qcmult; sub := Qcminus; neg := Qcopp; div := Qcdiv |}.
Lemma Z_ops_ring : exact_ring Z_ops.
Proof. exact InitialRing.Zth. Qed.
Lemma Q_ops_field : exact_field Q_ops.
Proof.
  constructor; cbn [Q_ops zero one add mul sub neg div].
  - exact Qcrt.
  - exact (F_1_neq_0 Qcft).
  - intros p q. unfold Qcdiv. rewrite Qcmult_1_l. reflexivity.
  - intros p Hp. unfold Qcdiv. rewrite Qcmult_1_l. exact (Finv_l Qcft p Hp).
Qed.
(** A 2x3 matrix times a 3x2 matrix (columns are listed) takes the loop, 2x2 the written-out product. *)
Example C54_witness : mat_mul Z_ops 99%Z 2 3 2 [[1; 4]; [2; 5]; [3; 6]]%Z [[1; 2; 3]; [4; 5; 6]]%Z = [[14; 32]; [32; 77]]%Z /\
  mat_mul Z_ops 99%Z 2 2 2 [[1; 3]; [2; 4]]%Z [[0; 1]; [1; 0]]%Z = [[2; 4]; [1; 3]]%Z /\
  transpose Z_ops 99%Z 2 3 [[1; 4]; [2; 5]; [3; 6]]%Z = [[1; 2; 3]; [4; 5; 6]]%Z /\
  identity Z_ops 2 3 = [[1; 0]; [0; 1]; [0; 0]]%Z.
Proof. repeat split; vm_compute; reflexivity. Qed.
Definition sample4 : list (list Qc) := map (map (fun z => Q2Qc (inject_Z z))) [[2; 0; 1; 3]; [1; 1; 0; 2]; [0; 4; 1; 1]; [5; 0; 0; 1]]%Z.
Example C55_witness : determinant Q_ops 4 sample4 <> Some (zero Q_ops) /\ option_map (mat_mul Q_ops (zero Q_ops) 4 4 4 sample4) (invert Q_ops 4 sample4) = Some (identity Q_ops 4 4).
Proof.
  split.
  - intros H. vm_compute in H. discriminate H.
  - assert (X : exists d, determinant Q_ops 4 sample4 = Some d /\ d <> zero Q_ops) by (eexists; split; [reflexivity|]; intros H; apply (f_equal this) in H; vm_compute in H; discriminate H).
    destruct X as (d & Hd & Z). destruct (C55_inverse Q_ops Q_ops_field 4 (zero Q_ops) sample4 d ltac:(lia) Hd Z) as (B & -> & E & _). cbn [option_map]. f_equal. exact E.
Qed.

(* ------------------------------------------------------------------ C102 *)
(** The constructor from scalars takes them row by row: reading the elements of the matrix row after row gives the
    arguments back, followed by zeros. *)
Theorem C102_row_major {K} (F : ops K) : forall rows cols l, length l <= rows * cols ->
  dims rows cols (of_rows F rows cols l) /\
  concat (map (fun r => map (get F (of_rows F rows cols l) r) (seq 0 cols)) (seq 0 rows)) = l ++ repeat (zero F) (rows * cols - length l).
Proof. intros rows cols l. exact (of_rows_spec F rows cols l). Qed.
Print Assumptions C102_row_major.

Theorem C102_broadcast {K} (F : ops K) : forall rows cols x, dims rows cols (broadcast rows cols x) /\
  forall r c, r < rows -> c < cols -> get F (broadcast rows cols x) r c = x.
Proof. intros rows cols x. exact (broadcast_spec F rows cols x). Qed.
Print Assumptions C102_broadcast.

Example C102_witness : of_rows Z_ops 2 3 [1; 2; 3; 4]%Z = [[1; 4]; [2; 0]; [3; 0]]%Z /\ broadcast 2 3 7%Z = [[7; 7]; [7; 7]; [7; 7]]%Z.
Proof. split; reflexivity. Qed.
