(** Matrix products and determinants of floating-point scalars, for every choice of fused operations. *)
From Coq Require Import ZArith Bool List Reals Lra Lia Psatz.
From Flocq Require Import Core BinarySingleNaN.
From Verif Require Import MatModel MatSpec MatProofs VfltSpec VfltProofs VfltProofs2 CtrModel CtrSpec CtrProofs CtrProofs2 CtrProofs3 CtrProofs4.
Import ListNotations.
Local Open Scope R_scope.

Notation float32 := (binary_float 24 128).
Definition c32 (m e : Z) : float32 := binary_normalize 24 128 eq_refl eq_refl mode_NE m e false.
#[local] Instance float_prec : Prec_gt_0 24 := eq_refl.
#[local] Instance float_emax : Prec_lt_emax 24 128 := eq_refl.

Section Props.
  Variable prec emax : Z.
  Context (prec_gt_0_ : Prec_gt_0 prec).
  Context (prec_lt_emax_ : Prec_lt_emax prec emax).
  Notation float := (binary_float prec emax).
  Notation u := (half_ulp_1 prec).
  Notation h := (half_tiny prec emax).
  Notation fexp := (FLT_exp (3 - emax - prec) prec).
  Notation X := (expr_ops prec emax _ _).
  Notation expr := (expr prec emax).
  Notation evals := (evals prec emax _ _).
  Notation term a b := (fun k : nat => Mul prec emax (Leaf prec emax (a k)) (Leaf prec emax (b k))).
  Implicit Types (a b : list (list float)) (v : list float) (j : expr).

  (** Every element of the row or column (if it is there at all) is finite, or is a whole number. *)
  Notation finite_at m r c := (forall e, entry m r c = Some e -> is_finite e = true).
  Notation finite_in v k := (forall e, nth_error v k = Some e -> is_finite e = true).

  Lemma finite_atf v k : is_finite (atf prec emax v k) = true <-> finite_in v k.
  Proof using.
    unfold atf. destruct (nth_error v k) as [x|] eqn:E.
    - rewrite (nth_error_nth _ _ _ E). split; [intros H e [= <-]; exact H | intros H; apply H; reflexivity].
    - rewrite nth_overflow by (apply nth_error_None; exact E). split; [intros _ e; discriminate | reflexivity].
  Qed.
  Lemma finite_getf a r c : is_finite (getf prec emax a r c) = true <-> finite_at a r c.
  Proof using.
    unfold getf, entry. destruct (nth_error a c) as [col|] eqn:E.
    - rewrite (nth_error_nth _ _ _ E). exact (finite_atf col r).
    - rewrite (nth_overflow a) by (apply nth_error_None; exact E). split; [intros _ e; discriminate | destruct r; reflexivity].
  Qed.
  Lemma atf_entry v k e : nth_error v k = Some e -> atf prec emax v k = e.
  Proof using. intros E. exact (nth_error_nth _ _ _ E). Qed.

  Lemma sum_error n (a b : nat -> float) (p q : nat -> R) x : (0 < n)%nat -> evals (lsum X n (term a b)) x -> is_finite x = true ->
    (forall k, B2R (a k) = p k) -> (forall k, B2R (b k) = q k) ->
    (forall k, (k < n)%nat -> is_finite (a k) = true /\ is_finite (b k) = true) /\
    Rabs (B2R x - rsum n (fun k => p k * q k)) <= ((1 + u) ^ n - 1) * rsum n (fun k => Rabs (p k) * Rabs (q k)) + 2 * INR n * h * (1 + u) ^ n.
  Proof using.
    intros Hn E F P Q. destruct (evals_error _ _ _ _ _ _ (sum_poly _ _ _ _ n a b) E F) as [L (_ & _ & K)]. split; [apply (sum_leaves _ _ _ _ n a b Hn); exact L|].
    rewrite sum_real, sum_mag, sum_rounds in K by exact Hn. pose proof (sum_under _ _ _ _ n a b Hn).
    rewrite (rsum_ext n (fun k => p k * q k) (fun k => B2R (a k) * B2R (b k))) by (intros; rewrite P, Q; reflexivity).
    rewrite (rsum_ext n (fun k => Rabs (p k) * Rabs (q k)) (fun k => Rabs (B2R (a k)) * Rabs (B2R (b k)))) by (intros; rewrite P, Q; reflexivity). lra.
  Qed.
  Lemma sum_finite n (a b : nat -> float) (p q : nat -> R) x : (0 < n)%nat -> (forall k, (k < n)%nat -> is_finite (a k) = true /\ is_finite (b k) = true) ->
    (forall k, B2R (a k) = p k) -> (forall k, B2R (b k) = q k) ->
    (1 + u) ^ n * (rsum n (fun k => Rabs (p k) * Rabs (q k)) + 2 * INR n * h) < bpow radix2 emax -> evals (lsum X n (term a b)) x -> is_finite x = true.
  Proof using.
    intros Hn F P Q L E. refine (evals_finite _ _ _ _ _ _ _ E). apply sum_fits; [exact Hn | exact F|].
    rewrite (rsum_ext n (fun k => Rabs (B2R (a k)) * Rabs (B2R (b k))) (fun k => Rabs (p k) * Rabs (q k))) by (intros; rewrite P, Q; reflexivity). exact L.
  Qed.

  (* ------------------------------------------------------------------ C147 *)

  (** An element of a matrix product that comes out finite: the elements of its row and its column are finite, and it is the sum of products up to n roundings
      of the sum of their magnitudes (and a few halves of the smallest number), whatever the compiler fuses. *)
  Theorem C147_product_error j rows n cols a b r c x : (0 < n)%nat -> (r < rows)%nat -> (c < cols)%nat ->
    product_elem prec emax _ _ j rows n cols a b r c x -> is_finite x = true ->
    (forall k, (k < n)%nat -> finite_at a r k /\ finite_at b k c) /\
    Rabs (B2R x - rsum n (fun k => elem B2R a r k * elem B2R b k c))
      <= ((1 + u) ^ n - 1) * rsum n (fun k => Rabs (elem B2R a r k) * Rabs (elem B2R b k c)) + 2 * INR n * h * (1 + u) ^ n.
  Proof using.
    intros Hn Hr Hc E F. unfold product_elem in E. rewrite mul_free in E by assumption. 
    rewrite (lsum_ext X n _ (term (fun k => getf prec emax a r k) (fun k => getf prec emax b k c))) in E by (intros; rewrite !get_leaves; reflexivity).
    destruct (sum_error n _ _ (fun k => elem B2R a r k) (fun k => elem B2R b k c) x Hn E F) as [A B]; [intros; apply getf_elem | intros; apply getf_elem |]. split; [|exact B].
    intros k Hk. destruct (A k Hk) as [A1 A2]. split; [exact (proj1 (finite_getf _ _ _) A1) | exact (proj1 (finite_getf _ _ _) A2)].
  Qed.
  (** It does come out finite unless the magnitudes add up to nearly the overflow. *)
  Theorem C147_product_finite j rows n cols a b r c : (0 < n)%nat -> (r < rows)%nat -> (c < cols)%nat ->
    (forall k, (k < n)%nat -> finite_at a r k /\ finite_at b k c) ->
    (1 + u) ^ n * (rsum n (fun k => Rabs (elem B2R a r k) * Rabs (elem B2R b k c)) + 2 * INR n * h) < bpow radix2 emax ->
    (exists x, product_elem prec emax _ _ j rows n cols a b r c x) /\
    forall x, product_elem prec emax _ _ j rows n cols a b r c x -> is_finite x = true.
  Proof using.
    intros Hn Hr Hc Fin L. split; [apply evals_total|]. intros x E. unfold product_elem in E. rewrite mul_free in E by assumption.
    rewrite (lsum_ext X n _ (term (fun k => getf prec emax a r k) (fun k => getf prec emax b k c))) in E by (intros; rewrite !get_leaves; reflexivity).
    refine (sum_finite _ _ _ _ _ x Hn _ _ _ L E); [intros k Hk; destruct (Fin k Hk); split; apply finite_getf; assumption | intros; apply getf_elem | intros; apply getf_elem].
  Qed.
  Theorem C147_matrix_vector_error j rows cols a v r x : (0 < cols)%nat -> (r < rows)%nat ->
    mat_vec_elem prec emax _ _ j rows cols a v r x -> is_finite x = true ->
    (forall k, (k < cols)%nat -> finite_at a r k /\ finite_in v k) /\
    Rabs (B2R x - rsum cols (fun k => elem B2R a r k * comp B2R v k))
      <= ((1 + u) ^ cols - 1) * rsum cols (fun k => Rabs (elem B2R a r k) * Rabs (comp B2R v k)) + 2 * INR cols * h * (1 + u) ^ cols.
  Proof using.
    intros Hn Hr E F. unfold mat_vec_elem in E. rewrite mat_vec_free in E by assumption.
    rewrite (lsum_ext X cols _ (term (fun k => getf prec emax a r k) (fun k => atf prec emax v k))) in E by (intros; rewrite get_leaves, at_leaves; reflexivity).
    destruct (sum_error cols _ _ (fun k => elem B2R a r k) (fun k => comp B2R v k) x Hn E F) as [A B]; [intros; apply getf_elem | intros; apply atf_comp |]. split; [|exact B].
    intros k Hk. destruct (A k Hk) as [A1 A2]. split; [exact (proj1 (finite_getf _ _ _) A1) | exact (proj1 (finite_atf _ _) A2)].
  Qed.
  Theorem C147_matrix_vector_finite j rows cols a v r : (0 < cols)%nat -> (r < rows)%nat -> (forall k, (k < cols)%nat -> finite_at a r k /\ finite_in v k) ->
    (1 + u) ^ cols * (rsum cols (fun k => Rabs (elem B2R a r k) * Rabs (comp B2R v k)) + 2 * INR cols * h) < bpow radix2 emax ->
    (exists x, mat_vec_elem prec emax _ _ j rows cols a v r x) /\ forall x, mat_vec_elem prec emax _ _ j rows cols a v r x -> is_finite x = true.
  Proof using.
    intros Hn Hr Fin L. split; [apply evals_total|]. intros x E. unfold mat_vec_elem in E. rewrite mat_vec_free in E by assumption.
    rewrite (lsum_ext X cols _ (term (fun k => getf prec emax a r k) (fun k => atf prec emax v k))) in E by (intros; rewrite get_leaves, at_leaves; reflexivity).
    refine (sum_finite _ _ _ _ _ x Hn _ _ _ L E); [intros k Hk; destruct (Fin k Hk); split; [apply finite_getf | apply finite_atf]; assumption | intros; apply getf_elem | intros; apply atf_comp].
  Qed.
  Theorem C147_vector_matrix_error j rows cols v a c x : (0 < rows)%nat -> (c < cols)%nat ->
    vec_mat_elem prec emax _ _ j rows cols v a c x -> is_finite x = true ->
    (forall k, (k < rows)%nat -> finite_in v k /\ finite_at a k c) /\
    Rabs (B2R x - rsum rows (fun k => comp B2R v k * elem B2R a k c))
      <= ((1 + u) ^ rows - 1) * rsum rows (fun k => Rabs (comp B2R v k) * Rabs (elem B2R a k c)) + 2 * INR rows * h * (1 + u) ^ rows.
  Proof using.
    intros Hn Hr E F. unfold vec_mat_elem in E. rewrite vec_mat_free in E by assumption.
    rewrite (lsum_ext X rows _ (term (fun k => atf prec emax v k) (fun k => getf prec emax a k c))) in E by (intros; rewrite get_leaves, at_leaves; reflexivity).
    destruct (sum_error rows _ _ (fun k => comp B2R v k) (fun k => elem B2R a k c) x Hn E F) as [A B]; [intros; apply atf_comp | intros; apply getf_elem |]. split; [|exact B].
    intros k Hk. destruct (A k Hk) as [A1 A2]. split; [exact (proj1 (finite_atf _ _) A1) | exact (proj1 (finite_getf _ _ _) A2)].
  Qed.
  Theorem C147_vector_matrix_finite j rows cols v a c : (0 < rows)%nat -> (c < cols)%nat -> (forall k, (k < rows)%nat -> finite_in v k /\ finite_at a k c) ->
    (1 + u) ^ rows * (rsum rows (fun k => Rabs (comp B2R v k) * Rabs (elem B2R a k c)) + 2 * INR rows * h) < bpow radix2 emax ->
    (exists x, vec_mat_elem prec emax _ _ j rows cols v a c x) /\ forall x, vec_mat_elem prec emax _ _ j rows cols v a c x -> is_finite x = true.
  Proof using.
    intros Hn Hr Fin L. split; [apply evals_total|]. intros x E. unfold vec_mat_elem in E. rewrite vec_mat_free in E by assumption.
    rewrite (lsum_ext X rows _ (term (fun k => atf prec emax v k) (fun k => getf prec emax a k c))) in E by (intros; rewrite get_leaves, at_leaves; reflexivity).
    refine (sum_finite _ _ _ _ _ x Hn _ _ _ L E); [intros k Hk; destruct (Fin k Hk); split; [apply finite_atf | apply finite_getf]; assumption | intros; apply atf_comp | intros; apply getf_elem].
  Qed.

  (* ------------------------------------------------------------------ C148 *)

  (** A determinant that comes out finite: all the elements are finite, and it is the signed sum of the n! products up to 2, 5 or 9 roundings of the sum of their magnitudes. *)
  Theorem C148_determinant_error n a x B : (11 <= prec)%Z -> (1 <= n <= 4)%nat -> determinant_val prec emax _ _ n a x -> is_finite x = true ->
    1 <= B -> (forall r c, Rabs (elem B2R a r c) <= B) ->
    (forall r c, (r < n)%nat -> (c < n)%nat -> finite_at a r c) /\
    Rabs (B2R x - real_det n (elem B2R a)) <= ((1 + u) ^ det_roundings n - 1) * magnitude_det n (elem B2R a) + det_underflow n B * h.
  Proof using.
    intros P Hn (e & D & E) F B1 Hb. destruct (evals_error _ _ _ _ _ _ (det_poly _ _ _ _ n a e D) E F) as [L (_ & _ & K)]. split.
    - intros r c Hr Hc. apply (proj1 (finite_getf _ _ _)). apply (proj1 (det_leaves _ _ _ _ n a e D) L); assumption.
    - rewrite (det_real _ _ _ _ n a e D), (det_mag _ _ _ _ n a e D), (det_rounds_ok _ _ _ _ n a e D) in K.
      destruct (det_nb _ _ _ _ P n a e B D B1 Hb) as (_ & _ & _ & U). lra.
  Qed.
  Theorem C148_determinant_finite n a B : (11 <= prec)%Z -> (1 <= n <= 4)%nat -> 1 <= B -> (forall r c, Rabs (elem B2R a r c) <= B) ->
    (forall r c, (r < n)%nat -> (c < n)%nat -> finite_at a r c) -> INR (fact n) * B ^ n < bpow radix2 (emax - 1) ->
    (exists x, determinant_val prec emax _ _ n a x) /\ forall x, determinant_val prec emax _ _ n a x -> is_finite x = true.
  Proof using.
    intros P Hn B1 Hb Fin L. split.
    - destruct (det_exists prec emax _ _ n a Hn) as [e D]. destruct (evals_total _ _ _ _ e) as [x E]. exists x, e. split; assumption.
    - intros x (e & D & E). apply (evals_finite _ _ _ _ e x); [|exact E]. apply (det_fits _ _ _ _ P n a e B D B1 Hb); [|exact L].
      intros r c Hr Hc. apply finite_getf. apply Fin; assumption.
  Qed.

  (* ------------------------------------------------------------------ C149 *)

  Lemma get_identity_float rows cols r k : (r < rows)%nat -> (k < cols)%nat ->
    is_finite (getf prec emax (identity (float_ops prec emax _ _) rows cols) r k) = true /\
    elem B2R (identity (float_ops prec emax _ _) rows cols) r k = if (r =? k)%nat then 1 else 0.
  Proof using.
    intros Hr Hk. destruct (identity_spec (float_ops prec emax _ _) rows cols ltac:(lia) ltac:(lia)) as [_ I]. specialize (I r k Hr Hk).
    rewrite <- getf_elem. change (getf prec emax (identity (float_ops prec emax _ _) rows cols) r k) with (get (float_ops prec emax _ _) (identity (float_ops prec emax _ _) rows cols) r k).
    rewrite I. destruct (r =? k)%nat; cbn [one zero float_ops]; split; try reflexivity; [apply is_finite_Bone | apply Bone_correct].
  Qed.
  Lemma float_format (x : float) : generic_format radix2 fexp (B2R x) /\ Rabs (B2R x) < bpow radix2 emax.
  Proof using. split; [apply generic_format_B2R | apply abs_B2R_lt_emax]. Qed.
  (** Multiplying by the identity matrix changes no number (a zero may lose its sign), from the left ... *)
  Theorem C149_identity_left j n cols b r c x : (r < n)%nat -> (c < cols)%nat -> (forall k, (k < n)%nat -> finite_at b k c) ->
    product_elem prec emax _ _ j n n cols (identity (float_ops prec emax _ _) n n) b r c x -> is_finite x = true /\ B2R x = elem B2R b r c.
  Proof using.
    intros Hr Hc Fin E. unfold product_elem in E. rewrite mul_free in E by lia.
    rewrite (lsum_ext X n _ (term (fun k => getf prec emax (identity (float_ops prec emax _ _) n n) r k) (fun k => getf prec emax b k c))) in E by (intros; rewrite !get_leaves; reflexivity).
    destruct (sum_single prec emax _ _ n (fun k => getf prec emax (identity (float_ops prec emax _ _) n n) r k) (fun k => getf prec emax b k c) r Hr) as [A B].
    - intros k Hk. split; [apply (get_identity_float n n r k Hr Hk) | apply (proj2 (finite_getf b k c)); apply Fin; exact Hk].
    - intros k Hk N. rewrite !getf_elem, (proj2 (get_identity_float n n r k Hr Hk)). destruct (Nat.eqb_spec r k); [congruence | ring].
    - rewrite (getf_elem _ _ (identity _ _ _)), (proj2 (get_identity_float n n r r Hr Hr)), Nat.eqb_refl, Rmult_1_l. apply float_format.
    - rewrite (getf_elem _ _ (identity _ _ _)), (proj2 (get_identity_float n n r r Hr Hr)), Nat.eqb_refl, Rmult_1_l. apply float_format.
    - destruct (evals_exact _ _ _ _ _ _ A E) as [F V]. split; [exact F|]. rewrite V, B.
      rewrite (getf_elem _ _ (identity _ _ _)), (proj2 (get_identity_float n n r r Hr Hr)), Nat.eqb_refl, getf_elem. ring.
  Qed.
  (** ... and from the right; ... *)
  Theorem C149_identity_right j rows n a r c x : (r < rows)%nat -> (c < n)%nat -> (forall k, (k < n)%nat -> finite_at a r k) ->
    product_elem prec emax _ _ j rows n n a (identity (float_ops prec emax _ _) n n) r c x -> is_finite x = true /\ B2R x = elem B2R a r c.
  Proof using.
    intros Hr Hc Fin E. unfold product_elem in E. rewrite mul_free in E by lia.
    rewrite (lsum_ext X n _ (term (fun k => getf prec emax a r k) (fun k => getf prec emax (identity (float_ops prec emax _ _) n n) k c))) in E by (intros; rewrite !get_leaves; reflexivity).
    destruct (sum_single prec emax _ _ n (fun k => getf prec emax a r k) (fun k => getf prec emax (identity (float_ops prec emax _ _) n n) k c) c Hc) as [A B].
    - intros k Hk. split; [apply (proj2 (finite_getf a r k)); apply Fin; exact Hk | apply (get_identity_float n n k c Hk Hc)].
    - intros k Hk N. rewrite !getf_elem, (proj2 (get_identity_float n n k c Hk Hc)). destruct (Nat.eqb_spec k c); [congruence | ring].
    - rewrite (getf_elem _ _ (identity _ _ _)), (proj2 (get_identity_float n n c c Hc Hc)), Nat.eqb_refl, Rmult_1_r. apply float_format.
    - rewrite (getf_elem _ _ (identity _ _ _)), (proj2 (get_identity_float n n c c Hc Hc)), Nat.eqb_refl, Rmult_1_r. apply float_format.
    - destruct (evals_exact _ _ _ _ _ _ A E) as [F V]. split; [exact F|]. rewrite V, B.
      rewrite (getf_elem _ _ (identity _ _ _)), (proj2 (get_identity_float n n c c Hc Hc)), Nat.eqb_refl, getf_elem. ring.
  Qed.
  (** ... the same for vectors. *)
  Theorem C149_identity_vector j n v r x : (r < n)%nat -> (forall k, (k < n)%nat -> finite_in v k) ->
    mat_vec_elem prec emax _ _ j n n (identity (float_ops prec emax _ _) n n) v r x \/ vec_mat_elem prec emax _ _ j n n v (identity (float_ops prec emax _ _) n n) r x ->
    is_finite x = true /\ B2R x = comp B2R v r.
  Proof using.
    intros Hr Fin [E|E]; [unfold mat_vec_elem in E; rewrite mat_vec_free in E by lia | unfold vec_mat_elem in E; rewrite vec_mat_free in E by lia].
    - rewrite (lsum_ext X n _ (term (fun k => getf prec emax (identity (float_ops prec emax _ _) n n) r k) (fun k => atf prec emax v k))) in E by (intros; rewrite get_leaves, at_leaves; reflexivity).
      destruct (sum_single prec emax _ _ n (fun k => getf prec emax (identity (float_ops prec emax _ _) n n) r k) (fun k => atf prec emax v k) r Hr) as [A B].
      + intros k Hk. split; [apply (get_identity_float n n r k Hr Hk) | apply (proj2 (finite_atf v k)); apply Fin; exact Hk].
      + intros k Hk N. rewrite getf_elem, (proj2 (get_identity_float n n r k Hr Hk)). destruct (Nat.eqb_spec r k); [congruence | ring].
      + rewrite getf_elem, (proj2 (get_identity_float n n r r Hr Hr)), Nat.eqb_refl, Rmult_1_l. apply float_format.
      + rewrite getf_elem, (proj2 (get_identity_float n n r r Hr Hr)), Nat.eqb_refl, Rmult_1_l. apply float_format.
      + destruct (evals_exact _ _ _ _ _ _ A E) as [F V]. split; [exact F|]. rewrite V, B.
        rewrite getf_elem, (proj2 (get_identity_float n n r r Hr Hr)), Nat.eqb_refl, atf_comp. ring.
    - rewrite (lsum_ext X n _ (term (fun k => atf prec emax v k) (fun k => getf prec emax (identity (float_ops prec emax _ _) n n) k r))) in E by (intros; rewrite get_leaves, at_leaves; reflexivity).
      destruct (sum_single prec emax _ _ n (fun k => atf prec emax v k) (fun k => getf prec emax (identity (float_ops prec emax _ _) n n) k r) r Hr) as [A B].
      + intros k Hk. split; [apply (proj2 (finite_atf v k)); apply Fin; exact Hk | apply (get_identity_float n n k r Hk Hr)].
      + intros k Hk N. rewrite getf_elem, (proj2 (get_identity_float n n k r Hk Hr)). destruct (Nat.eqb_spec k r); [congruence | ring].
      + rewrite getf_elem, (proj2 (get_identity_float n n r r Hr Hr)), Nat.eqb_refl, Rmult_1_r. apply float_format.
      + rewrite getf_elem, (proj2 (get_identity_float n n r r Hr Hr)), Nat.eqb_refl, Rmult_1_r. apply float_format.
      + destruct (evals_exact _ _ _ _ _ _ A E) as [F V]. split; [exact F|]. rewrite V, B.
        rewrite getf_elem, (proj2 (get_identity_float n n r r Hr Hr)), Nat.eqb_refl, atf_comp. ring.
  Qed.
  (** Matrices of whole numbers multiply exactly as long as no sum of magnitudes exceeds 2^prec, ... *)
  Theorem C149_whole_product j rows n cols a b r c x : (0 < n)%nat -> (r < rows)%nat -> (c < cols)%nat ->
    (forall k, (k < n)%nat -> finite_at a r k /\ finite_at b k c /\ (exists z, elem B2R a r k = IZR z) /\ (exists z, elem B2R b k c = IZR z)) ->
    rsum n (fun k => Rabs (elem B2R a r k) * Rabs (elem B2R b k c)) <= bpow radix2 prec ->
    product_elem prec emax _ _ j rows n cols a b r c x ->
    is_finite x = true /\ B2R x = rsum n (fun k => elem B2R a r k * elem B2R b k c).
  Proof using.
    intros Hn Hr Hc W L E. unfold product_elem in E. rewrite mul_free in E by lia.
    rewrite (lsum_ext X n _ (term (fun k => getf prec emax a r k) (fun k => getf prec emax b k c))) in E by (intros; rewrite !get_leaves; reflexivity).
    destruct (evals_exact prec emax _ _ (lsum X n (term (fun k => getf prec emax a r k) (fun k => getf prec emax b k c))) x) as [F V].
    - apply (whole_exact prec emax prec_gt_0_ prec_lt_emax_). apply (sum_whole prec emax prec_gt_0_ prec_lt_emax_); [exact Hn | |].
      + intros k Hk. destruct (W k Hk) as (F1 & F2 & Z1 & Z2). rewrite !getf_elem. split; split; try assumption; apply finite_getf; assumption.
      + rewrite (rsum_ext n (fun k => Rabs (B2R (getf prec emax a r k)) * Rabs (B2R (getf prec emax b k c))) (fun k => Rabs (elem B2R a r k) * Rabs (elem B2R b k c))) by (intros; rewrite !getf_elem; reflexivity). exact L.
    - exact E.
    - split; [exact F|]. rewrite V, sum_real by exact Hn. apply rsum_ext. intros. rewrite !getf_elem. reflexivity.
  Qed.
  (** ... and their determinants are exact as long as n! B^n does not, B being at least every element. *)
  Theorem C149_whole_determinant n a B x : (11 <= prec)%Z -> (1 <= n <= 4)%nat -> 1 <= B -> (forall r c, Rabs (elem B2R a r c) <= B) ->
    (forall r c, (r < n)%nat -> (c < n)%nat -> finite_at a r c /\ exists z, elem B2R a r c = IZR z) -> INR (fact n) * B ^ n <= bpow radix2 prec ->
    determinant_val prec emax _ _ n a x -> is_finite x = true /\ B2R x = real_det n (elem B2R a).
  Proof using.
    intros P Hn B1 Hb W L (e & D & E). rewrite <- (det_real _ _ _ _ n a e D). apply (evals_exact _ _ _ _ e x); [|exact E]. apply (whole_exact prec emax prec_gt_0_ prec_lt_emax_).
    apply (det_whole _ _ _ _ P n a e B D B1 Hb); [|exact L]. intros r c Hr Hc. destruct (W r c Hr Hc) as [F Z]. split; [apply finite_getf; exact F | exact Z].
  Qed.
End Props.

(** Witnesses, for float. [one_tenth] is the nearest number to a tenth. *)
Definition one_tenth : float32 := c32 13421773 (-27).
Definition tenths : list (list float32) := [[one_tenth; c32 1 0]; [c32 (-3) 0; c32 1 (-100)]].
Example C147_witness : exists x, product_elem 24 128 _ _ (Leaf 24 128 B754_nan) 2 2 2 tenths tenths 0 0 x /\ is_finite x = true /\
  Rabs (B2R x - rsum 2 (fun k => elem B2R tenths 0 k * elem B2R tenths k 0)) <= ((1 + half_ulp_1 24) ^ 2 - 1) * rsum 2 (fun k => Rabs (elem B2R tenths 0 k) * Rabs (elem B2R tenths k 0)) + 2 * INR 2 * half_tiny 24 128 * (1 + half_ulp_1 24) ^ 2.
Proof.
  exists (Bfma mode_NE one_tenth one_tenth (Bmult mode_NE (c32 (-3) 0) (c32 1 0))).
  assert (E : product_elem 24 128 _ _ (Leaf 24 128 B754_nan) 2 2 2 tenths tenths 0 0 (Bfma mode_NE one_tenth one_tenth (Bmult mode_NE (c32 (-3) 0) (c32 1 0)))).
  { apply ev_add_fused_left; [apply ev_leaf | apply ev_leaf | apply ev_mul; apply ev_leaf]. }
  assert (F : is_finite (Bfma mode_NE one_tenth one_tenth (Bmult mode_NE (c32 (-3) 0) (c32 1 0))) = true) by (vm_compute; reflexivity).
  split; [exact E|]. split; [exact F|]. exact (proj2 (C147_product_error 24 128 _ _ _ 2 2 2 tenths tenths 0 0 _ ltac:(lia) ltac:(lia) ltac:(lia) E F)).
Qed.
(** What the compiler fuses can change the result, here from 0 to 2^-24. *)
Definition near_one : list (list float32) := [[c32 4097 (-12)]; [c32 (-2049) (-11)]].
Definition near_one_column : list (list float32) := [[c32 4097 (-12); c32 1 0]].
Theorem C147_fusing_is_visible : exists x y, product_elem 24 128 _ _ (Leaf 24 128 B754_nan) 1 2 1 near_one near_one_column 0 0 x /\
  product_elem 24 128 _ _ (Leaf 24 128 B754_nan) 1 2 1 near_one near_one_column 0 0 y /\ B2SF x = SpecFloat.S754_zero false /\ B2SF y = SpecFloat.S754_finite false 8388608 (-47).
Proof.
  exists (Bplus mode_NE (Bmult mode_NE (c32 4097 (-12)) (c32 4097 (-12))) (Bmult mode_NE (c32 (-2049) (-11)) (c32 1 0))).
  exists (Bfma mode_NE (c32 4097 (-12)) (c32 4097 (-12)) (Bmult mode_NE (c32 (-2049) (-11)) (c32 1 0))).
  split; [apply ev_add; apply ev_mul; apply ev_leaf|]. split; [apply ev_add_fused_left; [apply ev_leaf | apply ev_leaf | apply ev_mul; apply ev_leaf]|].
  split; vm_compute; reflexivity.
Qed.
Lemma c32_whole z : (z = 1 \/ z = 2 \/ z = 3 \/ z = 4)%Z -> is_finite (c32 z 0) = true /\ B2R (c32 z 0) = IZR z.
Proof.
  intros H. split; [destruct H as [-> | [-> | [-> | ->]]]; vm_compute; reflexivity|].
  pose proof (binary_normalize_correct 24 128 eq_refl eq_refl mode_NE z 0 false) as C.
  assert (W := int_format 24 128 _ _ z). destruct W as [Fo Lt].
  { rewrite <- abs_IZR. apply Rle_trans with 4; [apply (IZR_le _ 4); lia|]. change 4 with (bpow radix2 2). apply bpow_le. lia. }
  replace (F2R {| Fnum := z; Fexp := 0 |}) with (IZR z) in C by (unfold F2R; cbn; ring).
  cbn zeta in C. rewrite (round_generic radix2 (SpecFloat.fexp 24 128) (round_mode mode_NE) (IZR z) Fo), Rlt_bool_true in C by exact Lt. exact (proj1 C).
Qed.
Definition one_to_four : list (list float32) := [[c32 1 0; c32 3 0]; [c32 2 0; c32 4 0]].
Example C148_C149_witness : (exists x, determinant_val 24 128 _ _ 2 one_to_four x) /\ forall x, determinant_val 24 128 _ _ 2 one_to_four x -> is_finite x = true /\ B2R x = -2.
Proof.
  destruct (c32_whole 1 ltac:(lia)) as [F1 V1]. destruct (c32_whole 2 ltac:(lia)) as [F2 V2]. destruct (c32_whole 3 ltac:(lia)) as [F3 V3]. destruct (c32_whole 4 ltac:(lia)) as [F4 V4].
  assert (EL : forall r c, (elem B2R one_to_four r c = 0 \/ (r < 2)%nat /\ (c < 2)%nat)).
  { intros r c. destruct c as [|[|c]]; [destruct r as [|[|r]] | destruct r as [|[|r]] |]; try (right; lia); left; unfold elem; cbn; try reflexivity; destruct r; cbn; try reflexivity; destruct c; reflexivity. }
  assert (Hb : forall r c, Rabs (elem B2R one_to_four r c) <= 4).
  { intros r c. destruct (EL r c) as [-> | [Hr Hc]]; [rewrite Rabs_R0; lra|].
    destruct r as [|[|r]], c as [|[|c]]; try lia; unfold elem, one_to_four; cbn [nth_error]; rewrite ?V1, ?V2, ?V3, ?V4; rewrite Rabs_right; lra. }
  assert (W : forall r c, (r < 2)%nat -> (c < 2)%nat -> (forall e, entry one_to_four r c = Some e -> is_finite e = true) /\ exists z, elem B2R one_to_four r c = IZR z).
  { intros r c Hr Hc. destruct r as [|[|r]], c as [|[|c]]; try lia; (split; [intros e [= <-]; assumption|]); unfold elem, one_to_four; cbn [nth_error]; eauto. }
  split.
  - apply (C148_determinant_finite 24 128 _ _ 2 one_to_four 4); try lia; try lra; [exact Hb | intros r c Hr Hc; exact (proj1 (W r c Hr Hc)) |].
    cbn [fact]. apply Rlt_le_trans with 64; [cbn; lra|]. change 64 with (bpow radix2 6). apply bpow_le. lia.
  - intros x D. destruct (C149_whole_determinant 24 128 _ _ 2 one_to_four 4 x) as [F V]; try lia; try lra; try assumption.
    + cbn [fact]. apply Rle_trans with 64; [cbn; lra|]. change 64 with (bpow radix2 6). apply bpow_le. lia.
    + split; [exact F|]. rewrite V. cbv [real_det leibniz total product map arrangements insertions flat_map seq nth inversions filter length Nat.even Nat.ltb Nat.leb Nat.add app real_ops zero one add mul neg elem one_to_four nth_error]. rewrite V1, V2, V3, V4. lra.
Qed.

Print Assumptions C147_product_error.
Print Assumptions C147_product_finite.
Print Assumptions C147_matrix_vector_error.
Print Assumptions C147_matrix_vector_finite.
Print Assumptions C147_vector_matrix_error.
Print Assumptions C147_vector_matrix_finite.
Print Assumptions C147_fusing_is_visible.
Print Assumptions C148_determinant_error.
Print Assumptions C148_determinant_finite.
Print Assumptions C149_identity_left.
Print Assumptions C149_identity_right.
Print Assumptions C149_identity_vector.
Print Assumptions C149_whole_product.
Print Assumptions C149_whole_determinant.
