From Coq Require Import Ring Field Permutation.
From Verif Require Import Words MatModel MatSpec MatProofs.
Local Open Scope nat_scope.

(** The arrangements are exactly the permutations. *)
Lemma insertions_in {A} (x : A) l p : In p (insertions x l) <-> exists a b, l = a ++ b /\ p = a ++ x :: b.
Proof.
  revert p. induction l as [|y l IH]; intros p; cbn.
  - split; [intros [<-|[]]; exists [], []; split; reflexivity|]. intros (a & b & E & ->). destruct a; [|discriminate]. destruct b; [|discriminate]. left. reflexivity.
  - split.
    + intros [<-|H]; [exists [], (y :: l); split; reflexivity|]. apply in_map_iff in H. destruct H as (q & <- & Hq). apply IH in Hq. destruct Hq as (a & b & -> & ->). exists (y :: a), b. split; reflexivity.
    + intros (a & b & E & ->). destruct a as [|z a]; cbn in E.
      * left. subst b. reflexivity.
      * injection E as -> ->. right. apply in_map_iff. exists (a ++ x :: b). split; [reflexivity|]. apply IH. exists a, b. split; reflexivity.
Qed.
Lemma arrangements_in {A} (l p : list A) : In p (arrangements l) <-> Permutation l p.
Proof.
  revert p. induction l as [|x l IH]; intros p; cbn [arrangements].
  - split; [intros [<-|[]]; constructor|]. intros H. apply Permutation_nil in H. left. congruence.
  - rewrite in_flat_map. split.
    + intros (q & Hq & Hp). apply IH in Hq. apply insertions_in in Hp. destruct Hp as (a & b & -> & ->). apply Permutation_cons_app. exact Hq.
    + intros H. assert (Hx : In x p) by (apply (Permutation_in _ H); left; reflexivity). apply in_split in Hx. destruct Hx as (a & b & ->). exists (a ++ b). split.
      * apply IH. apply (Permutation_cons_app_inv _ _ H).
      * apply insertions_in. exists a, b. split; reflexivity.
Qed.
Lemma insertions_nodup {A} (x : A) l : ~ In x l -> NoDup (insertions x l).
Proof.
  induction l as [|y l IH]; intros H; cbn; [repeat constructor; intros []|]. constructor.
  - intros K. apply in_map_iff in K. destruct K as (q & E & _). injection E as E _. apply H. left. exact E.
  - apply FinFun.Injective_map_NoDup; [intros a b E; congruence|]. apply IH. intros K. apply H. right. exact K.
Qed.
Lemma split_unique {A} (x : A) a b a' b' : ~ In x (a ++ b) -> ~ In x (a' ++ b') -> a ++ x :: b = a' ++ x :: b' -> a ++ b = a' ++ b'.
Proof.
  revert a'. induction a as [|y a IH]; intros [|z a'] H1 H2 E; cbn in *.
  - injection E as E2. exact E2.
  - injection E as E1 E2. exfalso. apply H2. left. symmetry. exact E1.
  - injection E as E1 E2. exfalso. apply H1. left. exact E1.
  - injection E as E1 E2. subst z. f_equal. apply IH; [intros K; apply H1; right; exact K|intros K; apply H2; right; exact K|exact E2].
Qed.
Lemma arrangements_nodup {A} (l : list A) : NoDup l -> NoDup (arrangements l).
Proof.
  induction l as [|x l IH]; intros H; cbn [arrangements]; [repeat constructor; intros []|]. inversion H as [|? ? N1 N2]; subst.
  assert (X : forall ps, NoDup ps -> (forall p, In p ps -> ~ In x p) -> NoDup (flat_map (insertions x) ps)).
  { intros ps. induction ps as [|p ps IHp]; intros ND HX; [constructor|]. inversion ND as [|? ? M1 M2]; subst. cbn [flat_map].
    assert (NA : forall (u v : list (list A)), NoDup u -> NoDup v -> (forall z, In z u -> ~ In z v) -> NoDup (u ++ v)).
    { clear. intros u v Hu Hv D. induction u as [|a u IHu]; [exact Hv|]. inversion Hu as [|? ? P1 P2]; subst. cbn. constructor.
      - intros K. apply in_app_or in K. destruct K as [K|K]; [exact (P1 K)|]. apply (D a); [left; reflexivity|exact K].
      - apply IHu; [exact P2|]. intros z Hz. apply D. right. exact Hz. }
    apply NA; [apply insertions_nodup, HX; left; reflexivity|apply IHp; [exact M2|intros q Hq; apply HX; right; exact Hq]|].
    intros z Hz K. apply in_flat_map in K. destruct K as (q & Hq & Kq). apply insertions_in in Hz, Kq. destruct Hz as (a & b & E1 & ->). destruct Kq as (a' & b' & E2 & E3).
    apply M1. assert (E : p = q) by (rewrite E1, E2; apply (split_unique x a b a' b'); [rewrite <- E1; apply HX; left; reflexivity|rewrite <- E2; apply HX; right; exact Hq|exact E3]). rewrite E. exact Hq. }
  apply X; [apply IH, N2|]. intros p Hp K. apply arrangements_in in Hp. apply N1. apply (Permutation_in _ (Permutation_sym Hp)). exact K.
Qed.

Section Det.
  Context {K : Type} (F : ops K).
  Hypothesis RT : ring_theory (zero F) (one F) (add F) (mul F) (sub F) (neg F) eq.
  Add Ring KRing2 : RT.
  Notation get := (get F).

  Lemma det_1 m : get m 0 0 = leibniz F 1 (get m).
  Proof. unfold leibniz. cbn - [MatModel.get]. ring. Qed.
  Lemma det_2 m : det_2x2 F 0 1 0 1 m = leibniz F 2 (get m).
  Proof. unfold leibniz, det_2x2. cbn - [MatModel.get]. ring. Qed.
  Lemma det_3 m : det_3x3 F 0 1 2 0 1 2 m = leibniz F 3 (get m).
  Proof. unfold leibniz, det_3x3, det_2x2. cbn - [MatModel.get]. ring. Qed.
  Lemma det_4 m : det_4x4 F 0 1 2 3 0 1 2 3 m = leibniz F 4 (get m).
  Proof. unfold leibniz, det_4x4, det_3x3, det_2x2. cbn - [MatModel.get]. ring. Qed.

  Lemma det_mul_1 j a b : get (mat_mul F j 1 1 1 a b) 0 0 = mul F (get a 0 0) (get b 0 0).
  Proof. destruct (mul_spec F RT j 1 1 1 a b) as [_ G]; [lia|]. rewrite G by lia. cbn. ring. Qed.
  Lemma det_mul_2 a b : det_2x2 F 0 1 0 1 (mul_2x2 F a b) = mul F (det_2x2 F 0 1 0 1 a) (det_2x2 F 0 1 0 1 b).
  Proof. unfold det_2x2. unfold mul_2x2. cbn [MatModel.get at_ nth]. ring. Qed.
  Lemma det_mul_3 a b : det_3x3 F 0 1 2 0 1 2 (mul_3x3 F a b) = mul F (det_3x3 F 0 1 2 0 1 2 a) (det_3x3 F 0 1 2 0 1 2 b).
  Proof. unfold det_3x3, det_2x2. unfold mul_3x3. cbn [MatModel.get at_ nth]. ring. Qed.
  Lemma det_mul_4 a b : det_4x4 F 0 1 2 3 0 1 2 3 (mul_4x4 F a b) = mul F (det_4x4 F 0 1 2 3 0 1 2 3 a) (det_4x4 F 0 1 2 3 0 1 2 3 b).
  Proof. unfold det_4x4, det_3x3, det_2x2. unfold mul_4x4. cbn [MatModel.get at_ nth]. ring. Qed.

  Lemma determinant_mul n j a b da db : determinant F n a = Some da -> determinant F n b = Some db -> determinant F n (mat_mul F j n n n a b) = Some (mul F da db).
  Proof.
    intros Ha Hb. destruct n as [|[|[|[|[|n]]]]]; try discriminate Ha; injection Ha as <-; injection Hb as <-; cbn [determinant]; f_equal.
    - apply det_mul_2.
    - apply det_mul_3.
    - apply det_mul_4.
  Qed.

  Lemma determinant_leibniz n a : 1 <= n <= 4 -> determinant F n a = Some (leibniz F n (get a)).
  Proof. intros H. destruct n as [|[|[|[|[|n]]]]]; try lia; cbn [determinant]; f_equal; [apply det_1|apply det_2|apply det_3|apply det_4]. Qed.

  Lemma determinant_transpose n j a : determinant F n (transpose F j n n a) = determinant F n a.
  Proof.
    destruct (transpose_spec F j n n a) as [_ G]. destruct n as [|[|[|[|[|n]]]]]; try reflexivity; cbn [determinant]; f_equal.
    - unfold det_2x2. rewrite !G by lia. ring.
    - unfold det_3x3, det_2x2. rewrite !G by lia. ring.
    - unfold det_4x4, det_3x3, det_2x2. rewrite !G by lia. ring.
  Qed.
  Lemma determinant_identity n : 1 <= n <= 4 -> determinant F n (identity F n n) = Some (one F).
  Proof.
    intros H. destruct (identity_spec F n n ltac:(lia) ltac:(lia)) as [_ G]. destruct n as [|[|[|[|[|n]]]]]; try lia; cbn [determinant]; f_equal.
    - unfold det_2x2. rewrite !G by lia. cbn [Nat.eqb]. ring.
    - unfold det_3x3, det_2x2. rewrite !G by lia. cbn [Nat.eqb]. ring.
    - unfold det_4x4, det_3x3, det_2x2. rewrite !G by lia. cbn [Nat.eqb]. ring.
  Qed.
End Det.

Section Inverse.
  Context {K : Type} (F : ops K).
  Hypothesis FT : field_theory (zero F) (one F) (add F) (mul F) (sub F) (neg F) (div F) (fun x => div F (one F) x) eq.
  Notation get := (get F).
  Definition RT := F_R FT.
  Add Ring KRing3 : RT.

  Lemma inv_one d : d <> zero F -> mul F (div F (one F) d) d = one F.
  Proof. intros H. exact (Finv_l FT d H). Qed.

  (** [i] is one over the determinant [D]; every element of the product is a multiple of [i * D] or zero. *)
  Ltac entry HI := match type of HI with ?l = _ => match goal with
    | |- _ = one F => transitivity l; [ring|exact HI]
    | |- _ = zero F => ring end end.
  Ltac scaled H := match goal with |- context [div F (one F) ?d] =>
    let HI := fresh "HI" in assert (HI : mul F (div F (one F) d) d = one F) by (apply inv_one; intros HZ; apply H; transitivity d; [ring|exact HZ]);
    generalize dependent (div F (one F) d); intros i HI end.
  Ltac entries := match goal with HI : mul F _ _ = one F |- _ => repeat (apply f_equal2; [|try reflexivity]); repeat (apply f_equal2; [|try reflexivity]); try reflexivity; entry HI end.

  Lemma invert_1 j m : get m 0 0 <> zero F -> mat_mul F j 1 1 1 m (invert_1x1 F m) = identity F 1 1 /\ mat_mul F j 1 1 1 (invert_1x1 F m) m = identity F 1 1.
  Proof.
    intros H. change (identity F 1 1) with [[one F]].
    change (mat_mul F j 1 1 1 m (invert_1x1 F m)) with [[mul F (get m 0 0) (div F (one F) (get m 0 0))]].
    change (mat_mul F j 1 1 1 (invert_1x1 F m) m) with [[mul F (div F (one F) (get m 0 0)) (get m 0 0)]].
    split; repeat f_equal; [rewrite (Rmul_comm RT (get m 0 0))|]; apply inv_one, H.
  Qed.
  Lemma invert_2 m : det_2x2 F 0 1 0 1 m <> zero F -> mul_2x2 F m (invert_2x2 F m) = identity F 2 2 /\ mul_2x2 F (invert_2x2 F m) m = identity F 2 2.
  Proof.
    intros H. change (identity F 2 2) with [[one F; zero F]; [zero F; one F]]. unfold mul_2x2, invert_2x2. cbv zeta. unfold det_2x2 in *. cbn [MatModel.get at_ nth]. unfold MatModel.get, at_ in *. cbn [nth].
    split; scaled H; entries.
  Qed.
  Lemma invert_3 m : det_3x3 F 0 1 2 0 1 2 m <> zero F -> mul_3x3 F m (invert_3x3 F m) = identity F 3 3 /\ mul_3x3 F (invert_3x3 F m) m = identity F 3 3.
  Proof.
    intros H. change (identity F 3 3) with [[one F; zero F; zero F]; [zero F; one F; zero F]; [zero F; zero F; one F]]. unfold mul_3x3, invert_3x3. cbv zeta. unfold det_3x3, det_2x2 in *. unfold MatModel.get, at_ in *. cbn [nth].
    split; scaled H; entries.
  Qed.
  Lemma invert_4 m : det_4x4 F 0 1 2 3 0 1 2 3 m <> zero F -> mul_4x4 F m (invert_4x4 F m) = identity F 4 4 /\ mul_4x4 F (invert_4x4 F m) m = identity F 4 4.
  Proof.
    intros H. change (identity F 4 4) with [[one F; zero F; zero F; zero F]; [zero F; one F; zero F; zero F]; [zero F; zero F; one F; zero F]; [zero F; zero F; zero F; one F]].
    unfold mul_4x4, invert_4x4. cbv zeta. unfold det_4x4, det_3x3, det_2x2 in *. unfold MatModel.get, at_ in *. cbn [nth].
    split; scaled H; entries.
  Qed.

  Lemma invert_both n j m d im : determinant F n m = Some d -> d <> zero F -> invert F n m = Some im ->
    mat_mul F j n n n m im = identity F n n /\ mat_mul F j n n n im m = identity F n n.
  Proof.
    intros Hd H Hi. destruct n as [|[|[|[|[|n]]]]]; try discriminate Hd; injection Hd as <-; injection Hi as <-.
    - apply invert_1, H.
    - apply invert_2, H.
    - apply invert_3, H.
    - apply invert_4, H.
  Qed.
End Inverse.

(* ------------------------------------------------------------------ constructors *)
Section Constructors.
  Context {K : Type} (F : ops K).

  Lemma concat_rows (d : K) cols : forall rows (l : list K), length l = rows * cols ->
    concat (map (fun r => map (fun c => nth (c + cols * r) l d) (seq 0 cols)) (seq 0 rows)) = l.
  Proof.
    induction rows as [|rows IH]; intros l Hl.
    - destruct l; [reflexivity|discriminate].
    - assert (Hl' : length (skipn cols l) = rows * cols) by (rewrite skipn_length; cbn in Hl; lia).
      cbn [seq map concat]. etransitivity; [|apply (firstn_skipn cols)]. f_equal.
      + apply (nth_ext _ _ d d); [rewrite map_length, seq_length, firstn_length_le by (cbn in Hl; lia); reflexivity|].
        intros i Hi. rewrite map_length, seq_length in Hi. rewrite (nth_indep _ d (nth (0 + cols * 0) l d)) by (rewrite map_length, seq_length; exact Hi).
        rewrite (map_nth (fun c => nth (c + cols * 0) l d) (seq 0 cols) 0 i), seq_nth by exact Hi. rewrite <- (firstn_skipn cols l) at 1.
        rewrite app_nth1 by (rewrite firstn_length_le by (cbn in Hl; lia); lia). f_equal. lia.
      + rewrite <- (IH _ Hl') at 1. f_equal. rewrite <- seq_shift, map_map. apply map_ext_in. intros r Hr. apply map_ext_in. intros c Hc.
        rewrite <- (firstn_skipn cols l) at 1. rewrite app_nth2 by (rewrite firstn_length_le by (cbn in Hl; lia); lia). f_equal. rewrite firstn_length_le by (cbn in Hl; lia). lia.
  Qed.

  Lemma nth_map_seq {A} (f : nat -> A) n i d : i < n -> nth i (map f (seq 0 n)) d = f i.
  Proof. intros H. rewrite (nth_indep _ d (f 0)) by (rewrite map_length, seq_length; exact H). rewrite map_nth, seq_nth by exact H. reflexivity. Qed.

  Lemma of_rows_spec rows cols l : length l <= rows * cols ->
    dims rows cols (of_rows F rows cols l) /\
    concat (map (fun r => map (get F (of_rows F rows cols l) r) (seq 0 cols)) (seq 0 rows)) = l ++ repeat (zero F) (rows * cols - length l).
  Proof.
    intros Hl. split.
    - unfold of_rows. split; [rewrite map_length; apply seq_length|]. intros col H. apply in_map_iff in H. destruct H as (c & <- & _). rewrite map_length. apply seq_length.
    - rewrite <- (concat_rows (zero F) cols rows (l ++ repeat (zero F) (rows * cols - length l))) by (rewrite app_length, repeat_length; lia).
      f_equal. apply map_ext_in. intros r Hr. apply in_seq in Hr. apply map_ext_in. intros c Hc. apply in_seq in Hc.
      unfold get, of_rows. rewrite nth_map_seq by lia. unfold at_. rewrite nth_map_seq by lia.
      destruct (Nat.ltb_spec (c + cols * r) (length l)) as [L|L]; [rewrite app_nth1 by exact L; reflexivity|].
      rewrite app_nth2 by exact L. symmetry. destruct (nth_in_or_default (c + cols * r - length l) (repeat (zero F) (rows * cols - length l)) (zero F)) as [H|H]; [apply repeat_spec in H|]; exact H.
  Qed.

  Lemma nth_repeat_lt {A} (x d : A) n i : i < n -> nth i (repeat x n) d = x.
  Proof. intros H. apply (repeat_spec n x). apply nth_In. rewrite repeat_length. exact H. Qed.
  Lemma broadcast_spec rows cols x : dims rows cols (broadcast rows cols x) /\ forall r c, r < rows -> c < cols -> get F (broadcast rows cols x) r c = x.
  Proof.
    split.
    - unfold broadcast. split; [apply repeat_length|]. intros col H. apply repeat_spec in H. subst col. apply repeat_length.
    - intros r c Hr Hc. unfold get, broadcast, at_. rewrite !nth_repeat_lt by assumption. reflexivity.
  Qed.
End Constructors.
