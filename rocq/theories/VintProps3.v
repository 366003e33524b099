(** C141: sums and products of the components, dot and cross products of vectors of integers. *)
From Coq Require Import ZArith List Bool Lia.
From Verif Require Import Words CoreModel VintModel VintSpec VintProofs VintProofs2 VintProofs3.
Import ListNotations.
Local Open Scope Z_scope.

Lemma reduce_some t g h n v z : a_type t -> (1 <= n)%nat -> is_vector t n v -> (forall x, h [x] = x) ->
  (forall m y, (1 <= m)%nat -> fold_left g (map y (seq 1 (m - 1))) (y 0%nat) = h (map y (seq 0 m))) ->
  (forall p a a' b, (exists k, a = a' + k * 2 ^ ibits p) -> exists k, g a b = g a' b + k * 2 ^ ibits p) ->
  let W p n v := accumulate (fun a b => arith p (g a b)) n (fun i => Some (at_ v i)) in
  (match n with
   | 1%nat => Some (at_ v 0)
   | _ => if negb (ity_eqb (promote t) t) then r <- W (promote t) n (map (conv (promote t)) v) ;; Some (conv t r) else W t n v
   end) = Some z <->
  wrapped t (h v) z /\ forall m, (1 <= m <= n)%nat -> computable t (h (firstn m v)).
Proof.
  intros T N V H1 HG GG W. pose proof (proj1 V) as L.
  assert (N1 : n = 1%nat \/ (2 <= n)%nat) by lia. destruct N1 as [E1|N2].
  - subst n. destruct v as [|x [|y v]]; try discriminate E1. cbn [at_ nth List.length]. rewrite H1.
    assert (HX : holds t x) by (apply (component_holds t 1 [x] 0%nat V); cbn; lia). split.
    + intros E. injection E as <-. split; [apply holds_wrapped, HX|]. intros m M. cbn [List.length] in M. assert (m = 1%nat) by lia. subst m. cbn [firstn]. rewrite H1.
      unfold computable. destruct (Z.ltb_spec (ibits t) 32) as [B|B]; [|destruct (isigned t); [exact HX|exact Logic.I]].
      unfold holds in HX. widths T; rewrite T in *; destruct (isigned t); cbn in HX |- *; lia.
    + intros [E _]. f_equal. apply (wrapped_unique t x); [exact T|apply holds_wrapped, HX|exact E].
  - assert (X : forall A (a b : A), match n with 1%nat => a | _ => b end = b) by (intros; destruct n as [|[|n]]; [lia|lia|reflexivity]).
    rewrite X. clear X. unfold computable. destruct (Z.ltb_spec (ibits t) 32) as [B|B].
    + rewrite (promote_narrow t B). assert (E : ity_eqb int_ t = false).
      { apply not_true_is_false. rewrite eqb_eq_ity. intros <-. cbn in B. lia. }
      rewrite E. cbn [negb].
      assert (HI : forall x, holds t x -> holds int_ x).
      { intros x HX. unfold holds in *. change (isigned int_) with true. change (ibits int_ - 1) with 31. cbv iota. widths T; rewrite T in *; destruct (isigned t); cbn in HX |- *; lia. }
      assert (M : map (conv int_) v = v).
      { rewrite <- (map_id v) at 2. apply map_ext_in. intros x Hx. destruct V as [_ F]. rewrite Forall_forall in F. apply conv_id; [exact int_type|apply HI, F, Hx]. }
      assert (V' : is_vector int_ n v) by (split; [exact L|destruct V as [_ F]; revert F; apply Forall_impl; exact HI]).
      rewrite M. pose proof (fun z => accumulate_vector int_ g h n v z int_type N V' HG (GG int_)) as Q. fold (W int_ n v) in Q.
      assert (C : forall x, holds int_ x <-> - 2 ^ 31 <= x < 2 ^ 31) by (intros x; unfold holds; change (isigned int_) with true; change (ibits int_ - 1) with 31; reflexivity).
      split.
      * intros R. destruct (W int_ n v) as [r|]; [|discriminate R]. cbn [option_bind] in R. injection R as <-. destruct (proj1 (Q r) eq_refl) as [Y F].
        specialize (F eq_refl). split; [|intros m Hm; apply C, F, Hm].
        apply (wrap_trans t int_ (h v) r _ T int_type); [cbn; lia|exact Y|apply conv_wrapped, T].
      * intros [Y F]. assert (D : forall m, (1 <= m <= n)%nat -> holds int_ (h (firstn m v))) by (intros m Hm; apply C, F, Hm).
        assert (HV : holds int_ (h v)) by (specialize (D n ltac:(lia)); rewrite firstn_all2 in D by lia; exact D).
        rewrite (proj2 (Q (h v)) (conj (holds_wrapped _ _ HV) (fun _ => D))). cbn [option_bind]. f_equal. symmetry. apply wrapped_conv; [exact T|exact Y].
    + rewrite (promote_wide t B), eqb_refl_ity. cbn [negb]. unfold W. rewrite (accumulate_vector t g h n v z T N V HG (GG t)).
      destruct (isigned t); [split; intros [Y F]; (split; [exact Y|]); [exact (F eq_refl)|intros _; exact F]|].
      split; intros [Y F]; (split; [exact Y|]); [intros; exact Logic.I|discriminate].
Qed.

(** C141: the sum and the product of the components: the exact result wrapped into the type. They have a meaning exactly when
    each partial result has one. *)
Theorem C141_sum_product : forall t n v z, a_type t -> (1 <= n)%nat -> is_vector t n v ->
  (vsum t n v = Some z <-> wrapped t (total v) z /\ forall m, (1 <= m <= n)%nat -> computable t (total (firstn m v))) /\
  (vproduct t n v = Some z <-> wrapped t (factors v) z /\ forall m, (1 <= m <= n)%nat -> computable t (factors (firstn m v))).
Proof.
  intros t n v z T N V. split.
  - apply (reduce_some t Z.add total n v z T N V).
    + intros x. cbn. lia.
    + intros m y M. apply fold_total, M.
    + intros p a a' b [k ->]. exists k. lia.
  - apply (reduce_some t Z.mul factors n v z T N V).
    + intros x. cbn. lia.
    + intros m y M. apply fold_factors, M.
    + intros p a a' b [k ->]. exists (k * b). ring.
Qed.
Print Assumptions C141_sum_product.
Example C141_sum_product_u8 : vsum (ity_of false 8) 5 [250; 1; 2; 3; 4] = Some 4 /\ vproduct (ity_of true 8) 3 [100; 2; -3] = Some (-88) /\
  vsum int_ 3 [2 ^ 31 - 1; 1; -1] = None /\ vsum (ity_of false 32) 2 [2 ^ 32 - 1; 2] = Some 1.
Proof. split; [reflexivity|]. split; [reflexivity|]. split; reflexivity. Qed.

(** The sum of components bounded by [lo] and [hi]. *)
Lemma total_bounds lo hi l : lo <= 0 <= hi -> Forall (fun x => lo <= x <= hi) l -> forall k, (List.length l <= k)%nat ->
  lo * Z.of_nat k <= total l <= hi * Z.of_nat k.
Proof.
  intros B F. induction F as [|x l X F IH]; intros k K; cbn [total fold_right List.length] in *; [nia|].
  destruct k as [|k]; [lia|]. specialize (IH k ltac:(lia)). unfold total in IH. nia.
Qed.
Lemma holds_bounds t x : a_type t -> ibits t < 32 -> holds t x -> - 32768 <= x <= 65535 /\ (ibits t = 8 -> -128 <= x <= 255).
Proof. intros T B H. unfold holds in H. widths T; rewrite T in *; destruct (isigned t); cbn in H; lia. Qed.

(** C141: unsigned sums and products of at least the width of int always have a meaning; so do sums of narrow components, up to
    32768 of them. *)
Theorem C141_sum_total : forall t n v, a_type t -> (1 <= n)%nat -> is_vector t n v ->
  (isigned t = false -> 32 <= ibits t -> (exists z, vsum t n v = Some z) /\ exists z, vproduct t n v = Some z) /\
  (ibits t < 32 -> Z.of_nat n <= 32768 -> exists z, vsum t n v = Some z).
Proof.
  intros t n v T N V. split.
  - intros S B. assert (C : forall r, computable t r).
    { intros r. unfold computable. rewrite (proj2 (Z.ltb_ge _ _) B), S. exact Logic.I. }
    split; [exists (conv t (total v))|exists (conv t (factors v))]; apply (C141_sum_product t n v _ T N V);
      (split; [apply conv_wrapped, T|intros; apply C]).
  - intros B K. exists (conv t (total v)). apply (C141_sum_product t n v _ T N V). split; [apply conv_wrapped, T|]. intros m M.
    unfold computable. rewrite (proj2 (Z.ltb_lt _ _) B).
    assert (F : Forall (fun x => - 32768 <= x <= 65535) (firstn m v)).
    { apply Forall_forall. intros x X. assert (X' : In x v) by (rewrite <- (firstn_skipn m v); apply in_or_app; left; exact X).
      destruct V as [_ V]. rewrite Forall_forall in V. exact (proj1 (holds_bounds t x T B (V x X'))). }
    pose proof (total_bounds (- 32768) 65535 _ ltac:(lia) F n ltac:(rewrite firstn_length; lia)) as Q. lia.
Qed.
Print Assumptions C141_sum_total.

(** C141 fails for products of narrow components: they are computed in int, which overflows. Four bytes suffice. *)
Theorem C141_product_refuted : forall n, (4 <= n)%nat -> vproduct (ity_of false 8) n (repeat 255 n) = None.
Proof.
  intros n N. set (t := ity_of false 8). assert (T : a_type t) by (unfold a_type; cbn; lia).
  assert (V : is_vector t n (repeat 255 n)).
  { split; [apply repeat_length|]. apply Forall_forall. intros x X. apply repeat_spec in X. subst x. unfold holds. cbn. lia. }
  destruct (vproduct t n (repeat 255 n)) as [z|] eqn:E; [|reflexivity]. exfalso.
  apply (C141_sum_product t n _ z T ltac:(lia) V) in E as [_ E]. specialize (E 4%nat ltac:(lia)).
  replace n with (4 + (n - 4))%nat in E by lia. rewrite repeat_app in E. cbn [repeat app firstn] in E. unfold computable in E. cbn in E. lia.
Qed.
Print Assumptions C141_product_refuted.

(* --------------------------------------------------------------------- dot products *)

(** [r] can be computed with signed numbers of the width of the type, or of int. *)
Definition in_product (t : ity) (r : Z) : Prop := - 2 ^ (Z.max 32 (ibits t) - 1) <= r < 2 ^ (Z.max 32 (ibits t) - 1).
Lemma in_product_holds t r : a_type t -> holds (product_type t) r <-> in_product t r.
Proof. intros T. rewrite product_is by exact T. reflexivity. Qed.

Lemma dot_some t n v w z : a_type t -> (1 <= n)%nat -> is_vector t n v -> is_vector t n w ->
  let a i := conv (product_type t) (component v i) in let b i := conv (product_type t) (component w i) in
  dot t n v w = Some z <->
  z = total (map (fun i => a i * b i) (seq 0 n)) /\ (forall i, (i < n)%nat -> in_product t (a i * b i)) /\
  forall m, (1 <= m <= n)%nat -> in_product t (total (map (fun i => a i * b i) (seq 0 m))).
Proof.
  intros T N V W a b. unfold dot. pose proof (product_a_type t T) as P. assert (S : isigned (product_type t) = true) by (rewrite product_is by exact T; reflexivity).
  assert (E : accumulate (add (product_type t)) n (fun i => mul (product_type t) (at_ (to_product t v) i) (at_ (to_product t w) i)) =
              accumulate (fun x y => arith (product_type t) (x + y)) n (fun i => arith (product_type t) (a i * b i))).
  { apply accumulate_ext; [reflexivity| |exact N]. intros i I. unfold mul. change (at_ (to_product t v) i) with (component (to_product t v) i).
    change (at_ (to_product t w) i) with (component (to_product t w) i). rewrite (to_product_at t n v i T V I), (to_product_at t n w i T W I). reflexivity. }
  rewrite E, (accumulate_signed _ Z.add (fun i => a i * b i) P S n z N). rewrite (fold_total n (fun i => a i * b i) N).
  split; intros (Hz & F & G); (split; [exact Hz|]); split.
  - intros i I. apply (in_product_holds t _ T), F, I.
  - intros m M. rewrite <- (fold_total m (fun i => a i * b i)) by lia. apply (in_product_holds t _ T), G, M.
  - intros i I. apply (in_product_holds t _ T), F, I.
  - intros m M. rewrite (fold_total m (fun i => a i * b i)) by lia. apply (in_product_holds t _ T), G, M.
Qed.

(** C141: the dot product, of signed components, of components narrower than int and of unsigned ones whose highest bit is
    clear: exact. It has a meaning exactly when the products and their partial sums are in the range of the product type. *)
Theorem C141_dot : forall t n v w z, a_type t -> (1 <= n)%nat -> is_vector t n v -> is_vector t n w ->
  isigned t = true \/ ibits t < 32 \/ Forall (fun x => x < 2 ^ (ibits t - 1)) (v ++ w) ->
  (dot t n v w = Some z <->
   z = inner v w /\ (forall i, (i < n)%nat -> in_product t (component v i * component w i)) /\
   forall m, (1 <= m <= n)%nat -> in_product t (inner (firstn m v) (firstn m w))).
Proof.
  intros t n v w z T N V W C.
  assert (D : forall u i, is_vector t n u -> (forall x, In x u -> In x (v ++ w)) -> (i < n)%nat -> conv (product_type t) (component u i) = component u i).
  { intros u i U K I. apply conv_product; [exact T| |exact (component_holds t n u i U I)]. destruct C as [C|[C|C]]; [tauto|tauto|].
    right. right. rewrite Forall_forall in C. apply C, K. apply nth_In. rewrite (proj1 U). exact I. }
  assert (E : forall i, (i < n)%nat -> conv (product_type t) (component v i) * conv (product_type t) (component w i) = component v i * component w i).
  { intros i I. rewrite (D v i V), (D w i W); [reflexivity| |exact I| |exact I]; intros x X; apply in_or_app; tauto. }
  rewrite dot_some by assumption. cbv zeta.
  assert (M : forall m, (m <= n)%nat -> total (map (fun i => conv (product_type t) (component v i) * conv (product_type t) (component w i)) (seq 0 m)) =
              inner (firstn m v) (firstn m w)).
  { intros m Hm. rewrite (inner_firstn v w n m (proj1 V) (proj1 W) Hm). f_equal. apply map_ext_in. intros i I. apply in_seq in I. apply E. lia. }
  rewrite (M n (le_n n)), !firstn_all2 by (rewrite ?(proj1 V), ?(proj1 W); lia).
  split; intros (Hz & F & G); (split; [exact Hz|]); split.
  - intros i I. rewrite <- (E i I). apply F, I.
  - intros m Hm. rewrite <- M by lia. apply G, Hm.
  - intros i I. rewrite (E i I). apply F, I.
  - intros m Hm. rewrite M by lia. apply G, Hm.
Qed.
Print Assumptions C141_dot.
Example C141_dot_i16 : dot (ity_of true 16) 2 [-32768; 5] [32767; 6] = Some (-1073709026) /\ dot (ity_of true 16) 2 [-32768; -32768] [-32768; -32768] = None /\
  dot (ity_of false 16) 1 [65535] [65535] = None /\ dot (ity_of false 32) 3 [1; 2; 3] [4; 5; 6] = Some 32.
Proof. split; [reflexivity|]. split; [reflexivity|]. split; reflexivity. Qed.

Lemma inner_bounds hi v : forall w, 0 <= hi -> (forall i, (i < List.length v)%nat -> - hi <= component v i * component w i <= hi) ->
  - hi * Z.of_nat (List.length v) <= inner v w <= hi * Z.of_nat (List.length v).
Proof.
  induction v as [|x v IH]; intros w H F; cbn [inner List.length]; [lia|]. destruct w as [|y w]; [nia|].
  pose proof (F 0%nat ltac:(cbn; lia)) as F0. cbn in F0.
  assert (G : forall i, (i < List.length v)%nat -> - hi <= component v i * component w i <= hi).
  { intros i I. exact (F (S i) ltac:(cbn [List.length]; lia)). }
  specialize (IH w H G). nia.
Qed.

(** C141: the dot product of vectors of 8-bit components is exact up to 33025 dimensions. *)
Theorem C141_dot_total : forall t n v w, a_type t -> ibits t = 8 -> (1 <= n)%nat -> Z.of_nat n <= 33025 -> is_vector t n v -> is_vector t n w ->
  dot t n v w = Some (inner v w).
Proof.
  intros t n v w T B N K V W. apply C141_dot; [exact T|exact N|exact V|exact W|right; left; lia|].
  assert (F : forall i, (i < n)%nat -> - 65025 <= component v i * component w i <= 65025).
  { intros i I. pose proof (component_holds t n v i V I) as HV. pose proof (component_holds t n w i W I) as HW.
    unfold holds in HV, HW. rewrite B in HV, HW. destruct (isigned t); cbn in HV, HW; nia. }
  assert (R : Z.max 32 (ibits t) - 1 = 31) by lia. unfold in_product. rewrite R. split; [reflexivity|]. split.
  - intros i I. specialize (F i I). lia.
  - intros m M. assert (LV : List.length (firstn m v) = m) by (rewrite firstn_length, (proj1 V); lia).
    pose proof (inner_bounds 65025 (firstn m v) (firstn m w) ltac:(lia)) as Q. rewrite LV in Q.
    assert (G : forall u i, List.length u = n -> (i < m)%nat -> component (firstn m u) i = component u i).
    { intros u i U I. unfold component. rewrite <- (firstn_skipn m u) at 2. rewrite app_nth1; [reflexivity|]. rewrite firstn_length. lia. }
    destruct Q as [Q1 Q2]; [intros i I; rewrite (G v i (proj1 V) I), (G w i (proj1 W) I); apply F; lia|]. lia.
Qed.
Print Assumptions C141_dot_total.

(** C141 fails for unsigned components of at least the width of int: they are multiplied as signed numbers. The dot product
    agrees with the exact one modulo 2 to the width only; a component with its highest bit set, times 1, is negative. *)
Theorem C141_dot_refuted : forall t, a_type t -> isigned t = false -> 32 <= ibits t ->
  (forall n v w z, (1 <= n)%nat -> is_vector t n v -> is_vector t n w -> dot t n v w = Some z ->
     wrapped (ity_of true (ibits t)) (inner v w) z) /\
  (forall x, holds t x -> 2 ^ (ibits t - 1) <= x -> dot t 1 [x] [1] = Some (x - 2 ^ ibits t)).
Proof.
  intros t T S B. assert (PT : product_type t = ity_of true (ibits t)) by (rewrite product_is by exact T; unfold wide; rewrite Z.max_r by exact B; reflexivity).
  pose proof (product_a_type t T) as P. split.
  - intros n v w z N V W E. apply dot_some in E as (-> & _ & G); [|assumption..]. rewrite <- PT. split.
    + apply (in_product_holds t _ T). apply (G n). lia.
    + rewrite (inner_total v w n (proj1 V) (proj1 W)). generalize (seq 0 n). intros l. induction l as [|i l [k IH]]; [exists 0; reflexivity|].
      cbn [map]. destruct (conv_wrapped (product_type t) (component v i) P) as [_ [j J]]. destruct (conv_wrapped (product_type t) (component w i) P) as [_ [q Q]].
      exists (k + j * component w i + q * component v i + j * q * 2 ^ ibits (product_type t)). unfold total in *. cbn [fold_right]. rewrite IH, J, Q. ring.
  - intros x H X. assert (E1 : conv (product_type t) 1 = 1).
    { apply conv_id; [exact P|]. apply (in_product_holds t _ T). unfold in_product. assert (2 <= 2 ^ (Z.max 32 (ibits t) - 1)); [|lia].
      change 2 with (2 ^ 1) at 1. apply Z.pow_le_mono_r; lia. }
    assert (Q : x - 2 ^ ibits t = conv (product_type t) x) by (symmetry; apply conv_product_high; assumption).
    assert (HH : holds (product_type t) (x - 2 ^ ibits t)) by (rewrite Q; apply conv_wrapped, P).
    assert (V1 : is_vector t 1 [1]).
    { split; [reflexivity|]. constructor; [|constructor]. unfold holds. rewrite S. assert (2 <= 2 ^ ibits t); [|lia]. change 2 with (2 ^ 1) at 1. apply Z.pow_le_mono_r; lia. }
    assert (VX : is_vector t 1 [x]) by (split; [reflexivity|constructor; [exact H|constructor]]).
    apply dot_some; [exact T|lia|exact VX|exact V1|]. cbv zeta. cbn [component nth seq map total fold_right]. rewrite E1, <- Q.
    split; [lia|]. split.
    + intros i I. replace i with 0%nat by lia. cbn [nth]. rewrite <- Q, E1, Z.mul_1_r. apply (in_product_holds t _ T), HH.
    + intros m M. replace m with 1%nat by lia. cbn [seq map fold_right nth]. rewrite <- Q, E1. apply (in_product_holds t _ T) in HH.
      refine (eq_ind _ (in_product t) HH _ _). unfold total. cbn [fold_right]. lia.
Qed.
Print Assumptions C141_dot_refuted.
Example C141_dot_refuted_u32 : dot (ity_of false 32) 2 [2 ^ 32 - 1; 0] [5; 7] = Some (-5).
Proof. reflexivity. Qed.

(* ------------------------------------------------------------------- cross products *)

(** C141: the cross product, under the same condition on the components: exact, and at right angles to both vectors. It has a
    meaning exactly when the products and their differences are in the range of the product type. *)
Theorem C141_cross : forall t x y z a b c r, a_type t -> is_vector t 3 [x; y; z] -> is_vector t 3 [a; b; c] ->
  isigned t = true \/ ibits t < 32 \/ Forall (fun e => e < 2 ^ (ibits t - 1)) [x; y; z; a; b; c] ->
  (cross t [x; y; z] [a; b; c] = Some r <->
   r = [y * c - z * b; z * a - x * c; x * b - y * a] /\
   Forall (in_product t) [y * c; z * b; z * a; x * c; x * b; y * a; y * c - z * b; z * a - x * c; x * b - y * a]) /\
  (cross t [x; y; z] [a; b; c] = Some r -> inner [x; y; z] r = 0 /\ inner [a; b; c] r = 0).
Proof.
  intros t x y z a b c r T V W C. pose proof (product_a_type t T) as P.
  assert (S : isigned (product_type t) = true) by (rewrite product_is by exact T; reflexivity).
  assert (D : forall u, is_vector t 3 u -> (forall e, In e u -> In e [x; y; z; a; b; c]) -> to_product t u = u).
  { intros u U K. apply (vector_ext _ _ 3); [unfold to_product; destruct (requires_promotion t); rewrite ?map_length; exact (proj1 U)|exact (proj1 U)|].
    intros i I. rewrite (to_product_at t 3 u i T U I). apply conv_product; [exact T| |exact (component_holds t 3 u i U I)].
    destruct C as [C|[C|C]]; [tauto|tauto|]. right. right. rewrite Forall_forall in C. apply C, K, nth_In. rewrite (proj1 U). exact I. }
  assert (X : cross t [x; y; z] [a; b; c] = Some r <->
   r = [y * c - z * b; z * a - x * c; x * b - y * a] /\
   Forall (in_product t) [y * c; z * b; z * a; x * c; x * b; y * a; y * c - z * b; z * a - x * c; x * b - y * a]).
  { unfold cross. rewrite (D [x; y; z] V), (D [a; b; c] W) by (intros e E; cbn in *; tauto). cbn [at_ nth]. set (p := product_type t) in *.
    assert (TT : forall e f g h, (q <- mul p e f ;; s <- mul p g h ;; sub p q s) = Some (e * f - g * h) /\ Forall (in_product t) [e * f; g * h; e * f - g * h] \/
                 (q <- mul p e f ;; s <- mul p g h ;; sub p q s) = None /\ ~ Forall (in_product t) [e * f; g * h; e * f - g * h]).
    { intros e f g h. unfold mul, sub.
      assert (A : forall q, arith p q = Some q /\ in_product t q \/ arith p q = None /\ ~ in_product t q).
      { intros q. destruct (arith p q) as [q'|] eqn:Q.
        - left. apply (arith_signed p P _ _ S) in Q as [-> Q]. split; [reflexivity|apply (in_product_holds t _ T), Q].
        - right. split; [reflexivity|]. intros I. apply (in_product_holds t _ T) in I.
          pose proof (proj2 (arith_signed p P q q S) (conj eq_refl I)). congruence. }
      destruct (A (e * f)) as [[-> A1]|[-> A1]]; cbn [option_bind]; [|right; split; [reflexivity|]; intros F; inversion F; contradiction].
      destruct (A (g * h)) as [[-> A2]|[-> A2]]; cbn [option_bind]; [|right; split; [reflexivity|]; intros F; inversion F as [|? ? ? F2]; inversion F2; contradiction].
      destruct (A (e * f - g * h)) as [[-> A3]|[-> A3]]; [left; split; [reflexivity|constructor; [exact A1|constructor; [exact A2|constructor; [exact A3|constructor]]]]|].
      right. split; [reflexivity|]. intros F. inversion F as [|? ? ? F2]. inversion F2 as [|? ? ? F3]. inversion F3. contradiction. }
    destruct (TT y c z b) as [[E1 F1]|[E1 F1]].
    2:{ rewrite E1. cbn [all option_bind]. split; [discriminate|]. intros [_ F]. exfalso. apply F1. rewrite !Forall_forall in *. intros e E. apply F. cbn in *. tauto. }
    destruct (TT z a x c) as [[E2 F2]|[E2 F2]].
    2:{ rewrite E1, E2. cbn [all option_bind]. split; [discriminate|]. intros [_ F]. exfalso. apply F2. rewrite !Forall_forall in *. intros e E. apply F. cbn in *. tauto. }
    destruct (TT x b y a) as [[E3 F3]|[E3 F3]].
    2:{ rewrite E1, E2, E3. cbn [all option_bind]. split; [discriminate|]. intros [_ F]. exfalso. apply F3. rewrite !Forall_forall in *. intros e E. apply F. cbn in *. tauto. }
    rewrite E1, E2, E3. cbn [all option_bind]. split.
    - intros E. injection E as <-. split; [reflexivity|]. rewrite !Forall_forall in *. intros e E. specialize (F1 e). specialize (F2 e). specialize (F3 e). cbn in *. tauto.
    - intros [-> _]. reflexivity. }
  split; [exact X|]. intros E. apply X in E as [-> _]. cbn [inner]. split; ring.
Qed.
Print Assumptions C141_cross.
Example C141_cross_i8 : cross (ity_of true 8) [1; 2; 3] [4; 5; 6] = Some [-3; 6; -3] /\ cross (ity_of false 16) [65535; 0; 0] [0; 65535; 0] = None /\
  cross (ity_of false 32) [1; 0; 0] [0; 2 ^ 32 - 1; 0] = Some [0; 0; -1].
Proof. split; [reflexivity|]. split; reflexivity. Qed.

(** C141: cross products of 8-bit components, and of 16-bit signed ones, are always exact. *)
Theorem C141_cross_total : forall t x y z a b c, a_type t -> ibits t = 8 \/ (ibits t = 16 /\ isigned t = true) ->
  is_vector t 3 [x; y; z] -> is_vector t 3 [a; b; c] ->
  cross t [x; y; z] [a; b; c] = Some [y * c - z * b; z * a - x * c; x * b - y * a].
Proof.
  intros t x y z a b c T B V W. apply (C141_cross t x y z a b c _ T V W); [right; left; lia|]. split; [reflexivity|].
  assert (G : forall e f g h, holds t e -> holds t f -> holds t g -> holds t h -> in_product t (e * f) /\ in_product t (e * f - g * h)).
  { intros e f g h He Hf Hg Hh. unfold in_product. replace (Z.max 32 (ibits t) - 1) with 31 by lia.
    assert (Q : forall i j, holds t i -> holds t j -> - 1073709056 <= i * j <= 1073741824).
    { intros i j Hi Hj. unfold holds in Hi, Hj. destruct B as [B|[B B']]; rewrite B in *; [|rewrite B' in *]; [destruct (isigned t)|]; cbn in Hi, Hj; nia. }
    pose proof (Q e f He Hf). pose proof (Q g h Hg Hh). lia. }
  destruct V as [_ V], W as [_ W]. inversion V as [|? ? X V2]; subst. inversion V2 as [|? ? Y V3]; subst. inversion V3 as [|? ? Z' V4]; subst.
  inversion W as [|? ? A W2]; subst. inversion W2 as [|? ? B' W3]; subst. inversion W3 as [|? ? C' W4]; subst.
  repeat apply Forall_cons; [apply (G y c z b); assumption|apply (G z b z b); assumption|apply (G z a x c); assumption|apply (G x c x c); assumption|apply (G x b y a); assumption|apply (G y a y a); assumption|apply (G y c z b); assumption|apply (G z a x c); assumption|apply (G x b y a); assumption|apply Forall_nil].
Qed.
Print Assumptions C141_cross_total.
