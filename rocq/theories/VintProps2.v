(** C140: shifts of vectors of integers. *)
From Coq Require Import ZArith List Bool Lia.
From Verif Require Import Words CoreModel VintModel VintSpec VintProofs VintProofs2.
Import ListNotations.
Local Open Scope Z_scope.

Lemma left_wrapped t k x z : a_type t -> wrapped t (x * 2 ^ k) z <-> z = conv t (conv (product_type t) (conv (product_type t) x * 2 ^ k)).
Proof.
  intros T. pose proof (product_a_type t T) as P. set (p := product_type t) in *.
  assert (L : ibits t <= ibits p) by (unfold p; rewrite product_is by exact T; unfold wide; cbn; lia).
  rewrite <- wrapped_conv by exact T.
  rewrite (wrap_trans t p (conv p x * 2 ^ k) (conv p (conv p x * 2 ^ k)) z T P L (conv_wrapped p _ P)).
  destruct (conv_wrapped p x P) as [_ [j E]]. rewrite E.
  assert (W : 2 ^ ibits p = 2 ^ ibits t * 2 ^ (ibits p - ibits t)).
  { pose proof (width_pos t T). rewrite <- Z.pow_add_r by lia. f_equal. lia. }
  split; apply wrapped_shift; [exists (- j * 2 ^ (ibits p - ibits t) * 2 ^ k)|exists (j * 2 ^ (ibits p - ibits t) * 2 ^ k)]; rewrite W; ring.
Qed.

(** C140: a left shift multiplies by a power of two and wraps. Since C++20 it has a meaning exactly when the number of bits is
    less than the width of the type, or of int if that is wider. *)
Theorem C140_left : forall t n v k r, a_type t -> (1 <= n)%nat -> is_vector t n v ->
  (shift_left true t n v k = Some r <->
   0 <= k < Z.max 32 (ibits t) /\ List.length r = n /\ forall i, (i < n)%nat -> wrapped t (component v i * 2 ^ k) (component r i)).
Proof.
  intros t n v k r T N V. unfold shift_left. pose proof (product_a_type t T) as P.
  rewrite (detour t n v (fun p x => shl1 true p x k) r T N V); [|intros x y _; apply shl_holds, P].
  assert (E : forall x, shl1 true (product_type t) x k = if (0 <=? k) && (k <? wide t) then Some (conv (product_type t) (x * 2 ^ k)) else None).
  { intros x. unfold shl1. rewrite product_is by exact T. reflexivity. }
  assert (K : (0 <=? k) && (k <? wide t) = true <-> 0 <= k < Z.max 32 (ibits t)).
  { rewrite andb_true_iff, Z.leb_le, Z.ltb_lt. unfold wide. lia. }
  split.
  - intros [L F]. destruct ((0 <=? k) && (k <? wide t)) eqn:B.
    + split; [apply K; reflexivity|]. split; [exact L|]. intros i I. destruct (F i I) as (z & Z & ->). rewrite E in Z. injection Z as <-.
      apply left_wrapped; [exact T|reflexivity].
    + destruct (F 0%nat) as (z & Z & _); [lia|]. rewrite E in Z. discriminate Z.
  - intros (B & L & F). apply K in B. split; [exact L|]. intros i I. eexists. rewrite E, B. split; [reflexivity|].
    apply left_wrapped; [exact T|apply F, I].
Qed.
Print Assumptions C140_left.
Example C140_left_u8 : shift_left true (ity_of false 8) 3 [255; 1; 128] 9 = Some [0; 0; 0] /\ shift_left true (ity_of false 8) 2 [255; 3] 1 = Some [254; 6] /\
  shift_left true (ity_of true 8) 1 [64] 1 = Some [-128] /\ shift_left true int_ 1 [1] 32 = None /\ shift_left true int_ 1 [1] (-1) = None.
Proof. split; [reflexivity|]. split; [reflexivity|]. split; [reflexivity|]. split; reflexivity. Qed.

(** C140: in C++17 components must besides not be negative, nor, when unsigned and at least as wide as int, have their highest
    bit set: they are shifted as signed values. Nor may bits be lost to the left of int, or of the type if that is wider. *)
Theorem C140_left17 : forall t n v k r, a_type t -> (1 <= n)%nat -> is_vector t n v ->
  (shift_left false t n v k = Some r <->
   shift_left true t n v k = Some r /\
   forall i, (i < n)%nat -> 0 <= component v i < 2 ^ (Z.max 32 (ibits t) - 1) /\ component v i * 2 ^ k < 2 ^ Z.max 32 (ibits t)).
Proof.
  intros t n v k r T N V. unfold shift_left. pose proof (product_a_type t T) as P.
  rewrite (detour t n v (fun p x => shl1 false p x k) r T N V); [|intros x y _; apply shl_holds, P].
  rewrite (detour t n v (fun p x => shl1 true p x k) r T N V); [|intros x y _; apply shl_holds, P].
  assert (E : forall b x, shl1 b (product_type t) x k = if (0 <=? k) && (k <? wide t) then
             if b || ((0 <=? x) && (x * 2 ^ k <=? 2 ^ wide t - 1)) then Some (conv (product_type t) (x * 2 ^ k)) else None else None).
  { intros b x. unfold shl1. rewrite product_is by exact T. cbn [ity_of ibits isigned negb]. destruct b; reflexivity. }
  assert (X : forall x, holds t x -> 0 <= k -> ((0 <=? conv (product_type t) x) && (conv (product_type t) x * 2 ^ k <=? 2 ^ wide t - 1) = true <->
             0 <= x < 2 ^ (wide t - 1) /\ x * 2 ^ k < 2 ^ wide t)).
  { intros x H K. rewrite andb_true_iff, Z.leb_le, Z.leb_le.
    assert (D : (isigned t = true \/ ibits t < 32 \/ x < 2 ^ (ibits t - 1)) \/ (isigned t = false /\ 32 <= ibits t /\ 2 ^ (ibits t - 1) <= x)).
    { destruct (isigned t); [left; left; reflexivity|]. lia. }
    destruct D as [D|(D1 & D2 & D3)].
    - rewrite (conv_product t x T D H). pose proof (holds_product t x T D H) as HP. rewrite product_is in HP by exact T.
      unfold holds in HP. cbn [ity_of isigned ibits] in HP. cbv iota in HP. lia.
    - rewrite (conv_product_high t x T D1 D2 D3 H). unfold holds in H. rewrite D1 in H. unfold wide. rewrite Z.max_r by exact D2. lia. }
  change (Z.max 32 (ibits t)) with (wide t). split.
  - intros [L F]. split; [split; [exact L|]|]; intros i I; destruct (F i I) as (z & Z & Ez); rewrite E in Z;
      destruct ((0 <=? k) && (k <? wide t)) eqn:B; try discriminate Z; cbn [orb] in Z;
      destruct ((0 <=? conv (product_type t) (component v i)) && (conv (product_type t) (component v i) * 2 ^ k <=? 2 ^ wide t - 1)) eqn:Q; try discriminate Z.
    + exists z. rewrite E. cbn [orb]. split; [exact Z|exact Ez].
    + apply X; [exact (component_holds t n v i V I)| |exact Q]. apply andb_true_iff in B as [B _]. apply Z.leb_le, B.
  - intros [[L F] G]. split; [exact L|]. intros i I. destruct (F i I) as (z & Z & Ez). exists z. split; [|exact Ez]. rewrite E in *.
    destruct ((0 <=? k) && (k <? wide t)) eqn:B; [|discriminate Z]. apply andb_true_iff in B as [B _]. apply Z.leb_le in B.
    rewrite (proj2 (X _ (component_holds t n v i V I) B) (G i I)). exact Z.
Qed.
Print Assumptions C140_left17.
Example C140_left17_u32 : shift_left false (ity_of false 32) 2 [1; 3] 4 = Some [16; 48] /\ shift_left false (ity_of false 32) 1 [2 ^ 31] 0 = None /\
  shift_left false (ity_of true 8) 1 [-1] 1 = None.
Proof. split; [reflexivity|]. split; reflexivity. Qed.

Lemma shr_some t k x : a_type t -> shr1 (product_type t) x k = if (0 <=? k) && (k <? wide t) then Some (x / 2 ^ k) else None.
Proof. intros T. unfold shr1. rewrite product_is by exact T. reflexivity. Qed.
Lemma count_ok k b : (0 <=? k) && (k <? b) = true <-> 0 <= k < b.
Proof. rewrite andb_true_iff, Z.leb_le, Z.ltb_lt. tauto. Qed.

(** C140: a right shift divides by a power of two, rounding down: for signed types, for types narrower than int, and for
    unsigned components whose highest bit is clear. *)
Theorem C140_right : forall t n v k r, a_type t -> (1 <= n)%nat -> is_vector t n v ->
  isigned t = true \/ ibits t < 32 \/ Forall (fun x => x < 2 ^ (ibits t - 1)) v ->
  (shift_right t n v k = Some r <->
   0 <= k < Z.max 32 (ibits t) /\ List.length r = n /\ forall i, (i < n)%nat ->
     component r i * 2 ^ k <= component v i < (component r i + 1) * 2 ^ k).
Proof.
  intros t n v k r T N V C. unfold shift_right. pose proof (product_a_type t T) as P.
  rewrite (detour t n v (fun p x => shr1 p x k) r T N V); [|intros x y; apply shr_holds].
  assert (D : forall i, (i < n)%nat -> conv (product_type t) (component v i) = component v i).
  { intros i I. apply conv_product; [exact T| |exact (component_holds t n v i V I)]. destruct C as [C|[C|C]]; [tauto|tauto|].
    right. right. rewrite Forall_forall in C. apply C. apply nth_In. rewrite (proj1 V). exact I. }
  assert (Q : forall x y, 0 <= k -> y = x / 2 ^ k <-> y * 2 ^ k <= x < (y + 1) * 2 ^ k).
  { intros x y K. assert (M : 0 < 2 ^ k) by (apply Z.pow_pos_nonneg; lia).
    pose proof (Z.div_mod x (2 ^ k) ltac:(lia)) as A. pose proof (Z.mod_pos_bound x (2 ^ k) M) as B. split; [intros ->; nia|]. intros X.
    assert (y - x / 2 ^ k = 0); [|lia]. nia. }
  assert (E : forall x, 0 <= k -> holds t x -> conv t (x / 2 ^ k) = x / 2 ^ k).
  { intros x K H. apply conv_id; [exact T|]. apply div_holds; assumption. }
  split.
  - intros [L F]. destruct ((0 <=? k) && (k <? wide t)) eqn:B.
    + pose proof (proj1 (count_ok k (wide t)) B) as K. split; [exact K|]. split; [exact L|]. intros i I. destruct (F i I) as (z & Z & ->).
      rewrite shr_some, B, (D i I) in Z by exact T. injection Z as <-. rewrite E; [apply Q; [lia|reflexivity]|lia|exact (component_holds t n v i V I)].
    + destruct (F 0%nat) as (z & Z & _); [lia|]. rewrite shr_some, B in Z by exact T. discriminate Z.
  - intros (K & L & F). split; [exact L|]. intros i I. exists (component v i / 2 ^ k).
    rewrite shr_some, (proj2 (count_ok k (wide t)) K), (D i I) by exact T. split; [reflexivity|].
    rewrite E; [apply Q; [lia|apply F, I]|lia|exact (component_holds t n v i V I)].
Qed.
Print Assumptions C140_right.
Example C140_right_i8 : shift_right (ity_of true 8) 3 [-7; 7; -128] 1 = Some [-4; 3; -64] /\ shift_right (ity_of false 16) 1 [65535] 31 = Some [0] /\
  shift_right (ity_of false 32) 1 [2 ^ 31 - 1] 1 = Some [2 ^ 30 - 1].
Proof. split; [reflexivity|]. split; reflexivity. Qed.

(** C140 fails for the other vectors: unsigned components of at least the width of int, with their highest bit set, are
    shifted as negative numbers, so that ones come in from the left: 2^31 >> 1 is 3 * 2^30. *)
Theorem C140_right_refuted : forall t n v k, a_type t -> (1 <= n)%nat -> is_vector t n v -> isigned t = false -> 32 <= ibits t ->
  0 <= k < ibits t ->
  exists r, shift_right t n v k = Some r /\ List.length r = n /\ forall i, (i < n)%nat ->
    (component v i < 2 ^ (ibits t - 1) -> component r i = component v i / 2 ^ k) /\
    (2 ^ (ibits t - 1) <= component v i -> component r i = component v i / 2 ^ k + (2 ^ ibits t - 2 ^ (ibits t - k))).
Proof.
  intros t n v k T N V S W K.
  assert (KW : (0 <=? k) && (k <? wide t) = true) by (apply count_ok; unfold wide; lia).
  set (r := map (fun x => conv t (conv (product_type t) x / 2 ^ k)) v).
  assert (A : forall i, (i < n)%nat -> component r i = conv t (conv (product_type t) (component v i) / 2 ^ k)).
  { intros i I. unfold r, component. rewrite (nth_indep _ 0 (conv t (conv (product_type t) 0 / 2 ^ k))) by (rewrite map_length, (proj1 V); exact I).
    apply (map_nth (fun x => conv t (conv (product_type t) x / 2 ^ k))). }
  exists r. split; [|split; [unfold r; rewrite map_length; exact (proj1 V)|]].
  - unfold shift_right. rewrite (detour t n v (fun p x => shr1 p x k) r T N V); [|intros x y; apply shr_holds].
    split; [unfold r; rewrite map_length; exact (proj1 V)|]. intros i I. exists (conv (product_type t) (component v i) / 2 ^ k).
    rewrite shr_some, KW by exact T. split; [reflexivity|apply A, I].
  - intros i I. pose proof (component_holds t n v i V I) as H. rewrite (A i I). split; intros B.
    + rewrite (conv_product t _ T (or_intror (or_intror B)) H). apply conv_id; [exact T|]. apply div_holds; [lia|exact H].
    + rewrite (conv_product_high t _ T S W B H).
      assert (M : 0 < 2 ^ k) by (apply Z.pow_pos_nonneg; lia). assert (M2 : 0 < 2 ^ (ibits t - k)) by (apply Z.pow_pos_nonneg; lia).
      assert (PW : 2 ^ ibits t = 2 ^ (ibits t - k) * 2 ^ k) by (rewrite <- Z.pow_add_r by lia; f_equal; lia).
      assert (D : (component v i - 2 ^ ibits t) / 2 ^ k = component v i / 2 ^ k - 2 ^ (ibits t - k)).
      { rewrite PW. replace (component v i - 2 ^ (ibits t - k) * 2 ^ k) with (component v i + (- 2 ^ (ibits t - k)) * 2 ^ k) by ring.
        rewrite Z.div_add by lia. lia. }
      rewrite D. symmetry. apply wrapped_conv; [exact T|]. unfold holds in H. rewrite S in H. split; [|exists 1; lia].
      unfold holds. rewrite S. assert (Q : 0 <= component v i / 2 ^ k < 2 ^ (ibits t - k)).
      { split; [apply Z.div_pos; lia|]. apply Z.div_lt_upper_bound; [exact M|]. lia. }
      assert (2 ^ (ibits t - k) <= 2 ^ ibits t) by (rewrite PW; nia). lia.
Qed.
Print Assumptions C140_right_refuted.
Example C140_right_refuted_u32 : shift_right (ity_of false 32) 2 [2 ^ 31; 12] 1 = Some [2 ^ 31 + 2 ^ 30; 6] /\
  shift_right (ity_of false 64) 1 [2 ^ 64 - 1] 63 = Some [2 ^ 64 - 1].
Proof. split; reflexivity. Qed.

(** C140: what was shifted left without losing bits comes back. *)
Theorem C140_roundtrip : forall t n v k r, a_type t -> (1 <= n)%nat -> is_vector t n v ->
  Forall (fun x => - 2 ^ (ibits t - 1) <= x * 2 ^ k < 2 ^ (ibits t - 1)) v ->
  shift_left true t n v k = Some r -> shift_right t n r k = Some v.
Proof.
  intros t n v k r T N V B E. apply C140_left in E as (K & L & F); [|assumption..].
  assert (M : 0 < 2 ^ k) by (apply Z.pow_pos_nonneg; lia).
  assert (G : forall i, (i < n)%nat -> component r i = component v i * 2 ^ k).
  { intros i I. apply (wrapped_unique t (component v i * 2 ^ k)); [exact T|apply F, I|]. apply holds_wrapped.
    pose proof (component_holds t n v i V I) as H. rewrite Forall_forall in B. assert (X : In (component v i) v) by (apply nth_In; rewrite (proj1 V); exact I).
    specialize (B _ X). unfold holds in *. destruct (pow_half t T) as [P Q]. destruct (isigned t); nia. }
  assert (R : is_vector t n r) by (apply (wrapped_is_vector t n (fun i => component v i * 2 ^ k)); assumption).
  apply (C140_right t n r k v T N R).
  - right. right. apply Forall_forall. intros x X. apply (In_nth _ _ 0) in X as (i & I & <-). change (nth i r 0) with (component r i).
    rewrite G by lia. rewrite Forall_forall in B. apply B. apply nth_In. rewrite (proj1 V). lia.
  - split; [exact K|]. split; [exact (proj1 V)|]. intros i I. rewrite (G i I). nia.
Qed.
Print Assumptions C140_roundtrip.
Example C140_roundtrip_i16 : exists r, shift_left true (ity_of true 16) 2 [-5; 7] 4 = Some r /\ shift_right (ity_of true 16) 2 r 4 = Some [-5; 7] /\
  Forall (fun x => - 2 ^ 15 <= x * 2 ^ 4 < 2 ^ 15) [-5; 7].
Proof. eexists. split; [reflexivity|]. split; [reflexivity|]. repeat constructor; cbn; discriminate. Qed.

(** C140: the compound forms give the same. *)
Theorem C140_compound : forall b t n v k, (1 <= n)%nat -> List.length v = n ->
  shift_left_assign b t n v k = shift_left b t n v k /\ shift_right_assign t n v k = shift_right t n v k.
Proof.
  intros b t n v k N L. unfold shift_left_assign, shift_right_assign, shift_left at 2, shift_right at 2.
  destruct (requires_promotion t) eqn:R; [unfold shift_left, shift_right; rewrite R; split; reflexivity|]. split.
  - apply (assign_construct t t n (fun cur i => shl1 b t (at_ cur i) k) v); [|exact N|exact L].
    intros x y i E. change (at_ x i) with (component x i). change (at_ y i) with (component y i). rewrite E. reflexivity.
  - apply (assign_construct t t n (fun cur i => shr1 t (at_ cur i) k) v); [|exact N|exact L].
    intros x y i E. change (at_ x i) with (component x i). change (at_ y i) with (component y i). rewrite E. reflexivity.
Qed.
Print Assumptions C140_compound.
