(** Lemmas for VintProps2.v: the product type, shifts and accumulations. *)
From Coq Require Import ZArith List Bool Lia.
From Verif Require Import Words CoreModel VintModel VintSpec VintProofs.
Import ListNotations.
Local Open Scope Z_scope.

Definition wide (t : ity) : Z := Z.max 32 (ibits t).

Lemma product_is t : a_type t -> product_type t = ity_of true (wide t).
Proof. intros T. destruct t as [s b]. unfold a_type in T. cbn in T. unfold wide. widths T; subst b; reflexivity. Qed.
Lemma product_a_type t : a_type t -> a_type (product_type t).
Proof. intros T. rewrite product_is by exact T. unfold a_type, wide in *. cbn. lia. Qed.
Lemma requires_eq t : requires_promotion t = false <-> product_type t = t.
Proof. unfold requires_promotion. rewrite negb_false_iff. apply eqb_eq_ity. Qed.

Lemma to_product_at t n v i : a_type t -> is_vector t n v -> (i < n)%nat ->
  component (to_product t v) i = conv (product_type t) (component v i).
Proof.
  intros T V I. unfold to_product. destruct (requires_promotion t) eqn:R.
  - unfold component. rewrite (nth_indep _ 0 (conv (product_type t) 0)) by (rewrite map_length, (proj1 V); exact I). apply map_nth.
  - apply requires_eq in R. rewrite R. symmetry. apply conv_id; [exact T|]. exact (component_holds t n v i V I).
Qed.

(** Values of narrow types, and of signed ones, are values of the product type. *)
Lemma holds_product t x : a_type t -> isigned t = true \/ ibits t < 32 \/ x < 2 ^ (ibits t - 1) -> holds t x -> holds (product_type t) x.
Proof.
  intros T C H. rewrite product_is by exact T. unfold holds, wide in *. cbn [ity_of isigned ibits]. cbv iota.
  widths T; rewrite T in *; destruct (isigned t); cbn in *; lia.
Qed.
Lemma conv_product t x : a_type t -> isigned t = true \/ ibits t < 32 \/ x < 2 ^ (ibits t - 1) -> holds t x -> conv (product_type t) x = x.
Proof. intros T C H. apply conv_id; [apply product_a_type, T|apply holds_product; assumption]. Qed.
Lemma conv_product_high t x : a_type t -> isigned t = false -> 32 <= ibits t -> 2 ^ (ibits t - 1) <= x -> holds t x ->
  conv (product_type t) x = x - 2 ^ ibits t.
Proof.
  intros T S W B H. symmetry. apply wrapped_conv; [apply product_a_type, T|]. destruct (pow_half t T) as [P Q].
  rewrite product_is by exact T. unfold wide. rewrite Z.max_r by exact W. unfold wrapped, holds in *. cbn [ity_of isigned ibits].
  cbv iota. rewrite S in H. split; [lia|]. exists (-1). lia.
Qed.

(** The detour over the product type. *)
Lemma detour t n v (f : ity -> Z -> option Z) r : a_type t -> (1 <= n)%nat -> is_vector t n v ->
  (forall x y, holds (product_type t) x -> f (product_type t) x = Some y -> holds (product_type t) y) ->
  (if requires_promotion t then
     r <- construct (product_type t) (product_type t) n (fun i => f (product_type t) (at_ (to_product t v) i)) ;; Some (map (conv t) r)
   else construct t t n (fun i => f t (at_ v i))) = Some r <->
  List.length r = n /\ forall i, (i < n)%nat -> exists z, f (product_type t) (conv (product_type t) (component v i)) = Some z /\ component r i = conv t z.
Proof.
  intros T N V Hf. set (p := product_type t) in *. assert (P : a_type p) by apply product_a_type, T.
  destruct (requires_promotion t) eqn:R.
  - assert (C : forall s, construct p p n (fun i => f p (at_ (to_product t v) i)) = Some s <->
                 List.length s = n /\ forall i, (i < n)%nat -> f p (conv p (component v i)) = Some (component s i)).
    { intros s. rewrite construct_some by exact N. split; intros [L F]; (split; [exact L|]); intros i I; specialize (F i I);
        change (at_ (to_product t v) i) with (component (to_product t v) i) in *; rewrite (to_product_at t n v i T V I) in *; fold p in F |- *;
        destruct (f p (conv p (component v i))) as [z|]; try discriminate F; cbn [cast_from option_bind] in *; rewrite eqb_refl_ity in *; exact F. }
    split.
    + intros E. destruct (construct p p n _) as [s|]; [|discriminate E]. cbn [option_bind] in E. injection E as <-.
      destruct (proj1 (C s) eq_refl) as [L F]. split; [rewrite map_length; exact L|]. intros i I. exists (component s i).
      split; [apply F, I|]. unfold component. rewrite (nth_indep _ 0 (conv t 0)) by (rewrite map_length, L; exact I). apply map_nth.
    + intros [L F]. destruct (construct_exists p p n (fun i => f p (at_ (to_product t v) i)) N) as [s Es].
      { intros i I. destruct (F i I) as (z & Z & _). exists z. change (at_ (to_product t v) i) with (component (to_product t v) i).
        rewrite (to_product_at t n v i T V I). fold p. rewrite Z. cbn [cast_from option_bind]. rewrite eqb_refl_ity. reflexivity. }
      rewrite Es. cbn [option_bind]. f_equal. destruct (proj1 (C s) Es) as [Ls Fs].
      apply (vector_ext _ r n); [rewrite map_length; exact Ls|exact L|]. intros i I. destruct (F i I) as (z & Z & ->).
      rewrite (Fs i I) in Z. injection Z as <-. unfold component. rewrite (nth_indep _ 0 (conv t 0)) by (rewrite map_length, Ls; exact I). apply map_nth.
  - apply requires_eq in R. fold p in R. rewrite R in *. rewrite construct_some by exact N.
    split; intros [L F]; (split; [exact L|]); intros i I; specialize (F i I); pose proof (component_holds t n v i V I) as H;
      change (at_ v i) with (component v i) in *; rewrite (conv_id t (component v i) T H) in *.
    + destruct (f t (component v i)) as [z|] eqn:Z; [|discriminate F]. exists z. split; [reflexivity|].
      cbn [cast_from option_bind] in F. rewrite eqb_refl_ity in F. injection F as <-. symmetry. apply conv_id; [exact T|]. exact (Hf _ _ H Z).
    + destruct F as (z & Z & ->). rewrite Z. cbn [cast_from option_bind]. rewrite eqb_refl_ity. f_equal. symmetry. apply conv_id; [exact T|]. exact (Hf _ _ H Z).
Qed.

Lemma shl_holds b p k x y : a_type p -> shl1 b p x k = Some y -> holds p y.
Proof.
  intros P. unfold shl1. destruct ((0 <=? k) && (k <? ibits p)); [|discriminate]. destruct (b || negb (isigned p)).
  - intros E. injection E as <-. apply conv_wrapped, P.
  - destruct ((0 <=? x) && (x * 2 ^ k <=? 2 ^ ibits p - 1)); [|discriminate]. intros E. injection E as <-. apply conv_wrapped, P.
Qed.
Lemma div_holds p x k : 0 <= k -> holds p x -> holds p (x / 2 ^ k).
Proof.
  intros K H. assert (M : 0 < 2 ^ k) by (apply Z.pow_pos_nonneg; lia).
  assert (A : 0 <= x -> 0 <= x / 2 ^ k <= x).
  { intros X. split; [apply Z.div_pos; lia|]. apply Z.div_le_upper_bound; [exact M|]. nia. }
  assert (B : x < 0 -> x <= x / 2 ^ k < 0).
  { intros X. split; [apply Z.div_le_lower_bound; [exact M|]; nia|]. apply Z.div_lt_upper_bound; lia. }
  unfold holds in *. destruct (isigned p); lia.
Qed.
Lemma shr_holds p k x y : holds p x -> shr1 p x k = Some y -> holds p y.
Proof.
  intros H. unfold shr1. destruct ((0 <=? k) && (k <? ibits p)) eqn:K; [|discriminate]. intros E. injection E as <-.
  apply andb_true_iff in K as [K _]. apply Z.leb_le in K. apply div_holds; assumption.
Qed.

(** Wrapping twice, the second time into no more bits, is wrapping once. *)
Lemma wrap_trans t p a b z : a_type t -> a_type p -> ibits t <= ibits p -> wrapped p a b -> (wrapped t b z <-> wrapped t a z).
Proof.
  intros T P L [_ [k E]]. assert (W : 2 ^ ibits p = 2 ^ ibits t * 2 ^ (ibits p - ibits t)).
  { apply width_pos in T. rewrite <- Z.pow_add_r by lia. f_equal. lia. }
  split; apply wrapped_shift.
  - exists (k * 2 ^ (ibits p - ibits t)). lia.
  - exists (- k * 2 ^ (ibits p - ibits t)). lia.
Qed.
