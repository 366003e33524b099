(** Lemmas for VintProps.v: conversions, the built-in operators and the componentwise macros. *)
From Coq Require Import ZArith List Bool Lia.
From Verif Require Import Words CoreModel VintModel VintSpec.
Import ListNotations.
Local Open Scope Z_scope.

Ltac widths T := destruct T as [T|[T|[T|[T|T]]]].

Lemma at_component v i : at_ v i = component v i. Proof. reflexivity. Qed.

Lemma width_pos t : a_type t -> 8 <= ibits t. Proof. unfold a_type. lia. Qed.
Lemma pow_half t : a_type t -> 2 ^ ibits t = 2 * 2 ^ (ibits t - 1) /\ 0 < 2 ^ (ibits t - 1).
Proof.
  intros T. apply width_pos in T. split; [|apply Z.pow_pos_nonneg; lia].
  rewrite <- Z.pow_succ_r by lia. f_equal. lia.
Qed.

Lemma fits_holds t x : a_type t -> fits t x = true <-> holds t x.
Proof.
  intros T. unfold fits, ity_min, ity_max, holds. rewrite andb_true_iff, !Z.leb_le. destruct (isigned t); lia.
Qed.

Lemma conv_wrapped t x : a_type t -> wrapped t x (conv t x).
Proof.
  intros T. destruct (pow_half t T) as [P Q]. unfold wrapped, holds, conv.
  pose proof (Z.mod_pos_bound x (2 ^ ibits t)) as B. pose proof (Z.div_mod x (2 ^ ibits t)) as D.
  destruct (isigned t); cbn [andb].
  - destruct (Z.leb_spec (2 ^ (ibits t - 1)) (x mod 2 ^ ibits t)).
    + split; [lia|]. exists (- (x / 2 ^ ibits t) - 1). lia.
    + split; [lia|]. exists (- (x / 2 ^ ibits t)). lia.
  - split; [lia|]. exists (- (x / 2 ^ ibits t)). lia.
Qed.

Lemma wrapped_unique t r x y : a_type t -> wrapped t r x -> wrapped t r y -> x = y.
Proof.
  intros T [Hx [k Ex]] [Hy [j Ey]]. destruct (pow_half t T) as [P Q]. unfold holds in *.
  assert (E : x - y = (k - j) * 2 ^ ibits t) by lia. assert (D : k - j = 0); [|lia].
  destruct (isigned t); nia.
Qed.

Lemma wrapped_conv t r x : a_type t -> wrapped t r x <-> x = conv t r.
Proof.
  intros T. split; intros H.
  - apply (wrapped_unique t r); [exact T|exact H|apply conv_wrapped, T].
  - subst x. apply conv_wrapped, T.
Qed.

Lemma holds_wrapped t x : holds t x -> wrapped t x x.
Proof. intros H. split; [exact H|]. exists 0. lia. Qed.
Lemma conv_id t x : a_type t -> holds t x -> conv t x = x.
Proof. intros T H. symmetry. apply wrapped_conv; [exact T|]. apply holds_wrapped, H. Qed.

Lemma wrapped_shift t r r' x : (exists k, r' = r + k * 2 ^ ibits t) -> wrapped t r' x -> wrapped t r x.
Proof. intros [k ->] [H [j ->]]. split; [exact H|]. exists (k + j). lia. Qed.

Lemma eqb_refl_ity t : ity_eqb t t = true.
Proof. unfold ity_eqb. rewrite Bool.eqb_reflx, Z.eqb_refl. reflexivity. Qed.
Lemma eqb_eq_ity a b : ity_eqb a b = true <-> a = b.
Proof.
  split; [|intros ->; apply eqb_refl_ity]. unfold ity_eqb. rewrite andb_true_iff, Z.eqb_eq, Bool.eqb_true_iff.
  destruct a, b; cbn. intros [-> ->]. reflexivity.
Qed.

Lemma promote_narrow t : ibits t < 32 -> promote t = int_.
Proof. intros H. unfold promote. apply Z.ltb_lt in H. rewrite H. reflexivity. Qed.
Lemma promote_wide t : 32 <= ibits t -> promote t = t.
Proof. intros H. unfold promote. destruct (Z.ltb_spec (ibits t) 32); [lia|reflexivity]. Qed.
Lemma int_type : a_type int_. Proof. unfold a_type. cbn. lia. Qed.
Lemma promote_type t : a_type t -> a_type (promote t).
Proof. intros T. unfold promote. destruct (ibits t <? 32); [apply int_type|exact T]. Qed.

(** The heart: an operator in the promoted type followed by the cast back. *)
Lemma arith_cast t r z : a_type t ->
  cast_from (promote t) t (arith (promote t) r) = Some z <-> computable t r /\ wrapped t r z.
Proof.
  intros T. unfold computable. destruct (Z.ltb_spec (ibits t) 32) as [N|N].
  - rewrite (promote_narrow t N). unfold arith. change (isigned int_) with true. cbv iota.
    assert (E : ity_eqb int_ t = false).
    { apply not_true_is_false. rewrite eqb_eq_ity. intros <-. cbn in N. lia. }
    destruct (fits int_ r) eqn:F.
    + apply (fits_holds int_ r int_type) in F. unfold holds in F. change (isigned int_) with true in F. change (ibits int_ - 1) with 31 in F.
      cbn [cast_from option_bind]. rewrite E. rewrite wrapped_conv by exact T. split.
      * intros H. injection H as <-. split; [exact F|reflexivity].
      * intros [_ ->]. reflexivity.
    + split; [discriminate|]. intros [C _].
      assert (F' : fits int_ r = true).
      { apply (fits_holds int_ r int_type). unfold holds. change (isigned int_) with true. change (ibits int_ - 1) with 31. exact C. }
      rewrite F' in F. discriminate.
  - rewrite (promote_wide t N). unfold arith. destruct (isigned t) eqn:S.
    + destruct (fits t r) eqn:F.
      * apply (fits_holds t r T) in F. cbn [cast_from option_bind]. rewrite eqb_refl_ity. split.
        -- intros H. injection H as <-. split; [exact F|apply holds_wrapped, F].
        -- intros [_ W]. f_equal. apply (wrapped_unique t r); [exact T|apply holds_wrapped, F|exact W].
      * split; [discriminate|]. intros [C _]. apply (fits_holds t r T) in C. congruence.
    + cbn [cast_from option_bind]. rewrite eqb_refl_ity, wrapped_conv by exact T. split.
      * intros H. injection H as <-. split; [exact I|reflexivity].
      * intros [_ ->]. reflexivity.
Qed.

(* ------------------------------------------------------------------ the macros *)

Lemma all_some l r : all l = Some r <-> List.length r = List.length l /\ forall i, (i < List.length l)%nat -> nth i l None = Some (nth i r 0).
Proof.
  revert r. induction l as [|o l IH]; intros r.
  - cbn. split.
    + intros H. injection H as <-. split; [reflexivity|]. intros i I. lia.
    + intros [L _]. destruct r; [reflexivity|discriminate].
  - cbn [all]. destruct o as [x|]; cbn [option_bind].
    + destruct (all l) as [s|] eqn:E; cbn [option_bind].
      * destruct (proj1 (IH s) eq_refl) as [L F]. split.
        -- intros H. injection H as <-. cbn [List.length]. split; [lia|]. intros [|i] I; [reflexivity|]. cbn. apply F. lia.
        -- intros [L' F']. destruct r as [|y r]; [discriminate|]. cbn [List.length] in *.
           assert (Ey : Some x = Some y) by (apply (F' 0%nat); lia). injection Ey as <-. f_equal. f_equal.
           assert (Er : Some s = Some r); [|congruence]. apply (IH r). split; [lia|]. intros i I. apply (F' (S i)). lia.
      * split; [discriminate|]. intros [L' F']. destruct r as [|y r]; [discriminate|]. cbn [List.length] in *.
        assert (Er : None = Some r); [|discriminate]. apply (IH r). split; [lia|]. intros i I. apply (F' (S i)). lia.
    + split; [discriminate|]. intros [_ F]. specialize (F 0%nat). cbn in F. discriminate F. lia.
Qed.

Lemma construct_map ft t n f : (1 <= n)%nat -> construct ft t n f = all (map (fun i => cast_from ft t (f i)) (seq 0 n)).
Proof. intros N. destruct n as [|[|[|[|[|n]]]]]; [lia| | | | |]; reflexivity. Qed.

Lemma nth_map_seq {A} (g : nat -> A) n i d : (i < n)%nat -> nth i (map g (seq 0 n)) d = g i.
Proof.
  intros I. rewrite (nth_indep _ d (g 0%nat)) by (rewrite map_length, seq_length; exact I).
  rewrite map_nth, seq_nth by exact I. reflexivity.
Qed.

Lemma construct_some ft t n f r : (1 <= n)%nat ->
  construct ft t n f = Some r <-> List.length r = n /\ forall i, (i < n)%nat -> cast_from ft t (f i) = Some (component r i).
Proof.
  intros N. rewrite construct_map by exact N. rewrite all_some, map_length, seq_length.
  split; intros [L F]; (split; [exact L|]); intros i I; specialize (F i I); rewrite nth_map_seq in *; assumption.
Qed.

Lemma op_some t n g r : a_type t -> (1 <= n)%nat ->
  construct (promote t) t n (fun i => arith (promote t) (g i)) = Some r <->
  List.length r = n /\ forall i, (i < n)%nat -> computable t (g i) /\ wrapped t (g i) (component r i).
Proof.
  intros T N. rewrite construct_some by exact N. split; intros [L F]; (split; [exact L|]); intros i I; apply arith_cast; auto.
Qed.

(** An operation whose result exists for each component exists. *)
Lemma construct_exists ft t n f : (1 <= n)%nat -> (forall i, (i < n)%nat -> exists z, cast_from ft t (f i) = Some z) ->
  exists r, construct ft t n f = Some r.
Proof.
  intros N H. rewrite construct_map by exact N.
  assert (G : forall l, (forall i, In i l -> (i < n)%nat) -> exists r, all (map (fun i => cast_from ft t (f i)) l) = Some r).
  { induction l as [|i l IH]; intros B; [exists []; reflexivity|]. destruct (H i) as [z Z]; [apply B; left; reflexivity|].
    destruct IH as [s Es]; [intros j J; apply B; right; exact J|]. exists (z :: s). cbn [map all]. rewrite Z. cbn [option_bind]. rewrite Es. reflexivity. }
  apply G. intros i I. apply in_seq in I. lia.
Qed.
Lemma op_exists t n g : a_type t -> (1 <= n)%nat -> (forall i, (i < n)%nat -> computable t (g i)) ->
  exists r, construct (promote t) t n (fun i => arith (promote t) (g i)) = Some r.
Proof.
  intros T N H. apply construct_exists; [exact N|]. intros i I. exists (conv t (g i)). apply arith_cast; [exact T|].
  split; [apply H, I|apply conv_wrapped, T].
Qed.

Lemma component_holds t n v i : is_vector t n v -> (i < n)%nat -> holds t (component v i).
Proof. intros [L F] I. rewrite Forall_forall in F. apply F. apply nth_In. lia. Qed.

Lemma vector_ext (v w : list Z) n : List.length v = n -> List.length w = n ->
  (forall i, (i < n)%nat -> component v i = component w i) -> v = w.
Proof. intros L M H. apply (nth_ext v w 0 0); [lia|]. intros i I. apply H. lia. Qed.

Lemma wrapped_is_vector t n g r : List.length r = n -> (forall i, (i < n)%nat -> wrapped t (g i) (component r i)) -> is_vector t n r.
Proof.
  intros L H. split; [exact L|]. apply Forall_forall. intros x X. apply (In_nth _ _ 0) in X as (i & I & <-). apply (H i). lia.
Qed.

(* ------------------------------------------------------- assignment in place *)

Lemma set_at_length v i x : (i < List.length v)%nat -> List.length (set_at v i x) = List.length v.
Proof. intros I. unfold set_at. rewrite app_length, firstn_length. cbn [List.length]. rewrite skipn_length. lia. Qed.
Lemma set_at_nth v i x j : (i < List.length v)%nat -> component (set_at v i x) j = if (j =? i)%nat then x else component v j.
Proof.
  intros I. unfold set_at, component. destruct (Nat.eqb_spec j i) as [->|D].
  - rewrite app_nth2 by (rewrite firstn_length; lia). rewrite firstn_length. replace (i - Nat.min i (List.length v))%nat with 0%nat by lia. reflexivity.
  - rewrite <- (firstn_skipn i v) at 3. destruct (Nat.lt_ge_cases j i) as [J|J].
    + rewrite !app_nth1 by (rewrite firstn_length; lia). reflexivity.
    + rewrite !app_nth2 by (rewrite firstn_length; lia). rewrite !firstn_length. replace (Nat.min i (List.length v)) with i by lia.
      destruct (j - i)%nat as [|k] eqn:K; [lia|]. cbn [nth].
      assert (G : forall (l : list Z) m, nth k (skipn (m + 1) l) 0 = nth (S k) (skipn m l) 0).
      { intros l m. revert l. induction m as [|m IH]; intros l; [destruct l as [|a l]; [destruct k; reflexivity|reflexivity]|].
        destruct l as [|a l]; [rewrite !skipn_nil; destruct k; reflexivity|]. cbn [Nat.add skipn]. apply IH. }
      apply G.
Qed.

(** When [f] looks at the component it is about to overwrite only, assigning in place gives what constructing does. *)
Lemma assign_loop_some ft t (f : list Z -> nat -> option Z) :
  (forall a b i, component a i = component b i -> f a i = f b i) ->
  forall todo v r, NoDup todo -> (forall i, In i todo -> (i < List.length v)%nat) ->
  assign_loop ft t f todo v = Some r <->
  List.length r = List.length v /\ forall i, (i < List.length v)%nat ->
    if existsb (Nat.eqb i) todo then cast_from ft t (f v i) = Some (component r i) else component r i = component v i.
Proof.
  intros Hf. induction todo as [|k todo IH]; intros v r ND B.
  - cbn [assign_loop existsb]. split.
    + intros H. injection H as <-. split; [reflexivity|]. intros i I. reflexivity.
    + intros [L H]. f_equal. apply (vector_ext v r (List.length v)); [reflexivity|exact L|]. intros i I. symmetry. apply H, I.
  - inversion ND as [|? ? NK ND']; subst. cbn [assign_loop]. assert (K : (k < List.length v)%nat) by (apply B; left; reflexivity).
    assert (NX : existsb (Nat.eqb k) todo = false).
    { apply not_true_is_false. intros E. apply existsb_exists in E as (j & J & E). apply Nat.eqb_eq in E. subst j. contradiction. }
    destruct (cast_from ft t (f v k)) as [x|] eqn:E; cbn [option_bind].
    + rewrite IH; [|exact ND'|intros i I; rewrite set_at_length by exact K; apply B; right; exact I].
      rewrite set_at_length by exact K. split; intros [L H]; (split; [exact L|]); intros i I; specialize (H i I);
        pose proof (set_at_nth v k x i K) as SN; cbn [existsb] in H |- *; destruct (Nat.eqb_spec i k) as [Q|D]; cbn [orb] in H |- *.
      * subst i. rewrite NX in H. rewrite H, SN. exact E.
      * destruct (existsb (Nat.eqb i) todo); [|congruence]. rewrite <- H. f_equal. apply Hf. symmetry. exact SN.
      * subst i. rewrite NX. congruence.
      * destruct (existsb (Nat.eqb i) todo); [|congruence]. rewrite <- H. f_equal. apply Hf. exact SN.
    + split; [discriminate|]. intros [L H]. specialize (H k K). cbn [existsb] in H. rewrite Nat.eqb_refl in H. cbn [orb] in H. congruence.
Qed.

Lemma assign_construct ft t n (f : list Z -> nat -> option Z) v :
  (forall a b i, component a i = component b i -> f a i = f b i) -> (1 <= n)%nat -> List.length v = n ->
  assign ft t n f v = construct ft t n (f v).
Proof.
  intros Hf N L.
  assert (H : forall r, assign ft t n f v = Some r <-> construct ft t n (f v) = Some r).
  { intros r. unfold assign. rewrite (assign_loop_some ft t f Hf); [|apply seq_NoDup|intros i I; apply in_seq in I; lia].
    rewrite construct_some by exact N. rewrite L. split; intros [A B]; (split; [exact A|]); intros i I; specialize (B i I);
      assert (X : existsb (Nat.eqb i) (seq 0 n) = true) by (apply existsb_exists; exists i; split; [apply in_seq; lia|apply Nat.eqb_refl]);
      rewrite X in *; exact B. }
  destruct (assign ft t n f v) as [r|]; [symmetry; apply H; reflexivity|].
  destruct (construct ft t n (f v)) as [r|]; [|reflexivity]. apply H. reflexivity.
Qed.

(* --------------------------------------------------------------- accumulation *)

(** The left-to-right fold the written-out sizes amount to. *)
Lemma accumulate_fold op n f : (1 <= n)%nat -> accumulate op n f = (a <- f 0%nat ;; acc_loop op f (seq 1 (n - 1)) a).
Proof.
  intros N. destruct n as [|[|[|[|[|n]]]]]; [lia| | | | |].
  - cbn. destruct (f 0%nat); reflexivity.
  - cbn. destruct (f 0%nat) as [a|]; [|reflexivity]. cbn. destruct (f 1%nat) as [b|]; [|reflexivity]. cbn. destruct (op a b); reflexivity.
  - cbn. destruct (f 0%nat) as [a|]; [|reflexivity]. cbn. destruct (f 1%nat) as [b|]; [|reflexivity]. cbn. destruct (op a b) as [ab|]; [|reflexivity].
    cbn. destruct (f 2%nat) as [c|]; [|reflexivity]. cbn. destruct (op ab c); reflexivity.
  - cbn. destruct (f 0%nat) as [a|]; [|reflexivity]. cbn. destruct (f 1%nat) as [b|]; [|reflexivity]. cbn. destruct (op a b) as [ab|]; [|reflexivity].
    cbn. destruct (f 2%nat) as [c|]; [|reflexivity]. cbn. destruct (op ab c) as [abc|]; [|reflexivity]. cbn. destruct (f 3%nat) as [d|]; [|reflexivity].
    cbn. destruct (op abc d); reflexivity.
  - unfold accumulate. replace (S (S (S (S (S n)))) - 1)%nat with (3 + (S n))%nat by lia. replace (S (S (S (S (S n)))) - 4)%nat with (S n) by lia.
    change (seq 1 (3 + S n)) with (1%nat :: 2%nat :: 3%nat :: seq 4 (S n)). cbn [acc_loop].
    destruct (f 0%nat) as [a|]; [|reflexivity]. cbn [option_bind]. destruct (f 1%nat) as [b|]; [|reflexivity]. cbn [option_bind].
    destruct (op a b) as [ab|]; [|reflexivity]. cbn [option_bind]. destruct (f 2%nat) as [c|]; [|reflexivity]. cbn [option_bind].
    destruct (op ab c) as [abc|]; [|reflexivity]. cbn [option_bind]. destruct (f 3%nat) as [d|]; [|reflexivity]. cbn [option_bind].
    destruct (op abc d) as [abcd|]; reflexivity.
Qed.
