(** C139: arithmetic on vectors of integers. *)
From Coq Require Import ZArith List Bool Lia.
From Verif Require Import Words CoreModel VintModel VintSpec VintProofs.
Import ListNotations.
Local Open Scope Z_scope.

(** C139: sums, differences and products, for every integer type and every number of dimensions: when they have a meaning, and
    that each component is then the exact result wrapped into the type. *)
Theorem C139_arithmetic : forall t n v w s r, a_type t -> (1 <= n)%nat ->
  (plus t n v w = Some r <-> List.length r = n /\ forall i, (i < n)%nat ->
     computable t (component v i + component w i) /\ wrapped t (component v i + component w i) (component r i)) /\
  (minus t n v w = Some r <-> List.length r = n /\ forall i, (i < n)%nat ->
     computable t (component v i - component w i) /\ wrapped t (component v i - component w i) (component r i)) /\
  (times t n v w = Some r <-> List.length r = n /\ forall i, (i < n)%nat ->
     computable t (component v i * component w i) /\ wrapped t (component v i * component w i) (component r i)) /\
  (times_scalar t n v s = Some r <-> List.length r = n /\ forall i, (i < n)%nat ->
     computable t (component v i * s) /\ wrapped t (component v i * s) (component r i)) /\
  (negate t n v = Some r <-> List.length r = n /\ forall i, (i < n)%nat ->
     computable t (- component v i) /\ wrapped t (- component v i) (component r i)).
Proof.
  intros t n v w s r T N. split; [|split; [|split; [|split]]].
  - exact (op_some t n (fun i => component v i + component w i) r T N).
  - exact (op_some t n (fun i => component v i - component w i) r T N).
  - exact (op_some t n (fun i => component v i * component w i) r T N).
  - exact (op_some t n (fun i => component v i * s) r T N).
  - exact (op_some t n (fun i => - component v i) r T N).
Qed.
Print Assumptions C139_arithmetic.
Example C139_arithmetic_u8 : plus (ity_of false 8) 5 [250; 1; 2; 3; 4] [10; 1; 1; 1; 1] = Some [4; 2; 3; 4; 5] /\
  minus (ity_of true 16) 2 [-32768; 5] [1; 6] = Some [32767; -1] /\ plus int_ 2 [2 ^ 31 - 1; 0] [1; 0] = None.
Proof. split; [reflexivity|]. split; reflexivity. Qed.

Lemma div_cast t a b z : a_type t ->
  cast_from (promote t) t (div (promote t) a b) = Some z <-> b <> 0 /\ computable t (Z.quot a b) /\ wrapped t (Z.quot a b) z.
Proof.
  intros T. unfold div. destruct (Z.eqb_spec b 0) as [->|B].
  - split; [discriminate|]. intros [C _]. now elim C.
  - rewrite arith_cast by exact T. tauto.
Qed.
Lemma rem_holds t a b : holds t a -> b <> 0 -> holds t (Z.rem a b).
Proof.
  intros H B. pose proof (Z.rem_bound_abs a b B) as R. pose proof (Z.rem_sign_nz a b B) as S. unfold holds in *.
  assert (P : 0 <= a -> 0 <= Z.rem a b <= a).
  { intros A. pose proof (Z.rem_nonneg a b B A). split; [assumption|]. rewrite <- Z.rem_abs_r by exact B. apply Z.rem_le; lia. }
  assert (Q : a <= 0 -> a <= Z.rem a b <= 0).
  { intros A. pose proof (Z.rem_nonpos a b B A). split; [|assumption]. rewrite <- Z.rem_abs_r by exact B.
    pose proof (Z.rem_le (- a) (Z.abs b) ltac:(lia) ltac:(lia)) as L. rewrite Z.rem_opp_l in L by lia. lia. }
  destruct (isigned t); lia.
Qed.
Lemma rem_cast t a b z : a_type t -> holds t a ->
  cast_from (promote t) t (rem (promote t) a b) = Some z <-> b <> 0 /\ computable t (Z.quot a b) /\ z = Z.rem a b.
Proof.
  intros T A. unfold rem.
  assert (E : forall q, div (promote t) a b = Some q -> b <> 0 /\ computable t (Z.quot a b)).
  { intros q Q. destruct (proj1 (div_cast t a b _ T) (eq_trans (f_equal _ Q) (eq_refl : cast_from (promote t) t (Some q) = Some _))) as (B & C & _).
    split; assumption. }
  destruct (div (promote t) a b) as [q|] eqn:D.
  - destruct (E q eq_refl) as [B C]. cbn [cast_from option_bind]. pose proof (rem_holds t a b A B) as H.
    assert (F : (if ity_eqb (promote t) t then Z.rem a b else conv t (Z.rem a b)) = Z.rem a b).
    { destruct (ity_eqb (promote t) t); [reflexivity|apply conv_id; assumption]. }
    rewrite F. split; [intros X; injection X as <-; repeat split; assumption|]. intros (_ & _ & ->). reflexivity.
  - split; [discriminate|]. intros (B & C & _). unfold div in D. destruct (Z.eqb_spec b 0); [contradiction|].
    assert (X : cast_from (promote t) t (arith (promote t) (Z.quot a b)) = Some (conv t (Z.quot a b))).
    { apply arith_cast; [exact T|]. split; [exact C|apply conv_wrapped, T]. }
    rewrite D in X. discriminate X.
Qed.

(** C139: quotients and remainders: truncated towards zero, of the sign of the dividend. Dividing by zero, and the lowest value
    of a type of at least the width of int by -1, have no meaning. *)
Theorem C139_division : forall t n v w s r, a_type t -> (1 <= n)%nat -> is_vector t n v ->
  (divide t n v w = Some r <-> List.length r = n /\ forall i, (i < n)%nat -> component w i <> 0 /\
     computable t (Z.quot (component v i) (component w i)) /\ wrapped t (Z.quot (component v i) (component w i)) (component r i)) /\
  (divide_scalar t n v s = Some r <-> List.length r = n /\ forall i, (i < n)%nat -> s <> 0 /\
     computable t (Z.quot (component v i) s) /\ wrapped t (Z.quot (component v i) s) (component r i)) /\
  (modulo t n v w = Some r <-> List.length r = n /\ forall i, (i < n)%nat -> component w i <> 0 /\
     computable t (Z.quot (component v i) (component w i)) /\ component r i = Z.rem (component v i) (component w i)) /\
  (modulo_scalar t n v s = Some r <-> List.length r = n /\ forall i, (i < n)%nat -> s <> 0 /\
     computable t (Z.quot (component v i) s) /\ component r i = Z.rem (component v i) s).
Proof.
  intros t n v w s r T N V. unfold divide, divide_scalar, modulo, modulo_scalar. rewrite !construct_some by exact N.
  split; [|split; [|split]]; (split; intros [L F]; (split; [exact L|]); intros i I; specialize (F i I)).
  - apply div_cast in F; [exact F|exact T].
  - apply div_cast; [exact T|exact F].
  - apply div_cast in F; [exact F|exact T].
  - apply div_cast; [exact T|exact F].
  - apply rem_cast in F; [exact F|exact T|exact (component_holds t n v i V I)].
  - apply rem_cast; [exact T|exact (component_holds t n v i V I)|exact F].
  - apply rem_cast in F; [exact F|exact T|exact (component_holds t n v i V I)].
  - apply rem_cast; [exact T|exact (component_holds t n v i V I)|exact F].
Qed.
Print Assumptions C139_division.
Example C139_division_i8 : divide (ity_of true 8) 2 [-7; -128] [2; -1] = Some [-3; -128] /\
  modulo (ity_of true 8) 2 [-7; -128] [2; -1] = Some [-1; 0] /\ modulo int_ 1 [- 2 ^ 31] [-1] = None.
Proof. split; [reflexivity|]. split; reflexivity. Qed.

(** C139: quotient and remainder go together. *)
Theorem C139_euclid : forall t n v w q m, a_type t -> (1 <= n)%nat -> is_vector t n v ->
  divide t n v w = Some q -> modulo t n v w = Some m -> forall i, (i < n)%nat ->
  wrapped t (component q i * component w i + component m i) (component v i) /\
  Z.abs (component m i) < Z.abs (component w i) /\ 0 <= component m i * component v i.
Proof.
  intros t n v w q m T N V Q M i I. destruct (C139_division t n v w 0 q T N V) as (D & _ & _ & _).
  destruct (C139_division t n v w 0 m T N V) as (_ & _ & R & _). apply D in Q as [_ Q]. apply R in M as [_ M].
  destruct (Q i I) as (W & _ & (HQ & k & Ek)). destruct (M i I) as (_ & _ & ->). pose proof (component_holds t n v i V I) as H.
  split; [|split].
  - split; [exact H|]. exists (- (k * component w i)). rewrite Ek. pose proof (Z.quot_rem (component v i) (component w i) W). lia.
  - apply Z.rem_bound_abs, W.
  - apply Z.rem_sign_mul. exact W.
Qed.
Print Assumptions C139_euclid.

(** C139: unsigned types, and types narrower than int, never go out of bounds in sums and differences; nor in products, with
    the exception of 16-bit unsigned components. *)
Theorem C139_total : forall t n v w s, a_type t -> (1 <= n)%nat -> is_vector t n v -> is_vector t n w -> holds t s ->
  isigned t = false \/ ibits t < 32 ->
  (exists r, plus t n v w = Some r) /\ (exists r, minus t n v w = Some r) /\
  (~ (isigned t = false /\ ibits t = 16) -> (exists r, times t n v w = Some r) /\ (exists r, times_scalar t n v s = Some r)).
Proof.
  intros t n v w s T N V W HS U.
  assert (B : ibits t < 32 -> forall x, holds t x -> if isigned t then - 32768 <= x < 32768 /\ (ibits t = 8 -> - 128 <= x < 128)
              else 0 <= x < 65536 /\ (ibits t = 8 -> 0 <= x < 256)).
  { intros C x H. unfold holds in H. widths T; rewrite T in *; destruct (isigned t); cbn in H; lia. }
  assert (G : forall g, (ibits t < 32 -> forall i, (i < n)%nat -> - 2 ^ 31 <= g i < 2 ^ 31) ->
              exists r, construct (promote t) t n (fun i => arith (promote t) (g i)) = Some r).
  { intros g Hg. apply op_exists; [exact T|exact N|]. intros i I. unfold computable. destruct (Z.ltb_spec (ibits t) 32) as [C|C].
    - apply Hg; assumption.
    - destruct U as [U|U]; [|lia]. rewrite U. exact Logic.I. }
  split; [|split].
  - apply (G (fun i => component v i + component w i)). intros C i I. pose proof (B C _ (component_holds t n v i V I)) as X.
    pose proof (B C _ (component_holds t n w i W I)) as Y. destruct (isigned t); lia.
  - apply (G (fun i => component v i - component w i)). intros C i I. pose proof (B C _ (component_holds t n v i V I)) as X.
    pose proof (B C _ (component_holds t n w i W I)) as Y. destruct (isigned t); lia.
  - intros E. split.
    + apply (G (fun i => component v i * component w i)). intros C i I. pose proof (B C _ (component_holds t n v i V I)) as X.
      pose proof (B C _ (component_holds t n w i W I)) as Y. destruct (isigned t); [nia|].
      assert (ibits t = 8) by (widths T; lia). destruct X as [_ X], Y as [_ Y]. specialize (X H). specialize (Y H). nia.
    + apply (G (fun i => component v i * s)). intros C i I. pose proof (B C _ (component_holds t n v i V I)) as X.
      pose proof (B C _ HS) as Y. destruct (isigned t); [nia|].
      assert (ibits t = 8) by (widths T; lia). destruct X as [_ X], Y as [_ Y]. specialize (X H). specialize (Y H). nia.
Qed.
Print Assumptions C139_total.

(** C139 fails for 16-bit unsigned components: they are multiplied as signed int, which overflows. Exactly: *)
Theorem C139_times_refuted : forall n v w, (1 <= n)%nat -> is_vector (ity_of false 16) n v -> is_vector (ity_of false 16) n w ->
  (times (ity_of false 16) n v w = None <-> exists i, (i < n)%nat /\ 2 ^ 31 <= component v i * component w i).
Proof.
  intros n v w N V W. set (t := ity_of false 16). assert (T : a_type t) by (unfold a_type; cbn; lia).
  assert (B : forall i, (i < n)%nat -> 0 <= component v i * component w i).
  { intros i I. pose proof (component_holds t n v i V I) as X. pose proof (component_holds t n w i W I) as Y. unfold holds in X, Y. cbn in X, Y. nia. }
  split.
  - intros E.
    destruct (existsb (fun i => 2 ^ 31 <=? component v i * component w i) (seq 0 n)) eqn:X.
    + apply existsb_exists in X as (i & I & L). apply in_seq in I. exists i. split; [lia|]. apply Z.leb_le, L.
    + exfalso. destruct (op_exists t n (fun i => component v i * component w i) T N) as [r R].
      * intros i I. unfold computable. cbn [t ity_of ibits]. change (16 <? 32) with true. cbv iota. split; [pose proof (B i I); lia|].
        destruct (Z.lt_ge_cases (component v i * component w i) (2 ^ 31)) as [Q|Q]; [exact Q|]. exfalso.
        assert (Y : existsb (fun i => 2 ^ 31 <=? component v i * component w i) (seq 0 n) = true).
        { apply existsb_exists. exists i. split; [apply in_seq; lia|apply Z.leb_le, Q]. }
        congruence.
      * assert (R' : times t n v w = Some r) by exact R. congruence.
  - intros (i & I & L). destruct (times t n v w) as [r|] eqn:E; [|reflexivity]. exfalso.
    destruct (C139_arithmetic t n v w 0 r T N) as (_ & _ & M & _). apply M in E as [_ E]. destruct (E i I) as [C _].
    unfold computable in C. cbn [t ity_of ibits] in C. change (16 <? 32) with true in C. cbv iota in C. lia.
Qed.
Print Assumptions C139_times_refuted.
Example C139_times_refuted_u16 : times (ity_of false 16) 2 [65535; 1] [65535; 1] = None /\ times (ity_of false 16) 2 [300; 1] [300; 1] = Some [24464; 1].
Proof. split; reflexivity. Qed.

(** C139: what was added can be taken away again. *)
Theorem C139_inverse : forall t n v w, a_type t -> (1 <= n)%nat -> is_vector t n v -> is_vector t n w ->
  forall s, plus t n v w = Some s -> minus t n s w = Some v.
Proof.
  intros t n v w T N V W s P. destruct (C139_arithmetic t n v w 0 s T N) as (A & _). apply A in P as [L P].
  destruct (C139_arithmetic t n s w 0 v T N) as (_ & M & _). apply M. split; [exact (proj1 V)|]. intros i I.
  destruct (P i I) as [C (HS & k & Ek)]. pose proof (component_holds t n v i V I) as HV. pose proof (component_holds t n w i W I) as HW. split.
  - unfold computable in *. destruct (Z.ltb_spec (ibits t) 32) as [Q|Q].
    + unfold holds in HS, HW. widths T; rewrite T in *; destruct (isigned t); cbn in HS, HW |- *; lia.
    + destruct (isigned t) eqn:SG; [|exact Logic.I]. assert (E : component s i = component v i + component w i).
      { apply (wrapped_unique t (component v i + component w i)); [exact T|split; [exact HS|exists k; exact Ek]|apply holds_wrapped, C]. }
      rewrite E. replace (component v i + component w i - component w i) with (component v i) by lia. exact HV.
  - split; [exact HV|]. exists (- k). lia.
Qed.
Print Assumptions C139_inverse.
Example C139_inverse_i8 : plus (ity_of true 8) 2 [100; -100] [100; -100] = Some [-56; 56] /\ minus (ity_of true 8) 2 [-56; 56] [100; -100] = Some [100; -100].
Proof. split; reflexivity. Qed.

(** C139: the compound forms give the same, also when the right-hand side is the vector itself. *)
Theorem C139_compound : forall t n v w s (self : bool), (1 <= n)%nat -> List.length v = n -> let u := if self then v else w in
  compound add self t n v w = plus t n v u /\ compound sub self t n v w = minus t n v u /\ compound mul self t n v w = times t n v u /\
  compound div self t n v w = divide t n v u /\ compound rem self t n v w = modulo t n v u /\
  compound_scalar mul t n v s = times_scalar t n v s /\ compound_scalar div t n v s = divide_scalar t n v s /\
  compound_scalar rem t n v s = modulo_scalar t n v s.
Proof.
  intros t n v w s self N L u.
  assert (G : forall op, compound op self t n v w = construct (promote t) t n (fun i => op (promote t) (at_ v i) (at_ u i))).
  { intros op. unfold compound. rewrite (assign_construct (promote t) t n (fun cur i => op (promote t) (at_ cur i) (at_ (if self then cur else w) i)) v); [|
      intros a b i E; change (at_ a i) with (component a i); change (at_ b i) with (component b i); destruct self; [change (at_ a i) with (component a i); change (at_ b i) with (component b i)|]; rewrite E; reflexivity|exact N|exact L].
    unfold u. destruct self; reflexivity. }
  assert (H : forall op, compound_scalar op t n v s = construct (promote t) t n (fun i => op (promote t) (at_ v i) s)).
  { intros op. unfold compound_scalar. apply (assign_construct (promote t) t n (fun cur i => op (promote t) (at_ cur i) s) v); [|exact N|exact L].
    intros a b i E. change (at_ a i) with (component a i). change (at_ b i) with (component b i). rewrite E. reflexivity. }
  repeat split; first [apply G | apply H].
Qed.
Print Assumptions C139_compound.
Example C139_compound_self : compound add true (ity_of false 8) 5 [1; 2; 3; 4; 200] [0; 0; 0; 0; 0] = Some [2; 4; 6; 8; 144].
Proof. reflexivity. Qed.

(** C139: absolute values. *)
Theorem C139_abs : forall t n v r, a_type t -> (1 <= n)%nat -> is_vector t n v ->
  (vabs t n v = Some r <-> List.length r = n /\ forall i, (i < n)%nat ->
     (ibits t < 32 \/ holds t (Z.abs (component v i))) /\ wrapped t (Z.abs (component v i)) (component r i)).
Proof.
  intros t n v r T N V. unfold vabs. destruct (isigned t) eqn:S.
  - rewrite construct_some by exact N. split; intros [L F]; (split; [exact L|]); intros i I; specialize (F i I);
      pose proof (component_holds t n v i V I) as H; change (at_ v i) with (component v i) in *; unfold abs1 in *; rewrite S in *.
    + destruct (Z.ltb_spec (ibits t) 32) as [C|C].
      * split; [left; exact C|]. destruct (Z.ltb_spec (component v i) 0) as [X|X].
        -- rewrite Z.abs_neq by lia. unfold neg, arith in F. change (isigned int_) with true in F. cbv iota in F.
           destruct (fits int_ (- component v i)); [|discriminate F]. cbn [option_bind cast_from] in F. rewrite eqb_refl_ity in F.
           injection F as <-. apply conv_wrapped, T.
        -- rewrite Z.abs_eq by lia. cbn [option_bind cast_from] in F. rewrite eqb_refl_ity in F. injection F as <-. apply conv_wrapped, T.
      * destruct (Z.ltb_spec (component v i) 0) as [X|X].
        -- rewrite Z.abs_neq by lia. unfold neg, arith in F. rewrite S in F. destruct (fits t (- component v i)) eqn:Q; [|discriminate F].
           cbn [option_bind cast_from] in F. rewrite eqb_refl_ity in F. injection F as F. rewrite <- F.
           apply (fits_holds t _ T) in Q. split; [right; exact Q|apply holds_wrapped, Q].
        -- rewrite Z.abs_eq by lia. cbn [option_bind cast_from] in F. rewrite eqb_refl_ity in F. injection F as F. rewrite <- F.
           split; [right; exact H|apply holds_wrapped, H].
    + destruct F as [D W]. destruct (Z.ltb_spec (ibits t) 32) as [C|C].
      * apply (wrapped_conv t _ _ T) in W. rewrite W. destruct (Z.ltb_spec (component v i) 0) as [X|X].
        -- rewrite Z.abs_neq by lia. unfold neg, arith. change (isigned int_) with true. cbv iota.
           assert (Q : fits int_ (- component v i) = true).
           { apply (fits_holds int_ _ int_type). unfold holds in *. change (isigned int_) with true. change (ibits int_ - 1) with 31. rewrite S in H. widths T; rewrite T in *; cbn in H |- *; lia. }
           rewrite Q. cbn [option_bind cast_from]. rewrite eqb_refl_ity. reflexivity.
        -- rewrite Z.abs_eq by lia. cbn [option_bind cast_from]. rewrite eqb_refl_ity. reflexivity.
      * assert (A : holds t (Z.abs (component v i))) by (destruct D; [lia|assumption]).
        assert (E : component r i = Z.abs (component v i)) by (apply (wrapped_unique t (Z.abs (component v i))); [exact T|exact W|apply holds_wrapped, A]).
        rewrite E. destruct (Z.ltb_spec (component v i) 0) as [X|X].
        -- rewrite Z.abs_neq in * by lia. unfold neg, arith. rewrite S. rewrite (proj2 (fits_holds t _ T) A). cbn [option_bind cast_from].
           rewrite eqb_refl_ity. reflexivity.
        -- rewrite Z.abs_eq by lia. cbn [option_bind cast_from]. rewrite eqb_refl_ity. reflexivity.
  - assert (P : forall i, (i < n)%nat -> Z.abs (component v i) = component v i).
    { intros i I. pose proof (component_holds t n v i V I) as H. unfold holds in H. rewrite S in H. lia. }
    split.
    + intros E. injection E as <-. split; [exact (proj1 V)|]. intros i I. rewrite (P i I). pose proof (component_holds t n v i V I) as H.
      split; [right; exact H|apply holds_wrapped, H].
    + intros [L F]. f_equal. apply (vector_ext v r n (proj1 V) L). intros i I. destruct (F i I) as [_ W]. rewrite (P i I) in W.
      apply (wrapped_unique t (component v i)); [exact T|apply holds_wrapped, (component_holds t n v i V I)|exact W].
Qed.
Print Assumptions C139_abs.
(** So an absolute value can be negative: the lowest value of a narrow type. *)
Example C139_abs_lowest : vabs (ity_of true 8) 2 [-128; -5] = Some [-128; 5] /\ vabs int_ 2 [- 2 ^ 31; 0] = None.
Proof. split; reflexivity. Qed.
