(** C142: comparing vectors of integers; C143: minimum, maximum and clamping. *)
From Coq Require Import ZArith List Bool Lia.
From Verif Require Import Words CoreModel VintModel VintSpec VintProofs VintProofs2.
Import ListNotations.
Local Open Scope Z_scope.

Lemma and_all_forall n f : (1 <= n)%nat -> and_all n f = true <-> forall i, (i < n)%nat -> f i = true.
Proof.
  intros N. assert (E : and_all n f = forallb f (seq 0 n)).
  { destruct n as [|[|[|[|[|n]]]]]; [lia| | | | |reflexivity]; cbn [and_all forallb seq]; rewrite ?andb_true_r, ?andb_assoc; reflexivity. }
  rewrite E, forallb_forall. split; intros H i I; apply H; [apply in_seq|apply in_seq in I]; lia.
Qed.

(** C142: vectors of one type are equal exactly when they have the same components; a vector is zero exactly when all its
    components are. *)
Theorem C142_same : forall t n v w, (1 <= n)%nat -> List.length v = n -> List.length w = n ->
  (equal t t n v w = true <-> v = w) /\ (not_equal t t n v w = true <-> v <> w) /\ (zero n v = true <-> v = repeat 0 n).
Proof.
  intros t n v w N L M.
  assert (E : equal t t n v w = true <-> v = w).
  { unfold equal. rewrite eqb_refl_ity, and_all_forall by exact N. split.
    - intros H. apply (vector_ext v w n L M). intros i I. apply Z.eqb_eq, (H i I).
    - intros -> i I. apply Z.eqb_refl. }
  split; [exact E|]. split.
  - unfold not_equal. rewrite negb_true_iff, <- E. destruct (equal t t n v w); split; intros; congruence.
  - unfold zero. rewrite and_all_forall by exact N. split.
    + intros H. apply (vector_ext v _ n L (repeat_length _ _)). intros i I. unfold component at 2. rewrite nth_repeat. apply Z.eqb_eq, (H i I).
    + intros -> i I. unfold at_. rewrite nth_repeat. reflexivity.
Qed.
Print Assumptions C142_same.
Example C142_same_5 : equal int_ int_ 5 [1; 2; 3; 4; 5] [1; 2; 3; 4; 5] = true /\ equal int_ int_ 5 [1; 2; 3; 4; 5] [1; 2; 3; 4; 6] = false.
Proof. split; reflexivity. Qed.

(** A signed type against an unsigned one that is as wide at least, and as wide as int. *)
Definition sign_lost (s u : ity) : Prop := isigned s = true /\ isigned u = false /\ 32 <= ibits u /\ ibits s <= ibits u.

Lemma ranked_type a b : a_type a -> a_type b -> a_type (highest_ranked a b).
Proof.
  intros A B. destruct a as [s x], b as [s' x']. unfold a_type in A, B. cbn in A, B.
  widths A; subst x; widths B; subst x'; destruct s, s'; unfold a_type; cbn; lia.
Qed.
Lemma ranked_holds a b x : a_type a -> a_type b -> ~ sign_lost a b -> ~ sign_lost b a -> holds a x -> holds (highest_ranked a b) x.
Proof.
  intros A B N M H. destruct a as [s i], b as [s' j]. unfold a_type in A, B. unfold sign_lost in N, M. cbn in A, B, N, M.
  widths A; subst i; widths B; subst j; destruct s, s'; unfold holds in *; cbn in H |- *; try lia;
    exfalso; first [apply N; repeat split; lia|apply M; repeat split; lia].
Qed.
Lemma ranked_sym a b : a_type a -> a_type b -> highest_ranked a b = highest_ranked b a.
Proof.
  intros A B. destruct a as [s x], b as [s' x']. unfold a_type in A, B. cbn in A, B.
  widths A; subst x; widths B; subst x'; destruct s, s'; reflexivity.
Qed.
Lemma ranked_lost s u : a_type s -> a_type u -> sign_lost s u -> highest_ranked s u = u.
Proof.
  intros A B (S & U & W & L). destruct s as [s x], u as [s' x']. unfold a_type in A, B. cbn in A, B, S, U, W, L. subst.
  widths A; subst x; widths B; subst x'; try lia; reflexivity.
Qed.

Lemma equal_mixed t u n v w : (1 <= n)%nat -> a_type t -> a_type u -> is_vector t n v -> is_vector u n w ->
  equal t u n v w = true <-> forall i, (i < n)%nat -> conv (highest_ranked t u) (component v i) = conv (highest_ranked t u) (component w i).
Proof.
  intros N T U V W. unfold equal. destruct (ity_eqb t u) eqn:E.
  - apply eqb_eq_ity in E. subst u. rewrite and_all_forall by exact N.
    assert (R : highest_ranked t t = t) by (unfold highest_ranked; rewrite eqb_refl_ity; reflexivity).
    rewrite R. split; intros H i I; specialize (H i I); rewrite ?Z.eqb_eq, ?(conv_id t) in * by (try exact T; first [exact (component_holds t n v i V I)|exact (component_holds t n w i W I)]); exact H.
  - rewrite and_all_forall by exact N. split; intros H i I; specialize (H i I); rewrite ?Z.eqb_eq in *; exact H.
Qed.

(** C142: vectors of different types compare by value, whatever the order they are written in ... *)
Theorem C142_mixed : forall t u n v w, (1 <= n)%nat -> a_type t -> a_type u -> is_vector t n v -> is_vector u n w ->
  ~ sign_lost t u -> ~ sign_lost u t -> (equal t u n v w = true <-> v = w) /\ (not_equal t u n v w = true <-> v <> w).
Proof.
  intros t u n v w N T U V W A B. pose proof (ranked_type t u T U) as C.
  assert (E : equal t u n v w = true <-> v = w).
  { rewrite equal_mixed by assumption. split.
    - intros H. apply (vector_ext v w n (proj1 V) (proj1 W)). intros i I. specialize (H i I).
      pose proof (ranked_holds t u _ T U A B (component_holds t n v i V I)) as X.
      pose proof (ranked_holds u t _ U T B A (component_holds u n w i W I)) as Y. rewrite ranked_sym in Y by assumption.
      rewrite (conv_id _ _ C X), (conv_id _ _ C Y) in H. exact H.
    - intros -> i I. reflexivity. }
  split; [exact E|]. unfold not_equal. rewrite negb_true_iff, <- E. destruct (equal t u n v w); split; intros; congruence.
Qed.
Print Assumptions C142_mixed.
Example C142_mixed_u8_i16 : equal (ity_of false 8) (ity_of true 16) 2 [255; 0] [-1; 0] = false /\ equal (ity_of true 64) (ity_of false 32) 2 [2 ^ 32 - 1; 0] [2 ^ 32 - 1; 0] = true.
Proof. split; reflexivity. Qed.
Theorem C142_symmetric : forall t u n v w, (1 <= n)%nat -> a_type t -> a_type u -> is_vector t n v -> is_vector u n w ->
  equal t u n v w = equal u t n w v.
Proof.
  intros t u n v w N T U V W. apply eq_true_iff_eq. rewrite !equal_mixed by assumption. rewrite (ranked_sym u t) by assumption.
  split; intros H i I; symmetry; apply H, I.
Qed.
Print Assumptions C142_symmetric.

(** ... except when a signed type meets an unsigned one that is at least as wide, and as wide as int: a negative component is
    then equal to the unsigned number 2 to the width above it. *)
Theorem C142_mixed_refuted : forall s u n v w, (1 <= n)%nat -> a_type s -> a_type u -> is_vector s n v -> is_vector u n w ->
  sign_lost s u ->
  (equal s u n v w = true <-> forall i, (i < n)%nat ->
     component v i = component w i \/ (component v i < 0 /\ component w i = component v i + 2 ^ ibits u)).
Proof.
  intros s u n v w N S U V W L. rewrite equal_mixed, ranked_lost by assumption. destruct L as (S1 & U1 & B & C).
  assert (P : 2 ^ ibits s <= 2 ^ ibits u) by (apply Z.pow_le_mono_r; lia). destruct (pow_half s S) as [Q1 Q2].
  assert (X : forall i, (i < n)%nat -> conv u (component v i) = conv u (component w i) <->
                        component v i = component w i \/ (component v i < 0 /\ component w i = component v i + 2 ^ ibits u)).
  { intros i I. pose proof (component_holds s n v i V I) as HV. pose proof (component_holds u n w i W I) as HW.
    rewrite (conv_id u _ U HW). unfold holds in HV. rewrite S1 in HV. destruct (Z.lt_ge_cases (component v i) 0) as [G|G].
    - assert (E : conv u (component v i) = component v i + 2 ^ ibits u).
      { symmetry. apply wrapped_conv; [exact U|]. split; [|exists 1; lia]. unfold holds. rewrite U1. lia. }
      rewrite E. unfold holds in HW. rewrite U1 in HW. lia.
    - assert (E : conv u (component v i) = component v i) by (apply conv_id; [exact U|]; unfold holds; rewrite U1; lia).
      rewrite E. lia. }
  split; intros H i I; apply X, H; exact I.
Qed.
Print Assumptions C142_mixed_refuted.
Example C142_mixed_refuted_i32 : equal int_ (ity_of false 32) 2 [-1; 5] [2 ^ 32 - 1; 5] = true /\ equal (ity_of true 8) (ity_of false 64) 1 [-1] [2 ^ 64 - 1] = true.
Proof. split; reflexivity. Qed.

(* --------------------------------------------------------- minimum, maximum, clamping *)

(** [x] is among [l], and none of them is before it. *)
Definition least (l : list Z) (x : Z) : Prop := In x l /\ forall y, In y l -> x <= y.
Definition greatest (l : list Z) (x : Z) : Prop := In x l /\ forall y, In y l -> y <= x.

Lemma least_cons a l x m : least l m -> x = Z.min a m -> least (a :: l) x.
Proof.
  intros [I F] ->. split.
  - destruct (Z.min_spec a m) as [[_ ->]|[_ ->]]; [left; reflexivity|right; exact I].
  - intros y [<-|Y]; [lia|]. specialize (F y Y). lia.
Qed.
Lemma greatest_cons a l x m : greatest l m -> x = Z.max a m -> greatest (a :: l) x.
Proof.
  intros [I F] ->. split.
  - destruct (Z.max_spec a m) as [[_ ->]|[_ ->]]; [right; exact I|left; reflexivity].
  - intros y [<-|Y]; [lia|]. specialize (F y Y). lia.
Qed.

Lemma total_construct t n (g : nat -> Z) : (1 <= n)%nat ->
  exists r, construct t t n (fun i => Some (g i)) = Some r /\ List.length r = n /\ forall i, (i < n)%nat -> component r i = g i.
Proof.
  intros N. destruct (construct_exists t t n (fun i => Some (g i)) N) as [r E].
  { intros i I. exists (g i). cbn. rewrite eqb_refl_ity. reflexivity. }
  exists r. split; [exact E|]. apply construct_some in E as [L F]; [|exact N]. split; [exact L|]. intros i I. specialize (F i I).
  cbn in F. rewrite eqb_refl_ity in F. injection F as F. symmetry. exact F.
Qed.
Lemma vmin2_is t n v w : (1 <= n)%nat -> exists r, vmin2 t n v w = Some r /\ List.length r = n /\ forall i, (i < n)%nat -> component r i = Z.min (component v i) (component w i).
Proof.
  intros N. destruct (total_construct t n (fun i => min2 Z.ltb (at_ v i) (at_ w i)) N) as (r & E & L & F). exists r. split; [exact E|].
  split; [exact L|]. intros i I. rewrite (F i I). unfold min2. change (at_ v i) with (component v i). change (at_ w i) with (component w i).
  destruct (Z.ltb_spec (component v i) (component w i)); lia.
Qed.
Lemma vmax2_is t n v w : (1 <= n)%nat -> exists r, vmax2 t n v w = Some r /\ List.length r = n /\ forall i, (i < n)%nat -> component r i = Z.max (component v i) (component w i).
Proof.
  intros N. destruct (total_construct t n (fun i => max2 Z.ltb (at_ v i) (at_ w i)) N) as (r & E & L & F). exists r. split; [exact E|].
  split; [exact L|]. intros i I. rewrite (F i I). unfold max2. change (at_ v i) with (component v i). change (at_ w i) with (component w i).
  destruct (Z.ltb_spec (component v i) (component w i)); lia.
Qed.

Definition at_all (vecs : list (list Z)) (i : nat) : list Z := map (fun v => component v i) vecs.

(** C143: the minimum and the maximum of two or more vectors, of a range and of a list of them: in each component the least and
    the greatest; of nothing, zeros. *)
Theorem C143_arguments : forall t n vecs v w, (1 <= n)%nat ->
  (exists r, vmin t n v w vecs = Some r /\ List.length r = n /\ forall i, (i < n)%nat -> least (at_all (v :: w :: vecs) i) (component r i)) /\
  (exists r, vmax t n v w vecs = Some r /\ List.length r = n /\ forall i, (i < n)%nat -> greatest (at_all (v :: w :: vecs) i) (component r i)).
Proof.
  intros t n vecs v w N. revert v w. induction vecs as [|u vecs IH]; intros v w; cbn [vmin vmax].
  - split.
    + destruct (vmin2_is t n v w N) as (r & E & L & F). exists r. split; [exact E|]. split; [exact L|]. intros i I.
      apply (least_cons _ _ _ (component w i)); [split; [left; reflexivity|intros y [<-|[]]; lia]|apply F, I].
    + destruct (vmax2_is t n v w N) as (r & E & L & F). exists r. split; [exact E|]. split; [exact L|]. intros i I.
      apply (greatest_cons _ _ _ (component w i)); [split; [left; reflexivity|intros y [<-|[]]; lia]|apply F, I].
  - destruct (IH w u) as [(m & Em & Lm & Fm) (x & Ex & Lx & Fx)]. rewrite Em, Ex. cbn [option_bind]. split.
    + destruct (vmin2_is t n v m N) as (r & E & L & F). exists r. split; [exact E|]. split; [exact L|]. intros i I.
      apply (least_cons _ _ _ (component m i)); [apply Fm, I|apply F, I].
    + destruct (vmax2_is t n v x N) as (r & E & L & F). exists r. split; [exact E|]. split; [exact L|]. intros i I.
      apply (greatest_cons _ _ _ (component x i)); [apply Fx, I|apply F, I].
Qed.
Print Assumptions C143_arguments.
Example C143_arguments_3 : vmin int_ 2 [5; -1] [3; 7] [[4; -9]; [9; 9]] = Some [3; -9] /\ vmax int_ 2 [5; -1] [3; 7] [[4; -9]; [9; 9]] = Some [9; 9].
Proof. split; reflexivity. Qed.

Lemma fold_min t n l : (1 <= n)%nat -> forall out, List.length out = n ->
  exists r, fold_range (vmin2 t n) out l = Some r /\ List.length r = n /\ forall i, (i < n)%nat -> least (at_all (out :: l) i) (component r i).
Proof.
  intros N. induction l as [|v l IH]; intros out O.
  - exists out. split; [reflexivity|]. split; [exact O|]. intros i I. split; [left; reflexivity|]. intros y [<-|[]]. lia.
  - cbn [fold_range]. destruct (vmin2_is t n out v N) as (m & E & L & F). rewrite E. cbn [option_bind].
    destruct (IH m L) as (r & Er & Lr & Fr). exists r. split; [exact Er|]. split; [exact Lr|]. intros i I. destruct (Fr i I) as [A B].
    cbn [at_all map] in *. rewrite (F i I) in *. split.
    + destruct A as [A|A]; [|right; right; exact A]. rewrite <- A. destruct (Z.min_spec (component out i) (component v i)) as [[_ ->]|[_ ->]]; [left|right; left]; reflexivity.
    + intros y [<-|[<-|Y]]; [|specialize (B _ (or_introl eq_refl)); lia|apply B; right; exact Y]. specialize (B _ (or_introl eq_refl)). lia.
Qed.
Lemma fold_max t n l : (1 <= n)%nat -> forall out, List.length out = n ->
  exists r, fold_range (vmax2 t n) out l = Some r /\ List.length r = n /\ forall i, (i < n)%nat -> greatest (at_all (out :: l) i) (component r i).
Proof.
  intros N. induction l as [|v l IH]; intros out O.
  - exists out. split; [reflexivity|]. split; [exact O|]. intros i I. split; [left; reflexivity|]. intros y [<-|[]]. lia.
  - cbn [fold_range]. destruct (vmax2_is t n out v N) as (m & E & L & F). rewrite E. cbn [option_bind].
    destruct (IH m L) as (r & Er & Lr & Fr). exists r. split; [exact Er|]. split; [exact Lr|]. intros i I. destruct (Fr i I) as [A B].
    cbn [at_all map] in *. rewrite (F i I) in *. split.
    + destruct A as [A|A]; [|right; right; exact A]. rewrite <- A. destruct (Z.max_spec (component out i) (component v i)) as [[_ ->]|[_ ->]]; [right; left|left]; reflexivity.
    + intros y [<-|[<-|Y]]; [|specialize (B _ (or_introl eq_refl)); lia|apply B; right; exact Y]. specialize (B _ (or_introl eq_refl)). lia.
Qed.
Theorem C143_range : forall t n, (1 <= n)%nat ->
  (forall vecs, vecs <> [] -> Forall (fun v => List.length v = n) vecs ->
     (exists r, range_op (vmin2 t n) n vecs = Some r /\ list_op (vmin2 t n) n vecs = Some r /\ List.length r = n /\
                forall i, (i < n)%nat -> least (at_all vecs i) (component r i)) /\
     (exists r, range_op (vmax2 t n) n vecs = Some r /\ list_op (vmax2 t n) n vecs = Some r /\ List.length r = n /\
                forall i, (i < n)%nat -> greatest (at_all vecs i) (component r i))) /\
  (forall op, range_op op n [] = Some (repeat 0 n) /\ list_op op n [] = Some (repeat 0 n)).
Proof.
  intros t n N. split; [|intros op; split; reflexivity]. intros vecs NE F. destruct vecs as [|v vecs]; [now elim NE|].
  inversion F as [|? ? LV _]; subst. set (n := List.length v) in *.
  assert (Q : forall op, list_op op n (v :: vecs) = range_op op n (v :: vecs)).
  { intros op. destruct vecs as [|u [|u' vecs]]; [reflexivity| |reflexivity]. cbn. destruct (op v u); reflexivity. }
  split.
  - destruct (fold_min t n vecs N v eq_refl) as (r & E & L & G). exists r. rewrite Q. split; [exact E|]. split; [exact E|]. split; [exact L|exact G].
  - destruct (fold_max t n vecs N v eq_refl) as (r & E & L & G). exists r. rewrite Q. split; [exact E|]. split; [exact E|]. split; [exact L|exact G].
Qed.
Print Assumptions C143_range.
Example C143_range_3 : range_op (vmin2 int_ 2) 2 [[5; -1]; [3; 7]; [4; -9]] = Some [3; -9] /\ list_op (vmax2 int_ 2) 2 [[5; -1]; [3; 7]] = Some [5; 7].
Proof. split; reflexivity. Qed.

(** C143: clamping, in place or not: each component goes to the nearest number within the bounds. *)
Theorem C143_clamp : forall t n v low high, (1 <= n)%nat -> List.length v = n ->
  exists r, vclamp t n v low high = Some r /\ vclamp_assign t n v low high = Some r /\ List.length r = n /\
    forall i, (i < n)%nat -> component low i <= component high i ->
      component low i <= component r i <= component high i /\
      forall y, component low i <= y <= component high i -> Z.abs (component r i - component v i) <= Z.abs (y - component v i).
Proof.
  intros t n v low high N L. destruct (total_construct t n (fun i => clamp Z.ltb (at_ v i) (at_ low i) (at_ high i)) N) as (r & E & LR & F).
  exists r. split; [exact E|]. split; [|split; [exact LR|]].
  - unfold vclamp_assign. rewrite (assign_construct t t n (fun cur i => Some (clamp Z.ltb (at_ cur i) (at_ low i) (at_ high i))) v); [exact E| |exact N|exact L].
    intros a b i Q. change (at_ a i) with (component a i). change (at_ b i) with (component b i). rewrite Q. reflexivity.
  - intros i I B. rewrite (F i I). unfold clamp. change (at_ v i) with (component v i). change (at_ low i) with (component low i). change (at_ high i) with (component high i).
    destruct (Z.ltb_spec (component v i) (component low i)); [split; [lia|intros; lia]|].
    destruct (Z.ltb_spec (component high i) (component v i)); split; try lia; intros; lia.
Qed.
Print Assumptions C143_clamp.
Example C143_clamp_3 : vclamp int_ 3 [5; -7; 0] [0; 0; 0] [3; 3; 3] = Some [3; 0; 0] /\ vclamp_assign int_ 3 [5; -7; 0] [0; 0; 0] [3; 3; 3] = Some [3; 0; 0].
Proof. split; reflexivity. Qed.
