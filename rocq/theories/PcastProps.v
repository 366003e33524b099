(** C122, C123: pointer_cast compiles exactly for the sensible pairs of types, and gives the right addresses. *)
From Verif Require Import Words PcastModel PcastSpec PcastProofs PcastProofs2.
Import ListNotations.
Local Open Scope N_scope.

(* ---------------------------------------------------------------- a program *)

(** 0: struct B, polymorphic; 1: D : virtual B; 3: E : D; 4: F : D; 5: M : E, F (two D, one B). 6: X; 7: Y; 8: Z : X, Y; none polymorphic.
    An M at address 1000, a Z at 2000 and a Y at 3000. *)
Definition classes : hierarchy := {|
  derives := fun d b => match d, b with
    | 1, 0 | 3, 1 | 3, 0 | 4, 1 | 4, 0 | 5, 3 | 5, 4 | 5, 1 | 5, 0 | 8, 6 | 8, 7 => true | _, _ => false end%nat;
  link_of := fun d b => match d, b with
    | 3%nat, 1%nat | 4%nat, 1%nat | 5%nat, 3%nat | 8%nat, 6%nat => Fixed 0
    | 5%nat, 4%nat => Fixed 16 | 8%nat, 7%nat => Fixed 4 | 5%nat, 1%nat => Ambiguous | _, _ => Virtual end;
  polymorphic := fun c => Nat.leb c 5;
  parts := fun k => match k with
    | 0%nat => [(0%nat, 0%N)] | 1%nat => [(1%nat, 0); (0%nat, 8)] | 3%nat => [(3%nat, 0); (1%nat, 0); (0%nat, 8)] | 4%nat => [(4%nat, 0); (1%nat, 0); (0%nat, 8)]
    | 5%nat => [(5%nat, 0); (3%nat, 0); (1%nat, 0); (4%nat, 16); (1%nat, 16); (0%nat, 32)]
    | 6%nat => [(6%nat, 0)] | 7%nat => [(7%nat, 0)] | 8%nat => [(8%nat, 0); (6%nat, 0); (7%nat, 4)] | _ => [] end;
  within := fun k p => match k, fst p with
    | 5%nat, 5%nat => [(3%nat, 0); (1%nat, 0); (4%nat, 16); (1%nat, 16); (0%nat, 32)] | 5%nat, 3%nat => [(1%nat, 0); (0%nat, 32)] | 5%nat, 4%nat => [(1%nat, 16); (0%nat, 32)] | 5%nat, 1%nat => [(0%nat, 32)]
    | 1%nat, 1%nat => [(0%nat, 8)] | 3%nat, 3%nat | 4%nat, 4%nat => [(1%nat, 0); (0%nat, 8)] | 3%nat, 1%nat | 4%nat, 1%nat => [(0%nat, 8)]
    | 8%nat, 8%nat => [(6%nat, 0); (7%nat, 4)] | _, _ => [] end
|}.
Definition objects : memory := [(1000, 5%nat); (2000, 8%nat); (3000, 7%nat)].

Ltac cases H := cbn in H; repeat (destruct H as [H | H]); try contradiction.

Example classes_lawful : lawful classes objects.
Proof.
  constructor.
  - intros c d. do 9 (destruct c as [| c]; [do 9 (destruct d as [| d]; [cbn; (easy || (intros; discriminate)) |]); cbn; (easy || (intros; discriminate)) |]). cbn. discriminate.
  - intros k. do 9 (destruct k as [| k]; [cbn; repeat constructor; cbn; intuition congruence |]). cbn. constructor.
  - intros k p b Hp. do 9 (destruct k as [| k]; [cases Hp; try subst p; cbn; intuition (subst; auto 10) |]). cases Hp.
  - intros k d o b x D Lk Hp. do 9 (destruct k as [| k]; [cases Hp; try (injection Hp as <- <-; do 9 (destruct b as [| b]; [try discriminate D; try discriminate Lk; cbn in Lk; try injection Lk as <-; reflexivity |]); discriminate D) |]). cases Hp.
  - intros k d o b D Lk Hp. do 9 (destruct k as [| k]; [cases Hp; try (injection Hp as <- <-; do 9 (destruct b as [| b]; [try discriminate D; try discriminate Lk; cbn; eexists; reflexivity |]); discriminate D) |]). cases Hp.
  - intros e He. cases He; subst e; cbn; lia.
  - intros e e' c a (o & He & Hp & Ea) (o' & He' & Hp' & Ea'). cases He; subst e; cases He'; subst e'; try reflexivity; exfalso;
      cases Hp; injection Hp as Ec Eo; cases Hp'; injection Hp' as Ec' Eo'; cbn [fst] in Ea, Ea'; lia.
Qed.

(* ---------------------------------------------------------------------- C122 *)

(** For all types, pointers to pointers and all qualifiers included: it compiles if and only if the cast is possible. *)
Theorem C122_compiles : forall (h : hierarchy) (ptr : N), (forall c d, derives h c d = true -> derives h d c = false) ->
  forall from to, proper from -> proper to -> (compiles h ptr from to <-> sensible h ptr from to).
Proof. intros h ptr Ac from to W1 W2. split; [now apply compiles_sensible | now apply sensible_compiles]. Qed.
Print Assumptions C122_compiles.

(** The calls of itself end, whatever the types and the classes. *)
Theorem C122_ends : forall h ptr from to, plan h ptr from to <> Endless.
Proof. exact plan_ends. Qed.
Print Assumptions C122_ends.

(** The qualifiers of the two types do not change the result. *)
Theorem C122_qualifiers : forall h ptr m, (forall c d, derives h c d = true -> derives h d c = false) ->
  forall q1 q2 q1' q2' s t x, is_function s = false -> is_function t = false -> sensible h ptr (P q1 s) (P q2 t) ->
  pointer_cast h ptr m (P q1 s) (P q2 t) x = pointer_cast h ptr m (P q1' s) (P q2' t) x.
Proof.
  intros h ptr m Ac q1 q2 q1' q2' s t x Fs Ft Ok. unfold pointer_cast. cbn [plan].
  destruct (object_does h ptr m Ac q1 q2 s t Fs Ft Ok) as (l & -> & _ & ->).
  assert (Ok' : sensible h ptr (P q1' s) (P q2' t)) by (destruct s, t; exact Ok).
  now destruct (object_does h ptr m Ac q1' q2' s t Fs Ft Ok') as (l' & -> & _ & ->).
Qed.
Print Assumptions C122_qualifiers.

(** [int* const volatile*] to [const float**]; a noexcept function to [void const*]; D to B; M to D does not (two D in an M). *)
Example C122_witness :
  compiles classes 8 (P (Cv true true) (Ptr no_cv (Other 0))) (P no_cv (Ptr (Cv true false) (Other 1))) /\
  compiles classes 8 (P no_cv (Func 3 true)) (P (Cv true false) Void) /\
  compiles classes 8 (P (Cv true false) (Class 1)) (P (Cv false true) (Class 0)) /\
  ~ compiles classes 8 (P no_cv (Class 5)) (P no_cv (Class 1)) /\
  ~ compiles classes 8 (P no_cv (Func 3 true)) (P no_cv (Func 4 true)).
Proof.
  assert (Ac := acyclic _ _ classes_lawful). repeat split; rewrite C122_compiles by easy; cbn; try easy.
  intros [Q _]. now apply Q.
Qed.

(* ---------------------------------------------------------------------- C123 *)

Section Values.
  Context (h : hierarchy) (ptr : N) (m : memory) (L : lawful h m).

  Lemma cast_value q1 q2 s t x : proper (P q1 s) -> proper (P q2 t) -> sensible h ptr (P q1 s) (P q2 t) ->
    pointer_cast h ptr m (P q1 s) (P q2 t) x = cast_address h m s t x.
  Proof.
    intros W1 W2 Ok. unfold pointer_cast. now destruct (ptr_does h ptr (acyclic h m L) m q1 q2 s t W1 W2 Ok) as (l & -> & _ & ->).
  Qed.
  Lemma derives_neq c d : derives h c d = true -> Nat.eqb c d = false.
  Proof. intros D. apply Nat.eqb_neq. intros <-. pose proof (acyclic h m L _ _ D). congruence. Qed.
  Lemma up_ok q1 q2 d b : derives h d b = true -> link_of h d b <> Ambiguous -> sensible h ptr (P q1 (Class d)) (P q2 (Class b)).
  Proof. intros D K. cbn [sensible]. split; [easy|]. intros D'. pose proof (acyclic h m L _ _ D). congruence. Qed.
  Lemma down_ok q1 q2 d b : derives h d b = true -> polymorphic h b = true \/ (exists x, link_of h d b = Fixed x) -> sensible h ptr (P q1 (Class b)) (P q2 (Class d)).
  Proof. intros D K. cbn [sensible]. split; [|easy]. intros D'. pose proof (acyclic h m L _ _ D). congruence. Qed.
  Lemma up_value q1 q2 d b x : derives h d b = true -> link_of h d b <> Ambiguous ->
    pointer_cast h ptr m (P q1 (Class d)) (P q2 (Class b)) x = upcast h m d b x.
  Proof. intros D K. rewrite cast_value by (easy || now apply up_ok). cbn [cast_address]. now rewrite (derives_neq _ _ D), D. Qed.
  Lemma down_value q1 q2 d b x : derives h d b = true -> polymorphic h b = true \/ (exists x, link_of h d b = Fixed x) ->
    pointer_cast h ptr m (P q1 (Class b)) (P q2 (Class d)) x = if polymorphic h b then dynamic h m b d x else downcast h m b d x.
  Proof.
    intros D K. rewrite cast_value by (easy || now apply down_ok). cbn [cast_address].
    now rewrite Nat.eqb_sym, (derives_neq _ _ D), D, (acyclic h m L _ _ D).
  Qed.
End Values.

(** To a base, fixed or virtual: the address of that base of the object. *)
Theorem C123_to_base : forall h ptr m, lawful h m -> forall q1 q2 d b a a', derives h d b = true -> link_of h d b <> Ambiguous ->
  has_base h m d a b a' -> pointer_cast h ptr m (P q1 (Class d)) (P q2 (Class b)) a = Some a'.
Proof. intros h ptr m L q1 q2 d b a a' D K Hb. rewrite (up_value h ptr m L) by easy. now apply upcast_base. Qed.
Print Assumptions C123_to_base.

(** From a base that is not polymorphic: the object it is the base of; undefined if there is none. *)
Theorem C123_to_derived_static : forall h ptr m, lawful h m -> forall q1 q2 d b x a', derives h d b = true -> link_of h d b = Fixed x -> polymorphic h b = false ->
  (forall a, has_base h m d a b a' -> pointer_cast h ptr m (P q1 (Class b)) (P q2 (Class d)) a' = Some a) /\
  (a' <> 0 -> (forall a, ~ has_base h m d a b a') -> pointer_cast h ptr m (P q1 (Class b)) (P q2 (Class d)) a' = None).
Proof.
  intros h ptr m L q1 q2 d b x a' D Lk Np. rewrite (down_value h ptr m L) by (easy || (right; now exists x)). rewrite Np. split.
  - intros a Hb. now apply (downcast_object h m L) with x.
  - intros Nz No. now apply (downcast_wrong h m L) with x.
Qed.
Print Assumptions C123_to_derived_static.

(** From a polymorphic base: the one object it is the base of; or the only one in the complete object; or null. Never undefined for
    an object. *)
Theorem C123_to_derived_dynamic : forall h ptr m, lawful h m -> forall q1 q2 d b e a', derives h d b = true -> polymorphic h b = true -> object_at h m e b a' ->
  exists r, pointer_cast h ptr m (P q1 (Class b)) (P q2 (Class d)) a' = Some r /\
    (forall a, has_base h m d a b a' -> (forall a2, has_base h m d a2 b a' -> a2 = a) -> r = a) /\
    (forall a, (forall a1, ~ has_base h m d a1 b a') -> object_at h m e d a -> (forall a2, object_at h m e d a2 -> a2 = a) -> r = a) /\
    ((forall a, ~ object_at h m e d a) -> r = 0) /\
    (forall a1 a2, object_at h m e d a1 -> object_at h m e d a2 -> a1 <> a2 ->
       (forall a, has_base h m d a b a' -> exists a3, a3 <> a /\ has_base h m d a3 b a') -> r = 0).
Proof.
  intros h ptr m L q1 q2 d b e a' D Po Ob. rewrite (down_value h ptr m L) by auto. rewrite Po.
  assert (S1 : exists r, dynamic h m b d a' = Some r).
  { unfold dynamic. destruct (a' =? 0); [eauto|]. rewrite (object_locate h m L _ _ _ Ob). cbn [option_bind]. eauto. }
  destruct S1 as [r Er]. exists r. split; [easy|]. repeat split.
  - intros a Hb U. pose proof (dynamic_owner h m L _ _ _ _ _ Ob Hb U). congruence.
  - intros a No Od U. pose proof (dynamic_side h m L _ _ _ _ _ Ob No Od U). congruence.
  - intros No. pose proof (dynamic_none h m L _ _ _ _ Ob No). congruence.
  - intros a1 a2 O1 O2 Ne Sv. pose proof (dynamic_several h m L _ _ _ _ _ _ Ob O1 O2 Ne Sv). congruence.
Qed.
Print Assumptions C123_to_derived_dynamic.

(** To a base at a fixed place and back: the same object. *)
Theorem C123_base_and_back : forall h ptr m, lawful h m -> forall q1 q2 q3 d b x e a, derives h d b = true -> link_of h d b = Fixed x -> object_at h m e d a ->
  exists a', pointer_cast h ptr m (P q1 (Class d)) (P q2 (Class b)) a = Some a' /\ pointer_cast h ptr m (P q2 (Class b)) (P q3 (Class d)) a' = Some a.
Proof.
  intros h ptr m L q1 q2 q3 d b x e a D Lk Ob. pose proof (fixed_has_base h m L _ _ _ _ _ D Lk Ob) as Hb. exists (a + x). split.
  - apply C123_to_base; try easy. congruence.
  - rewrite (down_value h ptr m L) by (easy || (right; now exists x)). destruct (polymorphic h b).
    + destruct (has_base_object h m L _ _ _ _ Hb) as (e' & _ & Ob'). apply (dynamic_owner h m L e'); auto.
      intros a2 H2. pose proof (fixed_inverse h m L _ _ _ _ _ D Lk H2). lia.
    + now apply (downcast_object h m L) with x.
Qed.
Print Assumptions C123_base_and_back.

(** To a polymorphic virtual base and back: the same object if no other shares the base, otherwise null. *)
Theorem C123_virtual_base_and_back : forall h ptr m, lawful h m -> forall q1 q2 q3 d b a a', derives h d b = true -> link_of h d b = Virtual -> polymorphic h b = true ->
  has_base h m d a b a' ->
  pointer_cast h ptr m (P q1 (Class d)) (P q2 (Class b)) a = Some a' /\
  ((forall a2, has_base h m d a2 b a' -> a2 = a) -> pointer_cast h ptr m (P q2 (Class b)) (P q3 (Class d)) a' = Some a) /\
  (forall a2, a2 <> a -> has_base h m d a2 b a' -> pointer_cast h ptr m (P q2 (Class b)) (P q3 (Class d)) a' = Some 0).
Proof.
  intros h ptr m L q1 q2 q3 d b a a' D Lk Po Hb. destruct (has_base_object h m L _ _ _ _ Hb) as (e & Od & Ob).
  assert (Lk2 : link_of h d b <> Ambiguous) by congruence. split; [now apply C123_to_base|].
  rewrite !(down_value h ptr m L) by auto. rewrite Po. split.
  - intros U. now apply (dynamic_owner h m L e).
  - intros a2 Ne H2. destruct (has_base_object h m L _ _ _ _ H2) as (e2 & Od2 & Ob2). pose proof (apart h m L _ _ _ _ Ob2 Ob) as ->.
    apply (dynamic_several h m L e d b a' a a2); auto. intros a3 H3. destruct (N.eq_dec a3 a) as [->|]; [exists a2; auto | exists a; auto].
Qed.
Print Assumptions C123_virtual_base_and_back.

(** So "to the base and back is the identity" is false: both D of the M share their B, and the way back gives null. *)
Theorem C123_virtual_base_and_back_refuted : exists h m d b a a',
  lawful h m /\ derives h d b = true /\ has_base h m d a b a' /\
  pointer_cast h 8 m (P no_cv (Class d)) (P no_cv (Class b)) a = Some a' /\ pointer_cast h 8 m (P no_cv (Class b)) (P no_cv (Class d)) a' = Some 0.
Proof.
  exists classes, objects, 1%nat, 0%nat, 1016, 1032. split; [exact classes_lawful|]. split; [easy|]. split; [|split; reflexivity].
  exists (1000, 5%nat), 16, 32. cbn. intuition.
Qed.
Print Assumptions C123_virtual_base_and_back_refuted.

(** Null stays null. *)
Theorem C123_null : forall h ptr m, lawful h m -> 0 < ptr -> forall from to, proper from -> proper to -> sensible h ptr from to ->
  (forall i, from = I i -> is_intptr i = true -> bytes i = ptr) -> pointer_cast h ptr m from to 0 = Some 0.
Proof.
  intros h ptr m L P0 from to W1 W2 Ok Ip. destruct from as [q1 s | i |], to as [q2 t | j |]; try contradiction; try (exfalso; destruct s; exact Ok).
  - rewrite (cast_value h ptr m L) by easy. destruct s as [| | c | |]; try easy. destruct t as [| | d | |]; try easy. cbn [cast_address].
    unfold upcast, dynamic, downcast. cbn. destruct (Nat.eqb c d); [easy|]. destruct (derives h c d); [easy|]. destruct (derives h d c); [|easy]. now destruct (polymorphic h c).
  - assert (B : ptr <= bytes j) by (destruct s; exact Ok). rewrite to_int_value by (try easy; apply pow_pos2).
    f_equal. unfold convert_int, sign_extend. destruct (_ <=? _) eqn:E; [apply N.mod_0_l; pose proof (pow_pos2 (8 * bytes j)); lia|]. destruct (is_signed j); [|easy].
    assert (G : (2 ^ (8 * ptr - 1) <=? 0) = false) by (apply N.leb_gt, pow_pos2). now rewrite G.
  - rewrite from_int_value by (try easy; auto; apply pow_pos2). reflexivity.
  - easy.
  - cbn [sensible] in Ok. unfold pointer_cast. cbn [plan]. now rewrite (proj2 (N.leb_le _ _) Ok).
Qed.
Print Assumptions C123_null.

(** Between types that are not base and derived class the address stays. *)
Theorem C123_address : forall h ptr m, lawful h m -> forall q1 q2 s t x, proper (P q1 s) -> proper (P q2 t) -> sensible h ptr (P q1 s) (P q2 t) ->
  ~ related h s t -> pointer_cast h ptr m (P q1 s) (P q2 t) x = Some x.
Proof.
  intros h ptr m L q1 q2 s t x W1 W2 Ok Nr. rewrite (cast_value h ptr m L) by easy. destruct s as [| | c | |]; try easy. destruct t as [| | d | |]; try easy.
  cbn [cast_address related] in *. destruct (Nat.eqb c d); [easy|]. destruct (derives h c d); [tauto|]. destruct (derives h d c); [tauto | easy].
Qed.
Print Assumptions C123_address.

(** Through [void*], or any type that is not a relative, and back: the same pointer. *)
Theorem C123_there_and_back : forall h ptr m, lawful h m -> forall q1 q2 s t x, proper (P q1 s) -> proper (P q2 t) ->
  sensible h ptr (P q1 s) (P q2 t) -> ~ related h s t ->
  pointer_cast h ptr m (P q1 s) (P q2 t) x = Some x /\ pointer_cast h ptr m (P q2 t) (P q1 s) x = Some x.
Proof.
  intros h ptr m L q1 q2 s t x W1 W2 Ok Nr. split; [now apply C123_address|]. apply C123_address; auto.
  - destruct s as [| | c | i a |], t as [| | d | j b |]; cbn [sensible related] in *; try easy; try (symmetry; assumption); tauto.
  - destruct s, t; cbn [related] in *; tauto.
Qed.
Print Assumptions C123_there_and_back.

(** To an integer: the address as a number, signed or not as the type is; and back. *)
Theorem C123_to_integer : forall h ptr m, 0 < ptr -> forall q t i a, ptr <= bytes i -> a < 2 ^ (8 * ptr) ->
  exists n, pointer_cast h ptr m (P q t) (I i) a = Some n /\ n < 2 ^ (8 * bytes i) /\
    number i n = (if is_signed i then as_signed (8 * ptr) a else Z.of_N a).
Proof.
  intros h ptr m P0 q t i a B A. eexists. split; [now apply to_int_value|]. split; [apply extend_bound; lia|].
  unfold number. destruct (is_signed i); [apply extend_signed; lia|]. unfold convert_int. destruct (_ <=? _) eqn:E; [|easy].
  apply N.leb_le in E. f_equal. apply N.mod_small. replace (bytes i) with ptr by lia. easy.
Qed.
Print Assumptions C123_to_integer.

Theorem C123_integer_and_back : forall h ptr m, 0 < ptr -> forall q t q' t' i a, ptr <= bytes i -> (is_intptr i = true -> bytes i = ptr) -> a < 2 ^ (8 * ptr) ->
  exists n, pointer_cast h ptr m (P q t) (I i) a = Some n /\ pointer_cast h ptr m (I i) (P q' t') n = Some a.
Proof.
  intros h ptr m P0 q t q' t' i a B Ip A. eexists. split; [now apply to_int_value|].
  rewrite from_int_value by (auto; apply extend_bound; lia). f_equal. apply extend_mod; [lia | easy].
Qed.
Print Assumptions C123_integer_and_back.

(** From an integer: the low bytes. From a type of the size of a pointer and back: the same number. *)
Theorem C123_from_integer : forall h ptr m, 0 < ptr -> forall q t i n, ptr <= bytes i -> (is_intptr i = true -> bytes i = ptr) -> n < 2 ^ (8 * bytes i) ->
  pointer_cast h ptr m (I i) (P q t) n = Some (n mod 2 ^ (8 * ptr)) /\
  (bytes i = ptr -> pointer_cast h ptr m (I i) (P q t) n = Some n /\ pointer_cast h ptr m (P q t) (I i) n = Some n).
Proof.
  intros h ptr m P0 q t i n B Ip A. split; [now apply from_int_value|]. intros E. rewrite from_int_value by auto. rewrite E in A.
  split; [f_equal; now apply N.mod_small|]. rewrite to_int_value by auto. f_equal. unfold convert_int. rewrite E, N.leb_refl. now apply N.mod_small.
Qed.
Print Assumptions C123_from_integer.

(** What the fallback means: through [void*] a base is not found, and neither is the other base of an object; the address stays
    although the object has its base elsewhere. *)
Theorem C123_base_through_void_refuted : exists h m d b a a', lawful h m /\ has_base h m d a b a' /\ a <> a' /\
  pointer_cast h 8 m (P no_cv (Class d)) (P no_cv Void) a = Some a /\ pointer_cast h 8 m (P no_cv Void) (P no_cv (Class b)) a = Some a.
Proof.
  exists classes, objects, 8%nat, 7%nat, 2000, 2004. split; [exact classes_lawful|]. split; [exists (2000, 8%nat), 0, 4; cbn; intuition|].
  split; [easy|]. split; reflexivity.
Qed.
Print Assumptions C123_base_through_void_refuted.
Theorem C123_other_base_refuted : exists h m c d k a1 a2 a, lawful h m /\ polymorphic h c = true /\ polymorphic h d = true /\
  has_base h m k a c a1 /\ has_base h m k a d a2 /\ a1 <> a2 /\ pointer_cast h 8 m (P no_cv (Class c)) (P no_cv (Class d)) a1 = Some a1.
Proof.
  exists classes, objects, 3%nat, 4%nat, 5%nat, 1000, 1016, 1000. split; [exact classes_lawful|]. do 2 (split; [easy|]).
  split; [exists (1000, 5%nat), 0, 0; cbn; intuition|]. split; [exists (1000, 5%nat), 0, 16; cbn; intuition|]. split; [easy | reflexivity].
Qed.
Print Assumptions C123_other_base_refuted.

(** Witnesses: the F in the M to its B and to its D, B to M; Z to Y and back; a Y that is no Z; a signed 128-bit integer. *)
Example C123_witness :
  has_base classes objects 4 1016 0 1032 /\ pointer_cast classes 8 objects (P (Cv true false) (Class 4)) (P no_cv (Class 0)) 1016 = Some 1032 /\
  pointer_cast classes 8 objects (P no_cv (Class 4)) (P no_cv (Class 1)) 1016 = Some 1016 /\
  pointer_cast classes 8 objects (P no_cv (Class 0)) (P (Cv false true) (Class 5)) 1032 = Some 1000 /\
  pointer_cast classes 8 objects (P no_cv (Class 0)) (P no_cv (Class 4)) 1032 = Some 1016 /\
  pointer_cast classes 8 objects (P no_cv (Class 8)) (P no_cv (Class 7)) 2000 = Some 2004 /\
  pointer_cast classes 8 objects (P no_cv (Class 7)) (P no_cv (Class 8)) 2004 = Some 2000 /\
  pointer_cast classes 8 objects (P no_cv (Class 7)) (P no_cv (Class 8)) 3000 = None /\
  pointer_cast classes 8 objects (P no_cv (Class 7)) (I (Int 16 true true false)) (2 ^ 64 - 16) = Some (2 ^ 128 - 16) /\
  pointer_cast classes 8 objects (I (Int 16 true true false)) (P no_cv (Class 7)) (2 ^ 128 - 16) = Some (2 ^ 64 - 16).
Proof. split; [exists (1000, 5%nat), 16, 32; cbn; intuition|]. vm_compute. repeat split. Qed.
