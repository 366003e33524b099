(** Which casts compile, and what they compute for objects and integers. *)
From Verif Require Import Words PcastModel PcastSpec PcastProofs.
Import ListNotations.
Local Open Scope N_scope.

Definition compiles (h : hierarchy) (ptr : N) (from to : ptype) : Prop :=
  exists l, plan h ptr from to = Casts l /\ typed h ptr from l = Some to.

Lemma outcome_same h n q1 q2 t : is_function t = false -> exists l, plan_ptr h (S n) q1 t q2 t = Casts l.
Proof. intros F. destruct (same_does h 8 [] n q1 q2 t F) as (l & E & _). now exists l. Qed.

(* ------------------------------------------------------------ what compiles *)
Section Compile.
  Context (h : hierarchy) (ptr : N).
  Hypothesis Acyclic : forall c d, derives h c d = true -> derives h d c = false.

  Lemma ptr_does m q1 q2 s t : proper (P q1 s) -> proper (P q2 t) -> sensible h ptr (P q1 s) (P q2 t) ->
    does h ptr m (P q1 s) (P q2 t) (cast_address h m s t) (plan h ptr (P q1 s) (P q2 t)).
  Proof using All.
    intros W1 W2 Ok. cbn [plan]. destruct (is_function s) eqn:Fs.
    { eapply does_ext; [| apply function_does; [now rewrite Fs | easy | easy | exact Ok]]. intros x. now destruct s. }
    destruct (is_function t) eqn:Ft.
    { eapply does_ext; [| apply function_does; [now rewrite Ft, Bool.orb_true_r | easy | easy | exact Ok]]. intros x. now destruct s, t. }
    now apply object_does.
  Qed.

  Lemma sensible_compiles from to : proper from -> proper to -> sensible h ptr from to -> compiles h ptr from to.
  Proof using All.
    intros W1 W2 Ok. destruct from as [q1 s | i |], to as [q2 t | j |]; try contradiction; try (exfalso; destruct s; exact Ok).
    - destruct (ptr_does [] q1 q2 s t W1 W2 Ok) as (l & E & T & _). now exists l.
    - cbn [sensible] in Ok. assert (B : (ptr <=? bytes j) = true) by (apply N.leb_le; try destruct s; exact Ok). unfold compiles. cbn [plan]. rewrite B. cbn [negb].
      destruct (is_enum j) eqn:En; cbn [orb].
      { eexists; split; [reflexivity|]. cbn [typed allowed intptr bytes is_enum negb andb option_bind]. now rewrite N.leb_refl. }
      destruct (ptr <? bytes j) eqn:L.
      { eexists; split; [reflexivity|]. cbn [typed allowed intptr bytes is_enum negb andb option_bind]. now rewrite N.leb_refl. }
      eexists; split; [reflexivity|]. cbn [typed allowed option_bind]. rewrite B, En. now destruct j.
    - cbn [sensible] in Ok. assert (B : (ptr <=? bytes i) = true) by (apply N.leb_le; try destruct s; exact Ok). unfold compiles. cbn [plan]. rewrite B. cbn [negb].
      destruct (is_enum i); cbn [app]; eexists; (split; [reflexivity|]); destruct (is_intptr _); easy.
    - eexists; split; [reflexivity|]. easy.
    - cbn [sensible] in Ok. assert (B : (ptr <=? bytes j) = true) by (apply N.leb_le; try destruct s; exact Ok). unfold compiles. cbn [plan]. rewrite B.
      eexists; split; [reflexivity|]. easy.
  Qed.

  Lemma and_then_first s o l : and_then (Casts [s]) o = Casts l -> exists k, l = s :: k.
  Proof using. destruct o as [k| |]; cbn [and_then app]; try discriminate. intros [= <-]. now exists k. Qed.

  Lemma compiles_sensible from to : compiles h ptr from to -> sensible h ptr from to.
  Proof using All.
    intros (l & E & T). destruct from as [q1 s | i |], to as [q2 t | j |]; try easy.
    - cbn [plan] in E. remember 3%nat as n. destruct s as [| k | c | fi a | q s'], t as [| k' | d | fj b | q' t']; try easy.
      + cbn [plan_ptr ty_eqb is_function is_void] in E. rewrite Bool.andb_false_r in E. cbn [orb andb] in E. discriminate E.
      + cbn [sensible]. assert (Ne : c <> d -> Nat.eqb c d = false) by apply Nat.eqb_neq. split.
        * intros Up La. assert (Ncd : c <> d) by (intros <-; specialize (Acyclic _ _ Up); congruence). specialize (Ne Ncd).
          cbn [plan_ptr ty_eqb is_function is_void inherits_from] in E. rewrite Ne, Bool.andb_false_r, Up in E. cbn [orb andb] in E.
          apply and_then_first in E as (k & ->). cbn [typed allowed static_ok] in T. rewrite cv_le_refl, Ne, Up, La, (Acyclic _ _ Up) in T. discriminate T.
        * intros Dn. destruct (polymorphic h c) eqn:Po; [now left | right].
          assert (Ncd : c <> d) by (intros <-; specialize (Acyclic _ _ Dn); congruence). specialize (Ne Ncd).
          cbn [plan_ptr ty_eqb is_function is_void inherits_from] in E. rewrite Ne, Bool.andb_false_r, (Acyclic _ _ Dn), Dn, Po in E. cbn [orb andb] in E.
          apply and_then_first in E as (k & ->). cbn [typed allowed static_ok] in T. rewrite cv_le_refl, Ne, Dn, (Acyclic _ _ Dn) in T.
          destruct (link_of h d c) as [x| |]; [now exists x | discriminate T | discriminate T].
      + cbn [plan_ptr ty_eqb is_function is_void] in E. rewrite Bool.andb_false_r in E. cbn [orb andb] in E. discriminate E.
      + cbn [plan_ptr ty_eqb is_function is_void] in E. rewrite Bool.andb_false_r in E. cbn [orb andb] in E. discriminate E.
      + cbn [plan_ptr ty_eqb is_function is_void] in E. rewrite Bool.andb_false_r in E. cbn [orb andb] in E. discriminate E.
      + cbn [sensible]. cbn [plan_ptr ty_eqb is_function is_void remove_noexcept] in E. destruct (Nat.eqb fi fj) eqn:Ef; [now apply Nat.eqb_eq in Ef|].
        cbn [andb] in E. rewrite Bool.andb_false_r in E. cbn [orb andb] in E. discriminate E.
      + cbn [plan_ptr ty_eqb is_function is_void] in E. rewrite Bool.andb_false_r in E. cbn [orb andb] in E. discriminate E.
      + cbn [plan_ptr ty_eqb is_function is_void] in E. rewrite Bool.andb_false_r in E. cbn [orb andb] in E. discriminate E.
    - cbn [plan] in E. cbn [sensible]. destruct (ptr <=? bytes j) eqn:B; [apply N.leb_le in B; now destruct s|]. discriminate E.
    - cbn [plan] in E. cbn [sensible]. destruct (ptr <=? bytes i) eqn:B; [now apply N.leb_le in B|]. discriminate E.
    - cbn [plan] in E. cbn [sensible]. destruct (ptr <=? bytes j) eqn:B; [now apply N.leb_le in B|]. discriminate E.
  Qed.
End Compile.

(** No recursion without end, whatever the types. *)
Lemma and_then_ends a b : a <> Endless -> b <> Endless -> and_then a b <> Endless.
Proof. destruct a, b; cbn; congruence. Qed.
Lemma same_ends h n q1 q2 t : plan_ptr h (S n) q1 t q2 t <> Endless.
Proof.
  cbn [plan_ptr]. rewrite ty_eqb_refl, Bool.andb_true_r. destruct (cv_eqb q1 q2); [easy|]. destruct (is_cv q1); [easy|].
  now destruct (_ || _ || _).
Qed.
Lemma void_ends h n q1 q2 t : plan_ptr h (S (S n)) q1 Void q2 t <> Endless.
Proof.
  destruct (ty_eqb Void t) eqn:E; [apply ty_eqb_spec in E as <-; apply same_ends|].
  remember (S n) as k. cbn [plan_ptr]. rewrite E, Bool.andb_false_r. cbn [is_function is_void orb andb]. subst k. destruct (is_function t); cbn [andb].
  - apply and_then_ends; [apply same_ends | easy].
  - apply and_then_ends; [easy | apply same_ends].
Qed.
Lemma to_void_ends h n q1 q2 s : plan_ptr h (S (S n)) q1 s q2 Void <> Endless.
Proof.
  destruct (ty_eqb s Void) eqn:E; [apply ty_eqb_spec in E as ->; apply same_ends|].
  remember (S n) as k. cbn [plan_ptr]. rewrite E, Bool.andb_false_r. cbn [is_function is_void orb andb]. rewrite Bool.orb_true_r. subst k.
  destruct (is_function s); cbn [andb orb]; [easy|]. apply and_then_ends; [easy | apply same_ends].
Qed.
Lemma plan_ends h ptr from to : plan h ptr from to <> Endless.
Proof.
  destruct from as [q1 s | i |], to as [q2 t | j |]; cbn [plan]; try easy.
  - remember 3%nat as n. cbn [plan_ptr]. destruct (_ && _); [easy|]. destruct (ty_eqb s t).
    { destruct (is_cv q1); [easy|]. now destruct (_ || _ || _). }
    destruct (is_function s || is_function t).
    { destruct (_ && _).
      { destruct (ty_eqb _ _); [|easy]. now destruct (ty_eqb _ _). }
      destruct (is_function s); [now destruct (is_void t)|]. destruct (is_void s) eqn:V; [|easy].
      destruct s; try discriminate V. subst n. apply and_then_ends; [apply same_ends | easy]. }
    subst n. destruct (_ || _ || _); [apply and_then_ends; [easy | apply same_ends]|].
    destruct (inherits_from h t s).
    { destruct (match s with Class c => polymorphic h c | _ => false end); (apply and_then_ends; [easy | apply same_ends]). }
    destruct (is_pointer s); [apply and_then_ends; [easy | apply void_ends]|].
    destruct (is_pointer t); [apply and_then_ends; [apply to_void_ends | easy]|].
    apply and_then_ends; [easy | apply same_ends].
  - destruct (negb _); [easy|]. now destruct (_ || _).
  - destruct (negb _); [easy|]. destruct (is_enum i); easy.
  - now destruct (_ <=? _).
Qed.

(* ------------------------------------------------------------------ objects *)
Section Objects.
  Context (h : hierarchy) (m : memory) (L : lawful h m).

  Lemma has_part_spec k c o : has_part h k c o = true <-> In (c, o) (parts h k).
  Proof using.
    unfold has_part. rewrite existsb_exists. split.
    - intros ([c' o'] & Hin & Q). cbn in Q. apply andb_prop in Q as [Q1 Q2]. apply Nat.eqb_eq in Q1. apply N.eqb_eq in Q2. now subst.
    - intros Hin. exists (c, o). split; [easy|]. cbn. now rewrite Nat.eqb_refl, N.eqb_refl.
  Qed.
  Lemma locate_some c a e : locate h m c a = Some e -> object_at h m e c a.
  Proof using.
    unfold locate. intros F. apply find_some in F as [Hin Q]. apply andb_prop in Q as [Q1 Q2]. apply N.leb_le in Q1. apply has_part_spec in Q2.
    exists (a - fst e). repeat split; auto. lia.
  Qed.
  Lemma object_locate c a e : object_at h m e c a -> locate h m c a = Some e.
  Proof using L.
    intros Ob. destruct (locate h m c a) as [e'|] eqn:E.
    - apply locate_some in E. f_equal. exact (apart h m L _ _ _ _ E Ob).
    - exfalso. unfold locate in E. destruct Ob as (o & Hin & Hp & ->). pose proof (find_none _ _ E _ Hin) as Q. cbn beta in Q.
      replace (fst e + o - fst e) with o in Q by lia. apply has_part_spec in Hp. rewrite Hp in Q.
      assert (G : (fst e <=? fst e + o) = true) by (apply N.leb_le; lia). now rewrite G in Q.
  Qed.
  Lemma bases_in_spec k p b o : In o (bases_in h k p b) <-> In (b, o) (within h k p).
  Proof using.
    unfold bases_in. rewrite in_map_iff. split.
    - intros ([b' o'] & <- & Hin). apply filter_In in Hin as [Hin Q]. apply Nat.eqb_eq in Q. cbn in Q. now subst b'.
    - intros Hin. exists (b, o). split; [easy|]. apply filter_In. split; [easy|]. cbn. apply Nat.eqb_refl.
  Qed.

  Lemma object_nonnull e c a : object_at h m e c a -> a <> 0.
  Proof using L. intros (o & Hin & _ & ->). pose proof (not_null h m L e Hin). lia. Qed.
  Lemma has_base_object d a b a' : has_base h m d a b a' -> exists e, object_at h m e d a /\ object_at h m e b a'.
  Proof using L.
    intros (e & o & o' & Hin & Hd & Hb & -> & ->). exists e. split; [now exists o | exists o'].
    repeat split; auto. now apply (inside h m L) with (d, o).
  Qed.

  Lemma upcast_base d b a a' : derives h d b = true -> link_of h d b <> Ambiguous -> has_base h m d a b a' -> upcast h m d b a = Some a'.
  Proof using L.
    intros D K Hb. pose proof (has_base_object _ _ _ _ Hb) as (e0 & Od & _). pose proof (object_nonnull _ _ _ Od) as Nz. clear e0 Od.
    destruct Hb as (e & o & o' & Hin & Hd & Hw & Ea & Ea'). apply bases_in_spec in Hw.
    unfold upcast. rewrite (proj2 (N.eqb_neq a 0) Nz). destruct (link_of h d b) as [x| |] eqn:Lk; [| |congruence].
    - rewrite (fixed_base h m L _ _ _ _ _ D Lk Hd) in Hw. destruct Hw as [<-|[]]. subst. f_equal. lia.
    - assert (Loc : locate h m d a = Some e) by (apply object_locate; now exists o). rewrite Loc. cbn [option_bind].
      replace (a - fst e) with o by lia. destruct (virtual_base h m L _ _ _ _ D Lk Hd) as [o2 E2]. rewrite E2 in *. destruct Hw as [<-|[]]. now subst.
  Qed.

  Lemma upcast_unique d b a a1 a2 : derives h d b = true -> link_of h d b <> Ambiguous -> has_base h m d a b a1 -> has_base h m d a b a2 -> a1 = a2.
  Proof using L. intros D K H1 H2. pose proof (upcast_base _ _ _ _ D K H1). pose proof (upcast_base _ _ _ _ D K H2). congruence. Qed.

  Lemma fixed_has_base d b x a e : derives h d b = true -> link_of h d b = Fixed x -> object_at h m e d a -> has_base h m d a b (a + x).
  Proof using L.
    intros D Lk (o & Hin & Hd & ->). exists e, o, (o + x). repeat split; auto; [|lia].
    apply bases_in_spec. rewrite (fixed_base h m L _ _ _ _ _ D Lk Hd). now left.
  Qed.
  Lemma fixed_inverse d b x a a' : derives h d b = true -> link_of h d b = Fixed x -> has_base h m d a b a' -> a' = a + x.
  Proof using L.
    intros D Lk (e & o & o' & Hin & Hd & Hw & -> & ->). apply bases_in_spec in Hw. rewrite (fixed_base h m L _ _ _ _ _ D Lk Hd) in Hw.
    destruct Hw as [<-|[]]. lia.
  Qed.

  Lemma downcast_object d b x a a' : derives h d b = true -> link_of h d b = Fixed x -> has_base h m d a b a' -> downcast h m b d a' = Some a.
  Proof using L.
    intros D Lk Hb. pose proof (has_base_object _ _ _ _ Hb) as (e & Od & Ob). pose proof (object_nonnull _ _ _ Ob) as Nz.
    pose proof (fixed_inverse _ _ _ _ _ D Lk Hb) as ->. unfold downcast. rewrite (proj2 (N.eqb_neq _ 0) Nz), Lk.
    assert (G : (x <=? a + x) = true) by (apply N.leb_le; lia). rewrite G. replace (a + x - x) with a by lia. now rewrite (object_locate _ _ _ Od).
  Qed.
  Lemma downcast_wrong d b x a' : derives h d b = true -> link_of h d b = Fixed x -> a' <> 0 -> (forall a, ~ has_base h m d a b a') -> downcast h m b d a' = None.
  Proof using L.
    intros D Lk Nz No. unfold downcast. rewrite (proj2 (N.eqb_neq _ 0) Nz), Lk. destruct (x <=? a') eqn:G; [|easy]. apply N.leb_le in G.
    destruct (locate h m d (a' - x)) as [e|] eqn:E; [|easy]. exfalso. apply locate_some in E. apply (No (a' - x)).
    pose proof (fixed_has_base _ _ _ _ _ D Lk E) as Q. now replace (a' - x + x) with a' in Q by lia.
  Qed.

  (** Lists with exactly one element of a kind. *)
  Lemma single_list (l : list N) o : NoDup l -> In o l -> (forall o', In o' l -> o' = o) -> l = [o].
  Proof using.
    intros Nd Hin U. destruct l as [| y [| z r]]; [contradiction | f_equal; apply U; now left |].
    exfalso. assert (y = o) by (apply U; now left). assert (z = o) by (apply U; right; now left). subst. inversion Nd as [| ? ? Q]. apply Q. now left.
  Qed.
  Lemma nodup_offsets (f : nat * N -> bool) c l : NoDup l -> (forall p, f p = true -> fst p = c) -> NoDup (map snd (filter f l)).
  Proof using.
    intros Nd Fc. induction Nd as [| p r Q Nd IH]; cbn [filter map]; [constructor|].
    destruct (f p) eqn:E; [|easy]. cbn [map]. constructor; [|easy]. intros Hin. apply in_map_iff in Hin as (p' & Es & Hin). apply filter_In in Hin as [Hin E'].
    apply Q. replace p with p'; [easy|]. apply Fc in E. apply Fc in E'. destruct p, p'. cbn in *. now subst.
  Qed.

  Lemma owners_spec k d b o x : In x (owners h k d b o) <-> In (d, x) (parts h k) /\ In (b, o) (within h k (d, x)).
  Proof using.
    unfold owners. rewrite in_map_iff. split.
    - intros ([d' x'] & <- & Hin). apply filter_In in Hin as [Hin Q]. cbn in Q. apply andb_prop in Q as [Q1 Q2]. apply Nat.eqb_eq in Q1. subst d'. split; [easy|].
      apply existsb_exists in Q2 as (o' & Q2 & Q3). apply N.eqb_eq in Q3 as <-. now apply bases_in_spec.
    - intros [Hd Hb]. exists (d, x). split; [easy|]. apply filter_In. split; [easy|]. cbn [fst]. rewrite Nat.eqb_refl. cbn [andb].
      apply existsb_exists. exists o. split; [now apply bases_in_spec | apply N.eqb_refl].
  Qed.
  Lemma owners_nodup k d b o : NoDup (owners h k d b o).
  Proof using L. apply nodup_offsets with d; [apply (once h m L)|]. intros p Q. apply andb_prop in Q as [Q _]. now apply Nat.eqb_eq. Qed.

  Lemma owner_base e d b a' x : object_at h m e b a' -> In x (owners h (snd e) d b (a' - fst e)) <-> has_base h m d (fst e + x) b a' /\ In (d, x) (parts h (snd e)).
  Proof using L.
    intros Ob. rewrite owners_spec. pose proof Ob as (o & Hin & Hp & ->). replace (fst e + o - fst e) with o by lia. split.
    - intros [Hd Hb]. split; [|easy]. now exists e, x, o.
    - intros [(e' & x' & o' & Hin' & Hd' & Hw' & E1 & E2) Hd]. split; [easy|].
      assert (e' = e). { apply (apart h m L e' e b (fst e + o)); [|easy]. exists o'. repeat split; auto. now apply (inside h m L) with (d, x'). }
      subst e'. assert (x' = x) by lia. assert (o' = o) by lia. now subst.
  Qed.
  Lemma base_owner e d b a a' : object_at h m e b a' -> has_base h m d a b a' -> exists x, a = fst e + x /\ In (d, x) (parts h (snd e)).
  Proof using L.
    intros Ob (e' & x' & o' & Hin' & Hd' & Hw' & E1 & E2). exists x'.
    assert (e' = e). { apply (apart h m L e' e b a'); [|easy]. exists o'. repeat split; auto. now apply (inside h m L) with (d, x'). }
    now subst e'.
  Qed.

  Lemma dynamic_owner e d b a a' : object_at h m e b a' -> has_base h m d a b a' -> (forall a2, has_base h m d a2 b a' -> a2 = a) -> dynamic h m b d a' = Some a.
  Proof using L.
    intros Ob Hb U. unfold dynamic. rewrite (proj2 (N.eqb_neq _ 0) (object_nonnull _ _ _ Ob)), (object_locate _ _ _ Ob). cbn [option_bind].
    destruct (base_owner _ _ _ _ _ Ob Hb) as (x & -> & Hx).
    assert (S1 : owners h (snd e) d b (a' - fst e) = [x]).
    { apply single_list; [apply owners_nodup | now apply owner_base |]. intros y Hy. apply owner_base in Hy as [Hy _]; [|easy]. apply U in Hy. lia. }
    now rewrite S1.
  Qed.

  Lemma d_parts_spec k d o : In o (map snd (filter (fun x => Nat.eqb (fst x) d) (parts h k))) <-> In (d, o) (parts h k).
  Proof using.
    rewrite in_map_iff. split.
    - intros ([d' x'] & <- & Hin). apply filter_In in Hin as [Hin Q]. apply Nat.eqb_eq in Q. cbn in Q. now subst d'.
    - intros Hd. exists (d, o). split; [easy|]. apply filter_In. split; [easy|]. apply Nat.eqb_refl.
  Qed.

  (** The rest: no single [d] around the [b]. Then the only [d] of the complete object, or null. *)
  Lemma dynamic_side e d b a a' : object_at h m e b a' -> (forall a1, ~ has_base h m d a1 b a') ->
    object_at h m e d a -> (forall a2, object_at h m e d a2 -> a2 = a) -> dynamic h m b d a' = Some a.
  Proof using L.
    intros Ob No (o & Hin & Hd & ->) U. unfold dynamic. rewrite (proj2 (N.eqb_neq _ 0) (object_nonnull _ _ _ Ob)), (object_locate _ _ _ Ob). cbn [option_bind].
    destruct (owners h (snd e) d b (a' - fst e)) as [| y r] eqn:E.
    2: { exfalso. assert (Hy : In y (owners h (snd e) d b (a' - fst e))) by (rewrite E; now left). apply owner_base in Hy as [Hy _]; [|easy]. now apply (No (fst e + y)). }
    assert (S1 : map snd (filter (fun x => Nat.eqb (fst x) d) (parts h (snd e))) = [o]).
    { apply single_list; [apply nodup_offsets with d; [apply (once h m L) | intros p; apply Nat.eqb_eq] | now apply d_parts_spec |].
      intros y Hy. apply d_parts_spec in Hy. assert (Q : fst e + y = fst e + o) by (apply U; now exists y). lia. }
    destruct (filter _ _) as [| [d' o'] [| ]]; try discriminate S1. cbn in S1. injection S1 as ->. easy.
  Qed.
  Lemma dynamic_several e d b a' a1 a2 : object_at h m e b a' -> object_at h m e d a1 -> object_at h m e d a2 -> a1 <> a2 ->
    (forall a, has_base h m d a b a' -> exists a3, a3 <> a /\ has_base h m d a3 b a') -> dynamic h m b d a' = Some 0.
  Proof using L.
    intros Ob (o1 & _ & P1 & ->) (o2 & _ & P2 & ->) Ne Several. unfold dynamic. rewrite (proj2 (N.eqb_neq _ 0) (object_nonnull _ _ _ Ob)), (object_locate _ _ _ Ob). cbn [option_bind].
    assert (D2 : match filter (fun x => Nat.eqb (fst x) d) (parts h (snd e)) with [(_, o)] => fst e + o | _ => 0 end = 0).
    { apply d_parts_spec in P1. apply d_parts_spec in P2. destruct (filter _ _) as [| [d' o'] [|? ?]]; [easy | | now destruct d'].
      cbn in P1, P2. destruct P1 as [<-|[]], P2 as [<-|[]]. now destruct Ne. }
    destruct (owners h (snd e) d b (a' - fst e)) as [| y [| z r]] eqn:E; [now rewrite D2 | | now rewrite D2].
    exfalso. assert (Hy : In y (owners h (snd e) d b (a' - fst e))) by (rewrite E; now left). apply owner_base in Hy as [Hy _]; [|easy].
    destruct (Several _ Hy) as (a3 & N3 & H3). destruct (base_owner _ _ _ _ _ Ob H3) as (w & -> & Hw).
    assert (Iw : In w (owners h (snd e) d b (a' - fst e))) by (apply owner_base; auto). rewrite E in Iw. destruct Iw as [<-|[]]. now destruct N3.
  Qed.
  Lemma dynamic_none e d b a' : object_at h m e b a' -> (forall a, ~ object_at h m e d a) -> dynamic h m b d a' = Some 0.
  Proof using L.
    intros Ob No. unfold dynamic. rewrite (proj2 (N.eqb_neq _ 0) (object_nonnull _ _ _ Ob)), (object_locate _ _ _ Ob). cbn [option_bind].
    pose proof Ob as (o & Hin & _ & _).
    assert (E1 : owners h (snd e) d b (a' - fst e) = []).
    { destruct (owners h (snd e) d b (a' - fst e)) as [| y r] eqn:E; [easy|]. exfalso. assert (Hy : In y (owners h (snd e) d b (a' - fst e))) by (rewrite E; now left).
      apply owner_base in Hy as [_ Hy]; [|easy]. apply (No (fst e + y)). now exists y. }
    rewrite E1. destruct (filter _ (parts h (snd e))) as [| [d' o'] [| ]] eqn:E; [easy | | now destruct d'].
    exfalso. assert (Hy : In (d', o') (filter (fun x => Nat.eqb (fst x) d) (parts h (snd e)))) by (rewrite E; now left). apply filter_In in Hy as [Hy Q]. apply Nat.eqb_eq in Q. cbn in Q. subst d'.
    apply (No (fst e + o')). now exists o'.
  Qed.
End Objects.

(* ----------------------------------------------------------------- integers *)
Lemma pow_split w1 w2 : w1 <= w2 -> 2 ^ w2 = 2 ^ (w2 - w1) * 2 ^ w1.
Proof. intros. rewrite <- N.pow_add_r. f_equal. lia. Qed.
Lemma pow_pos2 w : 0 < 2 ^ w.
Proof. apply N.neq_0_lt_0, N.pow_nonzero. lia. Qed.

Lemma extend_mod s w1 w2 n : w1 <= w2 -> n < 2 ^ w1 -> convert_int s w1 w2 n mod 2 ^ w1 = n.
Proof.
  intros W B. unfold convert_int. destruct (w2 <=? w1) eqn:E.
  { apply N.leb_le in E. replace w2 with w1 by lia. rewrite N.mod_mod by (pose proof (pow_pos2 w1); lia). now apply N.mod_small. }
  destruct s; [|now apply N.mod_small]. unfold sign_extend. destruct (_ <=? n); [|now apply N.mod_small].
  rewrite (pow_split w1 w2 W). replace (n + _) with (n + (2 ^ (w2 - w1) - 1) * 2 ^ w1) by (pose proof (pow_pos2 (w2 - w1)); nia).
  rewrite N.mod_add by (pose proof (pow_pos2 w1); lia). now apply N.mod_small.
Qed.
Lemma extend_bound s w1 w2 n : w1 <= w2 -> n < 2 ^ w1 -> convert_int s w1 w2 n < 2 ^ w2.
Proof.
  intros W B. assert (2 ^ w1 <= 2 ^ w2) by (apply N.pow_le_mono_r; lia). unfold convert_int. destruct (w2 <=? w1) eqn:E.
  { apply N.mod_lt. pose proof (pow_pos2 w2); lia. }
  destruct s; [|lia]. unfold sign_extend. destruct (_ <=? n); lia.
Qed.
Lemma extend_signed w1 w2 n : 0 < w1 -> w1 <= w2 -> n < 2 ^ w1 -> as_signed w2 (convert_int true w1 w2 n) = as_signed w1 n.
Proof.
  intros P W B. unfold convert_int. destruct (w2 <=? w1) eqn:E.
  { apply N.leb_le in E. replace w2 with w1 by lia. now rewrite N.mod_small. }
  apply N.leb_gt in E. unfold sign_extend, as_signed.
  assert (D1 : 2 ^ w1 = 2 * 2 ^ (w1 - 1)) by (rewrite <- N.pow_succ_r'; f_equal; lia).
  assert (D2 : 2 ^ w2 = 2 * 2 ^ (w2 - 1)) by (rewrite <- N.pow_succ_r'; f_equal; lia).
  assert (M : 2 ^ w1 <= 2 ^ (w2 - 1)) by (apply N.pow_le_mono_r; lia).
  destruct (2 ^ (w1 - 1) <=? n) eqn:G.
  - apply N.leb_le in G. assert (K : (n <? 2 ^ (w1 - 1)) = false) by (apply N.ltb_ge; lia). rewrite K.
    assert (K2 : (n + (2 ^ w2 - 2 ^ w1) <? 2 ^ (w2 - 1)) = false) by (apply N.ltb_ge; lia). rewrite K2. lia.
  - apply N.leb_gt in G. assert (K : (n <? 2 ^ (w1 - 1)) = true) by (apply N.ltb_lt; lia). rewrite K.
    assert (K2 : (n <? 2 ^ (w2 - 1)) = true) by (apply N.ltb_lt; lia). now rewrite K2.
Qed.

Section Ints.
  Context (h : hierarchy) (ptr : N) (m : memory).
  Hypothesis Ptr : 0 < ptr.

  Lemma to_int_value q t i a : ptr <= bytes i -> a < 2 ^ (8 * ptr) ->
    pointer_cast h ptr m (P q t) (I i) a = Some (convert_int (is_signed i) (8 * ptr) (8 * bytes i) a).
  Proof using Ptr.
    intros B A. unfold pointer_cast. cbn [plan]. rewrite (proj2 (N.leb_le _ _) B). cbn [negb].
    destruct (is_enum i) eqn:En; cbn [orb].
    { cbn [run value allowed intptr bytes is_enum negb andb option_bind is_signed]. rewrite N.leb_refl. now destruct t. }
    destruct (ptr <? bytes i) eqn:L.
    { cbn [run value allowed intptr bytes is_enum negb andb option_bind is_signed]. rewrite N.leb_refl. now destruct t. }
    apply N.ltb_ge in L. assert (bytes i = ptr) as E by lia. assert (V : value h ptr m (P q t) (ToInt i) a = Some a) by now destruct t. cbn [run]. rewrite V. cbn [allowed option_bind]. rewrite E, N.leb_refl, En. cbn [negb andb run option_bind].
    unfold convert_int. rewrite N.leb_refl. now rewrite N.mod_small.
  Qed.

  Lemma from_int_value q t i n : ptr <= bytes i -> (is_intptr i = true -> bytes i = ptr) -> n < 2 ^ (8 * bytes i) ->
    pointer_cast h ptr m (I i) (P q t) n = Some (n mod 2 ^ (8 * ptr)).
  Proof using Ptr.
    intros B Ip A. unfold pointer_cast. cbn [plan]. rewrite (proj2 (N.leb_le _ _) B). cbn [negb].
    assert (Nz : 2 ^ (8 * ptr) <> 0) by (pose proof (pow_pos2 (8 * ptr)); lia).
    assert (Red : forall s w, ptr * 8 <= w -> convert_int s w (8 * ptr) n = n mod 2 ^ (8 * ptr)).
    { intros s w W. unfold convert_int. destruct (8 * ptr <=? w) eqn:E; [easy|]. apply N.leb_gt in E. lia. }
    destruct (is_enum i) eqn:En; cbn [is_intptr app].
    - assert (Same : forall s, convert_int s (8 * bytes i) (8 * bytes i) n = n) by (intros; unfold convert_int; rewrite N.leb_refl; now apply N.mod_small).
      destruct (is_intptr i) eqn:Ii; cbn [run value allowed option_bind bytes is_signed intptr]; rewrite Same; [easy|].
      rewrite Red by lia. now rewrite N.mod_mod.
    - destruct (is_intptr i) eqn:Ii; cbn [run value allowed option_bind bytes is_signed intptr]; [easy|].
      rewrite Red by lia. now rewrite N.mod_mod.
  Qed.
End Ints.
