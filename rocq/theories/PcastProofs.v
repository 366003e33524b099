(** Proofs about the choice and the values of pointer_cast. *)
From Verif Require Import Words PcastModel PcastSpec.
Import ListNotations.
Local Open Scope N_scope.

Lemma cv_eqb_spec p q : cv_eqb p q = true <-> p = q.
Proof. destruct p as [[] []], q as [[] []]; cbn; split; intros; congruence. Qed.
Lemma ty_eqb_spec s : forall t, ty_eqb s t = true <-> s = t.
Proof.
  induction s as [| k | c | i a | q s IH]; intros [| k' | c' | j b | q' t]; cbn [ty_eqb]; try (split; intros; congruence).
  - rewrite Nat.eqb_eq. split; intros; congruence.
  - rewrite Nat.eqb_eq. split; intros; congruence.
  - rewrite Bool.andb_true_iff, Nat.eqb_eq, Bool.eqb_true_iff. split; [intros [-> ->]; easy | intros [= -> ->]; easy].
  - rewrite Bool.andb_true_iff, cv_eqb_spec, IH. split; [intros [-> ->]; easy | intros [= -> ->]; easy].
Qed.
Lemma ty_eqb_refl t : ty_eqb t t = true.
Proof. now apply ty_eqb_spec. Qed.
Lemma ty_eqb_neq s t : s <> t -> ty_eqb s t = false.
Proof. intros N. destruct (ty_eqb s t) eqn:E; [apply ty_eqb_spec in E; contradiction | easy]. Qed.
Lemma cv_eqb_refl q : cv_eqb q q = true.
Proof. now apply cv_eqb_spec. Qed.
Lemma cv_le_refl q : cv_le q q = true.
Proof. destruct q as [[] []]; easy. Qed.
Lemma cv_le_none q : cv_le no_cv q = true.
Proof. destruct q as [[] []]; easy. Qed.
Lemma static_refl h q1 q2 t : cv_le q1 q2 = true -> is_function t = false -> static_ok h q1 t q2 t = true.
Proof.
  intros L F. destruct t as [| k | c | i a | q t]; cbn [static_ok is_function] in *; try discriminate; try assumption.
  - now rewrite ty_eqb_refl, L.
  - now rewrite Nat.eqb_refl, L.
  - now rewrite ty_eqb_refl, L.
Qed.
Lemma value_refl h ptr m q1 q2 t x : value h ptr m (P q1 t) (StaticCast q2 t) x = Some x.
Proof. destruct t as [| k | c | i a | q t]; cbn [value]; try easy. now rewrite Nat.eqb_refl. Qed.

(** What is to be shown of each chain of casts: it is allowed, ends in the right type, and computes [f]. *)
Definition does (h : hierarchy) (ptr : N) (m : memory) (from to : ptype) (f : N -> option N) (o : outcome) : Prop :=
  exists l, o = Casts l /\ typed h ptr from l = Some to /\ forall x, run h ptr m from l x = f x.

Section Chains.
  Context (h : hierarchy) (ptr : N) (m : memory).
  Hypothesis Acyclic : forall c d, derives h c d = true -> derives h d c = false.

  Lemma typed_app l : forall from k, typed h ptr from (l ++ k) = match typed h ptr from l with Some p => typed h ptr p k | None => None end.
  Proof using. induction l as [| s l IH]; intros; cbn [typed app]; [easy|]. destruct (allowed h ptr from s); cbn [option_bind]; auto. Qed.
  Lemma run_app l : forall from k x p, typed h ptr from l = Some p ->
    run h ptr m from (l ++ k) x = match run h ptr m from l x with Some y => run h ptr m p k y | None => None end.
  Proof using.
    induction l as [| s l IH]; intros from k x p T; cbn [typed run app] in *; [now injection T as -> |].
    destruct (value h ptr m from s x) as [y|]; [|easy].
    destruct (allowed h ptr from s) as [p'|]; [|discriminate]. now apply IH.
  Qed.

  Lemma does_then from p to f g o1 o2 :
    does h ptr m from p f o1 -> does h ptr m p to g o2 ->
    does h ptr m from to (fun x => match f x with Some y => g y | None => None end) (and_then o1 o2).
  Proof using.
    intros (l & -> & T1 & R1) (k & -> & T2 & R2). exists (l ++ k). split; [easy|].
    rewrite typed_app, T1. split; [easy|]. intros x. rewrite (run_app _ _ _ _ _ T1), R1. now destruct (f x).
  Qed.
  Lemma does_one from to s : allowed h ptr from s = Some to -> does h ptr m from to (value h ptr m from s) (Casts [s]).
  Proof using.
    intros A. exists [s]. split; [easy|]. cbn [typed run]. rewrite A. split; [easy|]. intros x. now destruct (value h ptr m from s x).
  Qed.
  Lemma does_ext from to f g o : (forall x, f x = g x) -> does h ptr m from to f o -> does h ptr m from to g o.
  Proof using. intros E (l & -> & T & R). exists l. repeat split; auto. intros x. now rewrite R. Qed.

  (** Only the qualifiers change. *)
  Lemma same_does n q1 q2 t : is_function t = false -> does h ptr m (P q1 t) (P q2 t) Some (plan_ptr h (S n) q1 t q2 t).
  Proof using.
    intros F. cbn [plan_ptr]. rewrite ty_eqb_refl, Bool.andb_true_r.
    destruct (cv_eqb q1 q2) eqn:E.
    { apply cv_eqb_spec in E as ->. exists []. easy. }
    destruct (is_cv q1) eqn:C.
    - exists [ConstCast no_cv t; StaticCast q2 t]. split; [easy|].
      assert (K : const_ok t t = true) by (unfold const_ok; now rewrite ty_eqb_refl, F).
      assert (S2 : static_ok h no_cv t q2 t = true) by (apply static_refl; [apply cv_le_none | easy]).
      split; [cbn [typed allowed option_bind]; rewrite K; cbn [typed allowed option_bind]; now rewrite S2 |].
      intros x. cbn [run]. assert (V : value h ptr m (P q1 t) (ConstCast no_cv t) x = Some x) by (destruct t; easy).
      rewrite V. cbn [allowed option_bind]. rewrite K. cbn [run option_bind]. rewrite value_refl. cbn [allowed option_bind]. now rewrite S2.
    - assert (Q1 : q1 = no_cv) by (destruct q1 as [[] []]; easy). subst q1.
      assert (G : cv_eqb q2 (Cv true (is_volatile q2)) || cv_eqb q2 (Cv true true) || cv_eqb q2 (Cv (is_const q2) true) = true)
        by (destruct q2 as [[] []]; easy).
      rewrite G. eapply does_ext; [| apply does_one].
      + intros x. cbn beta. apply value_refl.
      + cbn [allowed]. now rewrite static_refl by (try apply cv_le_none; easy).
  Qed.

  Lemma step_same n q1 q2 s t c f : is_function t = false -> allowed h ptr (P q1 s) c = Some (P q1 t) -> (forall x, value h ptr m (P q1 s) c x = f x) ->
    does h ptr m (P q1 s) (P q2 t) f (and_then (Casts [c]) (plan_ptr h (S n) q1 t q2 t)).
  Proof using.
    intros F A V. eapply does_ext; [| eapply does_then; [apply does_one, A | apply same_does, F]].
    intros x. cbn beta. rewrite V. now destruct (f x).
  Qed.

  (** The address after a cast between different pointer types that are not functions. *)
  Definition cast_address (s t : ty) (x : N) : option N :=
    match s, t with
    | Class c, Class d =>
        if Nat.eqb c d then Some x
        else if derives h c d then upcast h m c d x
        else if derives h d c then (if polymorphic h c then dynamic h m c d x else downcast h m c d x)
        else Some x
    | _, _ => Some x
    end.

  Lemma void_does n q1 q2 t : is_function t = false ->
    does h ptr m (P q1 Void) (P q2 t) Some (plan_ptr h (S (S n)) q1 Void q2 t).
  Proof using.
    intros F. destruct (ty_eqb Void t) eqn:E; [apply ty_eqb_spec in E as <-; now apply same_does|].
    remember (S n) as k eqn:Ek. cbn [plan_ptr]. rewrite E, Bool.andb_false_r. cbn [is_function is_void orb]. rewrite F. cbn [orb]. subst k.
    apply step_same; [easy | | easy]. cbn [allowed]. assert (S1 : static_ok h q1 Void q1 t = true) by (destruct t; try discriminate F; apply cv_le_refl). now rewrite S1.
  Qed.
  Lemma to_void_does n q1 q2 s : is_function s = false ->
    does h ptr m (P q1 s) (P q2 Void) Some (plan_ptr h (S (S n)) q1 s q2 Void).
  Proof using.
    intros F. destruct (ty_eqb s Void) eqn:E; [apply ty_eqb_spec in E as ->; now apply same_does|].
    remember (S n) as k eqn:Ek. cbn [plan_ptr]. rewrite E, Bool.andb_false_r. cbn [is_function is_void]. rewrite F, ?Bool.orb_false_r, ?Bool.orb_true_r. cbn [orb]. subst k.
    apply step_same; [easy | |].
    - cbn [allowed]. assert (S1 : static_ok h q1 s q1 Void = true) by (destruct s; try discriminate F; apply cv_le_refl). now rewrite S1.
    - intros x. now destruct s.
  Qed.

  Lemma object_does q1 q2 s t : is_function s = false -> is_function t = false -> sensible h ptr (P q1 s) (P q2 t) ->
    does h ptr m (P q1 s) (P q2 t) (cast_address s t) (plan_ptr h 4 q1 s q2 t).
  Proof using All.
    intros Fs Ft Ok.
    destruct (ty_eqb s t) eqn:E.
    { apply ty_eqb_spec in E as <-. eapply does_ext; [| apply same_does, Fs]. intros x. destruct s; cbn [cast_address]; try easy. now rewrite Nat.eqb_refl. }
    destruct (is_void s) eqn:Vs.
    { destruct s; try discriminate Vs. eapply does_ext; [| apply (void_does 2), Ft]. easy. }
    destruct (is_void t) eqn:Vt.
    { destruct t; try discriminate Vt. eapply does_ext; [| apply (to_void_does 2), Fs]. intros x. now destruct s. }
    remember 3%nat as n eqn:En. cbn [plan_ptr]. rewrite E, Bool.andb_false_r, Fs, Ft, Vs, Vt. cbn [orb].
    destruct (inherits_from h s t) eqn:Up.
    { destruct s as [| | c | |]; try discriminate Up. destruct t as [| | d | |]; try discriminate Up. cbn [inherits_from] in Up.
      assert (Ncd : Nat.eqb c d = false) by (cbn [ty_eqb] in E; exact E).
      subst n. apply step_same; [easy | |].
      - cbn [allowed static_ok]. rewrite cv_le_refl, Up, Ncd. cbn [sensible] in Ok. destruct Ok as [Ok _]. specialize (Ok Up).
        destruct (link_of h c d); [easy | easy | congruence].
      - intros x. cbn [value cast_address]. now rewrite Ncd, Up. }
    destruct (inherits_from h t s) eqn:Down.
    { destruct t as [| | d | |]; try discriminate Down. destruct s as [| | c | |]; try discriminate Down.
      cbn [inherits_from] in Down, Up. assert (Ncd : Nat.eqb c d = false) by (cbn [ty_eqb] in E; exact E).
      cbn [sensible] in Ok. destruct Ok as [_ Ok]. specialize (Ok Down). subst n.
      destruct (polymorphic h c) eqn:Po.
      - apply step_same; [easy | |].
        + cbn [allowed dynamic_ok]. now rewrite cv_le_refl, Down, Po.
        + intros x. cbn [value cast_address]. now rewrite Ncd, Up, Down, Po.
      - apply step_same; [easy | |].
        + cbn [allowed static_ok]. rewrite cv_le_refl, Up, Down, Ncd. destruct Ok as [Ok | [y Ok]]; [discriminate|]. now rewrite Ok.
        + intros x. cbn [value cast_address]. now rewrite Ncd, Up, Down, Po. }
    assert (CA : forall x, cast_address s t x = Some x).
    { intros x. destruct s as [| | c | |]; try easy. destruct t as [| | d | |]; try easy. cbn [cast_address inherits_from] in *.
      rewrite Up, Down. now destruct (Nat.eqb c d). }
    destruct (is_pointer s) eqn:Ps.
    { subst n. eapply does_ext; [| eapply does_then; [apply does_one | apply (void_does 1), Ft]].
      - intros x. cbn beta. destruct s; try discriminate Ps. rewrite CA. easy.
      - destruct s; try discriminate Ps. cbn [allowed static_ok]. now rewrite cv_le_refl. }
    destruct (is_pointer t) eqn:Pt.
    { subst n. eapply does_ext; [| eapply does_then; [apply (to_void_does 1), Fs | apply does_one]].
      - intros x. cbn beta. rewrite CA. easy.
      - destruct t; try discriminate Pt. cbn [allowed static_ok]. now rewrite cv_le_refl. }
    subst n. apply step_same; [easy | |].
    - cbn [allowed]. unfold reinterpret_ok. rewrite Fs, Ft, cv_le_refl, Ps. easy.
    - intros x. rewrite CA. now destruct s.
  Qed.

  Lemma function_does q1 q2 s t : is_function s || is_function t = true -> proper (P q1 s) -> proper (P q2 t) -> sensible h ptr (P q1 s) (P q2 t) ->
    does h ptr m (P q1 s) (P q2 t) Some (plan_ptr h 4 q1 s q2 t).
  Proof using.
    intros F Ws Wt Ok. destruct s as [| k | c | i a | q s'].
    - destruct t as [| | | j b |]; try discriminate F. cbn [proper] in Wt. subst q2.
      remember 3%nat as n. cbn [plan_ptr ty_eqb is_function is_void]. rewrite Bool.andb_false_r. cbn [orb andb]. subst n.
      eapply does_ext; [| eapply does_then; [apply same_does; easy | apply does_one; easy]]. easy.
    - destruct t; try discriminate F. discriminate Ok.
    - destruct t; try discriminate F. discriminate Ok.
    - cbn [proper] in Ws. subst q1. destruct t as [| | | j b |]; try discriminate Ok.
      + remember 3%nat as n. cbn [plan_ptr ty_eqb is_function is_void]. rewrite Bool.andb_false_r. cbn [orb andb].
        exists [ReinterpretCast no_cv Void; StaticCast q2 Void]. split; [easy|]. cbn [typed allowed reinterpret_ok is_function orb option_bind static_ok]. rewrite cv_le_none.
        split; [easy|]. intros x. cbn [run value allowed reinterpret_ok is_function orb option_bind static_ok]. now rewrite cv_le_none.
      + cbn [proper] in Wt. subst q2. cbn [sensible] in Ok. subst j. remember 3%nat as n. cbn [plan_ptr ty_eqb is_function remove_noexcept]. rewrite cv_eqb_refl, Nat.eqb_refl. cbn [andb orb].
        destruct a, b; cbn [Bool.eqb is_cv no_cv is_const is_volatile orb].
        * exists []; easy.
        * eapply does_ext; [| apply does_one]; [easy | cbn [allowed static_ok]; now rewrite Nat.eqb_refl].
        * eapply does_ext; [| apply does_one]; easy.
        * exists []; easy.
    - destruct t; try discriminate F. discriminate Ok.
  Qed.
End Chains.
