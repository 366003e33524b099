(** Lifetimes of tasks. *)
From Coq Require Import ZArith List Bool Arith Lia.
From Verif Require Import TaskModel TaskSpec.
Import ListNotations.
Local Open Scope nat_scope.

Lemma after_app l m : after (l ++ m) = fold_left note m (after l).
Proof. unfold after. apply fold_left_app. Qed.
Lemma sound_snoc n l e : sound n l -> allowed n (after l) e -> sound n (l ++ [e]).
Proof.
  intros S A a x b E. destruct b as [|y b _] using rev_ind.
  - apply app_inj_tail in E. destruct E as [-> ->]. exact A.
  - rewrite app_comm_cons, app_assoc in E. apply app_inj_tail in E. destruct E as [-> _]. now apply (S a x b).
Qed.
Lemma put_same {A} (f : nat -> A) n x : put f n x n = x.
Proof. unfold put. now rewrite Nat.eqb_refl. Qed.
Lemma put_other {A} (f : nat -> A) n x m : m <> n -> put f n x m = f m.
Proof. intros H. unfold put. now apply Nat.eqb_neq in H as ->. Qed.
Lemma same_eq p p' : same p p' = true -> p = p'.
Proof. destruct p, p'; cbn; try discriminate; intros H; apply Nat.eqb_eq in H; congruence. Qed.
Lemma first_split p : forall l a t b, first p l = Some (a, t, b) -> l = a ++ (p, t) :: b.
Proof.
  induction l as [|[p' t'] l IH]; intros a t b; cbn [first]; [discriminate|]. destruct (same p p') eqn:E.
  - intros H. injection H as <- <- <-. apply same_eq in E as ->. reflexivity.
  - destruct (first p l) as [[[a' x] b']|]; [|discriminate]. intros H. injection H as <- <- <-. cbn. f_equal. now apply IH.
Qed.

Definition whos (l : list (place * task)) : list nat := map (fun x => t_who (snd x)) l.
(** What a task in the pool looks like *)
Definition good (g : ledger) (t : task) : Prop := exists r, known g (t_who t) = Some (t_cty t, r) /\ select (t_cty t) r = Some (t_kind t) /\ call_form (t_cty t) <> None /\
  match t_kind t with KStored => exists o, t_object t = Some o /\ live g o = Some (t_who t) | _ => t_object t = None end.
Record inv (n : nat) (s : state) : Prop := {
  i_sound : sound n (trace s);
  i_good : forall p t, In (p, t) (held s) -> good (after (trace s)) t;
  i_nodup : NoDup (whos (held s));
  i_fresh : forall o, objects s <= o -> live (after (trace s)) o = None;
  i_live : forall o who c r, live (after (trace s)) o = Some who -> known (after (trace s)) who = Some (c, r) -> c_trivial_destructor c = false -> exists p t, In (p, t) (held s) /\ t_who t = who /\ t_object t = Some o;
  i_task : forall o who, live (after (trace s)) o = Some who -> known (after (trace s)) who <> None;
  i_known : forall who, made s <= who -> known (after (trace s)) who = None }.

Lemma inv_initial n : inv n initial.
Proof. split; cbn; try tauto; try discriminate; try reflexivity; [intros a e b E; now destruct a|constructor]. Qed.
Lemma good_lt n s p t : inv n s -> In (p, t) (held s) -> t_who t < made s.
Proof. intros I H. destruct (i_good n s I p t H) as (r & K & _). destruct (le_lt_dec (made s) (t_who t)) as [L|L]; [|exact L]. rewrite (i_known n s I _ L) in K. discriminate. Qed.
Lemma unique a x b y : NoDup (whos (a ++ x :: b)) -> In y (a ++ b) -> t_who (snd y) <> t_who (snd x).
Proof.
  intros N I E. unfold whos in N. rewrite map_app in N. cbn [map] in N. apply NoDup_remove_2 in N. apply N. rewrite <- map_app, <- E. apply (in_map (fun x : place * task => t_who (snd x))). exact I.
Qed.

(** What destroying a task does *)
Lemma destroy_after n l t : sound n l -> good (after l) t -> sound n (l ++ destroy t) /\ known (after (l ++ destroy t)) = known (after l) /\
  (forall o, live (after l) o = None -> live (after (l ++ destroy t)) o = None) /\
  (forall o who, live (after (l ++ destroy t)) o = Some who -> live (after l) o = Some who) /\
  (forall o who, live (after l) o = Some who -> who <> t_who t -> live (after (l ++ destroy t)) o = Some who) /\
  (c_trivial_destructor (t_cty t) = false -> forall o, t_object t = Some o -> live (after (l ++ destroy t)) o = None) /\
  (forall o, t_object t <> Some o -> live (after (l ++ destroy t)) o = live (after l) o).
Proof.
  intros S (r & K & E & F & G). unfold destroy, requires_destruction.
  assert (Z : sound n (l ++ []) /\ known (after (l ++ [])) = known (after l)) by (rewrite app_nil_r; auto).
  destruct (t_kind t) eqn:T; try (rewrite app_nil_r; repeat (split; [auto; fail|]); split; [intros _ o H; congruence|auto]).
  destruct G as (o & O & L). rewrite O. destruct (c_trivial_destructor (t_cty t)) eqn:D; cbn [negb].
  - rewrite app_nil_r. repeat (split; [auto; fail|]). split; [discriminate|auto].
  - split; [apply sound_snoc; [exact S|]; cbn; congruence|]. rewrite after_app. cbn [fold_left note live known]. split; [reflexivity|]. split; [|split; [|split; [|split]]].
    + intros o' H. destruct (Nat.eq_dec o' o) as [->|N]; [apply put_same|now rewrite put_other].
    + intros o' who H. destruct (Nat.eq_dec o' o) as [->|N]; [rewrite put_same in H; discriminate|now rewrite put_other in H].
    + intros o' who H W. rewrite put_other; [exact H|]. intros ->. congruence.
    + intros _ o' H. injection H as <-. apply put_same.
    + intros o' H. apply put_other. congruence.
Qed.

(** Changing the place of a task changes nothing else. *)
Lemma relocate n s a p p' t b m : inv n s -> held s = a ++ (p, t) :: b -> inv n {| held := a ++ (p', t) :: b; monitor := m; made := made s; objects := objects s; trace := trace s |}.
Proof.
  intros [S G N F L T0 K] E. rewrite E in *. split; cbn [held trace objects made]; auto.
  - intros q x I. apply in_app_or in I. destruct I as [I|[I|I]]; [apply (G q); apply in_or_app; now left| |apply (G q); apply in_or_app; right; now right].
    injection I as _ <-. apply (G p). apply in_or_app. right. now left.
  - unfold whos in *. rewrite map_app in *. exact N.
  - intros o who c r H1 H2 H3. destruct (L o who c r H1 H2 H3) as (q & x & I & W & O). apply in_app_or in I. destruct I as [I|[I|I]].
    + exists q, x. split; [apply in_or_app; now left|auto].
    + injection I as <- <-. exists p', t. split; [apply in_or_app; right; now left|auto].
    + exists q, x. split; [apply in_or_app; right; now right|auto].
Qed.
Lemma in_middle {A} (a b : list A) x y : In x (a ++ b) -> In x (a ++ y :: b).
Proof. rewrite !in_app_iff. cbn. tauto. Qed.
(** Destroying a task and letting go of it *)
Lemma remove n s a p t b m : inv n s -> held s = a ++ (p, t) :: b -> inv n {| held := a ++ b; monitor := m; made := made s; objects := objects s; trace := trace s ++ destroy t |}.
Proof.
  intros [S G N F L T0 K] E. rewrite E in *. assert (Gt : good (after (trace s)) t) by (apply (G p); rewrite in_app_iff; cbn; tauto).
  destruct (destroy_after n (trace s) t S Gt) as (S' & Kn & L0 & L1 & L2 & L3 & L4). split; cbn [held trace objects made].
  - exact S'.
  - intros q x I. destruct (G q x (in_middle _ _ _ _ I)) as (r & K1 & K2 & K3 & K4). exists r. rewrite Kn. repeat (split; [assumption|]). destruct (t_kind x); auto. destruct K4 as (o & O & H). exists o. split; [exact O|]. apply L2; [exact H|].
    exact (unique a (p, t) b (q, x) N I).
  - unfold whos in *. rewrite map_app in *. apply NoDup_remove_1 in N. exact N.
  - intros o H. apply L0, F, H.
  - intros o who c r H1 H2 H3. rewrite Kn in H2. pose proof (L1 _ _ H1) as H1'. destruct (L o who c r H1' H2 H3) as (q & x & I & W & O). apply in_app_or in I. destruct I as [I|[I|I]]; [exists q, x; split; [apply in_or_app; now left|auto]| |exists q, x; split; [apply in_or_app; now right|auto]].
    injection I as <- <-. exfalso. destruct Gt as (r' & K1 & _). rewrite W, H2 in K1. injection K1 as -> _. rewrite (L3 H3 o O) in H1. discriminate.
  - intros o who H. rewrite Kn. apply (T0 o), L1, H.
  - intros who H. rewrite Kn. apply K, H.
Qed.
Lemma add_event n s h m e : inv n s -> held s = h -> allowed n (after (trace s)) e -> note (after (trace s)) e = after (trace s) -> inv n {| held := h; monitor := m; made := made s; objects := objects s; trace := trace s ++ [e] |}.
Proof.
  intros [S G N F L T0 K] E A Q. subst h. assert (Q' : after (trace s ++ [e]) = after (trace s)) by (rewrite after_app; exact Q).
  split; cbn [held trace objects made]; rewrite ?Q'; auto. now apply sound_snoc.
Qed.

Lemma nodup_snoc {A} (l : list A) x : NoDup l -> ~ In x l -> NoDup (l ++ [x]).
Proof. intros N I. apply (NoDup_Add (a := x) (l := l)); [|auto]. rewrite <- (app_nil_r l) at 1. apply Add_app. Qed.
Lemma inv_enqueue n s q c r k m : inv n s -> select c r = Some k -> call_form c <> None ->
  let stored := match k with KStored => true | _ => false end in
  inv n {| held := held s ++ [(Queued q, {| t_who := made s; t_cty := c; t_kind := k; t_object := if stored then Some (objects s) else None |})];
           monitor := m; made := S (made s); objects := if stored then S (objects s) else objects s;
           trace := trace s ++ Enqueued (made s) c r :: (if stored then [Built (objects s) (made s)] else []) |}.
Proof.
  intros I Sk Fc stored. assert (Lt : forall p t, In (p, t) (held s) -> t_who t < made s) by (intros p t; now apply (good_lt n s p t)). destruct I as [S G N F L T0 K].
  set (tr := trace s ++ Enqueued (made s) c r :: (if stored then [Built (objects s) (made s)] else [])).
  assert (S1 : sound n (trace s ++ [Enqueued (made s) c r])) by (apply sound_snoc; [exact S|cbn; now apply K]).
  assert (Kn : known (after tr) = put (known (after (trace s))) (made s) (Some (c, r))) by (unfold tr; rewrite after_app; destruct stored; reflexivity).
  assert (Lv : forall o, live (after tr) o = if stored && (o =? objects s) then Some (made s) else live (after (trace s)) o) by (intros o; unfold tr; rewrite after_app; destruct stored; cbn; unfold put; reflexivity).
  assert (Keep : forall o who, live (after (trace s)) o = Some who -> live (after tr) o = Some who).
  { intros o who H. rewrite Lv. destruct stored; cbn [andb]; [|exact H]. destruct (Nat.eqb_spec o (objects s)) as [->|_]; [|exact H]. rewrite F in H by lia. discriminate. }
  split; cbn [held trace objects made]; fold tr.
  - unfold tr. destruct stored; [|exact S1]. replace (trace s ++ _) with ((trace s ++ [Enqueued (made s) c r]) ++ [Built (objects s) (made s)]) by (rewrite <- app_assoc; reflexivity).
    apply sound_snoc; [exact S1|]. rewrite after_app. cbn. split; [apply F; lia|]. rewrite put_same. discriminate.
  - intros p t H. apply in_app_or in H. destruct H as [H|[H|[]]].
    + destruct (G p t H) as (r' & K1 & K2 & K3 & K4). exists r'. rewrite Kn, put_other by (specialize (Lt p t H); lia). repeat (split; [assumption|]). destruct (t_kind t); auto. destruct K4 as (o & O & Ho). exists o. auto.
    + injection H as <- <-. exists r. cbn [t_who t_cty t_kind t_object]. rewrite Kn, put_same. repeat (split; [auto; fail|]). unfold stored in *. destruct k; auto. exists (objects s). split; [reflexivity|]. rewrite Lv, Nat.eqb_refl. reflexivity.
  - unfold whos in *. rewrite map_app. cbn [map snd t_who]. apply nodup_snoc; [exact N|]. intros H. apply in_map_iff in H. destruct H as ([p t] & H1 & H2). specialize (Lt p t H2). cbn in H1. lia.
  - intros o H. rewrite Lv. destruct stored; cbn [andb]; [|now apply F]. destruct (Nat.eqb_spec o (objects s)); [lia|]. apply F. lia.
  - intros o who c' r' H1 H2 H3. rewrite Lv in H1. destruct (stored && (o =? objects s)) eqn:B.
    + injection H1 as <-. apply andb_prop in B. destruct B as [B1 B2]. apply Nat.eqb_eq in B2 as ->. eexists _, _. split; [apply in_or_app; right; now left|]. cbn [t_who t_object]. rewrite B1. auto.
    + assert (Nw : who <> made s). { intros ->. apply T0 in H1. apply H1, K. lia. } rewrite Kn, put_other in H2 by exact Nw. destruct (L o who c' r' H1 H2 H3) as (p & t & J & W). exists p, t. split; [apply in_or_app; now left|exact W].
  - intros o who H. rewrite Kn. destruct (Nat.eq_dec who (made s)) as [->|Nw]; [rewrite put_same; discriminate|]. rewrite put_other by exact Nw. rewrite Lv in H. destruct (stored && (o =? objects s)); [injection H as <-; congruence|]. now apply (T0 o).
  - intros who H. rewrite Kn, put_other by lia. apply K. lia.
Qed.
(** A task is taken from a queue: its object is moved, and the old one destroyed. *)
Lemma inv_pop n s a q t b w : inv n s -> held s = a ++ (Queued q, t) :: b ->
  inv n {| held := a ++ (Popped w, fst (move t (objects s))) :: b; monitor := monitor s; made := made s; objects := S (objects s); trace := trace s ++ snd (move t (objects s)) ++ destroy t |}.
Proof.
  intros I E. assert (Gt : good (after (trace s)) t) by (apply (i_good n s I (Queued q)); rewrite E, in_app_iff; cbn; tauto).
  destruct (t_object t) as [o|] eqn:O.
  - set (t' := {| t_who := t_who t; t_cty := t_cty t; t_kind := t_kind t; t_object := Some (objects s) |}). assert (M : move t (objects s) = (t', [Moved o (objects s)])) by (unfold move; rewrite O; reflexivity). rewrite M. cbn [fst snd]. rewrite app_assoc.
    destruct I as [S G N F L T0 K]. rewrite E in *.
    destruct Gt as (r & K1 & K2 & K3 & K4). assert (Ks : t_kind t = KStored) by (destruct (t_kind t); congruence). rewrite Ks in K4. destruct K4 as (o1 & O1 & Lo). rewrite O in O1. injection O1 as <-.
    set (tr := trace s ++ [Moved o (objects s)]). assert (S1 : sound n tr) by (apply sound_snoc; [exact S|cbn; split; [congruence|apply F; lia]]).
    assert (A1 : after tr = {| live := put (live (after (trace s))) (objects s) (Some (t_who t)); known := known (after (trace s)) |}) by (unfold tr; rewrite after_app; cbn; now rewrite Lo).
    assert (No : o <> objects s) by (intros ->; rewrite F in Lo by lia; discriminate).
    assert (G1 : good (after tr) t) by (exists r; rewrite A1; cbn [known live]; split; [exact K1|]; split; [exact K2|]; split; [exact K3|]; rewrite Ks; exists o; split; [exact O|now rewrite put_other]).
    destruct (destroy_after n tr t S1 G1) as (S' & Kn & L0 & L1 & L2 & L3 & L4). rewrite A1 in Kn. cbn [known] in Kn.
    split; cbn [held trace objects made].
    + exact S'.
    + intros p x J. apply in_app_or in J. destruct J as [J|[J|J]].
      2:{ injection J as <- <-. exists r. rewrite Kn. unfold t'. cbn [t_who t_cty t_kind t_object]. repeat (split; [assumption|]). rewrite Ks. exists (objects s). split; [reflexivity|]. rewrite L4 by congruence. rewrite A1. cbn [live]. apply put_same. }
      all: assert (J' : In (p, x) (a ++ b)) by (apply in_or_app; auto); destruct (G p x (in_middle _ _ _ _ J')) as (r' & Q1 & Q2 & Q3 & Q4); exists r'; rewrite Kn; repeat (split; [assumption|]); destruct (t_kind x); auto; destruct Q4 as (ox & Ox & Lx); exists ox; split; [exact Ox|];
        apply L2; [rewrite A1; cbn [live]; rewrite put_other; [exact Lx|intros ->; rewrite F in Lx by lia; discriminate]|exact (unique a (Queued q, t) b (p, x) N J')].
    + unfold whos in *. rewrite map_app in *. exact N.
    + intros o' H. apply L0. rewrite A1. cbn [live]. rewrite put_other by lia. apply F. lia.
    + intros o' who c r' H1 H2 H3. rewrite Kn in H2. destruct (Nat.eq_dec o' (objects s)) as [->|Ne].
      * apply L1 in H1. rewrite A1 in H1. cbn [live] in H1. rewrite put_same in H1. injection H1 as <-. exists (Popped w), t'. split; [apply in_or_app; right; now left|auto].
      * pose proof (L1 _ _ H1) as H1'. rewrite A1 in H1'. cbn [live] in H1'. rewrite put_other in H1' by exact Ne. destruct (L o' who c r' H1' H2 H3) as (p & x & J & W & Ox). apply in_app_or in J. destruct J as [J|[J|J]]; [exists p, x; split; [apply in_or_app; now left|auto]| |exists p, x; split; [apply in_or_app; right; now right|auto]].
        injection J as <- <-. exfalso. rewrite W, H2 in K1. injection K1 as -> _. rewrite (L3 H3 o' Ox) in H1. discriminate.
    + intros o' who H. rewrite Kn. apply L1 in H. rewrite A1 in H. cbn [live] in H. destruct (Nat.eq_dec o' (objects s)) as [->|Ne]; [rewrite put_same in H; injection H as <-; congruence|]. rewrite put_other in H by exact Ne. now apply (T0 o').
    + intros who H. rewrite Kn. now apply K.
  - assert (M : move t (objects s) = (t, [])) by (unfold move; rewrite O; reflexivity). rewrite M. cbn [fst snd]. assert (D : destroy t = []) by (unfold destroy; rewrite O; now destruct (requires_destruction _ _)). rewrite D, !app_nil_r.
    destruct (relocate n s a (Queued q) (Popped w) t b (monitor s) I E) as [S G N F L T0 K]. cbn [held trace objects made] in *. split; cbn [held trace objects made]; auto. intros o H. apply F. lia.
Qed.
Lemma select_class c r k : select c r = Some k -> match k with KFresh => c_empty c = true | KFunction => c_shape c <> Class \/ c_stateless_lambda c = true | KStored => store_ok c r = true | KCaller => r = false end.
Proof.
  unfold select, manifestable. destruct (c_shape c); try (intros H; injection H as <-; left; discriminate). destruct (c_empty c && _ && _) eqn:M; [intros H; injection H as <-; rewrite !andb_true_iff in M; tauto|].
  destruct (store_ok c r); [destruct (store_ok c true); [intros H; injection H as <-; reflexivity|discriminate]|]. destruct (c_stateless_lambda c); [intros H; injection H as <-; now right|]. destruct r; [discriminate|]. intros H. injection H as <-. reflexivity.
Qed.
Definition hand (n : nat) (s : state) : Prop := forall w t, In (Popped w, t) (held s) -> w < n.
Lemma inv_step n o s s' : inv n s -> hand n s -> step n o s = Some s' -> inv n s' /\ hand n s'.
Proof.
  intros I Hd E. destruct o as [q c r|q w|w|w|w|q]; cbn [step] in E.
  - destruct (select c r) as [k|] eqn:Sk; [|discriminate]. destruct (call_form c) as [f|] eqn:Fc; [|discriminate]. injection E as <-. split; [apply inv_enqueue; [assumption|assumption|congruence]|].
    intros w t H. cbn [held] in H. apply in_app_or in H. destruct H as [H|[H|[]]]; [exact (Hd w t H)|discriminate].
  - destruct (w <? n) eqn:W; [|discriminate]. destruct (busy w (held s)); [discriminate|]. cbn [negb orb] in E. destruct (first (Queued q) (held s)) as [[[a t] b]|] eqn:F; [|discriminate]. injection E as <-. apply first_split in F. split; [now apply (inv_pop n s a q)|].
    intros v x H. cbn [held] in H. unfold hand in Hd. rewrite F in Hd. apply in_app_or in H. destruct H as [H|[H|H]]; [apply (Hd v x); apply in_or_app; now left|injection H as <- _; now apply Nat.ltb_lt|apply (Hd v x); apply in_or_app; right; now right].
  - destruct (first (Popped w) (held s)) as [[[a t] b]|] eqn:F; [|discriminate]. injection E as <-. apply first_split in F.
    pose proof (relocate n s a (Popped w) (Done w) t b (monitor s) I F) as I'. assert (Gt : good (after (trace s)) t) by (apply (i_good n s I (Popped w)); rewrite F, in_app_iff; cbn; tauto).
    assert (Wn : w < n) by (apply (Hd w t); rewrite F, in_app_iff; cbn; tauto). split.
    + refine (add_event n _ _ (monitor s) _ I' eq_refl _ _); [|reflexivity]. cbn [trace allowed]. destruct Gt as (r & K1 & K2 & K3 & K4). split; [exact Wn|]. exists (t_cty t), r. split; [exact K1|]. split.
      * unfold call_form in *. destruct (c_index (t_cty t)); [reflexivity|]. destruct (c_plain (t_cty t)); [reflexivity|congruence].
      * apply select_class in K2. unfold source_of. destruct (t_kind t); try assumption. destruct K4 as (o & -> & Lo). exact Lo.
    + intros v x H. cbn [held] in H. unfold hand in Hd. rewrite F in Hd. apply in_app_or in H. destruct H as [H|[H|H]]; [apply (Hd v x); apply in_or_app; now left|discriminate|apply (Hd v x); apply in_or_app; right; now right].
  - destruct (first (Done w) (held s)) as [[[a t] b]|] eqn:F; [|discriminate]. injection E as <-. apply first_split in F. split; [now apply (relocate n s a (Done w))|].
    intros v x H. cbn [held] in H. unfold hand in Hd. rewrite F in Hd. apply in_app_or in H. destruct H as [H|[H|H]]; [apply (Hd v x); apply in_or_app; now left|discriminate|apply (Hd v x); apply in_or_app; right; now right].
  - destruct (first (Counted w) (held s)) as [[[a t] b]|] eqn:F; [|discriminate]. injection E as <-. apply first_split in F. split; [now apply (remove n s a (Counted w))|].
    intros v x H. cbn [held] in H. apply (Hd v x). rewrite F. now apply in_middle.
  - destruct (first (Queued q) (held s)) as [[[a t] b]|] eqn:F; [|discriminate]. injection E as <-. apply first_split in F.
    assert (Gt : good (after (trace s)) t) by (apply (i_good n s I (Queued q)); rewrite F, in_app_iff; cbn; tauto).
    assert (I' : inv n {| held := held s; monitor := monitor s; made := made s; objects := objects s; trace := trace s ++ [Discarded (t_who t)] |}). { apply add_event; [exact I|reflexivity| |reflexivity]. cbn. destruct Gt as (r & K1 & _). congruence. }
    split.
    + pose proof (remove n _ a (Queued q) t b (monitor s - 1)%Z I' F) as J. cbn [trace made objects] in J. rewrite <- app_assoc in J. exact J.
    + intros v x H. cbn [held] in H. apply (Hd v x). rewrite F. now apply in_middle.
Qed.
Lemma inv_run n : forall l s s', inv n s -> hand n s -> run n l s = Some s' -> inv n s'.
Proof.
  induction l as [|o l IH]; intros s s' I H E; cbn [run] in E; [injection E as <-; exact I|]. destruct (step n o s) as [s1|] eqn:S; [|discriminate]. destruct (inv_step n o s s1 I H S) as [I1 H1]. now apply (IH s1).
Qed.

(* ------------------------------------------------------------------ how often *)
Definition waits (who : nat) (x : place * task) : bool := match fst x with Queued _ | Popped _ => t_who (snd x) =? who | _ => false end.
Definition uncounted (x : place * task) : bool := match fst x with Counted _ => false | _ => true end.
Definition number {A} (f : A -> bool) (l : list A) : nat := length (filter f l).
Lemma number_app {A} (f : A -> bool) l m : number f (l ++ m) = number f l + number f m.
Proof. unfold number. rewrite filter_app, app_length. reflexivity. Qed.
Lemma number_cons {A} (f : A -> bool) x l : number f (x :: l) = (if f x then 1 else 0) + number f l.
Proof. unfold number. cbn [filter]. destruct (f x); reflexivity. Qed.
Definition called (who : nat) (e : event) : bool := match e with Invoked w _ _ _ => w =? who | _ => false end.
Definition dropped (who : nat) (e : event) : bool := match e with Discarded w => w =? who | _ => false end.
Definition tally (s : state) : Prop :=
  (forall who, number (called who) (trace s) + number (waits who) (held s) + number (dropped who) (trace s) = if who <? made s then 1 else 0) /\
  monitor s = Z.of_nat (number uncounted (held s)).
Lemma destroy_silent who t : number (called who) (destroy t) = 0 /\ number (dropped who) (destroy t) = 0.
Proof. unfold destroy. destruct (requires_destruction _ _); [destruct (t_object t)|]; split; reflexivity. Qed.
Lemma tally_step n o s s' : tally s -> step n o s = Some s' -> tally s'.
Proof.
  intros [T M] E. destruct o as [q c r|q w|w|w|w|q]; cbn [step] in E.
  - destruct (select c r) as [k|]; [|discriminate]. destruct (call_form c); [|discriminate]. injection E as <-. split; cbn [held trace monitor made].
    + intros who. specialize (T who). set (x := match k with KStored => true | _ => false end). rewrite !number_app. assert (Z0 : number (called who) (Enqueued (made s) c r :: (if x then [Built (objects s) (made s)] else [])) = 0 /\ number (dropped who) (Enqueued (made s) c r :: (if x then [Built (objects s) (made s)] else [])) = 0) by (destruct x; split; reflexivity).
      destruct Z0 as [-> ->]. rewrite (number_cons (waits who)). unfold waits at 2. cbn [fst snd t_who]. change (number (waits who) []) with 0. destruct (Nat.eqb_spec (made s) who), (Nat.ltb_spec who (made s)), (Nat.ltb_spec who (S (made s))); lia.
    + rewrite number_app, number_cons. cbn [uncounted fst]. change (number uncounted []) with 0. lia.
  - destruct (negb (w <? n) || busy w (held s)); [discriminate|]. destruct (first (Queued q) (held s)) as [[[a t] b]|] eqn:F; [|discriminate]. injection E as <-. apply first_split in F. rewrite F in T, M. split; cbn [held trace monitor made].
    + intros who. specialize (T who). rewrite !number_app in *. rewrite number_cons in *. destruct (destroy_silent who t) as [-> ->]. unfold waits in *. cbn [fst snd] in *.
      assert (Z0 : number (called who) (snd (move t (objects s))) = 0 /\ number (dropped who) (snd (move t (objects s))) = 0 /\ t_who (fst (move t (objects s))) = t_who t) by (unfold move; destruct (t_object t); repeat split; reflexivity). destruct Z0 as (-> & -> & ->). lia.
    + rewrite number_app, number_cons in *. cbn [uncounted fst] in *. exact M.
  - destruct (first (Popped w) (held s)) as [[[a t] b]|] eqn:F; [|discriminate]. injection E as <-. apply first_split in F. rewrite F in T, M. split; cbn [held trace monitor made].
    + intros who. specialize (T who). unfold invoke. rewrite !number_app, !number_cons in *. unfold waits in *. cbn [fst snd called dropped] in *. change (number (called who) []) with 0. change (number (dropped who) []) with 0. lia.
    + rewrite number_app, number_cons in *. cbn [uncounted fst] in *. exact M.
  - destruct (first (Done w) (held s)) as [[[a t] b]|] eqn:F; [|discriminate]. injection E as <-. apply first_split in F. rewrite F in T, M. split; cbn [held trace monitor made].
    + intros who. specialize (T who). rewrite !number_app, !number_cons in *. unfold waits in *. cbn [fst snd] in *. lia.
    + rewrite number_app, number_cons in *. cbn [uncounted fst] in *. lia.
  - destruct (first (Counted w) (held s)) as [[[a t] b]|] eqn:F; [|discriminate]. injection E as <-. apply first_split in F. rewrite F in T, M. split; cbn [held trace monitor made].
    + intros who. specialize (T who). rewrite !number_app in *. rewrite number_cons in *. destruct (destroy_silent who t) as [-> ->]. unfold waits in *. cbn [fst snd] in *. lia.
    + rewrite !number_app in *. rewrite number_cons in *. cbn [uncounted fst] in *. lia.
  - destruct (first (Queued q) (held s)) as [[[a t] b]|] eqn:F; [|discriminate]. injection E as <-. apply first_split in F. rewrite F in T, M. split; cbn [held trace monitor made].
    + intros who. specialize (T who). rewrite !number_app in *. rewrite !number_cons in *. destruct (destroy_silent who t) as [-> ->]. unfold waits in *. cbn [fst snd called dropped] in *. lia.
    + rewrite !number_app in *. rewrite number_cons in *. cbn [uncounted fst] in *. lia.
Qed.
Lemma tally_run n : forall l s s', tally s -> run n l s = Some s' -> tally s'.
Proof.
  induction l as [|o l IH]; intros s s' I E; cbn [run] in E; [injection E as <-; exact I|]. destruct (step n o s) as [s1|] eqn:S; [|discriminate]. apply (tally_step n o s s1 I) in S. now apply (IH s1).
Qed.
Lemma tally_initial : tally initial.
Proof. split; [intros who; reflexivity|reflexivity]. Qed.
