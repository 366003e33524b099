From Coq Require Import Lia Permutation.
From Verif Require Import Words EarrModel EarrSpec.

Local Open Scope nat_scope.

(* ------------------------------------------------------------------ lists *)
Lemma upd_length {A} (l : list A) : forall i x, length (upd l i x) = length l.
Proof. induction l as [|y l IH]; intros [|i] x; cbn; [reflexivity..|]. f_equal. apply IH. Qed.
Lemma upd_same {A} (l : list A) : forall i x, i < length l -> nth_error (upd l i x) i = Some x.
Proof. induction l as [|y l IH]; intros [|i] x H; cbn in *; [lia|lia|reflexivity|]. apply IH. lia. Qed.
Lemma upd_other {A} (l : list A) : forall i j x, i <> j -> nth_error (upd l i x) j = nth_error l j.
Proof. induction l as [|y l IH]; intros [|i] [|j] x H; cbn; try reflexivity; [congruence|]. apply IH. congruence. Qed.
Lemma upd_upd {A} (l : list A) : forall i x y, upd (upd l i x) i y = upd l i y.
Proof. induction l as [|z l IH]; intros [|i] x y; cbn; [reflexivity..|]. f_equal. apply IH. Qed.
Lemma upd_app {A} (a b : list A) x y : upd (a ++ x :: b) (length a) y = a ++ y :: b.
Proof. induction a as [|z a IH]; cbn; [reflexivity|]. f_equal. exact IH. Qed.
Lemma nth_app_mid {A} (a b : list A) x : nth_error (a ++ x :: b) (length a) = Some x.
Proof. induction a as [|z a IH]; cbn; [reflexivity|exact IH]. Qed.
Lemma upd_cases {A} (l : list A) i j x y : nth_error (upd l i x) j = Some y -> (i = j /\ y = x) \/ (i <> j /\ nth_error l j = Some y).
Proof.
  intros H. destruct (Nat.eq_dec i j) as [->|N]; [left|right; split; [exact N|rewrite upd_other in H; assumption]].
  assert (j < length l) by (rewrite <- (upd_length l j x); apply nth_error_Some; congruence). rewrite upd_same in H by assumption. split; congruence.
Qed.
Lemma nth_len {A} (l : list A) i x : nth_error l i = Some x -> i < length l.
Proof. intros H. apply nth_error_Some. congruence. Qed.

Lemma option_eq_dec_nat (x y : option nat) : {x = y} + {x <> y}.
Proof. decide equality. apply Nat.eq_dec. Qed.

Section P.
  Context {V : Type}.
  Variable triv : bool.
  Notation heap := (@heap V).

  (* ---------------------------------------------------------------- blocks *)
  Lemma construct_ok (h : heap) b l r rest v : nth_error h b = Some (Some (map Live l ++ r :: rest)) -> (triv = false -> r = Raw) ->
    construct triv h b (length l) v = Some (upd h b (Some (map Live (l ++ [v]) ++ rest))).
  Proof.
    intros H R. unfold construct. rewrite H. replace (length l) with (length (map Live l)) at 1 by apply map_length. rewrite nth_app_mid.
    assert (E : upd (map Live l ++ r :: rest) (length l) (Live v) = map Live (l ++ [v]) ++ rest).
    { replace (length l) with (length (map Live l)) by apply map_length. rewrite upd_app, map_app, <- app_assoc. reflexivity. }
    rewrite E. destruct r; [reflexivity|]. destruct triv; [reflexivity|]. specialize (R eq_refl). discriminate.
  Qed.
  Lemma destroy_loop_ok b l : forall (h : heap) rest lg, nth_error h b = Some (Some (map Live l ++ rest)) ->
    destroy_loop b (length l) h lg = Some (upd h b (Some (repeat Raw (length l) ++ rest)), lg ++ map Gone (rev l)).
  Proof.
    induction l as [|v l IH] using rev_ind; intros h rest lg H.
    - cbn. rewrite app_nil_r. f_equal. f_equal. clear - H. cbn in H. revert b H. induction h as [|x h IH]; intros [|b] H; cbn in *; try discriminate; [congruence|f_equal; apply IH; exact H].
    - rewrite app_length. cbn [length]. rewrite Nat.add_1_r. cbn [destroy_loop]. rewrite map_app, <- app_assoc in H. cbn [map app] in H.
      unfold destroy. rewrite H. replace (length l) with (length (map (@Live V) l)) at 1 by apply map_length. rewrite nth_app_mid. cbn [option_bind fst snd].
      replace (length l) with (length (map (@Live V) l)) at 2 by apply map_length. rewrite upd_app.
      rewrite (IH _ (Raw :: rest)) by (apply upd_same, (nth_len _ _ _ H)). rewrite upd_upd, rev_app_distr. cbn [rev app map]. rewrite <- app_assoc. cbn [app].
      f_equal. f_equal. f_equal. f_equal. clear. induction (length l) as [|n IHn]; cbn; [reflexivity|]. f_equal. exact IHn.
  Qed.

  (* ---------------------------------------------------------------- one array *)
  Definition rel (h : heap) (a : earr) (x : nat * list V) : Prop :=
    e_count a = length (snd x) /\ e_cap a = fst x /\ length (snd x) <= fst x /\
    match e_stor a with
    | None => fst x = 0
    | Some b => 0 < fst x /\ exists rest, nth_error h b = Some (Some (map Live (snd x) ++ rest)) /\ length (snd x) + length rest = fst x /\ (triv = false -> rest = repeat Raw (length rest))
    end.
  Definition frame (h h' : heap) (keep : nat -> Prop) : Prop := length h <= length h' /\ forall b, keep b -> nth_error h' b = nth_error h b.
  Definition others (a : earr) (b : nat) : Prop := e_stor a <> Some b.

  Lemma rel_frame h h' a x (keep : nat -> Prop) : rel h a x -> (forall b, keep b -> nth_error h' b = nth_error h b) -> (forall b, e_stor a = Some b -> keep b) -> rel h' a x.
  Proof.
    intros (A & B & C & D) F K. split; [exact A|]. split; [exact B|]. split; [exact C|]. destruct (e_stor a) as [b|]; [|exact D].
    destruct D as (D0 & rest & D1 & D2 & D3). split; [exact D0|]. exists rest. rewrite F by (apply K; reflexivity). split; [exact D1|]. split; [exact D2|exact D3].
  Qed.

  Lemma destroy_all_ok h a x lg : rel h a x -> exists h', destroy_all triv a h lg = Some ({| e_count := 0; e_cap := e_cap a; e_stor := e_stor a |}, h', lg ++ goodbye triv (snd x)) /\
    rel h' {| e_count := 0; e_cap := e_cap a; e_stor := e_stor a |} (fst x, []) /\ length h' = length h /\ (forall b, e_stor a <> Some b -> nth_error h' b = nth_error h b) /\
    (forall b c, nth_error h' b = Some (Some c) -> exists c', nth_error h b = Some (Some c')).
  Proof.
    intros (A & B & C & D). unfold destroy_all, goodbye. destruct triv eqn:T.
    - exists h. rewrite app_nil_r. split; [reflexivity|]. split.
      + split; [reflexivity|]. split; [exact B|]. split; [cbn; lia|]. cbn [e_stor fst snd]. destruct (e_stor a) as [b|]; [|exact D].
        destruct D as (D0 & rest & D1 & D2 & D3). split; [exact D0|]. eexists. split; [exact D1|]. rewrite app_length, map_length. split; [exact D2|]. congruence.
      + split; [reflexivity|]. split; [intros; reflexivity|]. intros b c H. exists c. exact H.
    - destruct (e_stor a) as [b|] eqn:E.
      + destruct D as (D0 & rest & D1 & D2 & D3). rewrite A, (destroy_loop_ok b (snd x) h rest lg D1). cbn [option_bind fst snd]. eexists. split; [reflexivity|]. split; [|split; [|split]].
        * split; [reflexivity|]. split; [exact B|]. split; [cbn; lia|]. cbn [e_stor fst snd length map app]. split; [exact D0|]. eexists. split; [apply upd_same, (nth_len _ _ _ D1)|].
          rewrite app_length, repeat_length. split; [exact D2|]. intros _. rewrite (D3 eq_refl), repeat_length, <- repeat_app. reflexivity.
        * apply upd_length.
        * intros b' H. apply upd_other. congruence.
        * intros b' c H. apply upd_cases in H. destruct H as [[<- _]|[_ H]]; [eexists; exact D1|exists c; exact H].
      + rewrite A. assert (snd x = []) as X by (destruct (snd x); [reflexivity|cbn in C; lia]). rewrite X. cbn [length]. exists h. cbn [rev map]. rewrite app_nil_r. split; [reflexivity|]. split.
        * split; [reflexivity|]. split; [exact B|]. split; [cbn; lia|]. cbn [e_stor fst]. exact D.
        * split; [reflexivity|]. split; [intros; reflexivity|]. intros b c H. exists c. exact H.
  Qed.
  Lemma release_ok h a x lg : rel h a x -> exists a' h', release triv a h lg = Some (a', h', lg ++ goodbye triv (snd x)) /\ e_stor a' = None /\ e_count a' = 0 /\
    length h' = length h /\ (forall b, e_stor a <> Some b -> nth_error h' b = nth_error h b) /\ (forall b, e_stor a = Some b -> nth_error h' b = Some None).
  Proof.
    intros R. unfold release. destruct (e_stor a) as [b|] eqn:E.
    - destruct (destroy_all_ok h a x lg R) as (h1 & D & (_ & _ & _ & R1) & L & F & _). rewrite D. cbn [option_bind]. cbn [e_stor] in R1. rewrite E in R1. destruct R1 as (_ & rest & R1 & _).
      unfold free. rewrite R1. cbn [option_bind]. do 2 eexists. split; [reflexivity|]. split; [reflexivity|]. split; [reflexivity|]. split; [rewrite upd_length; exact L|]. split.
      + intros b' N. rewrite upd_other by congruence. apply F. congruence.
      + intros b' [= <-]. apply upd_same, (nth_len _ _ _ R1).
    - pose proof R as (A & _ & C & D). rewrite E in D. assert (snd x = []) as X by (destruct (snd x); [reflexivity|cbn in C; lia]).
      exists a, h. rewrite X. replace (goodbye triv []) with (@nil (event V)) by (unfold goodbye; destruct triv; reflexivity). rewrite app_nil_r.
      split; [reflexivity|]. split; [exact E|]. split; [rewrite A, X; reflexivity|]. split; [reflexivity|]. split; [reflexivity|]. congruence.
  Qed.

  (* ---------------------------------------------------------------- whole states *)
  Definition orel (h : heap) (a : option earr) (x : option (nat * list V)) : Prop :=
    match a, x with None, None => True | Some a, Some x => rel h a x | _, _ => False end.
  Definition owns (vs : list (option earr)) (i b : nat) : Prop := exists a, nth_error vs i = Some (Some a) /\ e_stor a = Some b.
  Definition sim (s : state V) (t : sstate V) : Prop :=
    log s = slog t /\ length (vars s) = length (svars t) /\
    (forall i a x, nth_error (vars s) i = Some a -> nth_error (svars t) i = Some x -> orel (mem s) a x) /\
    (forall i j b, owns (vars s) i b -> owns (vars s) j b -> i = j) /\
    (forall b c, nth_error (mem s) b = Some (Some c) -> exists i, owns (vars s) i b).

  Lemma sim_var s t i : sim s t -> match var s i, svar t i with Some a, Some x => rel (mem s) a x | None, None => True | _, _ => False end.
  Proof.
    intros (_ & L & R & _). unfold var, svar. destruct (nth_error (vars s) i) as [a|] eqn:A.
    - assert (i < length (svars t)) as K by (rewrite <- L; apply (nth_len _ _ _ A)). destruct (nth_error (svars t) i) as [x|] eqn:X; [|apply nth_error_Some in X; [contradiction|exact K]].
      specialize (R i a x A X). destruct a, x; cbn [orel] in R; assumption.
    - assert (nth_error (svars t) i = None) as X by (apply nth_error_None; rewrite <- L; apply nth_error_None; exact A). rewrite X. exact I.
  Qed.
  Lemma var_nth (s : state V) i a : var s i = Some a -> nth_error (vars s) i = Some (Some a).
  Proof. unfold var. destruct (nth_error (vars s) i) as [[]|]; congruence. Qed.
  Lemma svar_nth (t : sstate V) i x : svar t i = Some x -> nth_error (svars t) i = Some (Some x).
  Proof. unfold svar. destruct (nth_error (svars t) i) as [[]|]; congruence. Qed.
  Lemma var_nth_iff (s : state V) i a : var s i = Some a <-> nth_error (vars s) i = Some (Some a).
  Proof. split; [apply var_nth|]. unfold var. intros ->. reflexivity. Qed.
  Lemma svar_nth_iff (t : sstate V) i x : svar t i = Some x <-> nth_error (svars t) i = Some (Some x).
  Proof. split; [apply svar_nth|]. unfold svar. intros ->. reflexivity. Qed.
  Lemma owned_bound h a x b : rel h a x -> e_stor a = Some b -> b < length h /\ exists c, nth_error h b = Some (Some c).
  Proof. intros (_ & _ & _ & D) E. rewrite E in D. destruct D as (_ & rest & D & _). split; [apply (nth_len _ _ _ D)|eexists; exact D]. Qed.

  (** Replacing one variable by another that owns the same block or nothing. *)
  Lemma sim_replace s t i a0 x0 a' x' h lg lg' : sim s t -> nth_error (vars s) i = Some (Some a0) -> nth_error (svars t) i = Some (Some x0) ->
    lg = lg' -> orel h a' x' ->
    (forall b, e_stor a0 <> Some b -> nth_error h b = nth_error (mem s) b) ->
    (match a' with Some a' => e_stor a' = e_stor a0 \/ e_stor a' = None | None => True end) ->
    (forall b, e_stor a0 = Some b -> (exists a1, a' = Some a1 /\ e_stor a1 = Some b) \/ nth_error h b = Some None) ->
    sim {| vars := upd (vars s) i a'; mem := h; log := lg |} {| svars := upd (svars t) i x'; slog := lg' |}.
  Proof.
    intros (G & L & R & U & K) A X -> O F St Own. split; [reflexivity|]. split; [cbn; rewrite !upd_length; exact L|]. cbn [vars mem svars].
    assert (OO : forall j b, owns (upd (vars s) i a') j b -> owns (vars s) j b).
    { intros j b (a & Ha & Hb). apply upd_cases in Ha. destruct Ha as [[<- Ha]|[N Ha]]; [|exists a; split; assumption].
      subst a'. destruct St as [St|St]; [|congruence]. exists a0. split; [exact A|congruence]. }
    split; [|split].
    - intros j a x Ha Hx. apply upd_cases in Ha, Hx. destruct Ha as [[<- ->]|[N Ha]], Hx as [[E ->]|[N' Hx]]; [exact O|congruence|congruence|].
      specialize (R j a x Ha Hx). destruct a as [a|], x as [x|]; cbn [orel] in *; try assumption.
      apply (rel_frame _ _ _ _ (fun b => e_stor a0 <> Some b) R F). intros b Hb Hb'. apply N. apply (U i j b); [exists a0; split; assumption|exists a; split; assumption].
    - intros j k b Hj Hk. apply (U j k b); apply OO; assumption.
    - intros b c H. destruct (option_eq_dec_nat (e_stor a0) (Some b)) as [E|E].
      + destruct (Own b E) as [(a1 & -> & E1)|D]; [|congruence]. exists i, a1. split; [apply upd_same, (nth_len _ _ _ A)|exact E1].
      + rewrite F in H by exact E. destruct (K b c H) as (j & a & Ha & Hb). exists j, a. split; [|exact Hb]. rewrite upd_other; [exact Ha|]. intros <-. congruence.
  Qed.

  Lemma rel_gone (h : heap) : rel h gone (0, []).
  Proof. split; [reflexivity|]. split; [reflexivity|]. split; [cbn; lia|]. reflexivity. Qed.
  Lemma nth_snoc {A} (l : list A) x i y : nth_error (l ++ [x]) i = Some y -> (i = length l /\ y = x) \/ nth_error l i = Some y.
  Proof.
    intros H. destruct (Nat.lt_ge_cases i (length l)) as [K|K]; [right; rewrite nth_error_app1 in H; assumption|left].
    rewrite nth_error_app2 in H by exact K. destruct (i - length l) as [|d] eqn:E; [|destruct d; discriminate]. cbn in H. split; [lia|congruence].
  Qed.

  Lemma sim_new s t cap : sim s t -> exists s', step triv s (New cap) = Some s' /\ sim s' {| svars := svars t ++ [Some (cap, [])]; slog := slog t |}.
  Proof.
    intros (G & L & R & U & K). cbn [step]. destruct (Nat.eqb_spec cap 0) as [->|N].
    - eexists. split; [reflexivity|]. split; [exact G|]. split; [cbn; rewrite !app_length; cbn; lia|]. cbn [vars svars mem].
      assert (OO : forall i b, owns (vars s ++ [Some {| e_count := 0; e_cap := 0; e_stor := None |}]) i b -> owns (vars s) i b).
      { intros i b (a & Ha & Hb). apply nth_snoc in Ha. destruct Ha as [[_ [= ->]]|Ha]; [discriminate|exists a; split; assumption]. }
      split; [|split].
      + intros i a x Ha Hx. apply nth_snoc in Ha, Hx. destruct Ha as [[-> ->]|Ha], Hx as [[E ->]|Hx].
        * apply rel_gone.
        * apply nth_len in Hx. lia.
        * apply nth_len in Ha. lia.
        * apply (R i); assumption.
      + intros i j b Hi Hj. apply (U i j b); apply OO; assumption.
      + intros b c H. destruct (K b c H) as (i & a & Ha & Hb). exists i, a. split; [|exact Hb]. rewrite nth_error_app1; [exact Ha|apply (nth_len _ _ _ Ha)].
    - eexists. split; [reflexivity|]. split; [exact G|]. split; [cbn; rewrite !app_length; cbn; lia|]. cbn [vars svars mem].
      assert (B : forall i b, owns (vars s) i b -> b < length (mem s)).
      { intros i b (a & Ha & Hb). assert (i < length (svars t)) as Hi by (rewrite <- L; apply (nth_len _ _ _ Ha)). destruct (nth_error (svars t) i) as [x|] eqn:Hx; [|apply nth_error_None in Hx; lia].
        specialize (R i _ _ Ha Hx). destruct x as [x|]; [|contradiction]. apply (owned_bound _ _ _ _ R Hb). }
      assert (OO : forall i b, owns (vars s ++ [Some {| e_count := 0; e_cap := cap; e_stor := Some (length (mem s)) |}]) i b -> (owns (vars s) i b /\ b < length (mem s)) \/ (i = length (vars s) /\ b = length (mem s))).
      { intros i b (a & Ha & Hb). apply nth_snoc in Ha. destruct Ha as [[E [= ->]]|Ha]; [right; cbn in Hb; split; congruence|left]. assert (O : owns (vars s) i b) by (exists a; split; assumption). split; [exact O|apply (B _ _ O)]. }
      split; [|split].
      + intros i a x Ha Hx. apply nth_snoc in Ha, Hx. destruct Ha as [[-> ->]|Ha], Hx as [[E ->]|Hx].
        * split; [reflexivity|]. split; [reflexivity|]. split; [cbn; lia|]. cbn [e_stor fst snd map app length]. split; [lia|]. exists (repeat Raw cap). split; [apply nth_app_mid|]. rewrite repeat_length. split; [lia|reflexivity].
        * apply nth_len in Hx. lia.
        * apply nth_len in Ha. lia.
        * specialize (R i _ _ Ha Hx). destruct a as [a|], x as [x|]; try exact R. apply (rel_frame _ _ _ _ (fun b => b < length (mem s)) R).
          -- intros b Hb. apply nth_error_app1. exact Hb.
          -- intros b Hb. apply (owned_bound _ _ _ _ R Hb).
      + intros i j b Hi Hj. apply OO in Hi, Hj. destruct Hi as [[Hi Bi]|[Hi Bi]], Hj as [[Hj Bj]|[Hj Bj]]; try lia. apply (U i j b Hi Hj).
      + intros b c H. apply nth_snoc in H. destruct H as [[-> _]|H].
        * exists (length (vars s)). eexists. split; [apply nth_app_mid|reflexivity].
        * destruct (K b c H) as (i & a & Ha & Hb). exists i, a. split; [|exact Hb]. rewrite nth_error_app1; [exact Ha|apply (nth_len _ _ _ Ha)].
  Qed.
  (** Handing the block of variable [j] to variable [i], which owns nothing. *)
  Lemma sim_move s t i j a0 x0 a x : sim s t -> i <> j -> nth_error (vars s) i = Some (Some a0) -> nth_error (svars t) i = Some (Some x0) -> e_stor a0 = None ->
    nth_error (vars s) j = Some (Some a) -> nth_error (svars t) j = Some (Some x) ->
    sim {| vars := upd (upd (vars s) i (Some a)) j (Some gone); mem := mem s; log := log s |} {| svars := upd (upd (svars t) i (Some x)) j (Some (0, [])); slog := slog t |}.
  Proof.
    intros (G & L & R & U & K) N Ai Xi E Aj Xj. split; [exact G|]. split; [cbn; rewrite !upd_length; exact L|]. cbn [vars svars mem].
    assert (OO : forall k b, owns (upd (upd (vars s) i (Some a)) j (Some gone)) k b -> (k = i /\ owns (vars s) j b) \/ (k <> i /\ k <> j /\ owns (vars s) k b)).
    { intros k b (a1 & H1 & H2). apply upd_cases in H1. destruct H1 as [[<- [= ->]]|[N1 H1]]; [discriminate|]. apply upd_cases in H1. destruct H1 as [[<- [= ->]]|[N2 H1]].
      - left. split; [reflexivity|]. exists a. split; assumption.
      - right. split; [congruence|]. split; [congruence|]. exists a1. split; assumption. }
    split; [|split].
    - intros k a1 x1 H1 H2. apply upd_cases in H1, H2. destruct H1 as [[<- ->]|[N1 H1]], H2 as [[E2 ->]|[N2 H2]]; [apply rel_gone|congruence|congruence|].
      apply upd_cases in H1, H2. destruct H1 as [[<- ->]|[N1' H1]], H2 as [[E2 ->]|[N2' H2]]; [apply (R j (Some a) (Some x) Aj Xj)|congruence|congruence|apply (R k); assumption].
    - intros k k' b Hk Hk'. apply OO in Hk, Hk'. destruct Hk as [[-> Hk]|(n1 & n2 & Hk)], Hk' as [[-> Hk']|(n1' & n2' & Hk')].
      + reflexivity.
      + exfalso. apply n2'. symmetry. apply (U _ _ _ Hk Hk').
      + exfalso. apply n2. apply (U _ _ _ Hk Hk').
      + apply (U _ _ _ Hk Hk').
    - intros b c H. destruct (K b c H) as (k & a1 & H1 & H2). destruct (Nat.eq_dec k j) as [->|Nj].
      + exists i, a1. split; [|exact H2]. rewrite upd_other by congruence. assert (a1 = a) as -> by congruence. apply upd_same, (nth_len _ _ _ Ai).
      + exists k, a1. split; [|exact H2]. rewrite upd_other by congruence. rewrite upd_other; [exact H1|]. intros <-. congruence.
  Qed.

  Lemma upd_snoc_last {A} (l : list A) x y : upd (l ++ [x]) (length l) y = l ++ [y].
  Proof. apply upd_app. Qed.
  Lemma upd_snoc {A} (l : list A) x : forall i y, i < length l -> upd (l ++ [x]) i y = upd l i y ++ [x].
  Proof. induction l as [|z l IH]; intros [|i] y H; cbn in *; [lia|lia|reflexivity|]. f_equal. apply IH. lia. Qed.

  Lemma step_ok s t o : sim s t ->
    match step triv s o, sstep triv t o with Some s', Some t' => sim s' t' | None, None => True | _, _ => False end.
  Proof.
    intros HS. pose proof HS as (G & L & R & U & K). destruct o as [cap|j|i j|i v nt th|i|i].
    - destruct (sim_new s t cap HS) as (s' & E & S'). rewrite E. exact S'.
    - cbn [step sstep]. pose proof (sim_var s t j HS) as J. destruct (var s j) as [a|] eqn:A, (svar t j) as [x|] eqn:X; try contradiction; [|exact I]. cbn [option_bind].
      apply var_nth in A. apply svar_nth in X. destruct (sim_new s t 0 HS) as (s' & E & S'). cbn [step Nat.eqb] in E. injection E as <-.
      assert (j < length (vars s)) as Hj by apply (nth_len _ _ _ A). assert (j < length (svars t)) as Hj' by (rewrite <- L; exact Hj).
      pose proof (sim_move _ _ (length (vars s)) j {| e_count := 0; e_cap := 0; e_stor := None |} (0, []) a x S' ltac:(lia)) as M. cbn [vars svars mem log slog] in M.
      rewrite nth_app_mid, L, nth_app_mid in M. rewrite !nth_error_app1 in M by assumption.
      specialize (M eq_refl eq_refl eq_refl A X). rewrite <- L in M at 1. rewrite !upd_snoc_last, !upd_snoc in M by assumption. exact M.
    - cbn [step sstep]. pose proof (sim_var s t i HS) as J. destruct (var s i) as [a|] eqn:A, (svar t i) as [x|] eqn:X; try contradiction; [|exact I]. cbn [option_bind].
      destruct (release_ok (mem s) a x (log s) J) as (a' & h & E & E1 & E2 & E3 & E4 & E5). rewrite E. cbn [option_bind]. apply var_nth in A. apply svar_nth in X.
      assert (S1 : sim {| vars := upd (vars s) i (Some gone); mem := h; log := log s ++ goodbye triv (snd x) |} {| svars := upd (svars t) i (Some (0, [])); slog := slog t ++ goodbye triv (snd x) |}).
      { apply (sim_replace s t i a x (Some gone) (Some (0, [])) h _ _ HS A X); [congruence|apply rel_gone|exact E4|right; reflexivity|]. intros b Hb. right. apply E5, Hb. }
      destruct (Nat.eq_dec i j) as [<-|N].
      + unfold var at 1. cbn [vars]. rewrite (upd_same (vars s) i (Some a') (nth_len _ _ _ A)). rewrite (proj2 (svar_nth_iff _ _ _) X). cbn [option_bind vars]. rewrite !upd_upd. exact S1.
      + unfold var at 1. cbn [vars]. rewrite upd_other by exact N. pose proof (sim_var s t j HS) as J2. unfold var in J2. destruct (nth_error (vars s) j) as [[b|]|] eqn:B, (svar t j) as [y|] eqn:Y; try contradiction; try exact I. cbn [option_bind].
        apply svar_nth in Y. rewrite upd_upd. pose proof (sim_move _ _ i j gone (0, []) b y S1 N) as M. cbn [vars svars mem log slog] in M. rewrite !(upd_other _ i j) in M by exact N.
        rewrite !upd_upd in M. specialize (M (upd_same _ _ _ (nth_len _ _ _ A)) (upd_same _ _ _ (nth_len _ _ _ X)) eq_refl B Y). destruct b. exact M.
    - cbn [step sstep]. pose proof (sim_var s t i HS) as J. destruct (var s i) as [a|] eqn:A, (svar t i) as [x|] eqn:X; try contradiction; [|exact I]. cbn [option_bind].
      apply var_nth in A. apply svar_nth in X. pose proof J as (C & P & Q & D). rewrite C, P. destruct (Nat.ltb_spec (length (snd x)) (fst x)) as [H|H]; [|exact I].
      destruct (e_stor a) as [b|] eqn:E; [|lia]. destruct D as (D0 & rest & D1 & D2 & D3). destruct rest as [|r rest]; [cbn in D2; lia|].
      assert (CO : construct triv (mem s) b (length (snd x)) v = Some (upd (mem s) b (Some (map Live (snd x ++ [v]) ++ rest)))).
      { apply (construct_ok _ _ _ r rest v D1). intros T. specialize (D3 T). cbn in D3. congruence. }
      assert (S1 : sim {| vars := upd (vars s) i (Some {| e_count := S (length (snd x)); e_cap := fst x; e_stor := Some b |}); mem := upd (mem s) b (Some (map Live (snd x ++ [v]) ++ rest)); log := log s ++ [Built v] |}
                        {| svars := upd (svars t) i (Some (fst x, snd x ++ [v])); slog := slog t ++ [Built v] |}).
      { apply (sim_replace s t i a x (Some _) (Some _) _ _ _ HS A X); [congruence| | | |].
        - split; [cbn; rewrite app_length; cbn; lia|]. split; [reflexivity|]. split; [cbn; rewrite app_length; cbn; lia|]. cbn [e_stor fst snd]. split; [exact D0|]. exists rest.
          split; [apply upd_same, (nth_len _ _ _ D1)|]. rewrite app_length. cbn in D2 |- *. split; [lia|]. intros T. specialize (D3 T). cbn in D3. congruence.
        - intros b' N. apply upd_other. congruence.
        - left. cbn. congruence.
        - intros b' Hb. left. eexists. split; [reflexivity|]. cbn. congruence. }
      destruct nt; cbn [negb andb]; [rewrite CO; exact S1|]. destruct th; [exact HS|rewrite CO; exact S1].
    - cbn [step sstep]. pose proof (sim_var s t i HS) as J. destruct (var s i) as [a|] eqn:A, (svar t i) as [x|] eqn:X; try contradiction; [|exact I]. cbn [option_bind].
      apply var_nth in A. apply svar_nth in X. destruct (destroy_all_ok (mem s) a x (log s) J) as (h & E & E1 & E2 & E3 & E4). rewrite E. cbn [option_bind].
      apply (sim_replace s t i a x (Some _) (Some _) h _ _ HS A X); [congruence|exact E1|exact E3|left; reflexivity|]. intros b Hb. left. eexists. split; [reflexivity|]. exact Hb.
    - cbn [step sstep]. pose proof (sim_var s t i HS) as J. destruct (var s i) as [a|] eqn:A, (svar t i) as [x|] eqn:X; try contradiction; [|exact I]. cbn [option_bind].
      apply var_nth in A. apply svar_nth in X. destruct (release_ok (mem s) a x (log s) J) as (a' & h & E & E1 & E2 & E3 & E4 & E5). rewrite E. cbn [option_bind].
      apply (sim_replace s t i a x None None h _ _ HS A X); [congruence|exact I|exact E4|exact I|]. intros b Hb. right. apply E5, Hb.
  Qed.
  Lemma run_ok os : forall s t, sim s t -> match run triv s os, srun triv t os with Some s', Some t' => sim s' t' | None, None => True | _, _ => False end.
  Proof.
    induction os as [|o os IH]; intros s t S; [exact S|]. cbn [run srun]. pose proof (step_ok s t o S) as H.
    destruct (step triv s o) as [s'|], (sstep triv t o) as [t'|]; try contradiction; [|exact I]. cbn [option_bind]. apply IH, H.
  Qed.
  Lemma sim_start : sim (start (V := V)) sstart.
  Proof.
    split; [reflexivity|]. split; [reflexivity|]. split; [|split].
    - intros [|i] a x H; discriminate.
    - intros i j b (a & H & _). destruct i; discriminate.
    - intros [|b] c H; discriminate.
  Qed.

  (* ---------------------------------------------------------------- reading *)
  Lemma rel_at h a x k : rel h a x -> k < length (snd x) -> e_at h a k = nth_error (snd x) k.
  Proof.
    intros (A & B & C & D) H. unfold e_at, e_ptr. destruct (e_stor a) as [b|]; [|lia]. destruct D as (_ & rest & D & _). cbn [option_bind fst snd]. rewrite D.
    rewrite nth_error_app1 by (rewrite map_length; exact H). rewrite nth_error_map. destruct (nth_error (snd x) k); reflexivity.
  Qed.
  Lemma walk_ok (h : heap) b l2 : forall l1 rest, nth_error h b = Some (Some (map Live (l1 ++ l2) ++ rest)) -> e_walk h b (length l1) (length l2) = Some l2.
  Proof.
    induction l2 as [|v l2 IH]; intros l1 rest H; [reflexivity|]. cbn [length e_walk]. unfold e_at. cbn [e_ptr e_stor option_bind fst snd]. rewrite H.
    rewrite nth_error_app1 by (rewrite map_length, app_length; cbn; lia). rewrite nth_error_map, nth_app_mid. cbn [option_map option_bind].
    specialize (IH (l1 ++ [v]) rest). rewrite app_length, Nat.add_1_r, <- app_assoc in IH. rewrite (IH H). reflexivity.
  Qed.
  Lemma rel_iterate h a x : rel h a x -> 0 < fst x -> e_iterate h a = Some (snd x).
  Proof.
    intros (A & B & C & D) H. unfold e_iterate, e_ptr. destruct (e_stor a) as [b|]; [|lia]. destruct D as (_ & rest & D & _). cbn [option_bind fst snd]. rewrite Nat.sub_0_r, A. apply (walk_ok h b (snd x) [] rest). exact D.
  Qed.

  (* ---------------------------------------------------------------- bookkeeping *)
  Lemma builts_app (a b : list (event V)) : builts (a ++ b) = builts a ++ builts b.
  Proof. apply flat_map_app. Qed.
  Lemma gones_app (a b : list (event V)) : gones (a ++ b) = gones a ++ gones b.
  Proof. apply flat_map_app. Qed.
  Lemma gones_map (l : list V) : gones (map Gone l) = l.
  Proof. unfold gones. induction l as [|v l IH]; cbn; [reflexivity|]. f_equal. exact IH. Qed.
  Lemma builts_map (l : list V) : builts (map Gone l) = [].
  Proof. unfold builts. induction l as [|v l IH]; cbn; [reflexivity|exact IH]. Qed.
  Lemma alive_upd (l : list (option (nat * list V))) : forall i x y, nth_error l i = Some x ->
    Permutation (alive (upd l i y) ++ alive [x]) (alive l ++ alive [y]).
  Proof.
    unfold alive. induction l as [|z l IH]; intros [|i] x y H; cbn [nth_error] in H; try discriminate.
    - injection H as ->. cbn [upd flat_map]. rewrite !app_nil_r, <- !app_assoc. set (f := flat_map _ l). clearbody f.
      set (p := match x with Some (_, v) => v | None => [] end). set (q := match y with Some (_, v) => v | None => [] end). clearbody p q.
      rewrite (Permutation_app_comm q), (Permutation_app_comm p), <- !app_assoc. apply Permutation_app_head. apply Permutation_app_comm.
    - cbn [upd flat_map]. rewrite <- !app_assoc. apply Permutation_app_head. apply (IH i x y H).
  Qed.
  Definition balanced (t : sstate V) : Prop := Permutation (builts (slog t)) (gones (slog t) ++ alive (svars t)).
  Lemma alive_one (c : nat) (l : list V) : alive [Some (c, l)] = l.
  Proof. unfold alive. cbn. apply app_nil_r. Qed.
  Lemma alive_app (a b : list (option (nat * list V))) : alive (a ++ b) = alive a ++ alive b.
  Proof. apply flat_map_app. Qed.
  Lemma balance_gone (B G A A' : list V) l : Permutation B (G ++ A) -> Permutation (A' ++ l) A -> Permutation B ((G ++ rev l) ++ A').
  Proof.
    intros H1 H2. rewrite H1, <- app_assoc. apply Permutation_app_head. rewrite <- H2, <- (Permutation_rev l). apply Permutation_app_comm.
  Qed.
  Lemma step_balanced (t t' : sstate V) o : balanced t -> sstep false t o = Some t' -> balanced t'.
  Proof.
    unfold balanced. intros H. destruct o as [cap|j|i j|i v nt th|i|i]; cbn [sstep].
    - intros [= <-]. cbn [slog svars]. rewrite alive_app, alive_one, app_nil_r. exact H.
    - destruct (svar t j) as [[c l]|] eqn:X; [|discriminate]. cbn [option_bind]. intros [= <-]. cbn [slog svars]. apply svar_nth in X. rewrite H. apply Permutation_app_head.
      rewrite alive_app. rewrite (alive_upd _ j _ (Some (0, [])) X), alive_one, app_nil_r. reflexivity.
    - destruct (svar t i) as [[c l]|] eqn:X; [|discriminate]. destruct (svar t j) as [[c' l']|] eqn:Y; [|discriminate]. cbn [option_bind snd]. intros [= <-]. cbn [slog svars]. apply svar_nth in X, Y.
      unfold goodbye. rewrite builts_app, gones_app, builts_map, gones_map, app_nil_r. apply (balance_gone _ _ _ _ _ H). destruct (Nat.eq_dec i j) as [<-|N].
      + rewrite upd_upd. pose proof (alive_upd _ i _ (Some (0, [])) X) as P. rewrite !alive_one, app_nil_r in P. exact P.
      + pose proof (alive_upd _ i _ (Some (c', l')) X) as P. rewrite !alive_one in P.
        pose proof (alive_upd (upd (svars t) i (Some (c', l'))) j _ (Some (0, [])) ltac:(rewrite upd_other; [exact Y|exact N])) as Q. rewrite !alive_one, app_nil_r in Q.
        apply (Permutation_app_inv_r l'). rewrite <- P, <- Q, <- !app_assoc. apply Permutation_app_head. apply Permutation_app_comm.
    - destruct (svar t i) as [[c l]|] eqn:X; [|discriminate]. cbn [option_bind snd fst]. destruct (Nat.ltb (length l) c); [|discriminate]. destruct (negb nt && th); intros [= <-]; [exact H|]. cbn [slog svars].
      apply svar_nth in X. rewrite builts_app, gones_app. cbn [builts gones flat_map app]. rewrite app_nil_r, H, <- app_assoc. apply Permutation_app_head.
      pose proof (alive_upd _ i _ (Some (c, l ++ [v])) X) as P. rewrite !alive_one in P. apply (Permutation_app_inv_r l). rewrite P, <- app_assoc. apply Permutation_app_head. apply Permutation_app_comm.
    - destruct (svar t i) as [[c l]|] eqn:X; [|discriminate]. cbn [option_bind snd fst]. intros [= <-]. cbn [slog svars]. apply svar_nth in X.
      unfold goodbye. rewrite builts_app, gones_app, builts_map, gones_map, app_nil_r. apply (balance_gone _ _ _ _ _ H). pose proof (alive_upd _ i _ (Some (c, [])) X) as P. rewrite !alive_one, app_nil_r in P. exact P.
    - destruct (svar t i) as [[c l]|] eqn:X; [|discriminate]. cbn [option_bind snd fst]. intros [= <-]. cbn [slog svars]. apply svar_nth in X.
      unfold goodbye. rewrite builts_app, gones_app, builts_map, gones_map, app_nil_r. apply (balance_gone _ _ _ _ _ H). pose proof (alive_upd _ i _ None X) as P. rewrite !alive_one in P. cbn [alive flat_map] in P. rewrite app_nil_r in P. exact P.
  Qed.
  Lemma run_balanced os : forall t t' : sstate V, balanced t -> srun false t os = Some t' -> balanced t'.
  Proof.
    induction os as [|o os IH]; intros t t' H E; cbn [srun] in E; [congruence|]. destruct (sstep false t o) as [t1|] eqn:S1; [|discriminate]. cbn [option_bind] in E. apply (IH t1); [|exact E]. apply (step_balanced _ _ _ H S1).
  Qed.
End P.
