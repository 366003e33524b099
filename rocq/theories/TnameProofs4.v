(** Different types have different names: reading a name from the left. *)
From Coq Require Import Ascii String Lia.
From Verif Require Import Words TnameModel TnameSpec TnameProofs TnameProofs2 TnameProofs3.
Import ListNotations.
Local Open Scope list_scope.

Fixpoint size (t : ty) : nat :=
  let sizes := fix sizes (l : list ty) : nat := match l with [] => O | x :: r => (size x + sizes r)%nat end in
  match t with
  | Named _ => 1 | Qual _ _ u | Ptr u | LRef u | RRef u | Arr u _ => S (size u)
  | Fun r ps _ _ => S (size r + sizes ps) | Inst _ us _ => S (sizes us)
  end%nat.
Lemma sizes_in : forall l p, In p l -> (size p <= (fix sizes (l : list ty) : nat := match l with [] => O | x :: r => (size x + sizes r)%nat end) l)%nat.
Proof. induction l as [|x r IH]; intros p H; [destruct H|]. destruct H as [<-|H]; [lia|]. specialize (IH p H). lia. Qed.
Lemma size_qual : forall c v t, (size t <= size (qual c v t))%nat.
Proof. intros c v t. unfold qual. destruct (c || v); cbn [size]; lia. Qed.

Definition lref (l : layer) : bool := match l with LL | LR | LLA _ | LRA _ => true | _ => false end.
Definition lfun (l : layer) : bool := match l with LF _ _ _ | LFP _ _ _ _ _ | LFL _ _ _ => true | _ => false end.
Fixpoint chain (ls : list layer) : bool :=
  match ls with l :: r => match r with l' :: _ => (negb (lref l) || lfun l') && chain r | [] => true end | [] => true end.
Lemma chain_snoc : forall l ls, chain ls = true -> (forall a x, ls = a ++ [x] -> negb (lref x) || lfun l = true) -> chain (ls ++ [l]) = true.
Proof.
  induction ls as [|x ls IH]; intros H Hl; [reflexivity|]. cbn [app]. destruct ls as [|y ls].
  - cbn [app chain]. rewrite (Hl [] x eq_refl). reflexivity.
  - cbn [chain app] in *. apply andb_true_iff in H as [H1 H2]. rewrite H1. cbn [andb]. apply IH; [exact H2|]. intros a z E. apply (Hl (x :: a) z). rewrite E. reflexivity.
Qed.

Section Unique.
  Context (comp : compiler) (Hkey : right_key comp) (aliases templates : list str) (arguments : list ty -> option (list num) -> str)
          (shape : str -> bool) (kind : str -> bool * N * bool).
  Notation name := (type_name comp aliases templates arguments).
  Notation lawful := (lawful templates arguments shape kind).
  Notation full := (full comp aliases templates arguments).
  Notation lname := (lname comp aliases templates arguments).
  Notation cname := (cname comp aliases templates arguments).
  Notation iname := (iname comp aliases templates arguments).
  Notation plist := (plist comp aliases templates arguments).
  Notation pplist := (pplist comp aliases templates arguments).
  Notation named_ok := (named_ok comp aliases templates arguments).

  (* ----------------------------------------------------------- parts of lawful types *)

  Definition lawful_layer (l : layer) : bool :=
    forallb lawful (lparams l) && match l with LA b | LLA b | LRA b => match b with Some n => is_bound n | None => true end | _ => true end.

  Lemma lawful_apply : forall t l, lawful (apply t l) = true -> lawful_layer l = true.
  Proof using All.
    intros t l H. unfold lawful_layer. destruct l as [c v| | |b|b|b|ps d x|c v ps d x|ps d x]; cbn [lparams forallb andb]; try reflexivity; cbn [apply] in H.
    - cbn [TnameSpec.lawful] in H. now apply andb_true_iff in H.
    - cbn [TnameSpec.lawful] in H. apply andb_true_iff in H as [_ H]. now apply andb_true_iff in H.
    - cbn [TnameSpec.lawful] in H. apply andb_true_iff in H as [_ H]. now apply andb_true_iff in H.
    - cbn [TnameSpec.lawful] in H. apply andb_true_iff in H as [_ H]. rewrite H. reflexivity.
    - assert (Hq : lawful (Ptr (Fun t ps d x)) = true) by (unfold qual in H; destruct (c || v) eqn:E; [cbn [TnameSpec.lawful] in H; apply andb_true_iff in H as [_ H]; exact H|exact H]).
      cbn [TnameSpec.lawful] in Hq. apply andb_true_iff in Hq as [_ Hq]. apply andb_true_iff in Hq as [_ Hq]. rewrite Hq. reflexivity.
    - cbn [TnameSpec.lawful] in H. apply andb_true_iff in H as [_ Hq]. apply andb_true_iff in Hq as [_ Hq]. rewrite Hq. reflexivity.
  Qed.

  Lemma lawful_layers : forall t, lawful t = true -> forallb lawful_layer (layers t) = true.
  Proof using All.
    apply (lawful_ind templates arguments shape kind (fun t => forallb lawful_layer (layers t) = true)).
    - intros t Hc _. unfold layers. rewrite split_core by assumption. reflexivity.
    - intros t l _ IH Hl Ho. unfold layers. rewrite split_apply by assumption. cbn [snd]. rewrite forallb_app, IH. cbn [forallb andb]. rewrite (lawful_apply t l Hl). reflexivity.
  Qed.

  Lemma core_args_lawful : forall t, is_core t = true -> lawful t = true -> forallb lawful (core_args t) = true.
  Proof using All.
    intros [s|c v u|u|u|u|u b|r ps d x|m us ns] Hc Hl; try discriminate; try reflexivity.
    - destruct u as [s|c' v' u|u|u|u|u b|r ps d x|m us ns]; try discriminate; try reflexivity. cbn [TnameSpec.lawful core_args] in *. apply andb_true_iff in Hl as [_ H].
      apply andb_true_iff in H as [H _]. apply andb_true_iff in H as [H _]. apply andb_true_iff in H as [H _]. now apply andb_true_iff in H.
    - cbn [TnameSpec.lawful core_args] in *. rename Hl into H.
      apply andb_true_iff in H as [H _]. apply andb_true_iff in H as [H _]. apply andb_true_iff in H as [H _]. now apply andb_true_iff in H.
  Qed.

  Lemma comps_lawful : forall t, lawful t = true -> forallb lawful (comps t) = true.
  Proof using All.
    intros t H. unfold comps. rewrite forallb_app. destruct (core_is templates arguments shape kind t H) as [H1 H2]. rewrite (core_args_lawful _ H1 H2). cbn [andb].
    pose proof (lawful_layers t H) as K. induction (layers t) as [|l ls IH]; [reflexivity|]. cbn [forallb flat_map] in *. apply andb_true_iff in K as [K1 K2]. rewrite forallb_app, IH by assumption.
    unfold lawful_layer in K1. apply andb_true_iff in K1 as [K1 _]. rewrite K1. reflexivity.
  Qed.

  Lemma comps_size : forall t, lawful t = true -> forall p, In p (comps t) -> (size p < size t)%nat.
  Proof using All.
    apply (lawful_ind templates arguments shape kind (fun t => forall p, In p (comps t) -> (size p < size t)%nat)).
    - intros t Hc _ p H. unfold comps, core, layers in H. rewrite split_core in H by assumption. cbn [fst snd flat_map] in H. rewrite app_nil_r in H.
      destruct t as [s|c v u|u|u|u|u b|r ps d x|m us ns]; try discriminate; cbn [core_args] in H.
      + destruct H.
      + destruct u as [s|c' v' u|u|u|u|u b|r ps d x|m us ns]; try discriminate; [destruct H|]. apply sizes_in in H. cbn [size]. lia.
      + apply sizes_in in H. cbn [size]. lia.
    - intros t l _ IH _ Ho p H. rewrite comps_apply in H by assumption. apply in_app_or in H as [H|H].
      + specialize (IH p H). destruct l as [c v| | |b|b|b|ps d x|c v ps d x|ps d x]; cbn [apply]; try (cbn [size]; lia).
        * pose proof (size_qual c v (Ptr t)). cbn [size] in *. lia.
        * pose proof (size_qual c v (Ptr (Fun t ps d x))). cbn [size] in *. lia.
      + destruct l as [c v| | |b|b|b|ps d x|c v ps d x|ps d x]; cbn [apply lparams] in *; try (destruct H; fail); apply sizes_in in H; try (cbn [size]; lia).
        pose proof (size_qual c v (Ptr (Fun t ps d x))). cbn [size] in *. lia.
  Qed.

  Lemma lawful_named : forall t, lawful t = true -> named_ok t.
  Proof using All.
    intros t. remember (size t) as n eqn:En. assert (Hn : (size t <= n)%nat) by lia. clear En. revert t Hn. induction n as [|n IH]; intros t Hn H; [destruct t; cbn in Hn; lia|].
    assert (Hc : Forall named_ok (comps t)).
    { apply Forall_forall. intros p Hp. apply IH; [pose proof (comps_size t H p Hp); lia|]. pose proof (comps_lawful t H) as K. rewrite forallb_forall in K. auto. }
    pose proof (name_parts comp Hkey aliases templates arguments shape kind t H Hc) as E. unfold TnameProofs3.named_ok, TnameProofs3.full. rewrite E. reflexivity.
  Qed.

  Lemma full_parts : forall t, lawful t = true -> full t = cname (core t) ++ flat_map lname (layers t).
  Proof using All.
    intros t H. assert (Hc : Forall named_ok (comps t)).
    { apply Forall_forall. intros p Hp. apply lawful_named. pose proof (comps_lawful t H) as K. rewrite forallb_forall in K. auto. }
    unfold TnameProofs3.full. rewrite (name_parts comp Hkey aliases templates arguments shape kind t H Hc). reflexivity.
  Qed.

  Lemma lawful_chain : forall t, lawful t = true -> chain (layers t) = true.
  Proof using All.
    apply (lawful_ind templates arguments shape kind (fun t => chain (layers t) = true)).
    - intros t Hc _. unfold layers. rewrite split_core by assumption. reflexivity.
    - intros t l Ht IH Hl Ho. unfold layers. rewrite split_apply by assumption. cbn [snd]. apply chain_snoc; [exact IH|]. intros a x E.
      destruct (lref x) eqn:Ex; [|reflexivity]. cbn [negb orb].
      assert (Hr : is_ref t = true).
      { rewrite <- (rebuild templates arguments shape kind t Ht), E, fold_left_app. cbn [fold_left]. destruct x; try discriminate; reflexivity. }
      assert (Hq : forall c v u, lawful (qual c v u) = true -> lawful u = true \/ exists f, u = Ptr f /\ lawful (Ptr f) = true).
      { intros c v u K. unfold qual in K. destruct (c || v) eqn:Ecv; [|left; exact K]. cbn [TnameSpec.lawful] in K. apply andb_true_iff in K as [_ K]. destruct u; try discriminate; left; exact K. }
      destruct l as [c v| | |b|b|b|ps d y|c v ps d y|ps d y]; try reflexivity; exfalso; cbn [apply] in Hl.
      + apply Hq in Hl as [Hl|(f & Ef & Hl)]; [|injection Ef as <-]; cbn [TnameSpec.lawful] in Hl; rewrite Hr in Hl; discriminate.
      + cbn [TnameSpec.lawful] in Hl. rewrite Hr in Hl. discriminate.
      + cbn [TnameSpec.lawful] in Hl. rewrite Hr in Hl. discriminate.
      + cbn [TnameSpec.lawful] in Hl. rewrite Hr in Hl. discriminate.
      + cbn [TnameSpec.lawful] in Hl. rewrite Hr in Hl. cbn in Hl. discriminate.
      + cbn [TnameSpec.lawful] in Hl. rewrite Hr in Hl. cbn in Hl. discriminate.
  Qed.

  (* ---------------------------------------------------------------- first characters *)

  Definition nl (x : str) : bool := match x with [] => true | c :: _ => negb (is_letter c) end.

  Lemma word_head : forall w, word w = true -> exists c r, w = c :: r /\ is_letter c = true.
  Proof using All. intros [|c r] H; [discriminate|]. exists c, r. split; [reflexivity|]. unfold word in H. apply andb_true_iff in H as [H _]. now apply andb_true_iff in H. Qed.

  Lemma core_head : forall t x, is_core t = true -> lawful t = true -> nl (cname t ++ x) = false.
  Proof using All.
    assert (W : forall w x, word w = true -> nl (w ++ x) = false).
    { intros w x Hw. destruct (word_head w Hw) as (c & r & -> & Hc). cbn. rewrite Hc. reflexivity. }
    assert (Wi : forall m us ns, lawful (Inst m us ns) = true -> word m = true).
    { intros m us ns H. cbn [TnameSpec.lawful] in H. do 4 (apply andb_true_iff in H as [H _]). exact H. }
    intros [s|c v u|u|u|u|u b|r ps d x'|m us ns] x Hc Hl; try discriminate.
    - apply W, Hl.
    - destruct u as [s|c' v' u|u|u|u|u b|r ps d x'|m us ns]; try discriminate; pose proof Hl as H; cbn [TnameSpec.lawful] in H; apply andb_true_iff in H as [Hcv H]; cbn [TnameProofs3.cname]; unfold cvp; rewrite Hcv; destruct c, v; try discriminate; reflexivity.
    - cbn [TnameProofs3.cname]. unfold TnameProofs3.iname. rewrite <- app_assoc. apply W, (Wi m us ns Hl).
  Qed.

  Lemma full_head : forall t x, lawful t = true -> nl (full t ++ x) = false.
  Proof using All. intros t x H. rewrite full_parts by assumption. rewrite <- app_assoc. destruct (core_is templates arguments shape kind t H). apply core_head; assumption. Qed.

  (* ---------------------------------------------------------------- lists of types *)

  Definition uniq (s : ty) : Prop := forall t r1 r2, lawful t = true -> stop r1 = true -> stop r2 = true -> full s ++ r1 = full t ++ r2 -> s = t /\ r1 = r2.
  Definition endl (e : str) : Prop := nl e = true /\ forall y, e = text ", " ++ y -> nl y = true.

  Lemma commas_full : forall p ps, commas (map full (p :: ps)) = full p ++ match ps with [] => [] | _ => text ", " ++ commas (map full ps) end.
  Proof using All. intros p [|q ps]; [cbn; rewrite app_nil_r; reflexivity|reflexivity]. Qed.

  Lemma commas_head : forall p ps x, lawful p = true -> nl (commas (map full (p :: ps)) ++ x) = false.
  Proof using All. intros p ps x H. rewrite commas_full, <- app_assoc. apply full_head, H. Qed.

  Lemma list_unique : forall ps qs e1 e2, Forall uniq ps -> forallb lawful ps = true -> forallb lawful qs = true -> endl e1 -> endl e2 ->
    (ps <> [] -> stop e1 = true) -> (qs <> [] -> stop e2 = true) -> commas (map full ps) ++ e1 = commas (map full qs) ++ e2 -> ps = qs /\ e1 = e2.
  Proof using All.
    induction ps as [|p ps IH]; intros qs e1 e2 Hu Hl1 Hl2 E1 E2 S1 S2 H.
    - destruct qs as [|q qs]; [auto|]. exfalso. cbn [forallb] in Hl2. apply andb_true_iff in Hl2 as [Hq _]. pose proof (commas_head q qs e2 Hq) as K. rewrite <- H in K. cbn [map commas app] in K. destruct E1 as [E1 _]. congruence.
    - destruct qs as [|q qs].
      + exfalso. cbn [forallb] in Hl1. apply andb_true_iff in Hl1 as [Hp _]. pose proof (commas_head p ps e1 Hp) as K. rewrite H in K. cbn [map commas app] in K. destruct E2 as [E2 _]. congruence.
      + rewrite !commas_full, <- !app_assoc in H. cbn [forallb] in Hl1, Hl2. apply andb_true_iff in Hl1 as [Hp Hps]. apply andb_true_iff in Hl2 as [Hq Hqs].
        inversion Hu as [|? ? Up Ups]; subst.
        assert (T : forall (l : list ty) e, stop e = true -> stop (match l with [] => [] | _ => text ", " ++ commas (map full l) end ++ e) = true) by (intros [|? ?] e K; [exact K|reflexivity]).
        apply Up in H as [-> H]; [|exact Hq|apply T, S1; discriminate|apply T, S2; discriminate].
        destruct ps as [|p' ps], qs as [|q' qs].
        * auto.
        * exfalso. cbn [app] in H. rewrite <- app_assoc in H. destruct E1 as [_ E1]. specialize (E1 _ H). cbn [forallb] in Hqs. apply andb_true_iff in Hqs as [Hq' _]. rewrite commas_head in E1 by assumption. discriminate.
        * exfalso. cbn [app] in H. rewrite <- app_assoc in H. symmetry in H. destruct E2 as [_ E2]. specialize (E2 _ H). cbn [forallb] in Hps. apply andb_true_iff in Hps as [Hp' _]. rewrite commas_head in E2 by assumption. discriminate.
        * rewrite <- !app_assoc in H. apply app_inv_head in H.
          destruct (IH (q' :: qs) e1 e2 Ups Hps Hqs E1 E2) as [-> ->]; auto.
          -- intros _. apply S1. discriminate.
          -- intros _. apply S2. discriminate.
  Qed.

  Definition dots_end (ps : list ty) (d : bool) (z : str) : str := (if d then match ps with [] => text "..." | _ => text ", ..." end else []) ++ text ")" ++ z.
  Lemma plist_eq : forall ps d z, plist ps d ++ text ")" ++ z = commas (map full ps) ++ dots_end ps d z.
  Proof using All. intros ps d z. unfold TnameProofs3.plist, dots_end. destruct d; [|reflexivity]. destruct ps as [|p ps]; [reflexivity|]. rewrite <- app_assoc. reflexivity. Qed.

  Lemma dots_ok : forall ps d z, endl (dots_end ps d z) /\ (ps <> [] -> stop (dots_end ps d z) = true).
  Proof using All.
    intros ps d z. unfold dots_end. destruct d, ps as [|p ps]; split; try reflexivity; try (intros K; contradiction); split; try reflexivity; cbn [text list_ascii_of_string app]; intros y H; try discriminate.
    injection H as <-. reflexivity.
  Qed.

  Lemma plist_unique : forall ps qs d e z1 z2, Forall uniq ps -> forallb lawful ps = true -> forallb lawful qs = true ->
    plist ps d ++ text ")" ++ z1 = plist qs e ++ text ")" ++ z2 -> ps = qs /\ d = e /\ z1 = z2.
  Proof using All.
    intros ps qs d e z1 z2 Hu H1 H2 H. rewrite !plist_eq in H. destruct (dots_ok ps d z1) as [A1 A2], (dots_ok qs e z2) as [B1 B2].
    apply list_unique in H as [-> H]; try assumption. split; [reflexivity|]. unfold dots_end in H.
    destruct d, e, qs as [|q qs]; cbn [text list_ascii_of_string app] in H; try discriminate; injection H as H; auto.
  Qed.

  Lemma plist_head : forall ps d z, forallb lawful ps = true -> exists c r, plist ps d ++ text ")" ++ z = c :: r /\ c <> "("%char /\ c <> "&"%char /\ c <> "*"%char.
  Proof using All.
    intros ps d z H. rewrite plist_eq. destruct ps as [|p ps].
    - destruct d; [exists "."%char|exists ")"%char]; eexists; (split; [reflexivity|]); repeat split; discriminate.
    - cbn [forallb] in H. apply andb_true_iff in H as [H _]. pose proof (commas_head p ps (dots_end (p :: ps) d z) H) as K. destruct (commas (map full (p :: ps)) ++ dots_end (p :: ps) d z) as [|c r]; [discriminate|].
      exists c, r. split; [reflexivity|]. repeat split; intros ->; discriminate.
  Qed.

  Lemma pplist_unique : forall ps qs d e z1 z2, Forall uniq ps -> forallb lawful ps = true -> forallb lawful qs = true ->
    pplist ps d ++ text ")" ++ z1 = pplist qs e ++ text ")" ++ z2 -> ps = qs /\ d = e /\ z1 = z2.
  Proof using All.
    intros ps qs d e z1 z2 Hu H1 H2 H. unfold TnameProofs3.pplist in H. rewrite <- !app_assoc in H.
    assert (A : forall (l : list ty) (b : bool), (if b then match l with [] => [] | _ :: _ => text "(" end else []) = [] \/ (if b then match l with [] => [] | _ :: _ => text "(" end else []) = text "(") by (intros [|? ?] []; auto).
    destruct (A ps d) as [Ap|Ap], (A qs e) as [Aq|Aq]; rewrite Ap, Aq in H.
    - apply plist_unique; assumption.
    - exfalso. destruct (plist_head ps d z1 H1) as (c & r & E & N & _). cbn [app] in H. rewrite E in H. injection H as H _. congruence.
    - exfalso. destruct (plist_head qs e z2 H2) as (c & r & E & N & _). cbn [app] in H. rewrite E in H. injection H as H _. congruence.
    - apply app_inv_head in H. apply plist_unique; assumption.
  Qed.

  (* -------------------------------------------------------------------- layers *)

  Definition amp (x : str) : bool := match x with c :: _ => negb (Ascii.eqb c "&"%char) | [] => true end.

  Lemma nx_unique : forall x y z1 z2, cont z1 = true -> cont z2 = true -> nx x ++ z1 = nx y ++ z2 -> x = y /\ z1 = z2.
  Proof using All.
    intros [] [] z1 z2 H1 H2 H; unfold nx in H; cbn [text list_ascii_of_string app] in H.
    - injection H as H. auto.
    - subst z2. discriminate.
    - subst z1. discriminate.
    - auto.
  Qed.

  Lemma bound_num : forall n m, is_bound n = true -> is_bound m = true -> number n = number m -> n = m.
  Proof using All.
    assert (G : forall n, is_bound n = true -> n = Num false 64 false false (number n)).
    { intros [s w na b z] H. unfold is_bound, fits in H. cbn [signed width narrow boolean number] in *. do 4 (apply andb_true_iff in H as [H ?]). do 2 (apply andb_true_iff in H as [H ?]).
      destruct b, s, na; try discriminate. f_equal. apply N.eqb_eq. assumption. }
    intros n m H1 H2 E. rewrite (G n H1), (G m H2), E. reflexivity.
  Qed.

  Lemma btext_unique : forall b c z1 z2, match b with Some n => is_bound n | None => true end = true -> match c with Some n => is_bound n | None => true end = true ->
    btext b ++ z1 = btext c ++ z2 -> b = c /\ z1 = z2.
  Proof using All.
    intros b c z1 z2 Hb Hc H. unfold btext in H. rewrite <- !app_assoc in H. cbn [text list_ascii_of_string app] in H. injection H as H. destruct b as [n|], c as [m|].
    - apply shown_unique in H as [E H]; [|reflexivity|reflexivity]. injection H as H. rewrite (bound_num n m Hb Hc E). auto.
    - exfalso. destruct (shown_head (number n) ("]"%char :: z1)) as (k & r & E & K). rewrite E in H. injection H as -> _. discriminate.
    - exfalso. destruct (shown_head (number m) ("]"%char :: z2)) as (k & r & E & K). rewrite E in H. injection H as H _. subst k. discriminate.
    - injection H as H. auto.
  Qed.

  Lemma btext_head : forall b, exists r, btext b = "["%char :: r.
  Proof using All. intros b. eexists. reflexivity. Qed.

  Ltac clear_heads :=
    repeat match goal with H : context [btext ?b] |- _ => lazymatch goal with K : btext b = _ |- _ => fail | _ => let r := fresh "br" in let E := fresh "Eb" in destruct (btext_head b) as [r E]; rewrite E in H end end.

  Lemma layer_unique : forall l m x y, Forall uniq (lparams l) -> lawful_layer l = true -> lawful_layer m = true -> cont x = true -> cont y = true ->
    (lref l = true -> amp x = true) -> (lref m = true -> amp y = true) -> lname l ++ x = lname m ++ y -> l = m /\ x = y.
  Proof using All.
    intros l m x y Hu Hl Hm Hx Hy Al Am H. unfold lawful_layer in Hl, Hm. apply andb_true_iff in Hl as [Hl Hlb]. apply andb_true_iff in Hm as [Hm Hmb].
    assert (LFno : forall ps d z c r, forallb lawful ps = true -> plist ps d ++ text ")" ++ z = c :: r -> c = "&"%char \/ c = "*"%char -> False).
    { intros ps d z c r K E C. destruct (plist_head ps d z K) as (c' & r' & E' & _ & N1 & N2). rewrite E in E'. injection E' as -> _. destruct C; congruence. }
    destruct l as [c v| | |b|b|b|ps d n|c v ps d n|ps d n], m as [c' v'| | |b'|b'|b'|ps' d' n'|c' v' ps' d' n'|ps' d' n'];
      cbn [TnameProofs3.lname lparams lref] in *; rewrite <- ?app_assoc in H; cbn [text list_ascii_of_string app] in H; try discriminate H;
      try (unfold btext in H; rewrite <- ?app_assoc in H; cbn [text list_ascii_of_string app] in H; discriminate H).
    - (* pointers *)
      destruct c, v, c', v'; cbn [sep orb cv_name text list_ascii_of_string app] in H; try discriminate H; injection H as H; auto; subst; discriminate.
    - injection H as H. auto.
    - injection H as H. exfalso. specialize (Al eq_refl). subst x. discriminate.
    - injection H as H. exfalso. specialize (Am eq_refl). subst y. discriminate.
    - injection H as H. auto.
    - apply btext_unique in H as [-> ->]; auto.
    - change (text "(&)" ++ btext b ++ x = text "(&)" ++ btext b' ++ y) in H. apply app_inv_head in H. apply btext_unique in H as [-> ->]; auto.
    - exfalso. injection H as H. symmetry in H. eapply (LFno ps' d'); [exact Hm|exact H|auto].
    - change (text "(&&)" ++ btext b ++ x = text "(&&)" ++ btext b' ++ y) in H. apply app_inv_head in H. apply btext_unique in H as [-> ->]; auto.
    - exfalso. injection H as H. symmetry in H. eapply (LFno ps' d'); [exact Hm|exact H|auto].
    - exfalso. injection H as H. eapply (LFno ps d); [exact Hl|exact H|auto].
    - exfalso. injection H as H. eapply (LFno ps d); [exact Hl|exact H|auto].
    - injection H as H. change (")"%char :: nx n ++ x) with (text ")" ++ nx n ++ x) in H. change (")"%char :: nx n' ++ y) with (text ")" ++ nx n' ++ y) in H.
      apply plist_unique in H as (-> & -> & H); try assumption. apply nx_unique in H as [-> ->]; auto.
    - exfalso. injection H as H. eapply (LFno ps d); [exact Hl|exact H|auto].
    - exfalso. injection H as H. eapply (LFno ps d); [exact Hl|exact H|auto].
    - exfalso. injection H as H. symmetry in H. eapply (LFno ps' d'); [exact Hm|exact H|auto].
    - assert (E : c = c' /\ v = v' /\ pplist ps d ++ text ")" ++ nx n ++ x = pplist ps' d' ++ text ")" ++ nx n' ++ y).
      { destruct c, v, c', v'; cbn [cv_name text list_ascii_of_string app] in H; try discriminate H; injection H as H; auto. }
      destruct E as (-> & -> & E). apply pplist_unique in E as (-> & -> & E); try assumption. apply nx_unique in E as [-> ->]; auto.
    - exfalso. injection H as H. symmetry in H. eapply (LFno ps' d'); [exact Hm|exact H|auto].
    - injection H as H. change (")"%char :: nx n ++ x) with (text ")" ++ nx n ++ x) in H. change (")"%char :: nx n' ++ y) with (text ")" ++ nx n' ++ y) in H.
      apply pplist_unique in H as (-> & -> & H); try assumption. apply nx_unique in H as [-> ->]; auto.
  Qed.

  Lemma layer_head : forall l x, exists c r, lname l ++ x = c :: r /\ In c (text "*&[(") /\ (lfun l = true -> c = "("%char).
  Proof using All.
    intros [c v| | |b|b|b|ps d n|c v ps d n|ps d n] x; cbn [TnameProofs3.lname lfun]; rewrite <- ?app_assoc; eexists; eexists; (split; [reflexivity|]); (split; [cbn; tauto|]); try discriminate; reflexivity.
  Qed.

  Lemma cont_after : forall ls r, stop r = true -> cont (flat_map lname ls ++ r) = true.
  Proof using All.
    intros [|l ls] r H; [apply stop_cont, H|]. cbn [flat_map]. rewrite <- app_assoc. destruct (layer_head l (flat_map lname ls ++ r)) as (c & q & -> & Hc & _).
    cbn in Hc. destruct Hc as [<-|[<-|[<-|[<-|[]]]]]; reflexivity.
  Qed.

  Lemma amp_after : forall l ls r, chain (l :: ls) = true -> stop r = true -> lref l = true -> amp (flat_map lname ls ++ r) = true.
  Proof using All.
    intros l [|m ls] r Hc Hr Hl.
    - destruct r as [|c r]; [reflexivity|]. unfold stop, among in Hr. cbn [flat_map app amp]. apply existsb_exists in Hr as (y & Hy & E). apply Ascii.eqb_eq in E as ->. cbn in Hy. destruct Hy as [<-|[<-|[<-|[]]]]; reflexivity.
    - cbn [chain] in Hc. apply andb_true_iff in Hc as [Hc _]. rewrite Hl in Hc. cbn [negb orb] in Hc. cbn [flat_map]. rewrite <- app_assoc. destruct (layer_head m (flat_map lname ls ++ r)) as (c & q & -> & _ & K). rewrite (K Hc). reflexivity.
  Qed.

  Lemma chain_tail : forall l ls, chain (l :: ls) = true -> chain ls = true.
  Proof using All. intros l [|m ls] H; [reflexivity|]. cbn [chain] in *. now apply andb_true_iff in H. Qed.

  Lemma stop_not_layer : forall l x r, stop r = true -> r = lname l ++ x -> False.
  Proof using All.
    intros l x r H E. destruct (layer_head l x) as (c & q & E' & Hc & _). rewrite E' in E. subst r. unfold stop, among in H. cbn in Hc. destruct Hc as [<-|[<-|[<-|[<-|[]]]]]; discriminate.
  Qed.

  Lemma layers_unique : forall ls ms r1 r2, Forall uniq (flat_map lparams ls) -> forallb lawful_layer ls = true -> forallb lawful_layer ms = true -> chain ls = true -> chain ms = true ->
    stop r1 = true -> stop r2 = true -> flat_map lname ls ++ r1 = flat_map lname ms ++ r2 -> ls = ms /\ r1 = r2.
  Proof using All.
    induction ls as [|l ls IH]; intros ms r1 r2 Hu H1 H2 C1 C2 S1 S2 H.
    - destruct ms as [|m ms]; [auto|]. exfalso. cbn [flat_map app] in H. rewrite <- app_assoc in H. eapply stop_not_layer; [exact S1|exact H].
    - destruct ms as [|m ms].
      + exfalso. cbn [flat_map app] in H. rewrite <- app_assoc in H. symmetry in H. eapply stop_not_layer; [exact S2|exact H].
      + cbn [flat_map forallb] in *. rewrite <- !app_assoc in H. apply Forall_app in Hu as [U1 U2]. apply andb_true_iff in H1 as [H1 H1']. apply andb_true_iff in H2 as [H2 H2'].
        apply layer_unique in H as [-> H]; try assumption; try (apply cont_after; assumption).
        * apply IH in H as [-> ->]; auto; eapply chain_tail; eassumption.
        * apply amp_after; assumption.
        * apply amp_after; assumption.
  Qed.

  (* --------------------------------------------------------------------- cores *)

  Lemma cont_word : forall x, cont x = true -> match x with [] => true | k :: _ => negb (is_word_char k) end = true.
  Proof using All.
    intros [|c x] H; [reflexivity|]. unfold cont, among in H. apply existsb_exists in H as (y & Hy & E). apply Ascii.eqb_eq in E as ->. cbn in Hy. repeat (destruct Hy as [<-|Hy]; [reflexivity|]). destruct Hy.
  Qed.
  Lemma cont_not_lt : forall x y, cont x = true -> x = "<"%char :: y -> False.
  Proof using All. intros x y H ->. discriminate. Qed.

  (** Qualifiers, name and, for templates, what follows the name. *)
  Definition parts (t : ty) : bool * bool * str * option (list ty * option (list num)) :=
    match t with
    | Named s => (false, false, s, None) | Inst m us ns => (false, false, m, Some (us, ns))
    | Qual c v (Named s) => (c, v, s, None) | Qual c v (Inst m us ns) => (c, v, m, Some (us, ns))
    | _ => (false, false, [], None)
    end.
  Definition itext (a : option (list ty * option (list num))) : str :=
    match a with
    | None => []
    | Some (us, ns) => text "<" ++ match ns with
                     | None => commas (map full us)
                     | Some l => match us with [] => [] | _ => commas (map full us) ++ text ", " end ++ commas (map (fun n => shown (number n)) l)
                     end ++ text ">"
    end.
  Definition inst_ok (m : str) (a : option (list ty * option (list num))) : Prop :=
    match a with None => True | Some (us, ns) => lawful (Inst m us ns) = true end.

  Lemma parts_name : forall t, is_core t = true -> lawful t = true ->
    let '(c, v, w, a) := parts t in cname t = cvp c v ++ w ++ itext a /\ word w = true /\ inst_ok w a /\ core_args t = match a with Some (us, _) => us | None => [] end.
  Proof using All.
    assert (Wi : forall m us ns, lawful (Inst m us ns) = true -> word m = true).
    { intros m us ns H. cbn [TnameSpec.lawful] in H. do 4 (apply andb_true_iff in H as [H _]). exact H. }
    intros [s|c v u|u|u|u|u b|r ps d x|m us ns] Hc Hl; try discriminate; cbn [parts TnameProofs3.cname itext core_args inst_ok].
    - rewrite app_nil_r. repeat split; auto.
    - destruct u as [s|c' v' u|u|u|u|u b|r ps d x|m us ns]; try discriminate; cbn [itext]; pose proof Hl as H; cbn [TnameSpec.lawful] in H; apply andb_true_iff in H as [_ H]; cbn [inst_ok core_args].
      + rewrite app_nil_r. repeat split; auto.
      + repeat split; auto. apply (Wi m us ns H).
    - repeat split; auto. apply (Wi m us ns Hl).
  Qed.

  Lemma parts_inj : forall t u, is_core t = true -> is_core u = true -> lawful t = true -> lawful u = true -> parts t = parts u -> t = u.
  Proof using All.
    intros t u Ht Hu Lt Lu H.
    destruct t as [s|c v t|t|t|t|t b|r ps d x|m us ns], u as [s'|c' v' u|u|u|u|u b'|r' ps' d' x'|m' us' ns']; try discriminate.
    - cbn in H. congruence.
    - cbn [TnameSpec.lawful] in Lu. apply andb_true_iff in Lu as [L _]. destruct u; try discriminate. cbn in H. injection H as <- <- _. discriminate.
    - cbn [TnameSpec.lawful] in Lt. apply andb_true_iff in Lt as [L _]. destruct t; try discriminate. cbn in H. injection H as -> -> _. discriminate.
    - destruct t, u; try discriminate; cbn in H; congruence.
    - cbn [TnameSpec.lawful] in Lt. apply andb_true_iff in Lt as [L _]. destruct t; try discriminate. cbn in H. injection H as -> -> _. discriminate.
    - cbn [TnameSpec.lawful] in Lu. apply andb_true_iff in Lu as [L _]. destruct u; try discriminate. cbn in H. injection H as <- <- _. discriminate.
    - cbn in H. congruence.
  Qed.

  Lemma num_eq : forall m us l us' l' , lawful (Inst m us (Some l)) = true -> lawful (Inst m us' (Some l')) = true -> map (fun n => number n) l = map (fun n => number n) l' -> l = l'.
  Proof using All.
    intros m us l us' l' H1 H2. cbn [TnameSpec.lawful] in H1, H2. apply andb_true_iff in H1 as [_ H1]. apply andb_true_iff in H2 as [_ H2]. revert l' H2.
    induction l as [|a l IH]; intros [|b l'] H2 E; try discriminate; [reflexivity|]. cbn [map forallb] in *. injection E as E1 E2. apply andb_true_iff in H1 as [H1 H1']. apply andb_true_iff in H2 as [H2 H2'].
    rewrite (IH H1' l' H2' E2). f_equal.
    do 4 (apply andb_true_iff in H1 as [H1 ?]). do 4 (apply andb_true_iff in H2 as [H2 ?]).
    destruct a as [s w na bo z], b as [s' w' na' bo' z']. cbn [signed width narrow boolean number] in *. unfold fits in H1, H2. cbn [signed width narrow boolean number] in *.
    do 2 (apply andb_true_iff in H1 as [H1 ?]). do 2 (apply andb_true_iff in H2 as [H2 ?]).
    repeat match goal with K : Bool.eqb _ _ = true |- _ => apply Bool.eqb_prop in K | K : (_ =? _)%N = true |- _ => apply N.eqb_eq in K end.
    destruct bo, bo'; try discriminate. subst. reflexivity.
  Qed.

  Lemma itext_unique : forall m a b x y, Forall uniq (match a with Some (us, _) => us | None => [] end) -> inst_ok m a -> inst_ok m b -> cont x = true -> cont y = true ->
    itext a ++ x = itext b ++ y -> a = b /\ x = y.
  Proof using All.
    intros m [[us ns]|] [[us' ns']|] x y Hu Ha Hb Hx Hy H; cbn [itext inst_ok] in *.
    2: { exfalso. rewrite <- app_assoc in H. symmetry in H. eapply cont_not_lt; [exact Hy|exact H]. }
    2: { exfalso. rewrite <- app_assoc in H. eapply cont_not_lt; [exact Hx|exact H]. }
    2: { auto. }
    assert (Args : forall vs ms, lawful (Inst m vs ms) = true -> forallb lawful vs = true /\ shape m = match ms with Some _ => true | None => false end).
    { intros vs ms K. cbn [TnameSpec.lawful] in K. apply andb_true_iff in K as [K _]. apply andb_true_iff in K as [K K1]. apply andb_true_iff in K as [K _]. apply andb_true_iff in K as [_ K]. split; [exact K|]. now apply Bool.eqb_prop in K1. }
    destruct (Args us ns Ha) as [L1 Sh1], (Args us' ns' Hb) as [L2 Sh2].
    assert (Hgt : forall z, endl (text ">" ++ z) /\ stop (text ">" ++ z) = true) by (intros z; split; [split; [reflexivity|discriminate]|reflexivity]).
    assert (Hnum : forall l z, endl (text ", " ++ commas (map (fun n => shown (number n)) l) ++ text ">" ++ z) /\ stop (text ", " ++ commas (map (fun n => shown (number n)) l) ++ text ">" ++ z) = true).
    { intros l z. split; [|reflexivity]. split; [reflexivity|]. intros w E. apply app_inv_head in E. subst w. destruct l as [|n l]; [reflexivity|]. cbn [map].
      assert (E : exists q, commas (shown (number n) :: map (fun n => shown (number n)) l) ++ text ">" ++ z = shown (number n) ++ q).
      { destruct l as [|k l]; [eexists; reflexivity|]. cbn [map]. rewrite commas_cons by discriminate. rewrite <- app_assoc. eexists. reflexivity. }
      destruct E as [q ->]. destruct (shown_head (number n) q) as (c & r & -> & K). cbn [nl]. apply negb_true_iff. unfold num_char in K. unfold is_letter.
      apply orb_true_iff in K as [K|K]; [apply orb_true_iff in K as [K|K]|].
      - unfold is_digit in K. apply andb_true_iff in K as [K1 K2]. apply N.leb_le in K1, K2. apply orb_false_iff. split; [apply orb_false_iff; split; apply andb_false_iff; left; apply N.leb_gt; lia|apply N.eqb_neq; lia].
      - apply Ascii.eqb_eq in K as ->. reflexivity.
      - apply Ascii.eqb_eq in K as ->. reflexivity. }
    assert (Mz : forall l : list num, map (fun n => shown (number n)) l = map shown (map (fun n => number n) l)) by (intros l; rewrite map_map; reflexivity).
    rewrite <- !app_assoc in H. apply app_inv_head in H. destruct ns as [l|], ns' as [l'|]; try congruence.
    - assert (E : us = us' /\ commas (map (fun n => shown (number n)) l) ++ text ">" ++ x = commas (map (fun n => shown (number n)) l') ++ text ">" ++ y).
      { rewrite <- !app_assoc in H. destruct us as [|u us], us' as [|u' us'].
        - split; [reflexivity|exact H].
        - exfalso. destruct (Hnum l x) as [[_ K] _]. specialize (K _ eq_refl). cbn [app] in H. rewrite H in K. rewrite <- !app_assoc in K. cbn [forallb] in L2. apply andb_true_iff in L2 as [L2 _]. rewrite commas_head in K by assumption. discriminate.
        - exfalso. destruct (Hnum l' y) as [[_ K] _]. specialize (K _ eq_refl). cbn [app] in H. rewrite <- H in K. rewrite <- !app_assoc in K. cbn [forallb] in L1. apply andb_true_iff in L1 as [L1 _]. rewrite commas_head in K by assumption. discriminate.
        - rewrite <- !app_assoc in H. apply list_unique in H as [E H]; try assumption; try (apply Hnum); try (intros _; apply Hnum). split; [exact E|]. apply app_inv_head in H. exact H. }
      destruct E as [-> E]. rewrite !Mz in E. apply nums_unique in E as [E ->]. rewrite (num_eq m us' l us' l' Ha Hb E). auto.
    - apply list_unique in H as [-> H]; try assumption; try (apply Hgt); try (intros _; apply Hgt). apply app_inv_head in H. subst. auto.
  Qed.

  Lemma all_uniq : forall s, lawful s = true -> uniq s.
  Proof using All.
    intros s. remember (size s) as n eqn:En. assert (Hn : (size s <= n)%nat) by lia. clear En. revert s Hn. induction n as [|n IH]; intros s Hn Hs; [destruct s; cbn in Hn; lia|].
    assert (Hc : Forall uniq (comps s)).
    { apply Forall_forall. intros p Hp. apply IH; [pose proof (comps_size s Hs p Hp); lia|]. pose proof (comps_lawful s Hs) as K. rewrite forallb_forall in K. auto. }
    intros t r1 r2 Ht S1 S2 H. rewrite (full_parts s Hs), (full_parts t Ht), <- !app_assoc in H. unfold comps in Hc. apply Forall_app in Hc as [Hc1 Hc2].
    destruct (core_is templates arguments shape kind s Hs) as [A1 A2], (core_is templates arguments shape kind t Ht) as [B1 B2].
    pose proof (parts_name (core s) A1 A2) as Ps. pose proof (parts_name (core t) B1 B2) as Pt.
    destruct (parts (core s)) as [[[c v] w] a] eqn:Es, (parts (core t)) as [[[c' v'] w'] b] eqn:Et. destruct Ps as (N1 & W1 & I1 & Ar1), Pt as (N2 & W2 & I2 & Ar2).
    rewrite N1, N2, <- !app_assoc in H.
    assert (Wc : forall o ls r, stop r = true -> match itext o ++ flat_map lname ls ++ r with [] => true | k :: _ => negb (is_word_char k) end = true).
    { intros [[us ns]|] ls r K; [reflexivity|]. cbn [itext app]. apply cont_word, cont_after, K. }
    apply cv_unique in H as (-> & -> & -> & H); try assumption; try (apply Wc; assumption).
    rewrite Ar1 in Hc1. apply (itext_unique w') in H as [-> H]; try assumption; try (apply cont_after; assumption).
    apply layers_unique in H as [E ->]; try assumption; try (apply lawful_layers; assumption); try (apply lawful_chain; assumption).
    split; [|reflexivity]. rewrite <- (rebuild templates arguments shape kind s Hs), <- (rebuild templates arguments shape kind t Ht), E. f_equal.
    apply parts_inj; try assumption. congruence.
  Qed.

  Lemma names_differ : forall s t, lawful s = true -> lawful t = true -> name s = name t -> s = t.
  Proof using All.
    intros s t Hs Ht H. apply (all_uniq s Hs t [] [] Ht eq_refl eq_refl). unfold TnameProofs3.full. rewrite H. reflexivity.
  Qed.
End Unique.
