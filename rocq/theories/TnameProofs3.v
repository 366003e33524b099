(** Different types have different names. *)
From Coq Require Import Ascii String Lia.
From Verif Require Import Words TnameModel TnameSpec TnameProofs TnameProofs2.
Import ListNotations.
Local Open Scope list_scope.

(** What is printed for a number. *)
Definition shown (z : Z) : str := if (z =? 0)%Z then [zero] else decimal z.
Definition btext (b : option num) : str := text "[" ++ match b with Some n => shown (number n) | None => [] end ++ text "]".

(** What follows a part of a name. *)
Definition among (l : str) (x : str) : bool := match x with [] => true | c :: _ => existsb (Ascii.eqb c) l end.
Definition cont : str -> bool := among (text "*&[(,)>").
Definition stop : str -> bool := among (text ",)>").

Lemma stop_cont : forall x, stop x = true -> cont x = true.
Proof.
  intros [|c x] H; [reflexivity|]. unfold stop, among in H. unfold cont, among. apply existsb_exists in H as (y & Hy & E). apply Ascii.eqb_eq in E as ->.
  cbn in Hy. destruct Hy as [<-|[<-|[<-|[]]]]; reflexivity.
Qed.

(* ------------------------------------------------------------ spans of characters *)

(** A maximal run of characters is determined by the text. *)
Lemma span_unique : forall (f : ascii -> bool) a b x y, forallb f a = true -> forallb f b = true ->
  match x with [] => true | c :: _ => negb (f c) end = true -> match y with [] => true | c :: _ => negb (f c) end = true ->
  a ++ x = b ++ y -> a = b /\ x = y.
Proof.
  induction a as [|c a IH]; intros b x y Ha Hb Hx Hy H.
  - destruct b as [|d b]; [split; [reflexivity|exact H]|]. cbn [app] in H. subst x. cbn [forallb] in Hb. apply andb_true_iff in Hb as [Hb _]. rewrite Hb in Hx. discriminate.
  - destruct b as [|d b].
    + cbn [app] in H. subst y. cbn [forallb] in Ha. apply andb_true_iff in Ha as [Ha _]. rewrite Ha in Hy. discriminate.
    + cbn [app forallb] in *. injection H as -> H. apply andb_true_iff in Ha as [_ Ha]. apply andb_true_iff in Hb as [_ Hb]. destruct (IH b x y Ha Hb Hx Hy H) as [-> ->]. auto.
Qed.

Definition num_char (c : ascii) : bool := is_digit c || Ascii.eqb c "-"%char || Ascii.eqb c zero.

Lemma shown_chars : forall z, forallb num_char (shown z) = true /\ shown z <> [].
Proof.
  intros z. unfold shown. destruct (z =? 0)%Z; [split; [reflexivity|discriminate]|]. destruct (decimal_spec z) as (d & -> & Hd & Hc & _). split.
  - rewrite forallb_app. apply andb_true_iff. split; [destruct (z <? 0)%Z; reflexivity|]. rewrite forallb_forall in *. intros c K. unfold num_char. rewrite (Hc c K). reflexivity.
  - intros K. apply app_eq_nil in K as [_ K]. contradiction.
Qed.

Lemma decimal_inj : forall a b, decimal a = decimal b -> a = b.
Proof.
  intros a b H. destruct (decimal_spec a) as (d & E1 & Hd & Hc & _ & Hv). destruct (decimal_spec b) as (e & E2 & He & Hc' & _ & Hv'). rewrite E1, E2 in H. clear E1 E2.
  destruct (a <? 0)%Z eqn:Ea, (b <? 0)%Z eqn:Eb; cbn [app] in H.
  - assert (d = e) by (injection H as H; exact H). subst. apply Z.ltb_lt in Ea, Eb. lia.
  - exfalso. destruct e as [|c e]; [contradiction|]. injection H as H1 _. subst c. discriminate.
  - exfalso. destruct d as [|c d]; [contradiction|]. injection H as H1 _. subst c. discriminate.
  - subst. apply Z.ltb_ge in Ea, Eb. lia.
Qed.

Lemma shown_inj : forall a b, shown a = shown b -> a = b.
Proof.
  intros a b H. unfold shown in H. destruct (Z.eqb_spec a 0) as [Ha|Ha], (Z.eqb_spec b 0) as [Hb|Hb]; [congruence| | |apply decimal_inj, H]; exfalso.
  - destruct (decimal_spec b) as (d & E & Hd & Hc & _). rewrite <- H in E. destruct (b <? 0)%Z; [discriminate|]. cbn [app] in E. subst d. discriminate.
  - destruct (decimal_spec a) as (d & E & Hd & Hc & _). rewrite H in E. destruct (a <? 0)%Z; [discriminate|]. cbn [app] in E. subst d. discriminate.
Qed.

Lemma shown_unique : forall a b x y, match x with [] => true | c :: _ => negb (num_char c) end = true -> match y with [] => true | c :: _ => negb (num_char c) end = true ->
  shown a ++ x = shown b ++ y -> a = b /\ x = y.
Proof.
  intros a b x y Hx Hy H. destruct (span_unique num_char _ _ _ _ (proj1 (shown_chars a)) (proj1 (shown_chars b)) Hx Hy H) as [E ->]. apply shown_inj in E. auto.
Qed.

Lemma shown_head : forall z x, exists c r, shown z ++ x = c :: r /\ num_char c = true.
Proof.
  intros z x. destruct (shown_chars z) as [H1 H2]. destruct (shown z) as [|c r]; [contradiction|]. exists c, (r ++ x). split; [reflexivity|]. cbn [forallb] in H1. now apply andb_true_iff in H1.
Qed.

Lemma nums_unique : forall l m x y, commas (map shown l) ++ text ">" ++ x = commas (map shown m) ++ text ">" ++ y -> l = m /\ x = y.
Proof.
  assert (Hc : forall z r, commas (shown z :: map shown r) = shown z ++ match r with [] => [] | _ => text ", " ++ commas (map shown r) end).
  { intros z [|w r]; [cbn; rewrite app_nil_r; reflexivity|reflexivity]. }
  induction l as [|a l IH]; intros m x y H; destruct m as [|b m]; cbn [map] in H.
  - injection H as H. auto.
  - exfalso. rewrite Hc, <- app_assoc in H. destruct (shown_head b (match m with [] => [] | _ => text ", " ++ commas (map shown m) end ++ text ">" ++ y)) as (c & r & E & Hn). rewrite E in H. injection H as <- _. discriminate.
  - exfalso. rewrite Hc, <- app_assoc in H. destruct (shown_head a (match l with [] => [] | _ => text ", " ++ commas (map shown l) end ++ text ">" ++ x)) as (c & r & E & Hn). rewrite E in H. injection H as -> _. discriminate.
  - rewrite !Hc, <- !app_assoc in H.
    assert (Hs : forall (k : list Z) w, match (match k with [] => [] | _ => text ", " ++ commas (map shown k) end ++ text ">" ++ w) with [] => true | c :: _ => negb (num_char c) end = true) by (intros [|? ?] w; reflexivity).
    apply shown_unique in H as [-> H]; [|apply Hs|apply Hs].
    destruct l as [|a' l], m as [|b' m].
    + injection H as H. auto.
    + discriminate.
    + discriminate.
    + rewrite <- !app_assoc in H. cbn [text list_ascii_of_string app] in H. injection H as H. destruct (IH (b' :: m) x y H) as [-> ->]. auto.
Qed.

(* ----------------------------------------------------------------- words *)

Lemma word_unique : forall w1 w2 x y, word w1 = true -> word w2 = true ->
  match x with [] => true | c :: _ => negb (is_word_char c) end = true -> match y with [] => true | c :: _ => negb (is_word_char c) end = true ->
  w1 ++ x = w2 ++ y -> w1 = w2 /\ x = y.
Proof. intros w1 w2 x y H1 H2 Hx Hy H. apply (span_unique is_word_char); try assumption; apply forallb_forall; intros c K; [apply (word_chars w1 c H1 K)|apply (word_chars w2 c H2 K)]. Qed.

Lemma word_not_key : forall w k x y, word w = true -> In k keywords -> match x with [] => true | c :: _ => negb (is_word_char c) end = true -> w ++ x = k ++ y -> False.
Proof.
  intros w k x y Hw Hk Hx H. assert (E : starts_with (w ++ x) k = true) by (rewrite H; apply starts_with_app).
  assert (E' : starts_with w k = true).
  { destruct x as [|c x]; [rewrite app_nil_r in E; exact E|]. rewrite starts_with_stop in E; [exact E|]. intros K.
    assert (Hq : forallb (forallb is_word_char) keywords = true) by (vm_compute; reflexivity). rewrite forallb_forall in Hq. specialize (Hq k Hk). rewrite forallb_forall in Hq. rewrite (Hq c K) in Hx. discriminate. }
  unfold word in Hw. apply andb_true_iff in Hw as [_ Hw]. apply negb_true_iff in Hw. assert (existsb (starts_with w) keywords = true) by (apply existsb_exists; eauto). congruence.
Qed.

Definition cvp (c v : bool) : str := if c || v then cv_name c v ++ text " " else [].

Lemma cv_unique : forall c v c' v' w w' x y, word w = true -> word w' = true ->
  match x with [] => true | k :: _ => negb (is_word_char k) end = true -> match y with [] => true | k :: _ => negb (is_word_char k) end = true ->
  cvp c v ++ w ++ x = cvp c' v' ++ w' ++ y -> c = c' /\ v = v' /\ w = w' /\ x = y.
Proof.
  intros c v c' v' w w' x y Hw Hw' Hx Hy H.
  assert (K1 : forall r, w ++ x = text "const " ++ r -> False) by (intros r; apply word_not_key; [assumption|unfold keywords; cbn; tauto|assumption]).
  assert (K2 : forall r, w ++ x = text "volatile " ++ r -> False) by (intros r; apply word_not_key; [assumption|unfold keywords; cbn; tauto|assumption]).
  assert (K3 : forall r, w' ++ y = text "const " ++ r -> False) by (intros r; apply word_not_key; [assumption|unfold keywords; cbn; tauto|assumption]).
  assert (K4 : forall r, w' ++ y = text "volatile " ++ r -> False) by (intros r; apply word_not_key; [assumption|unfold keywords; cbn; tauto|assumption]).
  assert (S : w ++ x = w' ++ y -> w = w' /\ x = y) by (apply word_unique; assumption).
  destruct c, v, c', v'; unfold cvp in H; cbn [orb cv_name text list_ascii_of_string app] in H;
    try discriminate; try (injection H as H; apply S in H as [-> ->]; auto); try (apply S in H as [-> ->]; auto); exfalso.
  - injection H as H. symmetry in H. eapply K4. cbn [text list_ascii_of_string app]. exact H.
  - symmetry in H. eapply (K3 (text "volatile " ++ w ++ x)). exact H.
  - injection H as H. eapply K2. exact H.
  - symmetry in H. eapply K3. exact H.
  - symmetry in H. eapply K4. exact H.
  - eapply (K1 (text "volatile " ++ w' ++ y)). exact H.
  - eapply K1. exact H.
  - eapply K2. exact H.
Qed.

(* ----------------------------------------------------------------- layers *)

(** A name is that of a core, followed by what each further layer adds. *)
Inductive layer :=
| LPtr (c v : bool) | LL | LR | LA (b : option num) | LLA (b : option num) | LRA (b : option num)
| LF (ps : list ty) (d x : bool) | LFP (c v : bool) (ps : list ty) (d x : bool) | LFL (ps : list ty) (d x : bool).

Definition qual (c v : bool) (t : ty) : ty := if c || v then Qual c v t else t.
Definition apply (t : ty) (l : layer) : ty :=
  match l with
  | LPtr c v => qual c v (Ptr t) | LL => LRef t | LR => RRef t | LA b => Arr t b | LLA b => LRef (Arr t b) | LRA b => RRef (Arr t b)
  | LF ps d x => Fun t ps d x | LFP c v ps d x => qual c v (Ptr (Fun t ps d x)) | LFL ps d x => LRef (Fun t ps d x)
  end.

Fixpoint split (t : ty) : ty * list layer :=
  let add u l := let r := split u in (fst r, snd r ++ [l]) in
  match t with
  | Named _ | Inst _ _ _ => (t, [])
  | Qual c v u =>
      match u with
      | Ptr f => match f with Fun r ps d x => let z := split r in (fst z, snd z ++ [LFP c v ps d x]) | _ => let z := split f in (fst z, snd z ++ [LPtr c v]) end
      | _ => (t, [])
      end
  | Ptr f => match f with Fun r ps d x => add r (LFP false false ps d x) | _ => add f (LPtr false false) end
  | LRef u => match u with Arr e b => add e (LLA b) | Fun r ps d x => add r (LFL ps d x) | _ => add u LL end
  | RRef u => match u with Arr e b => add e (LRA b) | _ => add u LR end
  | Arr e b => add e (LA b)
  | Fun r ps d x => add r (LF ps d x)
  end.
Definition core t := fst (split t).
Definition layers t := snd (split t).

Definition lparams (l : layer) : list ty := match l with LF ps _ _ | LFP _ _ ps _ _ | LFL ps _ _ => ps | _ => [] end.
Definition core_args (t : ty) : list ty := match t with Inst _ us _ => us | Qual _ _ (Inst _ us _) => us | _ => [] end.
Definition comps (t : ty) : list ty := core_args (core t) ++ flat_map lparams (layers t).


Definition is_core (t : ty) : bool := match t with Named _ | Inst _ _ _ | Qual _ _ (Named _) | Qual _ _ (Inst _ _ _) => true | _ => false end.
Definition okl (t : ty) (l : layer) : bool := match l with LPtr _ _ => negb (is_fun t) | LL => negb (is_fun t) && negb (is_arr t) | LR => negb (is_arr t) | _ => true end.

Lemma split_apply : forall t l, okl t l = true -> split (apply t l) = (core t, layers t ++ [l]).
Proof.
  intros t l H. unfold core, layers. destruct l as [c v| | |b|b|b|ps d x|c v ps d x|ps d x]; cbn [okl] in H; cbn [apply]; try reflexivity.
  - destruct c, v; unfold qual; cbn [orb]; destruct t; try discriminate; reflexivity.
  - destruct t; try discriminate; reflexivity.
  - destruct t; try discriminate; reflexivity.
  - destruct c, v; reflexivity.
Qed.
Lemma split_core : forall t, is_core t = true -> split t = (t, []).
Proof. intros [s|c v u|u|u|u|u b|r ps d x|m us ns] H; try discriminate; try reflexivity. destruct u; try discriminate; reflexivity. Qed.

Section Lawful.
  Context (comp : compiler) (Hkey : right_key comp) (aliases templates : list str) (arguments : list ty -> option (list num) -> str)
          (shape : str -> bool) (kind : str -> bool * N * bool).
  Notation name := (type_name comp aliases templates arguments).
  Notation lawful := (lawful templates arguments shape kind).

  Lemma lawful_ind : forall (P : ty -> Prop),
    (forall t, is_core t = true -> lawful t = true -> P t) ->
    (forall t l, lawful t = true -> P t -> lawful (apply t l) = true -> okl t l = true -> P (apply t l)) ->
    forall t, lawful t = true -> P t.
  Proof using.
    intros P Hc Hl.
    assert (G : forall t, (lawful t = true -> P t) /\ match t with Fun r _ _ _ => lawful r = true -> P r | Arr e _ => lawful e = true -> P e
                                              | Ptr f => (lawful f = true -> P f) /\ match f with Fun r _ _ _ => lawful r = true -> P r | _ => True end | _ => True end).
    2: intros t; apply (G t).
    apply ty_rec'.
    - intros s. split; [|exact I]. intros H. apply Hc; [reflexivity|assumption].
    - intros c v u [Hu Hs]. split; [|exact I]. intros H. pose proof H as H0. cbn [TnameSpec.lawful] in H0. apply andb_true_iff in H0 as [Hcv H0].
      destruct u as [s|c' v' u|f|u|u|e b|r ps dots x|m us ns]; try discriminate; try (apply Hc; [reflexivity|assumption]).
      destruct Hs as [Hf Hs]. pose proof H0 as H1. cbn [TnameSpec.lawful] in H1. apply andb_true_iff in H1 as [H1 H2].
      assert (D : okl f (LPtr c v) = true \/ exists r ps d x, f = Fun r ps d x) by (destruct f; eauto 6; left; reflexivity).
      destruct D as [D|(r & ps & d & x & ->)].
      + assert (E : Qual c v (Ptr f) = apply f (LPtr c v)) by (cbn [apply]; unfold qual; rewrite Hcv; reflexivity). rewrite E in *. apply Hl; auto.
      + assert (E : Qual c v (Ptr (Fun r ps d x)) = apply r (LFP c v ps d x)) by (cbn [apply]; unfold qual; rewrite Hcv; reflexivity). rewrite E in *.
        cbn [TnameSpec.lawful] in H2. apply andb_true_iff in H2 as [H2 H3]. apply andb_true_iff in H2 as [_ H2]. apply Hl; auto.
    - intros f [Hf Hs]. split; [|split; [exact Hf|destruct f; try exact I; exact Hs]]. intros H. pose proof H as H1. cbn [TnameSpec.lawful] in H1. apply andb_true_iff in H1 as [H1 H2].
      assert (D : okl f (LPtr false false) = true \/ exists r ps d x, f = Fun r ps d x) by (destruct f; eauto 6; left; reflexivity).
      destruct D as [D|(r & ps & d & x & ->)].
      + apply (Hl f (LPtr false false)); auto.
      + cbn [TnameSpec.lawful] in H2. apply andb_true_iff in H2 as [H2 H3]. apply andb_true_iff in H2 as [_ H2]. apply (Hl r (LFP false false ps d x)); auto.
    - intros u [Hu Hs]. split; [|exact I]. intros H. pose proof H as H1. cbn [TnameSpec.lawful] in H1. apply andb_true_iff in H1 as [H1 H2].
      destruct u as [s|c' v' u|f|u|u|e b|r ps dots x|m us ns]; try (apply (Hl _ LL); auto; fail).
      + cbn [TnameSpec.lawful] in H2. apply andb_true_iff in H2 as [H2 H3]. apply andb_true_iff in H2 as [_ H2]. apply (Hl e (LLA b)); auto.
      + cbn [TnameSpec.lawful] in H2. apply andb_true_iff in H2 as [H2 H3]. apply andb_true_iff in H2 as [_ H2]. apply (Hl r (LFL ps dots x)); auto.
    - intros u [Hu Hs]. split; [|exact I]. intros H. pose proof H as H1. cbn [TnameSpec.lawful] in H1. apply andb_true_iff in H1 as [H1 H2].
      destruct u as [s|c' v' u|f|u|u|e b|r ps dots x|m us ns]; try (apply (Hl _ LR); auto; fail).
      cbn [TnameSpec.lawful] in H2. apply andb_true_iff in H2 as [H2 H3]. apply andb_true_iff in H2 as [_ H2]. apply (Hl e (LRA b)); auto.
    - intros e b [He _]. split; [|exact He]. intros H. pose proof H as H1. cbn [TnameSpec.lawful] in H1. apply andb_true_iff in H1 as [H1 H3]. apply andb_true_iff in H1 as [H1 H2]. apply (Hl e (LA b)); auto.
    - intros r ps d x [Hr _] _. split; [|exact Hr]. intros H. pose proof H as H1. cbn [TnameSpec.lawful] in H1. apply andb_true_iff in H1 as [H1 H3]. apply andb_true_iff in H1 as [H1 H2]. apply (Hl r (LF ps d x)); auto.
    - intros m us ns _. split; [|exact I]. intros H. apply Hc; [reflexivity|assumption].
  Qed.

  Lemma rebuild : forall t, lawful t = true -> fold_left apply (layers t) (core t) = t.
  Proof using.
    apply lawful_ind.
    - intros t Hc _. unfold layers, core. rewrite split_core by assumption. reflexivity.
    - intros t l _ IH _ Ho. unfold layers, core. rewrite split_apply by assumption. cbn [fst snd]. rewrite fold_left_app, IH. reflexivity.
  Qed.

  Lemma core_is : forall t, lawful t = true -> is_core (core t) = true /\ lawful (core t) = true.
  Proof using.
    apply (lawful_ind (fun t => is_core (core t) = true /\ lawful (core t) = true)).
    - intros t Hc Hl. unfold core. rewrite split_core by assumption. auto.
    - intros t l _ IH _ Ho. unfold core. rewrite split_apply by assumption. exact IH.
  Qed.

  (* --------------------------------------------------------------- the text of a layer *)

  Definition full (t : ty) : str := match name t with Some s => s | None => [] end.
  Definition nx (x : bool) : str := if x then text " noexcept" else [].
  Definition plist (ps : list ty) (d : bool) : str :=
    if d then match ps with [] => text "..." | _ => commas (map full ps) ++ text ", ..." end else commas (map full ps).
  Definition pplist (ps : list ty) (d : bool) : str := (if d then match ps with [] => [] | _ => text "(" end else []) ++ plist ps d.
  Definition lname (l : layer) : str :=
    match l with
    | LPtr c v => text "*" ++ sep c v ++ cv_name c v
    | LL => text "&" | LR => text "&&" | LA b => btext b | LLA b => text "(&)" ++ btext b | LRA b => text "(&&)" ++ btext b
    | LF ps d x => text "(" ++ plist ps d ++ text ")" ++ nx x
    | LFP c v ps d x => text "(*" ++ cv_name c v ++ text ")(" ++ pplist ps d ++ text ")" ++ nx x
    | LFL ps d x => text "(&)(" ++ pplist ps d ++ text ")" ++ nx x
    end.
  Definition iname (m : str) (us : list ty) (ns : option (list num)) : str :=
    m ++ text "<" ++ match ns with
                     | None => commas (map full us)
                     | Some l => match us with [] => [] | _ => commas (map full us) ++ text ", " end ++ commas (map (fun n => shown (number n)) l)
                     end ++ text ">".
  Definition cname (t : ty) : str :=
    match t with
    | Named s => s | Inst m us ns => iname m us ns
    | Qual c v (Named s) => cvp c v ++ s | Qual c v (Inst m us ns) => cvp c v ++ iname m us ns
    | _ => []
    end.

  Lemma number_shown : forall n, fits n = true -> lowest n = false -> int_to_str n = Some (shown (number n)).
  Proof using.
    intros n H1 H2. unfold shown. destruct (Z.eqb_spec (number n) 0) as [E|E].
    - apply int_to_str_zero; [|assumption]. unfold fits in H1. apply andb_true_iff in H1 as [H1 _]. apply andb_true_iff in H1 as [H1 _]. now apply negb_true_iff in H1.
    - apply int_to_str_decimal; assumption.
  Qed.

  Lemma bound_shown : forall b, match b with Some n => is_bound n | None => true end = true -> bound b = Some (btext b).
  Proof using.
    intros b H. rewrite (bound_ok b H). unfold btext, shown. destruct b as [n|]; [|reflexivity]. unfold is_bound in H. apply andb_true_iff in H as [_ H]. apply Z.leb_le in H.
    destruct (Z.eqb_spec (number n) 0); [lia|reflexivity].
  Qed.

  Definition named_ok (t : ty) : Prop := name t = Some (full t).

  Lemma all_named : forall l, Forall named_ok l -> all_some (map name l) = Some (map full l).
  Proof using. intros l H. apply all_some_map. rewrite Forall_forall in H. exact H. Qed.

  Lemma fun_name_eq : forall r ps d x, fun_name r (map full ps) d x = r ++ lname (LF ps d x).
  Proof using.
    intros r ps d x. unfold fun_name. f_equal. cbn [lname]. unfold plist, nx. destruct d; rewrite ?name_list_commas.
    - destruct ps as [|p ps]; [reflexivity|]. cbn [map]. rewrite <- !app_assoc. reflexivity.
    - rewrite <- !app_assoc. reflexivity.
  Qed.
  Lemma fun_ptr_name_eq : forall k r ps d x, fun_ptr_name k r (map full ps) d x = r ++ text "(" ++ k ++ text ")(" ++ pplist ps d ++ text ")" ++ nx x.
  Proof using.
    intros k r ps d x. unfold fun_ptr_name. do 4 f_equal. unfold pplist, plist, nx. destruct d; rewrite ?name_list_commas.
    - destruct ps as [|p ps]; [reflexivity|]. cbn [map]. rewrite <- !app_assoc. reflexivity.
    - rewrite <- !app_assoc. reflexivity.
  Qed.

  Lemma apply_name : forall t l, lawful t = true -> lawful (apply t l) = true -> okl t l = true -> Forall named_ok (lparams l) -> named_ok t ->
    name (apply t l) = Some (full t ++ lname l).
  Proof using.
    intros t l Ht Hl Ho Hp Hn. unfold named_ok in Hn. destruct l as [c v| | |b|b|b|ps d x|c v ps d x|ps d x]; cbn [okl lparams] in *; cbn [apply] in *.
    - assert (Ef : is_fun t = false) by (destruct (is_fun t); [discriminate|reflexivity]). destruct c, v; unfold qual; cbn [orb type_name]; rewrite Ef, Hn; reflexivity.
    - assert (E : name (LRef t) = (n <- name t ;; Some (n ++ text "&"))) by (destruct t; try discriminate; reflexivity). rewrite E, Hn. reflexivity.
    - assert (E : name (RRef t) = (n <- name t ;; Some (n ++ text "&&"))) by (destruct t; try discriminate; reflexivity). rewrite E, Hn. reflexivity.
    - cbn [TnameSpec.lawful] in Hl. apply andb_true_iff in Hl as [_ Hl]. cbn [type_name]. rewrite Hn. cbn [option_bind]. rewrite (bound_shown b Hl). reflexivity.
    - cbn [TnameSpec.lawful] in Hl. apply andb_true_iff in Hl as [_ Hl]. apply andb_true_iff in Hl as [_ Hl]. cbn [type_name]. rewrite Hn. cbn [option_bind]. rewrite (bound_shown b Hl). reflexivity.
    - cbn [TnameSpec.lawful] in Hl. apply andb_true_iff in Hl as [_ Hl]. apply andb_true_iff in Hl as [_ Hl]. cbn [type_name]. rewrite Hn. cbn [option_bind]. rewrite (bound_shown b Hl). reflexivity.
    - cbn [type_name]. rewrite Hn. cbn [option_bind]. rewrite (all_named ps Hp). cbn [option_bind]. rewrite fun_name_eq. reflexivity.
    - destruct c, v; unfold qual; cbn [orb type_name is_fun]; rewrite Hn; cbn [option_bind]; rewrite (all_named ps Hp); cbn [option_bind]; rewrite fun_ptr_name_eq; reflexivity.
    - cbn [type_name is_fun]. rewrite Hn. cbn [option_bind]. rewrite (all_named ps Hp). cbn [option_bind]. rewrite fun_ptr_name_eq. reflexivity.
  Qed.

  Lemma inst_name : forall m us ns, lawful (Inst m us ns) = true -> Forall named_ok us -> name (Inst m us ns) = Some (iname m us ns).
  Proof using Hkey.
    intros m us ns H Hus. cbn [TnameSpec.lawful] in H. apply andb_true_iff in H as [H H4]. apply andb_true_iff in H as [H H5]. apply andb_true_iff in H as [H H3]. apply andb_true_iff in H as [H1 H2].
    cbn [type_name]. rewrite (all_named us Hus). cbn [option_bind]. unfold iname, tidy in *. destruct ns as [l|].
    - apply andb_true_iff in H3 as [H3 H6]. apply Nat.leb_le in H6. rewrite (base_ok comp Hkey arguments m us (Some l) H1 H3).
      assert (Hn : all_some (map int_to_str l) = Some (map (fun n => shown (number n)) l)).
      { apply all_some_map. intros n Hn. rewrite forallb_forall in H4. specialize (H4 n Hn). do 4 (apply andb_true_iff in H4 as [H4 ?]). apply number_shown; [assumption|]. now apply negb_true_iff. }
      destruct us as [|a [|b [|c [|e us]]]]; cbn [map]; try (cbn in H6; lia); rewrite Hn; cbn [option_bind]; rewrite !name_list_commas; f_equal; f_equal; cbn [app]; rewrite <- ?app_assoc; reflexivity.
    - apply orb_true_iff in H3 as [H3|H3].
      + apply andb_true_iff in H3 as [H3 H6]. rewrite H3. destruct us as [|a [|b us]]; try discriminate. reflexivity.
      + rewrite (base_ok comp Hkey arguments m us None H1 H3). rewrite name_list_commas. destruct (mem m templates); [|reflexivity]. destruct us as [|a [|b us]]; reflexivity.
  Qed.

  Lemma core_name : forall t, is_core t = true -> lawful t = true -> Forall named_ok (core_args t) -> name t = Some (cname t).
  Proof using Hkey.
    intros [s|c v u|u|u|u|u b|r ps d x|m us ns] Hc Hl Ha; try discriminate.
    - cbn [type_name cname]. f_equal. apply named; [exact Hkey|exact Hl].
    - destruct u as [s|c' v' u|u|u|u|u b|r ps d x|m us ns]; try discriminate; pose proof Hl as H; cbn [TnameSpec.lawful] in H; apply andb_true_iff in H as [Hcv H].
      + cbn [type_name cname]. unfold cvp. rewrite Hcv. cbn [option_bind]. rewrite named by assumption. rewrite <- app_assoc. reflexivity.
      + cbn [cname core_args] in *. unfold cvp. rewrite Hcv.
        assert (E : name (Qual c v (Inst m us ns)) = (n <- name (Inst m us ns) ;; Some (cv_name c v ++ text " " ++ n))) by reflexivity. rewrite E, inst_name by assumption. cbn [option_bind]. rewrite <- app_assoc. reflexivity.
    - cbn [cname core_args] in *. apply inst_name; assumption.
  Qed.

  Lemma comps_apply : forall t l, okl t l = true -> comps (apply t l) = comps t ++ lparams l.
  Proof using. intros t l H. unfold comps, core at 1, layers at 1. rewrite split_apply by assumption. cbn [fst snd]. rewrite flat_map_app. cbn [flat_map]. rewrite app_nil_r, app_assoc. reflexivity. Qed.

  (** Names by induction on the parts that are names of their own. *)
  Lemma name_parts : forall t, lawful t = true -> Forall named_ok (comps t) -> name t = Some (cname (core t) ++ flat_map lname (layers t)).
  Proof using Hkey.
    apply (lawful_ind (fun t => Forall named_ok (comps t) -> name t = Some (cname (core t) ++ flat_map lname (layers t)))).
    - intros t Hc Hl H. unfold comps, core, layers in *. rewrite split_core in * by assumption. cbn [fst snd flat_map] in *. rewrite app_nil_r in *. apply core_name; assumption.
    - intros t l Ht IH Hl Ho H. rewrite comps_apply in H by assumption. apply Forall_app in H as [H1 H2]. specialize (IH H1).
      assert (N : named_ok t) by (unfold named_ok, full; rewrite IH; reflexivity).
      rewrite apply_name by assumption. unfold core, layers. rewrite split_apply by assumption. cbn [fst snd]. rewrite flat_map_app. cbn [flat_map]. rewrite app_nil_r, app_assoc. unfold full. rewrite IH. reflexivity.
  Qed.
End Lawful.
