(** The name is the spelling. *)
From Coq Require Import Ascii String Lia.
From Verif Require Import Words TnameModel TnameSpec TnameProofs.
Import ListNotations.
Local Open Scope list_scope.

Section Induction.
  Context (P : ty -> Prop)
    (H1 : forall s, P (Named s)) (H2 : forall c v t, P t -> P (Qual c v t)) (H3 : forall t, P t -> P (Ptr t))
    (H4 : forall t, P t -> P (LRef t)) (H5 : forall t, P t -> P (RRef t)) (H6 : forall t n, P t -> P (Arr t n))
    (H7 : forall r ps d x, P r -> Forall P ps -> P (Fun r ps d x)) (H8 : forall m us ns, Forall P us -> P (Inst m us ns)).
  Fixpoint ty_rec' (t : ty) : P t :=
    let all := fix all (l : list ty) : Forall P l := match l with [] => Forall_nil P | x :: r => Forall_cons x (ty_rec' x) (all r) end in
    match t with
    | Named s => H1 s | Qual c v u => H2 c v u (ty_rec' u) | Ptr u => H3 u (ty_rec' u) | LRef u => H4 u (ty_rec' u) | RRef u => H5 u (ty_rec' u)
    | Arr u n => H6 u n (ty_rec' u) | Fun r ps d x => H7 r ps d x (ty_rec' r) (all ps) | Inst m us ns => H8 m us ns (all us)
    end.
End Induction.

(* ---------------------------------------------------------------- words *)

Lemma starts_with_in : forall p s c, starts_with s p = true -> In c p -> In c s.
Proof. intros p s c H Hc. apply starts_with_spec in H as [r ->]. apply in_or_app. left. exact Hc. Qed.

Lemma starts_with_stop : forall p a c b, ~ In c p -> starts_with (a ++ c :: b) p = starts_with a p.
Proof.
  induction p as [|x p IH]; intros a c b H; [destruct a; reflexivity|]. destruct a as [|y a]; cbn [app starts_with].
  - destruct (Ascii.eqb_spec c x); [exfalso; apply H; left; congruence|reflexivity].
  - rewrite IH; [reflexivity|]. intros K; apply H; right; exact K.
Qed.

Lemma word_chars : forall s c, word s = true -> In c s -> is_word_char c = true.
Proof. intros s c H Hc. unfold word in H. apply andb_true_iff in H as [H _]. apply andb_true_iff in H as [_ H]. rewrite forallb_forall in H. auto. Qed.

Lemma word_prefix : forall s p, word s = true -> In p prefixes -> starts_with s p = false.
Proof.
  intros s p Hw Hp. pose proof (fun c => word_chars s c Hw) as Hc. unfold word in Hw. apply andb_true_iff in Hw as [Hw Hk]. apply andb_true_iff in Hw as [Hf _].
  apply negb_true_iff in Hk. assert (Hk' : forall q, In q keywords -> starts_with s q = false).
  { intros q Hq. destruct (starts_with s q) eqn:E; [|reflexivity]. assert (existsb (starts_with s) keywords = true) by (apply existsb_exists; eauto). congruence. }
  destruct (starts_with s p) eqn:E; [|reflexivity]. exfalso.
  assert (Hb : forall c, In c p -> is_word_char c = true) by (intros c Hc'; apply Hc; apply (starts_with_in p); assumption).
  assert (Hh : match p with c :: _ => is_letter c = true | [] => False end).
  { unfold prefixes in Hp. apply starts_with_spec in E as [r ->]. destruct p as [|c p]; [cbn in Hp; intuition discriminate|]. exact Hf. }
  unfold prefixes in Hp. cbn [In] in Hp.
  destruct Hp as [<-|[<-|[<-|[<-|[<-|[<-|[<-|[<-|[<-|[<-|[<-|[]]]]]]]]]]]]; try (vm_compute in Hh; discriminate);
    try (rewrite Hk' in E by (unfold keywords; cbn; tauto); discriminate).
  specialize (Hb "="%char ltac:(cbn; tauto)). discriminate.
Qed.

Lemma word_no : forall s c, word s = true -> is_word_char c = false -> ~ In c s.
Proof. intros s c H Hc K. rewrite (word_chars s c H K) in Hc. discriminate. Qed.

Lemma word_clean : forall s, word s = true -> clean s.
Proof.
  intros s H. split; [|apply word_no; [assumption|reflexivity]].
  apply forallb_forall. intros p Hp. apply negb_true_iff, word_prefix; assumption.
Qed.

Lemma word_clean_app : forall s b, word s = true -> ~ In ";"%char b -> clean (s ++ "<"%char :: b).
Proof.
  intros s b H Hb. split.
  - apply forallb_forall. intros p Hp. apply negb_true_iff. rewrite starts_with_stop; [apply word_prefix; assumption|].
    assert (Hq : forallb (fun q => negb (existsb (Ascii.eqb "<"%char) q)) prefixes = true) by (vm_compute; reflexivity).
    rewrite forallb_forall in Hq. apply in_text, negb_true_iff, Hq, Hp.
  - intros K. apply in_app_or in K as [K|[K|K]]; [revert K; apply word_no; [assumption|reflexivity]|discriminate|contradiction].
Qed.

(* ------------------------------------------------------------------ lists *)

Lemma commas_cons : forall a l, l <> [] -> commas (a :: l) = a ++ text ", " ++ commas l.
Proof. intros a [|b l] H; [contradiction|reflexivity]. Qed.

Lemma name_list_commas : forall l, name_list l = commas l.
Proof.
  intros l. remember (length l) as n eqn:En. assert (Hn : (length l <= n)%nat) by lia. clear En. revert l Hn.
  induction n as [|n IH]; intros l Hn; [destruct l; [reflexivity|cbn in Hn; lia]|].
  destruct l as [|a [|b [|c r]]]; try reflexivity. cbn [name_list]. fold (name_list (c :: r)).
  change (match r with [] => c | b0 :: r0 => match r0 with [] => c ++ text ", " ++ b0 | _ :: _ => (c ++ text ", " ++ b0) ++ text ", " ++ name_list r0 end end) with (name_list (c :: r)).
  rewrite IH by (cbn in *; lia). rewrite (commas_cons a (b :: c :: r)) by discriminate. rewrite (commas_cons b (c :: r)) by discriminate. rewrite <- !app_assoc. reflexivity.
Qed.

Lemma commas_app : forall a b, a <> [] -> b <> [] -> commas (a ++ b) = commas a ++ text ", " ++ commas b.
Proof.
  induction a as [|x a IH]; intros b Ha Hb; [contradiction|]. destruct a as [|y a].
  - cbn [app]. apply commas_cons. assumption.
  - cbn [app]. rewrite (commas_cons x (y :: a ++ b)) by discriminate. change (y :: a ++ b) with ((y :: a) ++ b). rewrite IH by (assumption || discriminate).
    rewrite (commas_cons x (y :: a)) by discriminate. rewrite <- !app_assoc. reflexivity.
Qed.

Lemma all_some_map : forall {A B} (f : A -> option B) g l, (forall x, In x l -> f x = Some (g x)) -> all_some (map f l) = Some (map g l).
Proof. induction l as [|x l IH]; intros H; [reflexivity|]. cbn [map all_some]. rewrite H by (left; reflexivity). cbn [option_bind]. rewrite IH by (intros; apply H; right; assumption). reflexivity. Qed.

Section Plain.
  Context (comp : compiler) (Hkey : right_key comp) (aliases templates : list str) (arguments : list ty -> option (list num) -> str).
  Notation name := (type_name comp aliases templates arguments).
  Notation plain := (plain templates arguments).
  Notation tidy := (tidy templates arguments).

  Lemma named : forall s, word s = true -> (if mem s aliases then s else source_string comp s) = s.
  Proof using Hkey. intros s H. destruct (mem s aliases); [reflexivity|]. apply source_clean; [assumption|]. apply word_clean, H. Qed.

  Lemma no_bad : forall s, negb (existsb (fun c => Ascii.eqb c "<"%char || Ascii.eqb c ";"%char) s) = true -> ~ In "<"%char s /\ ~ In ";"%char s.
  Proof using.
    intros s H. apply negb_true_iff in H. split; intros K;
      assert (existsb (fun c => Ascii.eqb c "<"%char || Ascii.eqb c ";"%char) s = true) by (apply existsb_exists; eexists; split; [exact K|reflexivity]); congruence.
  Qed.

  Lemma base_ok : forall m us ns, word m = true -> negb (existsb (fun c => Ascii.eqb c "<"%char || Ascii.eqb c ";"%char) (arguments us ns)) = true ->
    trim_right_from_last (source_string comp (m ++ text "<" ++ arguments us ns ++ text ">")) "<"%char = m.
  Proof using Hkey.
    intros m us ns Hm H. apply no_bad in H as [H1 H2]. change (text "<" ++ arguments us ns ++ text ">") with ("<"%char :: (arguments us ns ++ text ">")).
    rewrite source_clean; [|assumption|apply word_clean_app; [assumption|]; apply not_in_app; [assumption|apply in_text; reflexivity]].
    apply trim_right_last. apply not_in_app; [assumption|apply in_text; reflexivity].
  Qed.

  Lemma bound_ok : forall b, match b with Some n => is_bound n | None => true end = true ->
    bound b = Some (text "[" ++ match b with Some n => decimal (number n) | None => [] end ++ text "]").
  Proof using.
    intros [n|] H; [|reflexivity]. unfold bound. unfold is_bound in H. apply andb_true_iff in H as [H H5]. apply andb_true_iff in H as [H _]. apply andb_true_iff in H as [H _]. apply andb_true_iff in H as [H1 H2].
    apply Z.leb_le in H5. rewrite int_to_str_decimal; [reflexivity|assumption| |lia]. unfold lowest. apply negb_true_iff in H2. rewrite H2. reflexivity.
  Qed.

  Definition good (t : ty) : Prop := forall top, plain top t = true -> name t = Some (spell t []) /\ (top = false -> forall d, spell t d = spell t [] ++ d).

  Lemma params_ok : forall ps, Forall good ps -> forallb (plain true) ps = true -> all_some (map name ps) = Some (map (fun p => spell p []) ps).
  Proof using.
    intros ps HF H. apply all_some_map. intros p Hp. rewrite forallb_forall in H. rewrite Forall_forall in HF. apply (HF p Hp true), H, Hp.
  Qed.

  (** Functions, pointers to them and references to them. *)
  Lemma fun_ok : forall r ps dots x, good r -> Forall good ps -> plain false r = true -> forallb (plain true) ps = true ->
    name (Fun r ps dots x) = Some (spell (Fun r ps dots x) []).
  Proof using.
    intros r ps dots x Hr Hps H1 H2. destruct (Hr false H1) as [N1 S1]. cbn [type_name]. rewrite N1. cbn [option_bind]. rewrite (params_ok ps Hps H2). cbn [option_bind spell]. f_equal.
    rewrite (S1 eq_refl (_ ++ _)). unfold fun_name. f_equal. cbn [app]. destruct dots.
    - destruct ps as [|p ps]; [destruct x; reflexivity|]. cbn [map]. rewrite commas_app by discriminate. rewrite name_list_commas. rewrite <- !app_assoc. reflexivity.
    - rewrite app_nil_r, name_list_commas. rewrite <- !app_assoc. reflexivity.
  Qed.

  Lemma fun_ptr_ok : forall k r ps dots x, good r -> Forall good ps -> plain false r = true -> forallb (plain true) ps = true -> dots && negb (match ps with [] => true | _ => false end) = false ->
    name r = Some (spell r []) /\ all_some (map name ps) = Some (map (fun p => spell p []) ps) /\
    fun_ptr_name k (spell r []) (map (fun p => spell p []) ps) dots x = spell (Fun r ps dots x) (text "(" ++ k ++ text ")").
  Proof using.
    intros k r ps dots x Hr Hps H1 H2 H3. destruct (Hr false H1) as [N1 S1]. split; [exact N1|]. split; [apply params_ok; assumption|]. cbn [spell]. rewrite (S1 eq_refl (_ ++ _)). unfold fun_ptr_name. f_equal.
    destruct dots.
    - destruct ps as [|p ps]; [|discriminate]. cbn [map app]. rewrite <- !app_assoc. reflexivity.
    - rewrite app_nil_r, name_list_commas. rewrite <- !app_assoc. reflexivity.
  Qed.

  Lemma not_parens : forall t, plain false t = true -> needs_parens t = false.
  Proof using. intros [s|c v u|u|u|u|u b|r ps d x|m us ns] H; try reflexivity; cbn in H; discriminate. Qed.

  Lemma sep_app : forall c v, (c || v) = true -> sep c v = text " ".
  Proof using. intros c v H. unfold sep. rewrite H. reflexivity. Qed.

  Lemma plain_name : forall t, good t.
  Proof using Hkey.
    assert (G : forall t, good t /\ match t with Fun r ps _ _ => good r /\ Forall good ps | Ptr f => good f /\ match f with Fun r ps _ _ => good r /\ Forall good ps | _ => True end | Arr e _ => good e | _ => True end).
    2: intros t; apply (G t).
    apply ty_rec'.
    - intros s. split; [|exact I]. intros top H. cbn [TnameSpec.plain] in H. cbn [type_name spell]. split; [f_equal; rewrite named by assumption; symmetry; apply app_nil_r|]. intros _ d. rewrite app_nil_r. reflexivity.
    - intros c v u [Hu Hs]. split; [|exact I]. intros top H. cbn [TnameSpec.plain] in H. apply andb_true_iff in H as [Hcv H].
      destruct u as [s|c' v' u|f|u|u|e b|r ps dots x|m us ns]; try discriminate.
      + destruct (Hu false H) as [N S]. split; [cbn [type_name] in *; rewrite N; reflexivity|]. intros _ d. cbn [spell]. rewrite <- !app_assoc. cbn [app]. reflexivity.
      + destruct Hs as [Hf Hs]. destruct (is_fun f) eqn:Ef.
        * destruct f as [s|c' v' u|f|u|u|e b|r ps dots x|m us ns]; try discriminate. destruct Hs as [Hr Hps].
          apply andb_true_iff in H as [H H4]. apply andb_true_iff in H as [H H3]. apply andb_true_iff in H as [H1 H2]. apply negb_true_iff in H4. cbn [andb] in H4.
          split; [|intros ->; discriminate].
          destruct (fun_ptr_ok (text "*" ++ cv_name c v) r ps dots x Hr Hps H2 H3 H4) as (N & Ns & E).
          cbn [type_name is_fun]. rewrite N, Ns. cbn [option_bind]. f_equal. rewrite E. cbn [spell needs_parens with_parens]. rewrite !app_nil_r. reflexivity.
        * destruct (Hf false H) as [N S]. pose proof (not_parens f H) as Hp. cbn [type_name]. rewrite Ef, N. cbn [option_bind]. cbn [spell]. rewrite Hp. cbn [with_parens]. rewrite (sep_app c v Hcv).
          split; [rewrite app_nil_r, (S eq_refl (_ ++ _)); reflexivity|]. intros _ d. rewrite (S eq_refl (text "*" ++ text " " ++ qualifiers c v ++ d)), (S eq_refl (text "*" ++ text " " ++ qualifiers c v ++ [])). rewrite app_nil_r, <- !app_assoc. reflexivity.
      + destruct (Hu false H) as [N S]. remember (Inst m us ns) as u eqn:Eu. split.
        * assert (E1 : name (Qual c v u) = (n <- name u ;; Some (cv_name c v ++ text " " ++ n))) by (subst u; reflexivity). rewrite E1, N. cbn [option_bind]. subst u. reflexivity.
        * intros _ d. assert (E2 : forall d, spell (Qual c v u) d = cv_name c v ++ text " " ++ spell u d) by (subst u; reflexivity). rewrite !E2, (S eq_refl d). rewrite <- !app_assoc. reflexivity.
    - intros u [Hu Hs]. split; [|split; [exact Hu|destruct u; try exact I; exact Hs]]. intros top H. cbn [TnameSpec.plain] in H. destruct (is_fun u) eqn:Ef.
      + destruct u as [s|c' v' u|f|u|u|e b|r ps dots x|m us ns]; try discriminate. destruct Hs as [Hr Hps].
        apply andb_true_iff in H as [H H4]. apply andb_true_iff in H as [H H3]. apply andb_true_iff in H as [H1 H2]. apply negb_true_iff in H4. cbn [andb] in H4.
        split; [|intros ->; discriminate].
        destruct (fun_ptr_ok (text "*") r ps dots x Hr Hps H2 H3 H4) as (N & Ns & E).
        cbn [type_name is_fun]. rewrite N, Ns. cbn [option_bind]. f_equal. rewrite E. reflexivity.
      + destruct (Hu false H) as [N S]. pose proof (not_parens u H) as Hp. cbn [type_name]. rewrite Ef, N. cbn [option_bind]. cbn [spell]. rewrite Hp. cbn [with_parens sep orb qualifiers app].
        split; [rewrite (S eq_refl (_ ++ _)); reflexivity|]. intros _ d. rewrite (S eq_refl (text "*" ++ d)), (S eq_refl (text "*" ++ [])). rewrite app_nil_r, <- !app_assoc. reflexivity.
    - intros u [Hu Hs]. split; [|exact I]. intros top H. cbn [TnameSpec.plain] in H.
      assert (Hpost : plain false u = true -> is_fun u = false -> (forall e b, u <> Arr e b) -> name (LRef u) = Some (spell (LRef u) []) /\ (top = false -> forall d, spell (LRef u) d = spell (LRef u) [] ++ d)).
      { intros Hpl Ef Ea. destruct (Hu false Hpl) as [N S]. pose proof (not_parens u Hpl) as Hp.
        assert (E1 : name (LRef u) = (n <- name u ;; Some (n ++ text "&"))) by (destruct u; try discriminate; try reflexivity; exfalso; eapply Ea; reflexivity).
        rewrite E1, N. cbn [option_bind spell]. rewrite Hp. cbn [with_parens]. split; [rewrite (S eq_refl (_ ++ _)); reflexivity|].
        intros _ d. rewrite (S eq_refl (text "&" ++ d)), (S eq_refl (text "&" ++ [])). rewrite app_nil_r, <- !app_assoc. reflexivity. }
      destruct u as [s|c' v' u|f|u|u|e b|r ps dots x|m us ns]; try (apply Hpost; [exact H|reflexivity|discriminate]).
      + apply andb_true_iff in H as [H H3]. apply andb_true_iff in H as [H1 H2]. destruct (Hs false H2) as [N S]. split; [|intros ->; discriminate].
        cbn [type_name]. rewrite N. cbn [option_bind]. rewrite (bound_ok b H3). cbn [option_bind]. f_equal. cbn [spell needs_parens with_parens]. rewrite (S eq_refl (_ ++ _)). rewrite <- !app_assoc. reflexivity.
      + destruct Hs as [Hr Hps]. cbn [is_fun] in H.
        apply andb_true_iff in H as [H H4]. apply andb_true_iff in H as [H H3]. apply andb_true_iff in H as [H1 H2]. apply negb_true_iff in H4. cbn [andb] in H4.
        split; [|intros ->; discriminate].
        destruct (fun_ptr_ok (text "&") r ps dots x Hr Hps H2 H3 H4) as (N & Ns & E).
        cbn [type_name is_fun]. rewrite N, Ns. cbn [option_bind]. f_equal. rewrite E. reflexivity.
    - intros u [Hu Hs]. split; [|exact I]. intros top H. cbn [TnameSpec.plain] in H.
      assert (Hpost : plain false u = true -> (forall e b, u <> Arr e b) -> name (RRef u) = Some (spell (RRef u) []) /\ (top = false -> forall d, spell (RRef u) d = spell (RRef u) [] ++ d)).
      { intros Hpl Ea. destruct (Hu false Hpl) as [N S]. pose proof (not_parens u Hpl) as Hp.
        assert (E1 : name (RRef u) = (n <- name u ;; Some (n ++ text "&&"))) by (destruct u; try discriminate; try reflexivity; exfalso; eapply Ea; reflexivity).
        rewrite E1, N. cbn [option_bind spell]. rewrite Hp. cbn [with_parens]. split; [rewrite (S eq_refl (_ ++ _)); reflexivity|].
        intros _ d. rewrite (S eq_refl (text "&&" ++ d)), (S eq_refl (text "&&" ++ [])). rewrite app_nil_r, <- !app_assoc. reflexivity. }
      destruct u as [s|c' v' u|f|u|u|e b|r ps dots x|m us ns]; try (apply Hpost; [exact H|discriminate]).
      apply andb_true_iff in H as [H H3]. apply andb_true_iff in H as [H1 H2]. destruct (Hs false H2) as [N S]. split; [|intros ->; discriminate].
      cbn [type_name]. rewrite N. cbn [option_bind]. rewrite (bound_ok b H3). cbn [option_bind]. f_equal. cbn [spell needs_parens with_parens]. rewrite (S eq_refl (_ ++ _)). rewrite <- !app_assoc. reflexivity.
    - intros e b [He _]. split; [|exact He]. intros top H. cbn [TnameSpec.plain] in H. apply andb_true_iff in H as [H H3]. apply andb_true_iff in H as [H1 H2]. destruct (He false H2) as [N S]. split; [|intros ->; discriminate].
      cbn [type_name]. rewrite N. cbn [option_bind]. rewrite (bound_ok b H3). cbn [option_bind]. f_equal. cbn [spell]. rewrite (S eq_refl (_ ++ _)). reflexivity.
    - intros r ps dots x [Hr _] Hps. assert (Hps' : Forall good ps) by (eapply Forall_impl; [|exact Hps]; intros a [Ha _]; exact Ha). split; [|split; assumption].
      intros top H. cbn [TnameSpec.plain] in H. apply andb_true_iff in H as [H H4]. apply andb_true_iff in H as [H H3]. apply andb_true_iff in H as [H1 H2]. split; [|intros ->; discriminate].
      apply fun_ok; assumption.
    - intros m us ns Hus. assert (Hus' : Forall good us) by (eapply Forall_impl; [|exact Hus]; intros a [Ha _]; exact Ha). split; [|exact I].
      intros top H. cbn [TnameSpec.plain] in H. apply andb_true_iff in H as [H H4]. apply andb_true_iff in H as [H H3]. apply andb_true_iff in H as [H1 H2].
      split; [|intros _ d; cbn [spell]; rewrite app_nil_r, <- !app_assoc; reflexivity].
      cbn [type_name]. rewrite (params_ok us Hus' H2). cbn [option_bind]. cbn [spell]. rewrite app_nil_r. unfold TnameSpec.tidy in H3. destruct ns as [l|].
      + apply andb_true_iff in H3 as [H3 H5]. apply Nat.leb_le in H5. apply andb_true_iff in H4 as [H4 H6]. rewrite (base_ok m us (Some l) H1 H3).
        assert (Hn : all_some (map int_to_str l) = Some (map (fun n => decimal (number n)) l)).
        { apply all_some_map. intros n Hn. rewrite forallb_forall in H6. specialize (H6 n Hn). apply andb_true_iff in H6 as [H6 H9]. apply andb_true_iff in H6 as [H7 H8].
          apply negb_true_iff in H8, H9. apply Z.eqb_neq in H9. apply int_to_str_decimal; assumption. }
        assert (Hl : us <> [] -> l <> []) by (intros Hne ->; destruct us; [contradiction|discriminate]).
        assert (Hl' : us <> [] -> map (fun n => decimal (number n)) l <> []) by (intros Hne K; apply map_eq_nil in K; apply (Hl Hne K)).
        destruct us as [|a [|b [|c [|e us]]]]; cbn [map].
        * rewrite Hn. cbn [option_bind]. rewrite name_list_commas. reflexivity.
        * rewrite Hn. cbn [option_bind]. rewrite !name_list_commas. rewrite commas_app by (try discriminate; apply Hl'; discriminate). rewrite <- !app_assoc. reflexivity.
        * rewrite Hn. cbn [option_bind]. rewrite !name_list_commas. rewrite commas_app by (try discriminate; apply Hl'; discriminate). rewrite <- !app_assoc. reflexivity.
        * rewrite Hn. cbn [option_bind]. rewrite !name_list_commas. rewrite commas_app by (try discriminate; apply Hl'; discriminate). rewrite <- !app_assoc. reflexivity.
        * cbn in H5. lia.
      + rewrite app_nil_r. apply orb_true_iff in H3 as [H3|H3].
        * apply andb_true_iff in H3 as [H3 H5]. rewrite H3. destruct us as [|a [|b us]]; try discriminate. reflexivity.
        * rewrite (base_ok m us None H1 H3). rewrite name_list_commas. destruct (mem m templates); [|reflexivity].
          destruct us as [|a [|b us]]; reflexivity.
  Qed.
End Plain.
