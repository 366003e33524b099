(** C124, C125: the names of types (type_name.h). *)
From Coq Require Import Ascii String Lia.
From Verif Require Import Words TnameModel TnameSpec TnameProofs TnameProofs2 TnameProofs3 TnameProofs4.
Import ListNotations.
Local Open Scope list_scope.

Definition size_of (z : Z) : num := Num false 64 false false z.
Definition int_of (z : Z) : num := Num true 32 false false z.
Definition t_int := Named (text "int").
Definition t_foo := Named (text "ns::foo").

Section Names.
  Context (comp : compiler) (Hkey : right_key comp) (aliases templates : list str) (arguments : list ty -> option (list num) -> str).
  Notation name := (type_name comp aliases templates arguments).
  Notation plain := (plain templates arguments).

(** The name is what a C++ program writes for the type. *)
Theorem C124_spelling : forall t, plain true t = true -> name t = Some (spell t []).
Proof using All. intros t H. exact (proj1 (plain_name comp Hkey aliases templates arguments t true H)). Qed.

(** Every class, enumeration or fundamental type has its own name, whichever compiler describes it. *)
Theorem C124_extract : forall s, word s = true -> name (Named s) = Some s.
Proof using All. intros s H. cbn [type_name]. f_equal. apply named; assumption. Qed.

(** Numbers appear in decimal notation. *)
Theorem C124_number : forall n, fits n = true -> lowest n = false -> number n <> 0%Z -> exists s, int_to_str n = Some s /\ decimal_of (number n) s.
Proof using. intros n H1 H2 H3. exists (decimal (number n)). split; [apply int_to_str_decimal; assumption|apply decimal_spec]. Qed.

(** Arrays of arrays have their bounds in the wrong order: the name is that of another type, if the bounds differ. *)
Theorem C124_nested_array_refuted : forall e b c, plain false e = true -> is_bound b = true -> is_bound c = true ->
  name (Arr (Arr e (Some b)) (Some c)) = Some (spell (Arr (Arr e (Some c)) (Some b)) []) /\
  (number b <> number c -> name (Arr (Arr e (Some b)) (Some c)) <> Some (spell (Arr (Arr e (Some b)) (Some c)) [])).
Proof using All.
  intros e b c He Hb Hc. destruct (plain_name comp Hkey aliases templates arguments e false He) as [N S]. specialize (S eq_refl).
  assert (E : name (Arr (Arr e (Some b)) (Some c)) = Some (spell e [] ++ (text "[" ++ decimal (number b) ++ text "]") ++ text "[" ++ decimal (number c) ++ text "]")).
  { cbn [type_name]. rewrite N. cbn [option_bind]. rewrite (bound_ok (Some b) Hb). cbn [option_bind]. rewrite (bound_ok (Some c) Hc). cbn [option_bind]. rewrite <- app_assoc. reflexivity. }
  assert (Sp : forall x y, spell (Arr (Arr e (Some x)) (Some y)) [] = spell e [] ++ (text "[" ++ decimal (number y) ++ text "]") ++ text "[" ++ decimal (number x) ++ text "]").
  { intros x y. cbn [spell]. rewrite (S (_ ++ _)). reflexivity. }
  split; [rewrite E, Sp; reflexivity|]. intros Hne K. rewrite E, Sp in K. injection K as K. apply app_inv_head in K. rewrite <- !app_assoc in K. injection K as K. rewrite <- ?app_assoc in K.
  assert (D : forall z, forallb num_char (decimal z) = true).
  { intros z. destruct (decimal_spec z) as (d & -> & _ & Hd & _). rewrite forallb_app. apply andb_true_iff. split; [destruct (z <? 0)%Z; reflexivity|]. rewrite forallb_forall in *. intros k Hk. unfold num_char. rewrite (Hd k Hk). reflexivity. }
  apply (span_unique num_char) in K as [K _]; try apply D; try reflexivity. apply decimal_inj in K. congruence.
Qed.

Lemma solid_app : forall a b, solid (a ++ b) = solid a ++ solid b.
Proof using. intros. apply filter_app. Qed.

(** Pointers to arrays are written as in no C++ program, also if spaces do not count. *)
Theorem C124_pointer_to_array_refuted : forall e b, plain false e = true -> match b with Some n => is_bound n | None => true end = true ->
  exists s, name (Ptr (Arr e b)) = Some s /\ solid s <> solid (spell (Ptr (Arr e b)) []).
Proof using All.
  intros e b He Hb. destruct (plain_name comp Hkey aliases templates arguments e false He) as [N S]. specialize (S eq_refl).
  eexists. split; [cbn [type_name is_fun]; rewrite N; cbn [option_bind]; rewrite (bound_ok b Hb); reflexivity|].
  cbn [spell needs_parens with_parens]. rewrite (S (_ ++ _)). rewrite <- !app_assoc, !(solid_app (spell e [])). intros K. apply app_inv_head in K. discriminate.
Qed.

(** Pointers and references to functions with parameters and [...] have a parenthesis too many. *)
Theorem C124_variadic_refuted : forall r ps x, plain false r = true -> forallb (plain true) ps = true -> ps <> [] ->
  exists s, name (Ptr (Fun r ps true x)) = Some s /\ s <> spell (Ptr (Fun r ps true x)) [] /\ length (solid s) = S (length (solid (spell (Ptr (Fun r ps true x)) []))).
Proof using All.
  intros r ps x Hr Hps Hne. destruct (plain_name comp Hkey aliases templates arguments r false Hr) as [N S]. specialize (S eq_refl).
  assert (L : forall s t, length (solid s) = Datatypes.S (length (solid t)) -> s <> t) by (intros s t H ->; lia).
  assert (G : exists s, name (Ptr (Fun r ps true x)) = Some s /\ length (solid s) = Datatypes.S (length (solid (spell (Ptr (Fun r ps true x)) [])))).
  { eexists. split.
    - cbn [type_name is_fun]. rewrite N. cbn [option_bind]. rewrite (params_ok comp aliases templates arguments ps) by (try assumption; apply Forall_forall; intros p _; apply plain_name; assumption). reflexivity.
    - cbn [spell needs_parens with_parens]. rewrite (S (_ ++ _)). unfold fun_ptr_name. destruct ps as [|p ps]; [contradiction|]. cbn [map]. rewrite name_list_commas, commas_app by discriminate.
      rewrite !solid_app, !app_length. cbn. destruct x; cbn; lia. }
  destruct G as (s & E & H). exists s. split; [exact E|]. split; [apply L, H|exact H].
Qed.

(** The number 0 as a template argument becomes a null character. *)
Theorem C124_zero_refuted : forall m l, word m = true -> tidy templates arguments m [] (Some l) = true -> forallb (fun n => fits n && negb (lowest n)) l = true ->
  (exists n, In n l /\ number n = 0%Z) ->
  exists s, name (Inst m [] (Some l)) = Some s /\ In zero s /\ ~ In zero (spell (Inst m [] (Some l)) []).
Proof using All.
  intros m l Hm Ht Hl (n & Hn & Hz). unfold tidy in Ht. apply andb_true_iff in Ht as [Ht _].
  assert (In_commas : forall (c : ascii) ss, In c (commas ss) <-> (exists s, In s ss /\ In c s) \/ ((2 <= length ss)%nat /\ In c (text ", "))).
  { intros c ss. induction ss as [|a [|b ss] IH].
    - cbn. split; [tauto|]. intros [(s & [] & _)|[K _]]; lia.
    - cbn [commas]. split; [intros K; left; exists a; split; [left; reflexivity|exact K]|]. intros [(s & [<-|[]] & K)|[K _]]; [exact K|cbn in K; lia].
    - rewrite commas_cons by discriminate. rewrite !in_app_iff, IH. split.
      + intros [K|[K|[(s & K1 & K2)|[_ K]]]]; [left; exists a; split; [left; reflexivity|exact K]|right; split; [cbn; lia|exact K]|left; exists s; split; [right; exact K1|exact K2]|right; split; [cbn; lia|exact K]].
      + intros [(s & [<-|K1] & K2)|[_ K]]; [left; exact K2|right; right; left; exists s; split; assumption|right; left; exact K]. }
  eexists. split; [|split].
  - cbn [type_name map all_some option_bind]. rewrite (base_ok comp Hkey arguments m [] (Some l) Hm Ht).
    rewrite (all_some_map int_to_str (fun n => shown (number n))); [reflexivity|]. intros k Hk. rewrite forallb_forall in Hl. specialize (Hl k Hk). apply andb_true_iff in Hl as [H1 H2].
    apply number_shown; [assumption|]. now apply negb_true_iff in H2.
  - apply in_or_app. right. apply in_or_app. right. apply in_or_app. left. rewrite name_list_commas. apply In_commas. left. exists (shown (number n)). split; [apply (in_map (fun n => shown (number n))), Hn|]. rewrite Hz. left. reflexivity.
  - cbn [spell map app]. intros K. apply in_app_or in K as [K|K]; [revert K; apply word_no; [assumption|reflexivity]|]. cbn in K. destruct K as [K|K]; [discriminate|]. apply in_app_or in K as [K|K]; [|cbn in K; intuition discriminate].
    apply In_commas in K as [(s & K1 & K2)|[_ K]]; [|cbn in K; intuition discriminate]. apply in_map_iff in K1 as (k & <- & _).
    destruct (decimal_spec (number k)) as (d & E & _ & Hd & _). rewrite E in K2. apply in_app_or in K2 as [K2|K2]; [destruct (number k <? 0)%Z; cbn in K2; intuition discriminate|]. rewrite forallb_forall in Hd. specialize (Hd _ K2). discriminate.
Qed.

(** A template argument that is a template instance in turn, if neither has a name of its own: the name has the compiler's text up to the last
    [<] in front of the list of arguments, and is never the right one. *)
Theorem C124_nested_template_refuted : forall m us y z, word m = true -> forallb (plain true) us = true -> mem m templates = false ->
  arguments us None = y ++ text "<" ++ z -> ~ In "<"%char z -> ~ In ";"%char (y ++ z) ->
  name (Inst m us None) = Some (m ++ text "<" ++ y ++ text "<" ++ commas (map (fun u => spell u []) us) ++ text ">") /\
  forall s, name (Inst m us None) = Some s -> solid s <> solid (spell (Inst m us None) []).
Proof using All.
  intros m us y z Hm Hus Hmem Ha Hz Hs.
  assert (E : name (Inst m us None) = Some (m ++ text "<" ++ y ++ text "<" ++ commas (map (fun u => spell u []) us) ++ text ">")).
  { cbn [type_name]. rewrite (params_ok comp aliases templates arguments us) by (try assumption; apply Forall_forall; intros p _; apply plain_name; assumption). cbn [option_bind]. rewrite Hmem, Ha.
    change (text "<" ++ (y ++ text "<" ++ z) ++ text ">") with ("<"%char :: ((y ++ text "<" ++ z) ++ text ">")).
    rewrite source_clean; [|assumption|apply word_clean_app; [assumption|]; intros K; apply in_app_or in K as [K|K]; [|cbn in K; intuition discriminate]; apply in_app_or in K as [K|K]; [apply Hs, in_or_app; left; exact K|]; cbn in K; destruct K as [K|K]; [discriminate|apply Hs, in_or_app; right; exact K]].
    assert (R : m ++ "<"%char :: ((y ++ text "<" ++ z) ++ text ">") = (m ++ text "<" ++ y) ++ "<"%char :: (z ++ text ">")).
    { rewrite <- !app_assoc. reflexivity. }
    rewrite R, trim_right_last by (apply not_in_app; [assumption|apply in_text; reflexivity]). rewrite name_list_commas. rewrite <- !app_assoc. reflexivity. }
  split; [exact E|]. intros s Hs'. assert (Es : s = m ++ text "<" ++ y ++ text "<" ++ commas (map (fun u => spell u []) us) ++ text ">") by congruence. subst s. cbn [spell]. rewrite !app_nil_r. intros K. apply (f_equal (@length ascii)) in K. rewrite !solid_app, !app_length in K. change (length (solid (text "<"))) with 1%nat in K. change (length (solid (text ">"))) with 1%nat in K. lia.
Qed.

(** A template whose list of numbers is empty has a comma too many. *)
Theorem C124_empty_numbers_refuted : forall m u, word m = true -> plain true u = true -> tidy templates arguments m [u] (Some []) = true ->
  name (Inst m [u] (Some [])) = Some (m ++ text "<" ++ spell u [] ++ text ", >") /\ spell (Inst m [u] (Some [])) [] = m ++ text "<" ++ spell u [] ++ text ">".
Proof using All.
  intros m u Hm Hu Ht. unfold tidy in Ht. apply andb_true_iff in Ht as [Ht _]. split; [|cbn; rewrite ?app_nil_r; reflexivity].
  cbn [type_name map all_some]. rewrite (proj1 (plain_name comp Hkey aliases templates arguments u true Hu)). cbn [option_bind map all_some]. rewrite (base_ok comp Hkey arguments m [u] (Some []) Hm Ht). reflexivity.
Qed.

(** The lowest value of a type has no name (the program does not compile), or, for types narrower than [int], one that is not a number. *)
Theorem C124_lowest_refuted : forall w, (0 < w)%N ->
  int_to_str (Num true w false false (- 2 ^ (Z.of_N w - 1))) = None /\ int_to_str (Num true 8 true false (-128)) = Some (text "-/.(").
Proof using.
  intros w Hw. split; [|reflexivity]. unfold int_to_str, int_to_str_length. cbn [number].
  assert (P : (0 < 2 ^ (Z.of_N w - 1))%Z) by (apply Z.pow_pos_nonneg; lia).
  destruct (Z.eqb_spec (- 2 ^ (Z.of_N w - 1)) 0) as [E|E]; [lia|]. unfold magnitude. cbn [boolean signed number andb]. destruct (Z.ltb_spec (- 2 ^ (Z.of_N w - 1)) 0) as [K|K]; [|lia].
  unfold negate. cbn [number width narrow]. rewrite Z.eqb_refl. reflexivity.
Qed.

(** Every type has a name, and different types have different names. *)
Theorem C125_named : forall shape kind t, lawful templates arguments shape kind t = true -> name t <> None.
Proof using All. intros shape kind t H. rewrite (lawful_named comp Hkey aliases templates arguments shape kind t H). discriminate. Qed.
Theorem C125_distinct : forall shape kind s t, lawful templates arguments shape kind s = true -> lawful templates arguments shape kind t = true ->
  name s = name t -> s = t.
Proof using All. intros shape kind s t. exact (names_differ comp Hkey aliases templates arguments shape kind s t). Qed.

(** Numbers of different types are not told apart: for a template that takes [auto], instances that are different types share a name. *)
Theorem C125_auto_refuted : forall m n k, word m = true -> (forall l, tidy templates arguments m [] (Some l) = true) -> fits n = true -> fits k = true -> lowest n = false -> lowest k = false ->
  number n = number k -> name (Inst m [] (Some [n])) = name (Inst m [] (Some [k])).
Proof using All.
  intros m n k Hm Ht Hn Hk Ln Lk E. pose proof (Ht [n]) as Tn. pose proof (Ht [k]) as Tk. unfold tidy in Tn, Tk. apply andb_true_iff in Tn as [Tn _]. apply andb_true_iff in Tk as [Tk _].
  cbn [type_name map all_some option_bind]. rewrite (base_ok comp Hkey arguments m [] (Some [n]) Hm Tn), (base_ok comp Hkey arguments m [] (Some [k]) Hm Tk).
  rewrite (number_shown n Hn Ln), (number_shown k Hk Lk), E. reflexivity.
Qed.
End Names.
Print Assumptions C124_spelling.
Print Assumptions C124_extract.
Print Assumptions C124_number.
Print Assumptions C124_nested_array_refuted.
Print Assumptions C124_pointer_to_array_refuted.
Print Assumptions C124_variadic_refuted.
Print Assumptions C124_zero_refuted.
Print Assumptions C124_nested_template_refuted.
Print Assumptions C124_empty_numbers_refuted.
Print Assumptions C124_lowest_refuted.
Print Assumptions C125_named.
Print Assumptions C125_distinct.
Print Assumptions C125_auto_refuted.

(* ------------------------------------------------------------------ examples *)

Definition plain_args (us : list ty) (ns : option (list num)) : str := text "int".
Definition std_templates : list str := [text "std::vector"].
Definition ex_name := type_name Gcc [text "int"] std_templates plain_args.
(** A pointer to a function that takes a vector of vectors and a reference to an array of const pointers. *)
Definition ex_type : ty :=
  Qual true false (Ptr (Fun (Ptr t_foo) [Inst (text "std::vector") [Inst (text "std::vector") [t_int] None] None;
                                        LRef (Arr (Qual true false (Ptr (Qual true true t_int))) (Some (size_of 42)))] false true)).
Example C124_nonvacuous :
  plain std_templates plain_args true ex_type = true /\ right_key Gcc /\ right_key (Msvc (text "struct ")) /\
  ex_name ex_type = Some (text "ns::foo*(*const)(std::vector<std::vector<int>>, const volatile int* const(&)[42]) noexcept") /\
  ex_name (Inst (text "muu::vector") [t_int] (Some [size_of 3; int_of (-7)])) = Some (text "muu::vector<int, 3, -7>") /\
  type_name (Msvc (text "struct ")) [] [] plain_args t_foo = Some (text "ns::foo").
Proof. repeat split; try (cbn; tauto). Qed.
Example C124_refuted_nonvacuous :
  plain std_templates plain_args false t_foo = true /\ is_bound (size_of 2) = true /\ is_bound (size_of 3) = true /\
  ex_name (Arr (Arr t_int (Some (size_of 3))) (Some (size_of 2))) = Some (text "int[3][2]") /\ spell (Arr (Arr t_int (Some (size_of 3))) (Some (size_of 2))) [] = text "int[2][3]" /\
  ex_name (Ptr (Arr t_int (Some (size_of 3)))) = Some (text "int[3]*") /\
  ex_name (Ptr (Fun t_int [t_foo] true false)) = Some (text "int(*)((ns::foo, ...)") /\
  tidy std_templates plain_args (text "flags") [] (Some [int_of 0]) = true /\ ex_name (Inst (text "flags") [] (Some [int_of 0])) = Some (text "flags<" ++ [zero] ++ text ">") /\
  type_name Gcc [text "int"] [] (fun us _ => match us with [Inst _ _ _] => text "bar<int>" | _ => text "int" end) (Inst (text "foo") [Inst (text "bar") [t_int] None] None)
    = Some (text "foo<bar<bar<int>>").
Proof. repeat split. Qed.
Definition ex_shape (m : str) : bool := if list_eq_dec ascii_dec m (text "muu::vector") then true else false.
Example C125_nonvacuous :
  let law := lawful std_templates plain_args ex_shape (fun _ => (false, 64%N, false)) in
  law ex_type = true /\ law (Inst (text "muu::vector") [t_int] (Some [size_of 3])) = true /\ law (Ptr (Arr (Arr t_int None) (Some (size_of 2)))) = true /\
  law (Ptr (Fun (LRef t_int) [RRef (Fun t_foo [] true false)] true false)) = true /\
  fits (int_of 1) = true /\ fits (size_of 1) = true /\ number (int_of 1) = number (size_of 1) /\ int_of 1 <> size_of 1.
Proof. repeat split. discriminate. Qed.
