(** C136 and C137: compressed pairs. *)
From Coq Require Import Arith List Bool Lia.
From Verif Require Import Words CpairModel CpairSpec CpairProofs CpairProofs2.
Import ListNotations.
Local Open Scope nat_scope.

(* ------------------------------------------------------------------ some types *)

Definition mk (i : cid) (e fin : bool) (sz ds al : nat) (subs : list (nat * cid)) (bs : list cid) : ty :=
  {| t_id := i; t_empty := e; t_final := fin; t_size := sz; t_dsize := ds; t_align := al; t_subs := subs; t_bases := bs |}.
(** [struct E1 {}; struct E2 {}; struct F final {}; struct D : E1 {};] *)
Definition e1 := mk (User 1 0) true false 1 0 1 [(0, User 1 0)] [].
Definition e2 := mk (User 2 0) true false 1 0 1 [(0, User 2 0)] [].
Definition fin := mk (User 3 0) true true 1 0 1 [(0, User 3 0)] [].
Definition der := mk (User 4 0) true false 1 0 1 [(0, User 4 0); (0, User 1 0)] [User 1 0].
(** [int], [char], [struct T { E1 e; int i; }], [struct B : E1 { int i; }], and a class of an [int] and a [char] that is not a POD. *)
Definition int_ := mk (User 5 0) false false 4 4 4 [] [].
Definition char_ := mk (User 6 0) false false 1 1 1 [] [].
Definition has := mk (User 7 0) false false 8 8 4 [(0, User 7 0); (0, User 1 0)] [].
Definition bas := mk (User 8 0) false false 4 4 4 [(0, User 8 0); (0, User 1 0)] [User 1 0].
Definition npod := mk (User 9 0) false false 8 5 4 [(0, User 9 0)] [].
(** An empty class with a large alignment. *)
Definition wide := mk (User 10 0) true false 16 0 16 [(0, User 10 0)] [].

Ltac goodness :=
  split; cbn;
  [ first [exists 0; reflexivity | exists 1; reflexivity | exists 2; reflexivity | exists 4; reflexivity]
  | lia
  | first [exists 1; reflexivity | exists 2; reflexivity | exists 4; reflexivity | exists 8; reflexivity]
  | lia
  | try discriminate; reflexivity
  | try discriminate; auto
  | intros o c I; repeat (destruct I as [I | I]; [inversion I; lia |]); destruct I
  | intros o c I; repeat (destruct I as [I | I]; [inversion I; cbn; lia |]); destruct I
  | repeat constructor; cbn; intuition congruence
  | intros c I; repeat (destruct I as [I | I]; [subst; exists 0; auto |]); destruct I ].
Lemma good_e1 : good e1. Proof. goodness. Qed.
Lemma good_e2 : good e2. Proof. goodness. Qed.
Lemma good_fin : good fin. Proof. goodness. Qed.
Lemma good_der : good der. Proof. goodness. Qed.
Lemma good_int : good int_. Proof. goodness. Qed.
Lemma good_char : good char_. Proof. goodness. Qed.
Lemma good_has : good has. Proof. goodness. Qed.
Lemma good_bas : good bas. Proof. goodness. Qed.
Lemma good_npod : good npod. Proof. goodness. Qed.
Lemma good_wide : good wide. Proof. goodness. Qed.

Definition size_of (p : option ty) : nat := match p with Some t => t_size t | None => 0 end.
Definition pair20 (f s : ty) : option ty := compressed_pair true true f s.
Definition pair17 (f s : ty) : option ty := compressed_pair false true f s.
(** The sizes GCC and Clang give. *)
Example sizes20 : map size_of [pair20 int_ char_; pair20 e1 int_; pair20 int_ e1; pair20 e1 e2; pair20 fin int_; pair20 int_ fin; pair20 fin fin;
    pair20 npod char_; pair20 e1 has; pair20 e1 bas; pair20 e2 has; pair20 wide int_] = [8; 4; 4; 1; 4; 4; 2; 8; 12; 8; 8; 16].
Proof. reflexivity. Qed.
Example sizes17 : map size_of [pair17 fin int_; pair17 int_ fin; pair17 fin fin; pair17 npod char_; pair17 e1 int_] = [8; 8; 2; 12; 4].
Proof. reflexivity. Qed.

(* ------------------------------------------------------------------ C136: the layout *)

(** A pair is there for any two types, except twice the same empty class that is not final. *)
Theorem C136_compiles : forall nua tail f s,
  (exists p, compressed_pair nua tail f s = Some p) <-> ~ (can_be_base f = true /\ can_be_base s = true /\ t_id f = t_id s).
Proof.
  intros nua tail f s. unfold compressed_pair. rewrite <- cid_eqb_eq.
  destruct (can_be_base f), (can_be_base s), (cid_eqb (t_id f) (t_id s)); cbn [andb]; split; intros H;
    try (eexists; reflexivity); try (intros (A & B & C); discriminate); [destruct H; discriminate | exfalso; apply H; auto].
Qed.
Print Assumptions C136_compiles.
Theorem C136_same_empty_refuted : exists f, good f /\ forall nua tail, compressed_pair nua tail f f = None.
Proof. exists e1. split; [exact good_e1 | reflexivity]. Qed.
Print Assumptions C136_same_empty_refuted.

(** Where the elements are: inside the pair and its data, aligned, their data apart, and no two subobjects of one type at one address. *)
Theorem C136_separate : forall nua tail f s p, good f -> good s -> compressed_pair nua tail f s = Some p ->
  let o1 := l_first (pair_layout nua f s) in let o2 := l_second (pair_layout nua f s) in
  (Nat.divide (t_align f) o1 /\ Nat.divide (t_align s) o2 /\ Nat.divide (t_align f) (t_align p) /\ Nat.divide (t_align s) (t_align p)) /\
  (o1 + t_size f <= t_size p /\ o2 + t_size s <= t_size p) /\
  (t_dsize f <> 0 -> o1 + t_dsize f <= t_dsize p) /\ (t_dsize s <> 0 -> o2 + t_dsize s <= t_dsize p) /\
  (t_dsize f <> 0 -> t_dsize s <> 0 -> o1 + t_dsize f <= o2 \/ o2 + t_dsize s <= o1) /\
  ~ clash o1 f o2 s.
Proof.
  intros nua tail f s p Gf Gs E o1 o2. pose proof (layout_facts nua f s Gf Gs) as F.
  destruct (pair_size _ _ _ _ _ Gf Gs E) as [(P1 & P2 & P3) Pa]. fold o1 o2 in P2.
  destruct (max_divide _ _ (g_align f Gf) (g_align s Gs)) as [M1 M2].
  split; [| split; [lia |]].
  - rewrite Pa. split; [exact (f_al1 _ _ _ _ F) |]. split; [exact (f_al2 _ _ _ _ F) |]. split; assumption.
  - pose proof (pair_good _ _ _ _ _ Gf Gs E) as Gp. apply cp_some in E.
    assert (forall t o, good t -> weightless nua f && weightless nua s = true -> (t = f \/ t = s) -> t_dsize t <> 0 -> o) as Wz.
    { intros t o G W D N. exfalso. apply N. apply andb_true_iff in W as [Wf Ws]. apply (weightless_empty nua t G). destruct D as [-> | ->]; assumption. }
    destruct (up_spec (s_align (l_state (pair_layout nua f s))) (s_size (l_state (pair_layout nua f s)))) as (_ & U2 & _).
    { destruct (v_align _ _ (f_inv _ _ _ _ F)) as [k ->]. apply pow_pos. }
    pose proof (v_data _ _ (f_inv _ _ _ _ F)) as Vd.
    split; [| split; [| split; [| exact (f_clash _ _ _ _ F)]]].
    + intros N. destruct (weightless nua f && weightless nua s) eqn:W; [apply (Wz f); auto |]. subst p. cbn [t_dsize].
      destruct (f_in1 _ _ _ _ F) as [X | X]; [contradiction |]. fold o1 in X. destruct tail; lia.
    + intros N. destruct (weightless nua f && weightless nua s) eqn:W; [apply (Wz s); auto |]. subst p. cbn [t_dsize].
      destruct (f_in2 _ _ _ _ F) as [X | X]; [contradiction |]. fold o2 in X. destruct tail; lia.
    + intros N1 N2. destruct (f_data _ _ _ _ F) as [X | [X | X]]; [contradiction | contradiction | exact X].
Qed.
Print Assumptions C136_separate.

(** Assigning to one element leaves the other as it was. *)
Theorem C136_assignment : forall nua tail f s p m m', good f -> good s -> compressed_pair nua tail f s = Some p ->
  let o1 := l_first (pair_layout nua f s) in let o2 := l_second (pair_layout nua f s) in
  (writes_only o1 (t_dsize f) m m' -> same_bytes o2 (t_dsize s) m m') /\
  (writes_only o2 (t_dsize s) m m' -> same_bytes o1 (t_dsize f) m m').
Proof.
  intros nua tail f s p m m' Gf Gs E o1 o2. destruct (C136_separate _ _ _ _ _ Gf Gs E) as (_ & _ & _ & _ & D & _). fold o1 o2 in D.
  split; intros W a A; apply W; intros B; destruct (D ltac:(lia) ltac:(lia)); lia.
Qed.
Print Assumptions C136_assignment.
(** The elements share the pair's padding: the [char] lies in the padding of the class. *)
Example padding : l_second (pair_layout true npod char_) = 5 /\ t_size npod = 8 /\ good npod /\ good char_ /\ exists p, pair20 npod char_ = Some p.
Proof. split; [reflexivity |]. split; [reflexivity |]. split; [exact good_npod |]. split; [exact good_char | eexists; reflexivity]. Qed.

(** Pairs are types like any other: the statements above hold for pairs of pairs. *)
Theorem C136_nesting : forall nua tail f s p, good f -> good s -> compressed_pair nua tail f s = Some p -> good p.
Proof. exact pair_good. Qed.
Print Assumptions C136_nesting.
Example nested : exists p, pair20 e2 int_ = Some p /\ good p /\ option_map t_size (pair20 e1 p) = Some 4.
Proof. eexists. split; [reflexivity |]. split; [apply (pair_good true true e2 int_); [exact good_e2 | exact good_int | reflexivity] | reflexivity]. Qed.

(** An empty element costs nothing, in either place, unless the other element has a subobject of one of its types at its own start: the pair
    is as large as the larger of the two (in bytes, then rounded up to the stricter alignment). *)
Theorem C136_elided : forall nua tail f s p, good f -> good s -> compressed_pair nua tail f s = Some p ->
  can_be_base f = true \/ can_be_base s = true \/ (nua = true /\ (t_empty f = true \/ t_empty s = true)) ->
  ~ clash 0 f 0 s ->
  l_first (pair_layout nua f s) = 0 /\ l_second (pair_layout nua f s) = 0 /\
  multiple_at_least (Nat.max (t_align f) (t_align s)) (Nat.max (t_size f) (t_size s)) (t_size p).
Proof.
  intros nua tail f s p Gf Gs E W N. pose proof (layout_facts nua f s Gf Gs) as F.
  assert (weightless nua f = true \/ weightless nua s = true) as Q.
  { unfold weightless. destruct W as [W | [W | [-> [W | W]]]]; rewrite W; [left; reflexivity | right; reflexivity | left | right]; cbn [andb]; apply orb_true_r. }
  destruct (f_share _ _ _ _ F Q N) as [Z1 Z2]. split; [exact Z1 |]. split; [exact Z2 |].
  destruct (pair_size _ _ _ _ _ Gf Gs E) as [P _]. rewrite Z1, Z2 in P. exact P.
Qed.
Print Assumptions C136_elided.
Example elided_witness : good e1 /\ good int_ /\ can_be_base e1 = true /\ ~ clash 0 e1 0 int_ /\ option_map t_size (pair17 e1 int_) = Some 4.
Proof. split; [exact good_e1 |]. split; [exact good_int |]. split; [reflexivity |]. split; [intros (a & b & c & _ & [] & _) | reflexivity]. Qed.
(** In the common case, the size of the other element. *)
Corollary C136_free : forall nua tail e t p q, good e -> good t -> can_be_base e = true ->
  Nat.divide (t_align e) (t_align t) -> t_size e <= t_size t -> ~ clash 0 e 0 t ->
  compressed_pair nua tail e t = Some p -> compressed_pair nua tail t e = Some q -> t_size p = t_size t /\ t_size q = t_size t.
Proof.
  intros nua tail e t p q Ge Gt B D L N E1 E2.
  assert (t_align e <= t_align t) as La. { apply Nat.divide_pos_le; [apply good_pos; exact Gt | exact D]. }
  destruct (C136_elided _ _ _ _ _ Ge Gt E1 (or_introl B) N) as (_ & _ & P).
  assert (~ clash 0 t 0 e) as N' by (rewrite clash_sym; exact N).
  destruct (C136_elided _ _ _ _ _ Gt Ge E2 (or_intror (or_introl B)) N') as (_ & _ & Q).
  rewrite (Nat.max_r _ _ La), (Nat.max_r _ _ L) in P. rewrite (Nat.max_l _ _ La), (Nat.max_l _ _ L) in Q.
  assert (multiple_at_least (t_align t) (t_size t) (t_size t)) as R. { split; [apply (g_mult t Gt) |]. split; [lia | auto]. }
  split; eapply mal_unique; eassumption.
Qed.
Print Assumptions C136_free.
(** The exception is real: with [struct B : E1 { int i; }] the pair takes twice the space. *)
Theorem C136_elided_refuted : exists e t p, good e /\ good t /\ can_be_base e = true /\ pair20 e t = Some p /\ t_size p = 2 * t_size t /\ t_size t = 4.
Proof. exists e1, bas. eexists. split; [exact good_e1 |]. split; [exact good_bas |]. repeat split; reflexivity. Qed.
Print Assumptions C136_elided_refuted.
(** So is the one for final classes before C++20. *)
Theorem C136_final_refuted : exists e t p, good e /\ good t /\ t_empty e = true /\ ~ clash 0 e 0 t /\ pair17 t e = Some p /\ t_size p = 2 * t_size t.
Proof.
  exists fin, int_. eexists. split; [exact good_fin |]. split; [exact good_int |]. split; [reflexivity |].
  split; [intros (a & b & c & _ & [] & _) |]. split; reflexivity.
Qed.
Print Assumptions C136_final_refuted.

(** In any case the pair is never larger than a struct of the two. *)
Theorem C136_never_larger : forall nua tail f s p n, good f -> good s -> compressed_pair nua tail f s = Some p -> plain_struct f s n -> t_size p <= n.
Proof. exact never_larger. Qed.
Print Assumptions C136_never_larger.
Example never_larger_witness : plain_struct e1 has 12 /\ plain_struct npod char_ 12.
Proof.
  split.
  - exists 4. split; (split; [first [exists 1; reflexivity | exists 3; reflexivity] |]); cbn; (split; [lia |]); intros z [k ->] L; lia.
  - exists 8. split; (split; [first [exists 8; reflexivity | exists 3; reflexivity] |]); cbn; (split; [lia |]); intros z [k ->] L; lia.
Qed.

(* ------------------------------------------------------------------ C137: access, construction, swapping *)

(** [first()] compiles unless both elements are empty bases and the second is, or is derived from, the first one's class; [second()] likewise. *)
Theorem C137_accessors : forall f s, ~ In (t_id f) (t_bases f) -> ~ In (t_id s) (t_bases s) ->
  (first_ok f s = true <-> ~ (can_be_base f = true /\ can_be_base s = true /\ (t_id f = t_id s \/ In (t_id f) (t_bases s)))) /\
  (second_ok f s = true <-> ~ (can_be_base f = true /\ can_be_base s = true /\ (t_id s = t_id f \/ In (t_id s) (t_bases f)))).
Proof.
  intros f s Nf Ns. rewrite <- (first_ok_iff f s Nf), <- (second_ok_iff f s Ns).
  split; [destruct (first_ok f s) | destruct (second_ok f s)]; intuition congruence.
Qed.
Print Assumptions C137_accessors.
(** A pair that compiles and whose [first()] does not: [compressed_pair<E1, compressed_pair<E1, E2>>]. *)
Theorem C137_accessors_refuted : exists e q p, good e /\ good q /\ pair20 e1 e2 = Some q /\ pair20 e q = Some p /\ first_ok e q = false.
Proof.
  exists e1. eexists. eexists. split; [exact good_e1 |]. split; [apply (pair_good true true e1 e2); [exact good_e1 | exact good_e2 | reflexivity] |].
  split; [reflexivity |]. split; reflexivity.
Qed.
Print Assumptions C137_accessors_refuted.
Example accessors_fine : ~ In (t_id e1) (t_bases e1) /\ first_ok e1 e2 = true /\ second_ok e1 e2 = true /\ first_ok e1 der = false /\ second_ok e1 der = true /\ first_ok e1 bas = true.
Proof. split; [intros [] |]. repeat split; reflexivity. Qed.

(** If braces and parentheses mean the same for both arguments, the constructor is there exactly if both elements can be initialised, and
    the elements have the values so given; the first element is built first unless only the second is an empty base. *)
Theorem C137_construct : forall {V W} (f s : ty) (i : init V) (j : init W), i_brace i = i_paren i -> i_brace j = i_paren j ->
  (construct f s i j = NotThere <-> i_paren i = None \/ i_paren j = None) /\
  construct f s i j <> IllFormed /\
  (forall v w, i_paren i = Some (v, true) -> i_paren j = Some (w, true) ->
     construct f s i j = Built v w (if negb (can_be_base f) && can_be_base s then [false; true] else [true; false])) /\
  (forall v w, i_paren i = Some (v, false) -> i_paren j = Some (w, true) ->
     construct f s i j = Thrown (if negb (can_be_base f) && can_be_base s then [false] else [])) /\
  (forall v w, i_paren i = Some (v, true) -> i_paren j = Some (w, false) ->
     construct f s i j = Thrown (if negb (can_be_base f) && can_be_base s then [] else [true])).
Proof.
  intros V W f s i j Hi Hj. unfold construct. rewrite Hi, Hj. unfold components.
  destruct (i_paren i) as [[v ok1] |], (i_paren j) as [[w ok2] |].
  - split; [split; [| intros [X | X]; discriminate X]; destruct (can_be_base f), (can_be_base s), ok1, ok2; cbn; discriminate |].
    split; [destruct (can_be_base f), (can_be_base s), ok1, ok2; cbn; discriminate |].
    split; [| split]; intros v' w' X Y; inversion X; inversion Y; subst; destruct (can_be_base f), (can_be_base s); reflexivity.
  - split; [tauto |]. split; [discriminate |]. split; [| split]; intros; discriminate.
  - split; [tauto |]. split; [discriminate |]. split; [| split]; intros; discriminate.
  - split; [tauto |]. split; [discriminate |]. split; [| split]; intros; discriminate.
Qed.
Print Assumptions C137_construct.
(** Where they do not, the constructor is there and the program does not compile (an [int] from a [double]) or the element gets another value
    (a vector of five elements asked for, one element with the value five built). *)
Definition int_from_double : init N := {| i_paren := Some (3%N, true); i_brace := None |}.
Definition vector_from_5 : init (list N) := {| i_paren := Some ([0; 0; 0; 0; 0]%N, true); i_brace := Some ([5%N], true) |}.
Definition plain_init (n : N) : init N := {| i_paren := Some (n, true); i_brace := Some (n, true) |}.
Theorem C137_braces_refuted : exists (i : init N) (k : init (list N)) (j : init N) v w l,
  i_paren i = Some (v, true) /\ i_paren j = Some (w, true) /\ i_paren k = Some (l, true) /\
  construct int_ int_ i j = IllFormed /\ exists l' o, construct npod int_ k j = Built l' w o /\ l' <> l.
Proof.
  exists int_from_double, vector_from_5, (plain_init 7). do 3 eexists.
  split; [reflexivity |]. split; [reflexivity |]. split; [reflexivity |]. split; [reflexivity |]. do 2 eexists. split; [reflexivity | discriminate].
Qed.
Print Assumptions C137_braces_refuted.
Example construct_witness : construct e1 int_ (plain_init 1) (plain_init 2) = Built 1%N 2%N [true; false] /\ construct int_ e1 (plain_init 1) (plain_init 2) = Built 1%N 2%N [false; true].
Proof. split; reflexivity. Qed.

(** [swap] exchanges the values. *)
Theorem C137_swap : forall {V W} (a b : V * W), swap_pairs a b = (b, a).
Proof. intros V W [a1 a2] [b1 b2]. reflexivity. Qed.
Print Assumptions C137_swap.
