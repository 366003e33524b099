From Coq Require Import Lia ZifyBool ZifyNat ZifyN.
From Verif Require Import Words WordsProofs SpanModel SpanSpec.
Local Open Scope N_scope.
Ltac Zify.zify_post_hook ::= idtac.

Section S.
  Context {A : Type} (mem : list A).
  Let len := N.of_nat (length mem).

  Lemma views_take s l a b c o k : views mem s l -> s_ptr s = Some (o, k) -> l = a ++ b ++ c ->
    exists p q, mem = p ++ b ++ q /\ (k + Z.of_nat (length a) = Z.of_nat (length p))%Z.
  Proof.
    intros (_ & V & _) E L. rewrite E in V. destruct V as (x & y & M & K). exists (x ++ a), (c ++ y). split.
    - rewrite M, L. rewrite <- !app_assoc. reflexivity.
    - rewrite app_length. lia.
  Qed.
  Lemma views_bound s l o k : views mem s l -> s_ptr s = Some (o, k) -> (0 <= k)%Z /\ (k + Z.of_nat (length l) <= Z.of_N len)%Z.
  Proof.
    intros (_ & V & _) E. rewrite E in V. destruct V as (x & y & M & K). unfold len. rewrite M, !app_length. lia.
  Qed.

  (** Any part of what a span denotes can be made a span. *)
  Lemma sub_span s l a b c : views mem s l -> l = a ++ b ++ c ->
    exists p, ptr_add len (s_ptr s) (Z.of_nat (length a)) = Some p /\
      (exists s', span_new None p (N.of_nat (length b)) = Some s' /\ views mem s' b) /\
      (exists s', span_new (Some (N.of_nat (length b))) p (N.of_nat (length b)) = Some s' /\ views mem s' b).
  Proof.
    intros V L. destruct (s_ptr s) as [[o k]|] eqn:E.
    - destruct (views_take s l a b c o k V E L) as (p & q & M & K). pose proof (views_bound s l o k V E) as B.
      exists (Some (o, (k + Z.of_nat (length a))%Z)). split.
      + cbn [ptr_add]. rewrite L, !app_length in B.
        replace ((0 <=? k + Z.of_nat (length a)) && (k + Z.of_nat (length a) <=? Z.of_N len))%Z with true; [reflexivity|].
        symmetry. apply andb_true_iff. split; apply Z.leb_le; lia.
      + split; eexists; (split; [|split; [|split]]).
        * reflexivity.
        * reflexivity.
        * cbn [s_ptr]. exists p, q. split; assumption.
        * exact I.
        * cbn [span_new]. rewrite N.eqb_refl, orb_true_r. reflexivity.
        * reflexivity.
        * cbn [s_ptr]. exists p, q. split; assumption.
        * reflexivity.
    - destruct V as (S & V & _). rewrite E in V. rewrite V in L. symmetry in L. apply app_eq_nil in L. destruct L as [-> L]. apply app_eq_nil in L. destruct L as [-> ->].
      exists None. split; [reflexivity|]. split; eexists; (split; [reflexivity|split; [reflexivity|split; [reflexivity|]]]); [exact I|reflexivity].
  Qed.

  Lemma first_ok s l n : views mem s l -> n <= N.of_nat (length l) ->
    (exists s', span_first s n = Some s' /\ views mem s' (firstn (N.to_nat n) l)) /\
    (exists s', span_first_static s n = Some s' /\ views mem s' (firstn (N.to_nat n) l)).
  Proof.
    intros V H. pose proof (proj1 V) as S. unfold span_first, span_first_static. rewrite S. replace (n <=? N.of_nat (length l)) with true by (symmetry; apply N.leb_le; exact H).
    destruct (sub_span s l [] (firstn (N.to_nat n) l) (skipn (N.to_nat n) l) V) as (p & P & Q).
    { cbn [app]. symmetry. apply firstn_skipn. }
    assert (p = s_ptr s) as ->.
    { cbn [length Z.of_nat] in P. destruct (s_ptr s) as [[o k]|]; cbn [ptr_add] in P; [|change (0 =? 0)%Z with true in P; congruence].
      rewrite Z.add_0_r in P. destruct ((0 <=? k) && (k <=? Z.of_N len))%Z; congruence. }
    replace (N.of_nat (length (firstn (N.to_nat n) l))) with n in Q; [exact Q|]. rewrite firstn_length. lia.
  Qed.
  Lemma last_ok s l n : views mem s l -> n <= N.of_nat (length l) ->
    (exists s', span_last len s n = Some s' /\ views mem s' (skipn (length l - N.to_nat n) l)) /\
    (exists s', span_last_static len s n = Some s' /\ views mem s' (skipn (length l - N.to_nat n) l)).
  Proof.
    intros V H. pose proof (proj1 V) as S. unfold span_last, span_last_static. rewrite S. replace (n <=? N.of_nat (length l)) with true by (symmetry; apply N.leb_le; exact H).
    set (j := (length l - N.to_nat n)%nat).
    destruct (sub_span s l (firstn j l) (skipn j l) [] V) as (p & P & Q).
    { rewrite app_nil_r. symmetry. apply firstn_skipn. }
    rewrite firstn_length in P. replace (Z.of_N (N.of_nat (length l) - n)) with (Z.of_nat (min j (length l))) by (unfold j; lia). rewrite P. cbn [option_bind].
    replace (N.of_nat (length (skipn j l))) with n in Q; [exact Q|]. rewrite skipn_length. unfold j. lia.
  Qed.
  Lemma sub_ok sw s l o n : views mem s l -> len < dyn sw -> o < N.of_nat (length l) -> (n = dyn sw \/ o + n <= N.of_nat (length l)) ->
    let part := if n =? dyn sw then skipn (N.to_nat o) l else firstn (N.to_nat n) (skipn (N.to_nat o) l) in
    (exists s', span_sub sw len s o n = Some s' /\ views mem s' part) /\
    (exists s', span_sub_static sw len s o n = Some s' /\ views mem s' part).
  Proof.
    intros V HD Ho Hn part. pose proof (proj1 V) as S. unfold span_sub, span_sub_static. rewrite S. replace (o <? N.of_nat (length l)) with true by (symmetry; apply N.ltb_lt; exact Ho).
    destruct (sub_span s l (firstn (N.to_nat o) l) part (if n =? dyn sw then [] else skipn (N.to_nat n) (skipn (N.to_nat o) l)) V) as (p & P & Q1 & Q2).
    { unfold part. destruct (n =? dyn sw); [rewrite app_nil_r|rewrite firstn_skipn]; symmetry; apply firstn_skipn. }
    rewrite firstn_length in P. replace (Z.of_N o) with (Z.of_nat (min (N.to_nat o) (length l))) by lia. rewrite P. cbn [option_bind].
    unfold part in *. destruct (N.eqb_spec n (dyn sw)) as [E|E].
    - rewrite skipn_length in Q1. replace (N.of_nat (length l - N.to_nat o)) with (N.of_nat (length l) - o) in Q1 by lia. tauto.
    - destruct Hn as [Hn|Hn]; [contradiction|]. replace (n <=? N.of_nat (length l) - o) with true by (symmetry; apply N.leb_le; lia).
      replace (N.of_nat (length (firstn (N.to_nat n) (skipn (N.to_nat o) l)))) with n in Q1, Q2 by (rewrite firstn_length, skipn_length; lia). tauto.
  Qed.

  Lemma load_ok a x b : load mem (Some (0, Z.of_nat (length a))) = load mem (Some (0, Z.of_nat (length a))) -> mem = a ++ x :: b -> forall o, load mem (Some (o, Z.of_nat (length a))) = Some x.
  Proof.
    intros _ M o. cbn [load]. replace (Z.of_nat (length a) <? 0)%Z with false by (symmetry; apply Z.ltb_ge; lia). rewrite Nat2Z.id, M, nth_error_app2 by lia. rewrite Nat.sub_diag. reflexivity.
  Qed.
  Lemma at_ok s l i : views mem s l -> i < N.of_nat (length l) -> span_at len mem s i = nth_error l (N.to_nat i) /\ nth_error l (N.to_nat i) <> None.
  Proof.
    intros V H. assert (NE : nth_error l (N.to_nat i) <> None) by (apply nth_error_Some; lia). split; [|exact NE].
    destruct (nth_error l (N.to_nat i)) as [x|] eqn:X; [|congruence]. destruct (nth_error_split _ _ X) as (a & b & L & La).
    unfold span_at. destruct (s_ptr s) as [[o k]|] eqn:E.
    - destruct (views_take s l a [x] b o k V E L) as (p & q & M & K). pose proof (views_bound s l o k V E) as B. cbn [ptr_add].
      replace ((0 <=? k + Z.of_N i) && (k + Z.of_N i <=? Z.of_N len))%Z with true by (symmetry; apply andb_true_iff; split; apply Z.leb_le; lia).
      cbn [option_bind]. replace (k + Z.of_N i)%Z with (Z.of_nat (length p)) by lia. apply (load_ok p x q); [reflexivity|exact M].
    - destruct V as (_ & V & _). rewrite E in V. subst l. cbn in H. lia.
  Qed.
  Lemma front_ok s l x r : views mem s l -> l = x :: r -> span_front mem s = Some x.
  Proof.
    intros V L. pose proof (at_ok s l 0 V ltac:(subst l; cbn; lia)) as (K & _). rewrite L in K. cbn [N.to_nat nth_error] in K.
    unfold span_front. unfold span_at in K. destruct (s_ptr s) as [[o k]|] eqn:E; cbn [ptr_add] in K.
    - change (Z.of_N 0) with 0%Z in K. rewrite Z.add_0_r in K. destruct ((0 <=? k) && (k <=? Z.of_N len))%Z; [exact K|discriminate].
    - discriminate.
  Qed.
  Lemma back_ok s l x r : views mem s l -> l = r ++ [x] -> span_back len mem s = Some x.
  Proof.
    intros V L. assert (LL : length l = S (length r)) by (rewrite L, app_length; cbn; lia).
    pose proof (at_ok s l (N.of_nat (length r)) V ltac:(lia)) as (K & _). rewrite L in K. rewrite Nat2N.id, nth_error_app2, Nat.sub_diag in K by lia. cbn [nth_error] in K.
    unfold span_back. rewrite (proj1 V), LL. replace (Z.of_N (N.of_nat (S (length r))) - 1)%Z with (Z.of_N (N.of_nat (length r))) by lia. exact K.
  Qed.
  Lemma walk_ok l : forall fuel o a b, mem = a ++ l ++ b -> (length l <= fuel)%nat ->
    walk len mem fuel (Some (o, Z.of_nat (length a))) (Some (o, Z.of_nat (length a) + Z.of_nat (length l))%Z) = Some l.
  Proof.
    induction l as [|x l IH]; intros fuel o a b M F.
    - cbn [length Z.of_nat]. rewrite Z.add_0_r. destruct fuel; cbn [walk]; rewrite Z.eqb_refl; reflexivity.
    - destruct fuel as [|fuel]; [cbn in F; lia|]. cbn [walk]. replace (Z.of_nat (length a) =? Z.of_nat (length a) + Z.of_nat (length (x :: l)))%Z with false by (symmetry; apply Z.eqb_neq; cbn [length]; lia).
      rewrite (load_ok a x (l ++ b) eq_refl M). cbn [option_bind ptr_add].
      assert (B : (Z.of_nat (length a) + 1 <= Z.of_N len)%Z) by (unfold len; rewrite M, !app_length; cbn [length]; lia).
      replace ((0 <=? Z.of_nat (length a) + 1) && (Z.of_nat (length a) + 1 <=? Z.of_N len))%Z with true by (symmetry; apply andb_true_iff; split; apply Z.leb_le; lia).
      cbn [option_bind]. specialize (IH fuel o (a ++ [x]) b). rewrite app_length in IH. cbn [length] in IH.
      replace (Z.of_nat (length a + 1)) with (Z.of_nat (length a) + 1)%Z in IH by lia.
      replace (Z.of_nat (length a) + Z.of_nat (length (x :: l)))%Z with (Z.of_nat (length a) + 1 + Z.of_nat (length l))%Z by (cbn [length]; lia).
      rewrite IH; [reflexivity| |cbn [length] in F; lia]. rewrite M, <- app_assoc. reflexivity.
  Qed.
  Lemma iterate_ok s l : views mem s l -> span_iterate len mem s = Some l.
  Proof.
    intros V. unfold span_iterate. destruct V as (S & V & T). pose proof (conj S (conj V T)) as V'. rewrite S. destruct (s_ptr s) as [[o k]|] eqn:E.
    - destruct V as (a & b & M & K). cbn [ptr_add]. subst k.
      assert (B : (Z.of_nat (length a) + Z.of_N (N.of_nat (length l)) <= Z.of_N len)%Z) by (unfold len; rewrite M, !app_length; lia).
      replace ((0 <=? Z.of_nat (length a) + Z.of_N (N.of_nat (length l))) && (Z.of_nat (length a) + Z.of_N (N.of_nat (length l)) <=? Z.of_N len))%Z with true by (symmetry; apply andb_true_iff; split; apply Z.leb_le; lia).
      cbn [option_bind]. replace (Z.of_N (N.of_nat (length l))) with (Z.of_nat (length l)) by lia. apply (walk_ok l _ o a b M). rewrite M, !app_length. lia.
    - subst l. cbn. destruct mem; reflexivity.
  Qed.
End S.

(* static_array *)
Lemma sa_equal_eq {A} (eqb : A -> A -> bool) : (forall x y, eqb x y = true <-> x = y) -> forall a b, sa_equal eqb a b = true <-> a = b.
Proof.
  intros H. induction a as [|x a IH]; intros [|y b]; cbn [sa_equal]; split; intros K; try discriminate; try reflexivity.
  - apply andb_true_iff in K. destruct K as [K1 K2]. apply H in K1. apply IH in K2. congruence.
  - injection K as -> ->. apply andb_true_iff. split; [apply H|apply IH]; reflexivity.
Qed.
Lemma sa_less_never {A} (eqb ltb : A -> A -> bool) a b : (forall x y, eqb x y = true <-> x = y) -> b <> [] -> a <> b -> sa_less eqb ltb a b = None.
Proof.
  intros H Hb Hab. unfold sa_less. destruct (sa_equal eqb a b) eqn:E; [apply sa_equal_eq in E; [contradiction|exact H]|].
  assert (N1 : sa_size b <> 0) by (unfold sa_size; destruct b; [congruence|cbn [length]; lia]).
  assert (P1 : ptr_add (sa_size a) (Some (1, 0%Z)) (Z.of_N (sa_size a)) = Some (Some (1, Z.of_N (sa_size a)))).
  { cbn [ptr_add]. rewrite Z.add_0_l. replace ((0 <=? Z.of_N (sa_size a)) && (Z.of_N (sa_size a) <=? Z.of_N (sa_size a)))%Z with true; [reflexivity|]. symmetry. apply andb_true_iff. split; apply Z.leb_le; lia. }
  rewrite P1. cbn [option_bind ptr_add].
  replace ((0 <=? Z.of_N (sa_size a) + Z.of_N (sa_size b)) && (Z.of_N (sa_size a) + Z.of_N (sa_size b) <=? Z.of_N (sa_size a)))%Z with false; [reflexivity|].
  symmetry. apply andb_false_iff. right. apply Z.leb_gt. lia.
Qed.
