From Coq Require Import Lia ZifyBool ZifyNat ZifyN.
From Verif Require Import Words TlistModel TlistSpec.
Local Open Scope nat_scope.
Ltac Zify.zify_post_hook ::= idtac.

Lemma skipn_length' {A} (l : list A) n : length (skipn n l) = length l - n.
Proof. apply skipn_length. Qed.
Lemma nth_skipn {A} (l : list A) : forall k i, nth_error (skipn k l) i = nth_error l (k + i).
Proof. induction l as [|a l IH]; intros [|k] i; cbn; try reflexivity; [destruct i; reflexivity|apply IH]. Qed.
Lemma firstn_skipn_S {A} (l : list A) s n a : nth_error l s = Some a -> firstn (S n) (skipn s l) = a :: firstn n (skipn (S s) l).
Proof.
  revert s. induction l as [|x l IH]; intros [|s] H; cbn in H; try discriminate.
  - injection H as ->. reflexivity.
  - cbn [skipn]. rewrite (IH s H). reflexivity.
Qed.
Lemma skipn_skipn' {A} (b : nat) : forall (l : list A) a, skipn a (skipn b l) = skipn (b + a) l.
Proof. induction b as [|b IH]; intros [|x l] a; cbn; try reflexivity; [destruct a; reflexivity|apply IH]. Qed.
Lemma nth_ok {A} (l : list A) i : i < length l -> exists a, nth_error l i = Some a.
Proof. intros H. destruct (nth_error l i) eqn:E; [eexists; reflexivity|]. apply nth_error_None in E. lia. Qed.

Lemma gather_ok {A} (sel : nat -> inst A) (l : list A) : forall n s, (forall i, sel i = of_opt (nth_error l i)) ->
  gather sel s n = if s + n <=? length l then Ok (firstn n (skipn s l)) else if n =? 0 then Ok [] else Ill.
Proof.
  induction n as [|n IH]; intros s H; cbn [gather].
  - destruct (s + 0 <=? length l); [destruct (skipn s l)|]; reflexivity.
  - rewrite H. destruct (Nat.leb_spec (s + S n) (length l)) as [B|B].
    + destruct (nth_ok l s ltac:(lia)) as (a & E). rewrite E. cbn [of_opt ibind]. rewrite (IH (S s) H).
      rewrite (proj2 (Nat.leb_le _ _)) by lia. cbn [ibind]. rewrite (firstn_skipn_S _ _ _ _ E). reflexivity.
    + cbn [Nat.eqb]. destruct (nth_error l s) as [a|] eqn:E; [|reflexivity]. cbn [of_opt ibind]. rewrite (IH (S s) H).
      destruct (Nat.leb_spec (S s + n) (length l)); [lia|]. destruct n as [|n]; [apply nth_error_Some_lt in E || (assert (s < length l) by (apply nth_error_Some; congruence))|reflexivity]. lia.
Qed.

Section P.
  Context {A : Type} (c : config) (G : good c).
  Lemma page_pos : 8 <= page c.
  Proof. destruct G as [|[|[|[]]]]; lia. Qed.

  Lemma select_S f (l : list A) n : select c (S f) l n = select_body c (select c f) (slice c f) l n.
  Proof. reflexivity. Qed.
  Lemma slice_S f (l : list A) start n : slice c (S f) l start n = slice_body c (select c f) (slice c f) (skip_first c f) l start n.
  Proof. reflexivity. Qed.
  Lemma skip_first_S f (l : list A) k n : skip_first c (S f) l k n = skip_first_body c (slice c f) l k n.
  Proof. reflexivity. Qed.

  (** The whole of a list. *)
  Lemma slice_all f (l : list A) : 1 <= length l -> slice c (S f) l 0 (length l) = Ok l.
  Proof.
    intros L. rewrite slice_S. unfold slice_body. destruct (length l =? 0) eqn:E; [lia|]. cbn [orb]. destruct l as [|a [|b l]]; cbn in L; [lia| |].
    - cbn. destruct (builtin c); reflexivity.
    - cbn. rewrite Nat.eqb_refl. reflexivity.
  Qed.
  Lemma skip_page f (l : list A) : page c < length l -> skip_first c (S (S f)) l (page c) (length l - page c) = Ok (skipn (page c) l).
  Proof.
    intros L. pose proof page_pos as PP. rewrite skip_first_S. unfold skip_first_body. rewrite (proj2 (Nat.leb_le 1 _)) by lia. rewrite Nat.leb_refl. rewrite (proj2 (Nat.ltb_lt _ _)) by exact L. cbn [andb].
    replace (length l - page c) with (length (skipn (page c) l)) by apply skipn_length. apply slice_all. rewrite skipn_length. lia.
  Qed.

  (** One type. *)
  Lemma slice_one : forall f (l : list A) s, length l + 3 <= f -> s < length l -> slice c f l s 1 = ibind (of_opt (nth_error l s)) (fun a => Ok [a]).
  Proof.
    pose proof page_pos as PP.
    induction f as [f IH] using lt_wf_ind. intros l s F S'. destruct f as [|f]; [lia|]. rewrite slice_S. unfold slice_body.
    replace (length l =? 0) with false by (symmetry; apply Nat.eqb_neq; lia).
    replace (length l <=? s) with false by (symmetry; apply Nat.leb_gt; lia). cbn [orb Nat.eqb andb].
    destruct (builtin c) eqn:B; [reflexivity|]. destruct (Nat.eqb_spec s 0) as [->|Ns].
    { cbn [andb]. destruct l; [cbn in S'; lia|reflexivity]. }
    cbn [andb]. unfold reaches_jumbo. destruct (jumbo c && (128 <=? s)) eqn:J.
    { apply andb_prop in J. destruct J as [_ J]. apply Nat.leb_le in J. rewrite (proj2 (Nat.leb_le _ _)) by lia.
      rewrite IH; [|lia|rewrite skipn_length; lia|rewrite skipn_length; lia]. rewrite nth_skipn. replace (128 + (s - 128)) with s by lia. reflexivity. }
    destruct (Nat.leb_spec (page c) s) as [Q|Q].
    { destruct f as [|[|f]]; [lia|lia|]. rewrite skip_page by lia. cbn [ibind].
      rewrite IH; [|lia|rewrite skipn_length; lia|rewrite skipn_length; lia]. rewrite nth_skipn. replace (page c + (s - page c)) with s by lia. reflexivity. }
    rewrite (proj2 (Nat.leb_le 1 _)) by lia. rewrite (proj2 (Nat.ltb_lt _ _)) by lia. reflexivity.
  Qed.

  Lemma select_ok f (l : list A) i : length l + 5 <= f -> select c f l i = of_opt (nth_error l i).
  Proof.
    pose proof page_pos as PP. intros F. destruct f as [|f]; [lia|]. rewrite select_S. unfold select_body. destruct (builtin c) eqn:B; [reflexivity|].
    destruct (Nat.eqb_spec i 0) as [->|Ni]; [destruct l; reflexivity|]. destruct (reaches_jumbo c i || (page c <=? i)) eqn:J.
    - destruct (Nat.lt_ge_cases i (length l)) as [L|L].
      + rewrite slice_one by lia. destruct (nth_ok l i L) as (a & E). rewrite E. cbn. destruct f; [lia|]. rewrite select_S. unfold select_body. try rewrite B. reflexivity.
      + destruct f as [|f]; [lia|]. rewrite slice_S. unfold slice_body. rewrite (proj2 (Nat.leb_le _ _)) by exact L. rewrite !orb_true_r. cbn [ibind].
        rewrite (proj2 (nth_error_None l i)) by exact L. rewrite select_S. unfold select_body. rewrite B. reflexivity.
    - apply orb_false_elim in J. destruct J as [_ J]. apply Nat.leb_gt in J. rewrite (proj2 (Nat.ltb_lt _ _)) by exact J. reflexivity.
  Qed.

  Definition sliced (l : list A) (s n : nat) : inst (list A) :=
    if (n =? 0) || (length l <=? s) then Ok [] else if s + n <=? length l then Ok (firstn n (skipn s l)) else Ill.

  Lemma nth_firstn_1 (l : list A) s : s < length l -> ibind (of_opt (nth_error l s)) (fun a => Ok [a]) = Ok (firstn 1 (skipn s l)).
  Proof. intros H. destruct (nth_ok l s H) as (a & E). rewrite E, (firstn_skipn_S _ _ _ _ E). reflexivity. Qed.

  (** From the beginning. *)
  Lemma slice_zero f (l : list A) n : length l + 6 <= f -> slice c f l 0 n = sliced l 0 n.
  Proof.
    pose proof page_pos as PP. intros F. destruct f as [|f]; [lia|]. rewrite slice_S. unfold slice_body. unfold sliced.
    destruct (Nat.eqb_spec (length l) 0) as [E|E]; [rewrite E; cbn; rewrite orb_true_r; reflexivity|].
    destruct (Nat.eqb_spec n 0) as [->|En]; [reflexivity|]. replace (length l <=? 0) with false by (symmetry; apply Nat.leb_gt; lia). cbn [orb].
    destruct (Nat.eqb_spec n 1) as [->|En1].
    { cbn [andb Nat.eqb Nat.add]. rewrite (proj2 (Nat.leb_le _ _)) by lia. destruct (builtin c); cbn [skipn]; [|destruct l; [cbn in E; lia|reflexivity]].
      rewrite nth_firstn_1 by lia. reflexivity. }
    cbn [andb Nat.eqb]. destruct (Nat.eqb_spec (length l) n) as [<-|Ln].
    { cbn [Nat.add]. rewrite (proj2 (Nat.leb_le _ _)) by lia. rewrite firstn_all2; [reflexivity|cbn; lia]. }
    unfold reaches_jumbo. change (128 <=? 0) with false. rewrite andb_false_r. cbn [Nat.add].
    assert (Gt : gather (select c f l) 0 n = if n <=? length l then Ok (firstn n (skipn 0 l)) else Ill).
    { rewrite (gather_ok _ l) by (intros i; apply select_ok; lia). cbn [Nat.add]. destruct (n <=? length l); [reflexivity|]. destruct n; [lia|reflexivity]. }
    destruct (builtin c); [exact Gt|]. replace (page c <=? 0) with false by (symmetry; apply Nat.leb_gt; lia).
    destruct (Nat.leb_spec n (page c)) as [Q|Q]; [|cbn [Nat.ltb Nat.leb]; exact Gt].
    rewrite (proj2 (Nat.leb_le 2 _)) by lia. cbn [andb]. destruct (n <=? length l); reflexivity.
  Qed.

  Lemma slice_ok : forall f (l : list A) s n, length l + 10 <= f -> slice c f l s n = sliced l s n.
  Proof.
    pose proof page_pos as PP. induction f as [f IH] using lt_wf_ind. intros l s n F.
    destruct (Nat.eq_dec s 0) as [->|Ns]; [apply slice_zero; lia|].
    destruct f as [|f]; [lia|]. rewrite slice_S. unfold slice_body. unfold sliced at 1.
    destruct (Nat.eqb_spec (length l) 0) as [E|E]; [rewrite E; cbn; rewrite orb_true_r; reflexivity|].
    destruct (Nat.eqb_spec n 0) as [->|En]; [reflexivity|].
    destruct (Nat.leb_spec (length l) s) as [L|L]; [reflexivity|]. cbn [orb].
    replace (s =? 0) with false by (symmetry; apply Nat.eqb_neq; exact Ns). cbn [andb].
    assert (One : n = 1 -> ibind (of_opt (nth_error l s)) (fun a => Ok [a]) = if s + n <=? length l then Ok (firstn n (skipn s l)) else Ill).
    { intros ->. rewrite (proj2 (Nat.leb_le _ _)) by lia. apply nth_firstn_1, L. }
    destruct ((n =? 1) && builtin c) eqn:NB. { apply andb_prop in NB. destruct NB as [N1 _]. apply Nat.eqb_eq in N1. exact (One N1). }
    assert (Shift : forall k, k <= s -> sliced (skipn k l) (s - k) n = if s + n <=? length l then Ok (firstn n (skipn s l)) else Ill).
    { intros k K. unfold sliced. rewrite skipn_length, skipn_skipn'. replace (n =? 0) with false by (symmetry; apply Nat.eqb_neq; exact En).
      replace (length l - k <=? s - k) with false by (symmetry; apply Nat.leb_gt; lia). cbn [orb]. replace (k + (s - k)) with s by lia.
      replace (s - k + n <=? length l - k) with (s + n <=? length l); [reflexivity|]. destruct (Nat.leb_spec (s + n) (length l)), (Nat.leb_spec (s - k + n) (length l - k)); lia || reflexivity. }
    unfold reaches_jumbo. destruct (jumbo c && (128 <=? s)) eqn:J.
    { apply andb_prop in J. destruct J as [_ J]. apply Nat.leb_le in J. rewrite (proj2 (Nat.leb_le _ _)) by lia.
      rewrite IH; [apply Shift, J|lia|rewrite skipn_length; lia]. }
    destruct (builtin c) eqn:B.
    { rewrite (gather_ok _ l) by (intros i; apply select_ok; lia). replace (n =? 0) with false by (symmetry; apply Nat.eqb_neq; exact En). reflexivity. }
    destruct (Nat.leb_spec (page c) s) as [Q|Q].
    { destruct f as [|[|f]]; [lia|lia|]. rewrite skip_page by lia. cbn [ibind]. rewrite IH; [apply Shift, Q|lia|rewrite skipn_length; lia]. }
    destruct (Nat.eqb_spec n 1) as [N1|N1].
    { rewrite (proj2 (Nat.leb_le 1 _)) by lia. rewrite (proj2 (Nat.ltb_lt s _)) by exact Q. cbn [andb]. exact (One N1). }
    rewrite (proj2 (Nat.ltb_lt 0 s)) by lia. destruct f as [|f]; [lia|]. rewrite skip_first_S. unfold skip_first_body.
    rewrite (proj2 (Nat.leb_le 1 _)) by lia. rewrite (proj2 (Nat.leb_le s _)) by lia. rewrite (proj2 (Nat.ltb_lt s _)) by lia. cbn [andb].
    rewrite slice_zero by (rewrite skipn_length; lia). replace 0 with (s - s) at 1 by lia. apply Shift. lia.
  Qed.
End P.

Lemma part_slice {A} (l m : list A) s n : s + n <= length l -> (firstn n (skipn s l) = m <-> part l m s n).
Proof.
  intros B. split.
  - intros <-. exists (firstn s l), (skipn n (skipn s l)). rewrite firstn_skipn, firstn_skipn. rewrite !firstn_length, skipn_length. repeat split; lia.
  - intros (a & b & -> & <- & <-). rewrite skipn_app, skipn_all, Nat.sub_diag. cbn. rewrite firstn_app, firstn_all, Nat.sub_diag. cbn. apply app_nil_r.
Qed.

(* ---- lists of types *)
Lemma concatenate_from_ok {A} (ls : list (list A)) : forall acc, concatenate_from acc ls = acc ++ concat ls.
Proof. induction ls as [|u v IH]; intros acc; cbn; [symmetry; apply app_nil_r|]. rewrite IH, app_assoc. reflexivity. Qed.
Lemma concatenate_ok {A} (ls : list (list A)) : concatenate ls = concat ls.
Proof. destruct ls as [|t u]; [reflexivity|]. apply concatenate_from_ok. Qed.

Fixpoint ty_rect' (P : ty -> Prop) (H1 : forall n, P (Other n)) (H2 : forall l, Forall P l -> P (TList l)) (t : ty) : P t :=
  match t with
  | Other n => H1 n
  | TList l => H2 l ((fix go l := match l return Forall P l with [] => Forall_nil P | x :: r => Forall_cons x (ty_rect' P H1 H2 x) (go r) end) l)
  end.

Lemma same_iff : forall a b, same a b = true <-> a = b.
Proof.
  induction a as [n|l IH] using ty_rect'; intros [m|m]; cbn; try (split; congruence).
  - rewrite N.eqb_eq. split; congruence.
  - revert m. induction IH as [|x l Hx Hl IHl]; intros [|y m]; try (split; congruence).
    rewrite andb_true_iff, Hx, IHl. split; [intros [-> [= ->]]; reflexivity|intros [= -> ->]; split; reflexivity].
Qed.
Lemma same_dec (a b : ty) : {a = b} + {a <> b}.
Proof. destruct (same a b) eqn:E; [left; apply same_iff, E|right; intros H; apply same_iff in H; congruence]. Qed.

Lemma flatten_app a b : flatten (a ++ b) = flatten a ++ flatten b.
Proof. unfold flatten. rewrite !concatenate_ok, map_app, concat_app. reflexivity. Qed.
Lemma flatten_cons t l : flatten (t :: l) = flatten1 t ++ flatten l.
Proof. unfold flatten. rewrite !concatenate_ok. reflexivity. Qed.
Lemma flatten1_list l : flatten1 (TList l) = flatten l.
Proof. reflexivity. Qed.
Lemma flatten_flat l : Forall (fun t => ~ nested t) (flatten l).
Proof.
  assert (H : forall t, Forall (fun t => ~ nested t) (flatten1 t)).
  { induction t as [n|m IH] using ty_rect'; [cbn; apply Forall_cons; [intros (m & E); discriminate|apply Forall_nil]|].
    rewrite flatten1_list. induction IH as [|x m Hx Hm IHm]; [apply Forall_nil|]. rewrite flatten_cons. apply Forall_app. split; assumption. }
  induction l as [|t l IH]; [apply Forall_nil|]. rewrite flatten_cons. apply Forall_app. split; [apply H|exact IH].
Qed.
Lemma flatten_id l : Forall (fun t => ~ nested t) l -> flatten l = l.
Proof.
  induction 1 as [|t l H _ IH]; [reflexivity|]. rewrite flatten_cons, IH. destruct t as [n|m]; [reflexivity|]. exfalso. apply H. exists m. reflexivity.
Qed.
Lemma hoists_trans k l m : hoists k l -> hoists l m -> hoists k m.
Proof. induction 1 as [|k l m' H _ IH]; intros X; [exact X|]. exact (hoists_more _ _ _ H (IH X)). Qed.
Lemma hoists_ctx a b l m : hoists l m -> hoists (a ++ l ++ b) (a ++ m ++ b).
Proof.
  induction 1 as [l|k l m H _ IH]; [apply hoists_none|]. refine (hoists_more _ _ _ _ IH). destruct H as [x y z].
  replace (a ++ (x ++ TList y :: z) ++ b) with ((a ++ x) ++ TList y :: (z ++ b)) by (rewrite <- !app_assoc; reflexivity).
  replace (a ++ (x ++ y ++ z) ++ b) with ((a ++ x) ++ y ++ (z ++ b)) by (rewrite <- !app_assoc; reflexivity). apply hoist_one.
Qed.
Lemma hoists_app a b a' b' : hoists a a' -> hoists b b' -> hoists (a ++ b) (a' ++ b').
Proof.
  intros H K. apply hoists_trans with (a' ++ b).
  - exact (hoists_ctx [] b a a' H).
  - pose proof (hoists_ctx a' [] b b' K) as X. rewrite !app_nil_r in X. exact X.
Qed.
Lemma hoists_flatten l : hoists l (flatten l).
Proof.
  assert (H : forall t, hoists [t] (flatten1 t)).
  { induction t as [n|m IH] using ty_rect'; [apply hoists_none|]. rewrite flatten1_list.
    apply hoists_more with (l := m); [pose proof (hoist_one [] m []) as X; cbn in X; rewrite app_nil_r in X; exact X|].
    induction IH as [|x m Hx Hm IHm]; [apply hoists_none|]. rewrite flatten_cons. exact (hoists_app [x] m _ _ Hx IHm). }
  induction l as [|t l IH]; [apply hoists_none|]. rewrite flatten_cons. exact (hoists_app [t] l _ _ (H t) IH).
Qed.
Lemma hoist_flatten l m : hoist l m -> flatten l = flatten m.
Proof. intros [a x b]. rewrite !flatten_app, flatten_cons, flatten1_list. reflexivity. Qed.
Lemma hoists_unique l m : hoists l m -> Forall (fun t => ~ nested t) m -> m = flatten l.
Proof.
  induction 1 as [l|k l m H _ IH]; intros F; [symmetry; apply flatten_id, F|]. rewrite (hoist_flatten _ _ H). exact (IH F).
Qed.

Lemma remove_ok r l : remove r l = filter (fun t => negb (same r t)) l.
Proof.
  unfold remove. rewrite concatenate_ok. induction l as [|t l IH]; [reflexivity|]. cbn. rewrite IH. destruct (same r t); reflexivity.
Qed.
Lemma contains_ok u l : contains u l = true <-> In u l.
Proof.
  unfold contains. assert (H : forall b, fold_left (fun b t => b || same u t) l b = true <-> b = true \/ In u l).
  { induction l as [|t l IH]; intros b; cbn; [tauto|]. rewrite IH, orb_true_iff, same_iff.
    split; [intros [[H|H]|H]|intros [H|[H|H]]]; subst; tauto. }
  rewrite H. split; [intros [|]; [discriminate|assumption]|tauto].
Qed.
Lemma index_ok t l : forall i, index_of_type t i l = match index_of_type t 0 l with Ok n => Ok (n + i)%N | Ill => Ill | Fuel => Fuel end /\
  match index_of_type t 0 l with
  | Ok n => nth_error l (N.to_nat n) = Some t /\ forall j, j < N.to_nat n -> nth_error l j <> Some t
  | Ill => ~ In t l
  | Fuel => False
  end.
Proof.
  induction l as [|u l IH]; intros i; cbn [index_of_type]; [split; [reflexivity|intros []]|].
  destruct (same t u) eqn:E.
  - apply same_iff in E. subst. split; [f_equal; lia|]. split; [reflexivity|]. intros j H. cbn in H. lia.
  - destruct (IH (i + 1)%N) as [E1 X]. destruct (IH (0 + 1)%N) as [E2 _]. rewrite E1, E2. destruct (index_of_type t 0 l) as [n| |]; [| |contradiction].
    + split; [f_equal; lia|]. replace (N.to_nat (n + (0 + 1))) with (S (N.to_nat n)) by lia. split; [exact (proj1 X)|].
      intros [|j] H; [cbn; intros [= ->]; assert (same t t = true) by (apply same_iff; reflexivity); congruence|]. cbn. apply X. lia.
    + split; [reflexivity|]. intros [->|H]; [assert (same t t = true) by (apply same_iff; reflexivity); congruence|exact (X H)].
Qed.
