From Coq Require Import Lia ZifyBool ZifyNat ZifyN.
From Verif Require Import Words WordsProofs UtfModel EarrProofs SparamModel SparamSpec.
Local Open Scope nat_scope.
Ltac Zify.zify_post_hook ::= idtac.

Lemma kind_eqb_eq a b : kind_eqb a b = true <-> a = b.
Proof. destruct a, b; cbn; split; congruence. Qed.
Lemma kind_eqb_refl a : kind_eqb a a = true.
Proof. apply kind_eqb_eq. reflexivity. Qed.
Lemma get_iff l k i u : get l k i = Some u <-> nth_error l i = Some (Some (k, u)).
Proof.
  unfold get. destruct (nth_error l i) as [[[k' u']|]|]; try (split; congruence).
  destruct (kind_eqb k k') eqn:E.
  - apply kind_eqb_eq in E. subst. split; intros [= ->]; reflexivity.
  - split; [discriminate|]. intros [= -> ->]. rewrite kind_eqb_refl in E. discriminate.
Qed.
Lemma get_par_iff s i p : get_par s i = Some p <-> nth_error (pars s) i = Some (Some p).
Proof. unfold get_par. destruct (nth_error (pars s) i) as [[]|]; split; congruence. Qed.
Lemma par_iff w i p : par w i = Some p <-> nth_error (w_pars w) i = Some (Some p).
Proof. unfold par. destruct (nth_error (w_pars w) i) as [[]|]; split; congruence. Qed.
Lemma upd_out {A} (l : list A) : forall i x, length l <= i -> upd l i x = l.
Proof. induction l as [|y l IH]; intros [|i] x H; cbn in *; try reflexivity; [lia|]. rewrite IH by lia. reflexivity. Qed.
Lemma upd_self {A} (l : list A) : forall i x, nth_error l i = Some x -> upd l i x = l.
Proof. induction l as [|y l IH]; intros [|i] x H; cbn in *; try discriminate; [congruence|]. rewrite IH by exact H. reflexivity. Qed.

Lemma skipn_add {A} (b : nat) : forall (l : list A) a, skipn a (skipn b l) = skipn (b + a) l.
Proof. induction b as [|b IH]; intros [|x l] a; cbn; try reflexivity; [destruct a; reflexivity|apply IH]. Qed.

Definition owns (p : option param) (o : nat) : Prop := exists k, p = Some (POwn k o).

Definition rel (s : state) (w : world) : Prop :=
  users s = w_users w /\ length (pars s) = length (w_pars w) /\
  (forall i p v, nth_error (pars s) i = Some p -> nth_error (w_pars w) i = Some v -> denotes s p v) /\
  (forall i j p q o, nth_error (pars s) i = Some p -> nth_error (pars s) j = Some q -> owns p o -> owns q o -> i = j) /\
  (forall o k l, nth_error (objs s) o = Some (Some (k, l)) -> l <> [] -> exists i p, nth_error (pars s) i = Some p /\ owns p o).

Lemma denotes_frame s s' p v : users s' = users s -> (forall o, owns p o -> nth_error (objs s') o = nth_error (objs s) o) ->
  denotes s p v -> denotes s' p v.
Proof.
  intros U F. destruct p as [[|k o|k u off len]|], v as [[[[k' l] [u'|]]|]|]; cbn; try tauto.
  - intros (A & B & C). split; [exact A|]. split; [|exact C]. apply get_iff. rewrite F by (exists k; reflexivity). apply get_iff, B.
  - rewrite U. tauto.
Qed.
Lemma denotes_owns s p v o : denotes s p v -> owns p o -> o < length (objs s).
Proof.
  intros D (k & ->). destruct v as [[[[k' l] [u'|]]|]|]; cbn in D; try contradiction. destruct D as (_ & G & _). apply get_iff in G.
  exact (nth_len _ _ _ G).
Qed.

(** What an operation on the parameters numbered [i] and [j] may do to the string objects: [p] is what [i] becomes, and [j]
    (if there is one) becomes empty. *)
Definition delta (s : state) (i j : nat) (objs' : list (option str)) (p : option param) : Prop :=
  let mine o := exists m q, (m = i \/ m = j) /\ nth_error (pars s) m = Some q /\ owns q o in
  length (objs s) <= length objs' /\
  (forall o, ~ mine o -> o < length (objs s) -> nth_error objs' o = nth_error (objs s) o) /\
  (forall o, owns p o -> mine o \/ length (objs s) <= o) /\
  (forall o k l, nth_error objs' o = Some (Some (k, l)) -> l <> [] -> mine o \/ length (objs s) <= o -> owns p o).

Lemma rel_put2 s w i j objs' p v : rel s w -> i <> j -> i < length (pars s) ->
  delta s i j objs' p ->
  denotes (set_objs s objs') p v ->
  rel (set_par (set_par (set_objs s objs') i p) j (Some PNone)) (put (put w i v) j (Some None)).
Proof.
  intros (RU & RL & RD & RO & RK) N I (D1 & D2 & D3 & D4) D.
  assert (X : forall m q, m <> i -> m <> j -> nth_error (pars s) m = Some q -> forall o, owns q o ->
     ~ (exists m' q', (m' = i \/ m' = j) /\ nth_error (pars s) m' = Some q' /\ owns q' o) /\ o < length (objs s)).
  { intros m q A B E o O. split.
    - intros (m' & q' & M & E' & O'). pose proof (RO _ _ _ _ _ E E' O O'). destruct M; congruence.
    - destruct (nth_error (w_pars w) m) as [v'|] eqn:V; [|apply nth_error_None in V; apply nth_len in E; lia].
      exact (denotes_owns _ _ _ _ (RD _ _ _ E V) O). }
  assert (C : forall m q, nth_error (upd (upd (pars s) i p) j (Some PNone)) m = Some q ->
     (m = i /\ q = p) \/ (m = j /\ q = Some PNone) \/ (m <> i /\ m <> j /\ nth_error (pars s) m = Some q)).
  { intros m q E. apply upd_cases in E. destruct E as [[-> ->]|[M E]]; [right; left; split; reflexivity|].
    apply upd_cases in E. destruct E as [[-> ->]|[M' E]]; [left; split; reflexivity|]. right. right. repeat split; congruence. }
  split; [exact RU|]. split; [cbn; rewrite !upd_length; exact RL|]. split; [|split].
  - intros m q v' E E'. cbn [pars set_par set_objs] in E. cbn [w_pars put] in E'. apply upd_cases in E'.
    assert (G : denotes (set_objs s objs') q v').
    { destruct (C m q E) as [[-> ->]|[[-> ->]|(M1 & M2 & E1)]].
      - destruct E' as [[Q ->]|[Q E']]; [congruence|]. apply upd_cases in E'. destruct E' as [[_ ->]|[Q' _]]; [exact D|congruence].
      - destruct E' as [[Q ->]|[Q E']]; [exact Logic.I|congruence].
      - destruct E' as [[Q ->]|[Q E']]; [congruence|]. apply upd_cases in E'. destruct E' as [[Q' ->]|[Q' E']]; [congruence|].
        apply denotes_frame with (s := s); [reflexivity| |exact (RD _ _ _ E1 E')].
        intros o O. destruct (X m q M1 M2 E1 o O) as [Y1 Y2]. cbn. apply D2; assumption. }
    revert G. apply denotes_frame; [reflexivity|]. intros o _. reflexivity.
  - intros m n q r o E E' O O'. cbn [pars set_par set_objs] in E, E'.
    assert (P : forall m, m <> i -> m <> j -> forall q, nth_error (pars s) m = Some q -> owns q o -> owns p o -> False).
    { intros m' A B q' E1 O1 O2. destruct (X m' q' A B E1 o O1) as [Y1 Y2]. destruct (D3 o O2) as [Z|Z]; [tauto|lia]. }
    destruct (C m q E) as [[-> ->]|[[-> ->]|(M1 & M2 & E1)]]; [| destruct O; discriminate|];
    (destruct (C n r E') as [[-> ->]|[[-> ->]|(M1' & M2' & E1')]]; [| destruct O'; discriminate|]).
    + reflexivity.
    + exfalso. exact (P n M1' M2' r E1' O' O).
    + exfalso. exact (P m M1 M2 q E1 O O').
    + exact (RO _ _ _ _ _ E1 E1' O O').
  - intros o k l E L. cbn [objs set_par set_objs] in E. cbn [pars set_par set_objs].
    assert (S' : (exists m q, (m = i \/ m = j) /\ nth_error (pars s) m = Some q /\ owns q o) \/ length (objs s) <= o ->
       exists m q, nth_error (upd (upd (pars s) i p) j (Some PNone)) m = Some q /\ owns q o).
    { intros M. exists i, p. split; [|exact (D4 o k l E L M)]. rewrite upd_other by congruence. apply upd_same. exact I. }
    destruct (Nat.lt_ge_cases o (length (objs s))) as [B|B]; [|apply S'; right; exact B].
    destruct (nth_error (objs s) o) as [[[k1 l1]|]|] eqn:E1.
    2,3: apply S'; left.
    + assert (Dm : (exists m q, (m = i \/ m = j) /\ nth_error (pars s) m = Some q /\ owns q o) \/
                   ~ (exists m q, (m = i \/ m = j) /\ nth_error (pars s) m = Some q /\ owns q o)).
      { assert (Dec : forall m, (exists q, nth_error (pars s) m = Some q /\ owns q o) \/ ~ (exists q, nth_error (pars s) m = Some q /\ owns q o)).
        { intros m. destruct (nth_error (pars s) m) as [[[|k2 o2|]|]|] eqn:Q.
          2: { destruct (Nat.eq_dec o2 o) as [->|Ne]; [left; eexists; split; [reflexivity|exists k2; reflexivity]|].
               right. intros (q & [= <-] & (k3 & [= _ ->])). congruence. }
          all: right; intros (q & [= <-] & (k3 & H)); discriminate. }
        destruct (Dec i) as [(q & A & B')|A]; [left; exists i, q; tauto|]. destruct (Dec j) as [(q & A' & B')|A']; [left; exists j, q; tauto|].
        right. intros (m & q & [-> | ->] & Y); [apply A|apply A']; exists q; exact Y. }
      destruct Dm as [Dm|Dm]; [apply S'; left; exact Dm|].
      rewrite (D2 o Dm B) in E. rewrite E1 in E. injection E as -> ->.
      destruct (RK o k l E1 L) as (m & q & Q & O). exists m, q. split; [|exact O].
      rewrite !upd_other; [exact Q| |]; intros ->; apply Dm; [exists m, q|exists m, q]; tauto.
    + assert (Dm : ~ ~ (exists m q, (m = i \/ m = j) /\ nth_error (pars s) m = Some q /\ owns q o)).
      { intros Dm. rewrite (D2 o Dm B), E1 in E. discriminate. }
      assert (Dec : forall m, (exists q, nth_error (pars s) m = Some q /\ owns q o) \/ ~ (exists q, nth_error (pars s) m = Some q /\ owns q o)).
      { intros m. destruct (nth_error (pars s) m) as [[[|k2 o2|]|]|] eqn:Q.
        2: { destruct (Nat.eq_dec o2 o) as [->|Ne]; [left; eexists; split; [reflexivity|exists k2; reflexivity]|].
             right. intros (q & [= <-] & (k3 & [= _ ->])). congruence. }
        all: right; intros (q & [= <-] & (k3 & H)); discriminate. }
      destruct (Dec i) as [(q & A & B')|A]; [exists i, q; tauto|]. destruct (Dec j) as [(q & A' & B')|A']; [exists j, q; tauto|].
      exfalso. apply Dm. intros (m & q & [-> | ->] & Y); [apply A|apply A']; exists q; exact Y.
    + apply nth_error_None in E1. lia.
Qed.

Lemma rel_put s w i objs' p v : rel s w -> i < length (pars s) -> delta s i (length (pars s)) objs' p ->
  denotes (set_objs s objs') p v -> rel (set_par (set_objs s objs') i p) (put w i v).
Proof.
  intros R I D H. pose proof (rel_put2 s w i (length (pars s)) objs' p v R ltac:(lia) I D H) as Q.
  destruct R as (_ & L & _). unfold set_par, put in Q. cbn in Q. rewrite !(upd_out (upd _ _ _)) in Q by (rewrite upd_length; lia). exact Q.
Qed.

(** A new, empty parameter. *)
Lemma rel_new s w : rel s w -> rel (add_par s PNone) (add w None).
Proof.
  intros (RU & RL & RD & RO & RK). split; [exact RU|]. split; [cbn; rewrite !app_length; cbn; lia|].
  assert (C : forall {A} (l : list A) x m q, nth_error (l ++ [x]) m = Some q -> (m < length l /\ nth_error l m = Some q) \/ (m = length l /\ q = x)).
  { intros A l x m q E. destruct (Nat.lt_ge_cases m (length l)) as [H|H]; [left; rewrite nth_error_app1 in E by exact H; tauto|].
    right. rewrite nth_error_app2 in E by exact H. destruct (m - length l) as [|d] eqn:F; [cbn in E; split; [lia|congruence]|destruct d; discriminate]. }
  split; [|split].
  - intros i p v E E'. cbn in E, E'. apply C in E, E'. destruct E as [[E1 E]|[-> ->]], E' as [[E1' E']|[E2 ->]]; try lia.
    + apply (denotes_frame s); [reflexivity|reflexivity|]. exact (RD _ _ _ E E').
    + exact I.
  - intros i j p q o E E' O O'. cbn in E, E'. apply C in E, E'. destruct E as [[E1 E]|[-> ->]]; [|destruct O; discriminate].
    destruct E' as [[E1' E']|[-> ->]]; [|destruct O'; discriminate]. exact (RO _ _ _ _ _ E E' O O').
  - intros o k l E L. cbn in E. destruct (RK o k l E L) as (i & p & P & O). exists i, p. split; [|exact O]. cbn. rewrite nth_error_app1; [exact P|exact (nth_len _ _ _ P)].
Qed.
Lemma rel_add s w objs' p v : rel s w -> delta (add_par s PNone) (length (pars s)) (S (length (pars s))) objs' (Some p) ->
  denotes (set_objs s objs') (Some p) (Some v) -> rel (add_par (set_objs s objs') p) (add w v).
Proof.
  intros R D H. pose proof (rel_new _ _ R) as R'.
  assert (L : length (pars (add_par s PNone)) = S (length (pars s))) by (cbn; rewrite app_length; cbn; lia).
  pose proof (rel_put (add_par s PNone) (add w None) (length (pars s)) objs' (Some p) (Some v) R') as Q. rewrite L in Q.
  specialize (Q ltac:(lia) D).
  assert (E1 : set_par (set_objs (add_par s PNone) objs') (length (pars s)) (Some p) = add_par (set_objs s objs') p).
  { unfold set_par, set_objs, add_par. cbn [users objs pars]. rewrite upd_app. reflexivity. }
  assert (E2 : put (add w None) (length (pars s)) (Some v) = add w v).
  { destruct R as (_ & RL & _). rewrite RL. unfold put, add. cbn [w_users w_pars]. rewrite upd_app. reflexivity. }
  rewrite E1, E2 in Q. apply Q. revert H. apply denotes_frame; reflexivity.
Qed.
Lemma delta_same s i j p : (forall o, ~ owns p o) -> (forall m q, m = i \/ m = j -> nth_error (pars s) m = Some q -> forall o, ~ owns q o) -> delta s i j (objs s) p.
Proof.
  intros P Q. split; [lia|]. split; [reflexivity|]. split; [intros o O; exfalso; exact (P o O)|].
  intros o k l E L [(m & q & M & E' & O)|B]; [exfalso; exact (Q m q M E' o O)|]. apply nth_len in E. lia.
Qed.
Lemma rel_add_plain s w p v : rel s w -> (forall o, ~ owns (Some p) o) -> denotes s (Some p) (Some v) -> rel (add_par s p) (add w v).
Proof.
  intros R P D. apply (rel_add s w (objs s) p v R).
  - apply (delta_same (add_par s PNone)); [exact P|]. cbn. intros m q [-> | ->] E o (k & O); subst q.
    + rewrite nth_error_app2, Nat.sub_diag in E by lia. discriminate.
    + apply nth_len in E. rewrite app_length in E. cbn in E. lia.
  - revert D. apply denotes_frame; reflexivity.
Qed.

(** The user's strings. *)
Lemma rel_users s w us : rel s w -> 
  (forall i k l u, nth_error (w_pars w) i = Some (Some (Some (k, l, Some u))) -> nth_error us u = nth_error (users s) u) ->
  rel {| users := us; objs := objs s; pars := pars s |} {| w_users := us; w_pars := w_pars w |}.
Proof.
  intros (RU & RL & RD & RO & RK) H. split; [reflexivity|]. split; [exact RL|]. split; [|split; [exact RO|exact RK]].
  intros i p v E E'. specialize (RD i p v E E'). cbn in E, E'.
  destruct p as [[|k o|k u off len]|], v as [[[[k' l] [u'|]]|]|]; cbn in *; try tauto.
  destruct RD as (A & B & C & whole & G & S'). split; [exact A|]. split; [exact B|]. split; [exact C|]. exists whole. split; [|exact S'].
  subst u'. apply get_iff. rewrite (H _ _ _ _ E'). apply get_iff, G.
Qed.
Lemma unviewed_ok w u i k l : unviewed w u = true -> nth_error (w_pars w) i = Some (Some (Some (k, l, Some u))) -> False.
Proof.
  intros H E. unfold unviewed in H. rewrite forallb_forall in H. specialize (H _ (nth_error_In _ _ E)). cbn in H. rewrite Nat.eqb_refl in H. discriminate.
Qed.

(* ---- single operations on values *)
Lemma slice_len l off n t : slice l off n = Some t -> length t = n.
Proof.
  unfold slice. destruct (Nat.leb_spec (off + n) (length l)) as [H|H]; [|discriminate]. intros [= <-]. rewrite firstn_length, skipn_length. lia.
Qed.
Lemma destroy_obj_ok s k o l : get (objs s) k o = Some l -> destroy_obj s k o = Some (set_objs s (upd (objs s) o None)).
Proof. intros G. unfold destroy_obj. rewrite G. reflexivity. Qed.
Lemma init_move_ok s k o l : get (objs s) k o = Some l -> l <> [] ->
  init_move s k o = Some (set_objs s (upd (objs s) o (Some (k, [])) ++ [Some (k, l)]), POwn k (length (objs s)), false).
Proof. intros G N. unfold init_move, move_obj. rewrite G. destruct l; [congruence|]. cbn. reflexivity. Qed.

Section Ops.
  Variables (be schar : bool) (wsz : N) (ws : N -> bool).

  (** The payload of a parameter is the text it denotes. *)
  Lemma payload_ok s p k l f : denotes s (Some p) (Some (Some (k, l, f))) -> payload s p = Some (k, l) /\ l <> [].
  Proof.
    destruct p as [|k' o|k' u off len], f as [u'|]; cbn; try tauto.
    - intros (-> & G & N). rewrite G. split; [reflexivity|exact N].
    - intros (-> & -> & N & whole & G & S'). rewrite G. cbn. rewrite S'. split; [reflexivity|exact N].
  Qed.
  Lemma empty_ok s p v : denotes s (Some p) (Some v) -> is_empty s p = Some match v with None => true | _ => false end.
  Proof.
    destruct v as [[[k l] f]|].
    - intros D. destruct (payload_ok _ _ _ _ _ D) as [P N]. unfold is_empty. rewrite P. destruct p; [contradiction| |]; cbn; (destruct l; [congruence|reflexivity]).
    - destruct p as [|k o|k u off len]; cbn; try tauto.
  Qed.

  Definition same_rest (s s' : state) : Prop := users s' = users s /\ pars s' = pars s.
  Lemma same_rest_objs s s' : same_rest s s' -> s' = set_objs s (objs s').
  Proof. intros [A B]. destruct s, s'; cbn in *. subst. reflexivity. Qed.

  Lemma nth_upd_snoc (l : list (option str)) o x y m : o < length l ->
    nth_error (upd l o x ++ [y]) m = if m =? o then Some x else if m =? length l then Some y else nth_error l m.
  Proof.
    intros H. destruct (Nat.eqb_spec m o) as [->|N]; [rewrite nth_error_app1 by (rewrite upd_length; exact H); apply upd_same, H|].
    destruct (Nat.eqb_spec m (length l)) as [->|N']; [rewrite nth_error_app2, upd_length, Nat.sub_diag by (rewrite upd_length; lia); reflexivity|].
    destruct (Nat.lt_ge_cases m (length l)) as [B|B].
    - rewrite nth_error_app1 by (rewrite upd_length; exact B). apply upd_other. congruence.
    - rewrite (proj2 (nth_error_None l m)) by exact B. apply nth_error_None. rewrite app_length, upd_length. cbn. lia.
  Qed.
  Lemma nth_upd (l : list (option str)) o x m : o < length l -> nth_error (upd l o x) m = if m =? o then Some x else nth_error l m.
  Proof. intros H. destruct (Nat.eqb_spec m o) as [->|N]; [apply upd_same, H|apply upd_other; congruence]. Qed.

  Lemma move_assign_ok s w i j p q v vq : rel s w -> i <> j ->
    nth_error (pars s) i = Some (Some p) -> nth_error (w_pars w) i = Some (Some v) ->
    nth_error (pars s) j = Some (Some q) -> nth_error (w_pars w) j = Some (Some (Some vq)) ->
    exists s' p', move_assign s p q = Some (s', p') /\ same_rest s s' /\
      delta s i j (objs s') (Some p') /\ denotes s' (Some p') (Some (Some vq)).
  Proof.
    intros R N Ep Ev Eq Evq. pose proof R as (RU & RL & RD & RO & RK).
    pose proof (RD _ _ _ Ep Ev) as Dp. pose proof (RD _ _ _ Eq Evq) as Dq. destruct vq as [[kq lq] fq].
    assert (MQ : forall o, owns (Some q) o -> exists m r, (m = i \/ m = j) /\ nth_error (pars s) m = Some r /\ owns r o) by (intros o O; exists j, (Some q); tauto).
    assert (MP : forall o, owns (Some p) o -> exists m r, (m = i \/ m = j) /\ nth_error (pars s) m = Some r /\ owns r o) by (intros o O; exists i, (Some p); tauto).
    assert (MM : forall o, (exists m r, (m = i \/ m = j) /\ nth_error (pars s) m = Some r /\ owns r o) -> owns (Some p) o \/ owns (Some q) o).
    { intros o (m & r & [-> | ->] & E & O); [left|right]; congruence. }
    assert (NE : forall o, owns (Some p) o -> owns (Some q) o -> False) by (intros o A B; exact (N (RO _ _ _ _ _ Ep Eq A B))).
    destruct q as [|k' o'|k' u off len]; [destruct fq; contradiction| |].
    - destruct fq as [fq|]; [contradiction|]. cbn in Dq. destruct Dq as (-> & Gq & Nq).
      pose proof (nth_len _ _ _ (proj1 (get_iff _ _ _ _) Gq)) as Bq.
      assert (OQ : owns (Some (POwn kq o')) o') by (exists kq; reflexivity).
      assert (PO : forall k o, owns (Some (POwn k o)) o) by (intros k o; exists k; reflexivity).
      assert (OE : forall k o o2, owns (Some (POwn k o)) o2 -> o2 = o) by (intros k o o2 (k2 & [= _ ->]); reflexivity).
      destruct p as [|k o|k u off len].
      + cbn. rewrite (init_move_ok s kq o' lq Gq Nq). cbn. eexists. eexists. split; [reflexivity|]. split; [split; reflexivity|]. split.
        * split; [cbn; rewrite app_length, upd_length; lia|]. split; [|split].
          -- intros m M B. cbn. rewrite nth_upd_snoc by exact Bq. destruct (Nat.eqb_spec m o') as [->|_]; [exfalso; apply M, MQ, PO|].
             destruct (Nat.eqb_spec m (length (objs s))); [lia|reflexivity].
          -- intros m O. apply OE in O. subst. right. lia.
          -- intros m k l E L M. cbn in E. rewrite nth_upd_snoc in E by exact Bq. destruct (Nat.eqb_spec m o') as [->|X0]; [congruence|].
             destruct (Nat.eqb_spec m (length (objs s))) as [->|X]; [apply PO|]. destruct M as [M|M]; [apply MM in M|apply nth_len in E; lia].
             destruct M as [(k2 & M)|M]; [discriminate|]. apply OE in M. congruence.
        * cbn. split; [reflexivity|]. split; [|exact Nq]. apply get_iff. rewrite nth_upd_snoc by exact Bq.
          destruct (Nat.eqb_spec (length (objs s)) o'); [lia|]. rewrite Nat.eqb_refl. reflexivity.
      + destruct v as [[[kv lv] [fv|]]|]; try contradiction. cbn in Dp. destruct Dp as (-> & Gp & Np).
        pose proof (nth_len _ _ _ (proj1 (get_iff _ _ _ _) Gp)) as Bp.
        assert (D : o <> o') by (intros ->; exact (NE o' (PO _ _) (PO _ _))).
        cbn [move_assign]. destruct (kind_eqb kv kq) eqn:KE.
        * apply kind_eqb_eq in KE. subst kv. rewrite Gq, Gp. cbn [option_bind].
          set (os := upd (upd (objs s) o' (Some (kq, []))) o (Some (kq, lq))).
          assert (G2 : get os kq o' = Some []).
          { apply get_iff. unfold os. rewrite upd_other by congruence. apply upd_same, Bq. }
          rewrite (destroy_obj_ok (set_objs s os) kq o' [] G2). cbn [option_bind]. eexists. eexists. split; [reflexivity|]. split; [split; reflexivity|].
          assert (NN : forall m, nth_error (upd os o' None) m = if m =? o' then Some None else if m =? o then Some (Some (kq, lq)) else nth_error (objs s) m).
          { intros m. unfold os. rewrite nth_upd by (rewrite !upd_length; exact Bq). destruct (Nat.eqb_spec m o') as [->|X]; [reflexivity|].
            rewrite nth_upd by (rewrite upd_length; exact Bp). destruct (Nat.eqb_spec m o) as [->|Y]; [reflexivity|]. apply upd_other. congruence. }
          cbn [objs set_objs]. split.
          -- split; [cbn; unfold os; rewrite !upd_length; lia|]. split; [|split].
             ++ intros m M B. rewrite NN. destruct (Nat.eqb_spec m o') as [->|_]; [exfalso; apply M, MQ, PO|].
                destruct (Nat.eqb_spec m o) as [->|_]; [exfalso; apply M, MP, PO|reflexivity].
             ++ intros m O. left. apply MP. exact O.
             ++ intros m k l E L M. rewrite NN in E. destruct (Nat.eqb_spec m o') as [->|X]; [discriminate|].
                destruct (Nat.eqb_spec m o) as [->|Y]; [apply PO|]. destruct M as [M|M]; [apply MM in M|apply nth_len in E; lia].
                destruct M as [M|M]; apply OE in M; congruence.
          -- cbn. split; [reflexivity|]. split; [|exact Nq]. apply get_iff. rewrite NN. destruct (Nat.eqb_spec o o'); [congruence|]. rewrite Nat.eqb_refl. reflexivity.
        * cbn [destroy]. rewrite (destroy_obj_ok s kv o lv Gp). cbn [option_bind].
          assert (G2 : get (upd (objs s) o None) kq o' = Some lq) by (apply get_iff; rewrite upd_other by congruence; apply get_iff, Gq).
          rewrite (init_move_ok (set_objs s (upd (objs s) o None)) kq o' lq G2 Nq). cbn. eexists. eexists. split; [reflexivity|]. split; [split; reflexivity|].
          assert (NN : forall m, nth_error (upd (upd (objs s) o None) o' (Some (kq, [])) ++ [Some (kq, lq)]) m =
             if m =? o' then Some (Some (kq, [])) else if m =? length (objs s) then Some (Some (kq, lq)) else if m =? o then Some None else nth_error (objs s) m).
          { intros m. rewrite nth_upd_snoc by (rewrite upd_length; exact Bq). rewrite upd_length.
            destruct (Nat.eqb_spec m o') as [->|X]; [reflexivity|]. destruct (Nat.eqb_spec m (length (objs s))) as [->|Y]; [reflexivity|]. apply nth_upd, Bp. }
          cbn [objs set_objs]. split.
          -- split; [cbn; rewrite app_length, !upd_length; lia|]. split; [|split].
             ++ intros m M B. rewrite NN. destruct (Nat.eqb_spec m o') as [->|_]; [exfalso; apply M, MQ, PO|].
                destruct (Nat.eqb_spec m (length (objs s))); [lia|]. destruct (Nat.eqb_spec m o) as [->|_]; [exfalso; apply M, MP, PO|reflexivity].
             ++ intros m O. apply OE in O. subst. rewrite upd_length. right. lia.
             ++ intros m k l E L M. rewrite NN in E. rewrite upd_length. destruct (Nat.eqb_spec m o') as [->|X]; [congruence|].
                destruct (Nat.eqb_spec m (length (objs s))) as [->|Z]; [apply PO|].
                destruct (Nat.eqb_spec m o) as [->|Y]; [discriminate|]. destruct M as [M|M]; [apply MM in M|apply nth_len in E; lia].
                destruct M as [M|M]; apply OE in M; congruence.
          -- cbn. split; [reflexivity|]. split; [|exact Nq]. apply get_iff. rewrite upd_length, NN. destruct (Nat.eqb_spec (length (objs s)) o'); [lia|]. rewrite Nat.eqb_refl. reflexivity.
      + cbn. rewrite (init_move_ok s kq o' lq Gq Nq). cbn. eexists. eexists. split; [reflexivity|]. split; [split; reflexivity|]. split.
        * split; [cbn; rewrite app_length, upd_length; lia|]. split; [|split].
          -- intros m M B. cbn. rewrite nth_upd_snoc by exact Bq. destruct (Nat.eqb_spec m o') as [->|_]; [exfalso; apply M, MQ, PO|].
             destruct (Nat.eqb_spec m (length (objs s))); [lia|reflexivity].
          -- intros m O. apply OE in O. subst. right. lia.
          -- intros m k2 l E L M. cbn in E. rewrite nth_upd_snoc in E by exact Bq. destruct (Nat.eqb_spec m o') as [->|X0]; [congruence|].
             destruct (Nat.eqb_spec m (length (objs s))) as [->|X]; [apply PO|]. destruct M as [M|M]; [apply MM in M|apply nth_len in E; lia].
             destruct M as [(k3 & M)|M]; [discriminate|]. apply OE in M. congruence.
        * cbn. split; [reflexivity|]. split; [|exact Nq]. apply get_iff. rewrite nth_upd_snoc by exact Bq.
          destruct (Nat.eqb_spec (length (objs s)) o'); [lia|]. rewrite Nat.eqb_refl. reflexivity.
    - destruct fq as [fq|]; [|contradiction]. cbn in Dq. destruct Dq as (-> & <- & Nq & whole & Gq & Sq).
      assert (Ln : len <> 0) by (intros ->; apply slice_len in Sq; destruct lq; [congruence|discriminate]).
      assert (IV : init_view kq u off len = PView kq u off len) by (unfold init_view; apply Nat.eqb_neq in Ln; rewrite Ln; reflexivity).
      assert (DV : forall s', users s' = users s -> denotes s' (Some (PView kq u off len)) (Some (Some (kq, lq, Some u)))).
      { intros s' U. cbn. rewrite U. split; [reflexivity|]. split; [reflexivity|]. split; [exact Nq|]. exists whole. tauto. }
      assert (NO : forall o, ~ owns (Some (PView kq u off len)) o) by (intros o (k & H); discriminate).
      assert (Plain : (forall o, ~ owns (Some p) o) -> delta s i j (objs s) (Some (PView kq u off len))).
      { intros NP. apply delta_same; [exact NO|]. intros m r [-> | ->] E o O; [apply (NP o)|apply (NO o)]; congruence. }
      destruct p as [|k o|k u2 off2 len2].
      + cbn. rewrite IV. eexists. eexists. split; [reflexivity|]. split; [split; reflexivity|]. split; [apply Plain; intros o (k & H); discriminate|apply DV; reflexivity].
      + destruct v as [[[kv lv] [fv|]]|]; try contradiction. cbn in Dp. destruct Dp as (-> & Gp & Np).
        pose proof (nth_len _ _ _ (proj1 (get_iff _ _ _ _) Gp)) as Bp.
        cbn. rewrite (destroy_obj_ok s kv o lv Gp). cbn. rewrite IV. eexists. eexists. split; [reflexivity|]. split; [split; reflexivity|].
        split; [|apply DV; reflexivity]. cbn [objs set_objs]. split; [rewrite upd_length; lia|]. split; [|split].
        * intros m M B. rewrite nth_upd by exact Bp. destruct (Nat.eqb_spec m o) as [->|_]; [exfalso; apply M, MP; exists kv; reflexivity|reflexivity].
        * intros m O. exfalso. exact (NO m O).
        * intros m k l E L M. rewrite nth_upd in E by exact Bp. destruct (Nat.eqb_spec m o) as [->|X]; [discriminate|].
          destruct M as [M|M]; [apply MM in M|apply nth_len in E; lia]. destruct M as [(k2 & [= _ ->])|M]; [congruence|exfalso; exact (NO m M)].
      + cbn. destruct (kind_eqb k kq); rewrite ?IV; (eexists; eexists; split; [reflexivity|]; split; [split; reflexivity|]; split; [apply Plain; intros o (k2 & H); discriminate|apply DV; reflexivity]).
  Qed.

  (** Operations on one parameter. *)
  Definition mine_at (s : state) (i o : nat) : Prop := exists q, nth_error (pars s) i = Some q /\ owns q o.
  Lemma delta_one s i objs' p (P : option param) : nth_error (pars s) i = Some p ->
    length (objs s) <= length objs' ->
    (forall o, ~ owns p o -> o < length (objs s) -> nth_error objs' o = nth_error (objs s) o) ->
    (forall o, owns P o -> owns p o \/ length (objs s) <= o) ->
    (forall o k l, nth_error objs' o = Some (Some (k, l)) -> l <> [] -> owns p o \/ length (objs s) <= o -> owns P o) ->
    delta s i (length (pars s)) objs' P.
  Proof.
    intros E A B C D.
    assert (M : forall o, (exists m q, (m = i \/ m = length (pars s)) /\ nth_error (pars s) m = Some q /\ owns q o) <-> owns p o).
    { intros o. split; [|intros O; exists i, p; tauto]. intros (m & q & [-> | ->] & E' & O); [congruence|apply nth_len in E'; lia]. }
    split; [exact A|]. split; [|split].
    - intros o N. apply B. intros O. apply N, M, O.
    - intros o O. rewrite M. exact (C o O).
    - intros o k l E' L. rewrite M. exact (D o k l E' L).
  Qed.

  Lemma destroy_ok s w i p v : rel s w -> nth_error (pars s) i = Some (Some p) -> nth_error (w_pars w) i = Some (Some v) ->
    forall np nv, (np = None /\ nv = None) \/ (np = Some PNone /\ nv = Some None) ->
    exists s', match p with PNone => Some s | _ => destroy s p end = Some s' /\ rel (set_par s' i np) (put w i nv).
  Proof.
    intros R Ep Ev np nv NV. pose proof R as (RU & RL & RD & RO & RK). pose proof (RD _ _ _ Ep Ev) as D.
    pose proof (nth_len _ _ _ Ep) as I0.
    assert (NP : forall o, ~ owns np o) by (intros o (k & H); destruct NV as [[-> _]|[-> _]]; discriminate).
    assert (DN : forall s', denotes s' np nv) by (intros s'; destruct NV as [[-> ->]|[-> ->]]; exact I).
    assert (Plain : (forall o, ~ owns (Some p) o) -> rel (set_par s i np) (put w i nv)).
    { intros Q. apply (rel_put s w i (objs s) np nv R I0); [|apply DN]. apply delta_same; [exact NP|].
      intros m q [-> | ->] E o O; [apply (Q o); congruence|apply nth_len in E; lia]. }
    destruct p as [|k o|k u off len].
    - exists s. split; [reflexivity|]. apply Plain. intros o (k & H). discriminate.
    - destruct v as [[[kv lv] [fv|]]|]; try contradiction. cbn in D. destruct D as (-> & G & _).
      pose proof (nth_len _ _ _ (proj1 (get_iff _ _ _ _) G)) as B. cbn [destroy]. rewrite (destroy_obj_ok s kv o lv G).
      eexists. split; [reflexivity|]. apply (rel_put s w i _ np nv R I0); [|apply DN].
      apply (delta_one s i _ _ np Ep); [rewrite upd_length; lia| |intros m O; exfalso; exact (NP m O)|].
      + intros m M _. apply upd_other. intros ->. apply M. exists kv. reflexivity.
      + intros m k l E L M. rewrite nth_upd in E by exact B. destruct (Nat.eqb_spec m o) as [->|X]; [discriminate|].
        destruct M as [(k2 & [= _ ->])|M]; [congruence|apply nth_len in E; lia].
    - exists s. split; [reflexivity|]. apply Plain. intros o (k2 & H). discriminate.
  Qed.

  Lemma get_view_ok s w i p k l f to : rel s w -> nth_error (pars s) i = Some (Some p) -> nth_error (w_pars w) i = Some (Some (Some (k, l, f))) ->
    (if kind_eqb k to then
       exists v, get_view be schar wsz s p to = Some (s, p, v) /\ look s v = Some l
     else forall t, transcode be schar wsz k to l = Some t -> t <> [] ->
       exists s' p' v, get_view be schar wsz s p to = Some (s', p', v) /\ look (set_par s' i (Some p')) v = Some t /\
         rel (set_par s' i (Some p')) (put w i (Some (Some (to, t, None))))).
  Proof.
    intros R Ep Ev. pose proof R as (RU & RL & RD & RO & RK). pose proof (RD _ _ _ Ep Ev) as D.
    pose proof (nth_len _ _ _ Ep) as I0. destruct (payload_ok _ _ _ _ _ D) as [P N].
    unfold get_view. rewrite P. cbn [option_bind fst snd]. destruct (kind_eqb k to) eqn:KE.
    - apply kind_eqb_eq in KE. subst to. destruct p as [|k' o|k' u off len]; [destruct f; contradiction| |]; (eexists; split; [reflexivity|]); cbn [look].
      + destruct f; [contradiction|]. cbn in D. destruct D as (-> & G & _). rewrite G. cbn. unfold slice. cbn. rewrite Nat.leb_refl, firstn_all. reflexivity.
      + destruct f as [f|]; [|contradiction]. cbn in D. destruct D as (-> & <- & _ & whole & G & S'). rewrite G. exact S'.
    - intros t T Nt. rewrite T. cbn [option_bind].
      set (os := objs s ++ [Some (to, t)]). set (n := length (objs s)).
      assert (Ln : length os = S n) by (unfold os, n; rewrite app_length; cbn; lia).
      assert (Nn : nth_error os n = Some (Some (to, t))) by (unfold os, n; rewrite nth_error_app2, Nat.sub_diag by lia; reflexivity).
      (* after the old string, if any, has been destroyed *)
      assert (Mid : exists os2, match p with POwn k0 o => destroy_obj (set_objs s os) k0 o | _ => Some (set_objs s os) end = Some (set_objs s os2) /\
        length os2 = S n /\ nth_error os2 n = Some (Some (to, t)) /\
        (forall o, owns (Some p) o -> o < n /\ nth_error os2 o = Some None) /\
        (forall o, ~ owns (Some p) o -> o < n -> nth_error os2 o = nth_error (objs s) o)).
      { destruct p as [|k' o|k' u off len]; [destruct f; contradiction| |].
        - destruct f; [contradiction|]. cbn in D. destruct D as (-> & G & _).
          pose proof (nth_len _ _ _ (proj1 (get_iff _ _ _ _) G)) as B.
          assert (G2 : get os k o = Some l) by (apply get_iff; unfold os; rewrite nth_error_app1 by exact B; apply get_iff, G).
          rewrite (destroy_obj_ok (set_objs s os) k o l G2). eexists. split; [reflexivity|]. cbn [objs set_objs].
          split; [rewrite upd_length; exact Ln|]. split; [rewrite upd_other by (fold n in B; lia); exact Nn|]. split.
          + intros m (k2 & [= _ ->]). split; [exact B|]. apply upd_same. fold n in B. lia.
          + intros m M Bm. rewrite upd_other by (intros ->; apply M; exists k; reflexivity). unfold os. apply nth_error_app1. exact Bm.
        - eexists. split; [reflexivity|]. split; [exact Ln|]. split; [exact Nn|]. split; [intros m (k2 & H); discriminate|].
          intros m _ Bm. unfold os. apply nth_error_app1. exact Bm. }
      destruct Mid as (os2 & E2 & L2 & N2 & M2 & F2). fold os. rewrite E2. cbn [option_bind]. fold n.
      rewrite (init_move_ok (set_objs s os2) to n t) by (try exact Nt; apply get_iff; exact N2). cbn [option_bind].
      cbn [objs set_objs]. rewrite L2.
      set (os3 := upd os2 n (Some (to, [])) ++ [Some (to, t)]).
      assert (NN : forall m, nth_error os3 m = if m =? n then Some (Some (to, [])) else if m =? S n then Some (Some (to, t)) else nth_error os2 m).
      { intros m. unfold os3. rewrite nth_upd_snoc by lia. rewrite L2. reflexivity. }
      unfold destroy_obj at 1. cbn [objs set_objs].
      assert (G3 : get os3 to n = Some []) by (apply get_iff; rewrite NN, Nat.eqb_refl; reflexivity).
      rewrite G3. cbn [option_bind]. eexists. eexists. eexists. split; [reflexivity|]. cbn [objs set_objs].
      assert (L3 : length os3 = S (S n)) by (unfold os3; rewrite app_length, upd_length; cbn; lia).
      assert (NN4 : forall m, nth_error (upd os3 n None) m = if m =? n then Some None else if m =? S n then Some (Some (to, t)) else nth_error os2 m).
      { intros m. rewrite nth_upd by lia. rewrite NN. destruct (m =? n); reflexivity. }
      assert (G4 : get (upd os3 n None) to (S n) = Some t).
      { apply get_iff. rewrite NN4. destruct (Nat.eqb_spec (S n) n); [lia|]. rewrite Nat.eqb_refl. reflexivity. }
      split.
      { cbn [look objs set_par set_objs]. rewrite G4. cbn. unfold slice. cbn. rewrite Nat.leb_refl, firstn_all. reflexivity. }
      apply (rel_put s w i (upd os3 n None) _ _ R I0).
      + apply (delta_one s i _ _ _ Ep).
        * rewrite upd_length, L3. fold n. lia.
        * intros m M B. fold n in B. rewrite NN4. destruct (Nat.eqb_spec m n); [lia|]. destruct (Nat.eqb_spec m (S n)); [lia|]. apply F2; assumption.
        * intros m (k2 & [= _ <-]). right. fold n. lia.
        * intros m k2 l2 E L M. rewrite NN4 in E. destruct (Nat.eqb_spec m n); [discriminate|]. destruct (Nat.eqb_spec m (S n)) as [->|X]; [exists to; reflexivity|].
          destruct M as [M|M]; [apply M2 in M; destruct M as [_ M]; congruence|]. apply nth_len in E. fold n in M. lia.
      + cbn. split; [reflexivity|]. split; [exact G4|exact Nt].
  Qed.

  Lemma move_into_ok s w i p k l f to : rel s w -> nth_error (pars s) i = Some (Some p) -> nth_error (w_pars w) i = Some (Some (Some (k, l, f))) ->
    (if kind_eqb k to then
       exists s' p', move_into be schar wsz s p to = Some (s', p', l) /\ rel (set_par s' i (Some p')) (match f with None => put w i (Some None) | Some _ => w end)
     else forall t, transcode be schar wsz k to l = Some t -> move_into be schar wsz s p to = Some (s, p, t)).
  Proof.
    intros R Ep Ev. pose proof R as (RU & RL & RD & RO & RK). pose proof (RD _ _ _ Ep Ev) as D.
    destruct (payload_ok _ _ _ _ _ D) as [P N]. unfold move_into. rewrite P. cbn [option_bind fst snd]. destruct (kind_eqb k to) eqn:KE.
    - assert (Same : set_par s i (Some p) = s) by (unfold set_par; rewrite upd_self by exact Ep; destruct s; reflexivity).
      destruct p as [|k' o|k' u off len]; [destruct f; contradiction| |].
      + destruct f; [contradiction|]. destruct (destroy_ok s w i _ _ R Ep Ev (Some PNone) (Some None) (or_intror (conj eq_refl eq_refl))) as (s' & Q & R').
        cbn [destroy] in Q. rewrite Q. cbn. eexists. eexists. split; [reflexivity|exact R'].
      + destruct f as [f|]; [|contradiction]. eexists. eexists. split; [reflexivity|]. rewrite Same. exact R.
    - intros t T. rewrite T. reflexivity.
  Qed.

  Lemma trim_range_ok sz u t : predicated_trim be schar sz (fun c => negb (ws c)) u = Some t ->
    exists a n, trim_range be schar ws sz u = Some (a, n) /\ t = substr u a n /\ length t = n.
  Proof.
    unfold predicated_trim, trim_range. destruct u as [|c u]; [intros [= <-]; exists 0, 0; repeat split|].
    destruct (utf_find be schar sz (c :: u) false (fun c => negb (ws c))) as [[[fi fn]|]|]; cbn [option_bind]; [|intros [= <-]; exists 0, 0; repeat split|discriminate].
    destruct (utf_find be schar sz (c :: u) true (fun c => negb (ws c))) as [[[li ln]|]|]; cbn [option_bind]; [|discriminate..].
    intros [= <-]. eexists. eexists. split; [reflexivity|]. split; [|reflexivity].
    unfold substr. rewrite firstn_length. set (x := skipn fi (c :: u)). clearbody x. clear.
    destruct (Nat.le_ge_cases (li + ln - fi) (length x)) as [H|H]; [rewrite Nat.min_l by exact H; reflexivity|].
    rewrite Nat.min_r by exact H. rewrite firstn_all. apply firstn_all2, H.
  Qed.

  Lemma trim_ok s w i p k l f t : rel s w -> nth_error (pars s) i = Some (Some p) -> nth_error (w_pars w) i = Some (Some (Some (k, l, f))) ->
    predicated_trim be schar (size_of wsz k) (fun c => negb (ws c)) l = Some t ->
    exists s' p', trim be schar wsz ws s p = Some (s', p') /\ rel (set_par s' i (Some p')) (put w i (Some (mk k t f))).
  Proof.
    intros R Ep Ev T. pose proof R as (RU & RL & RD & RO & RK). pose proof (RD _ _ _ Ep Ev) as D.
    pose proof (nth_len _ _ _ Ep) as I0. destruct (trim_range_ok _ _ _ T) as (a & n & TR & ET & EL). clear T.
    assert (Sub : n <> 0 -> a + n <= length l).
    { intros Nn. rewrite ET in EL. unfold substr in EL. rewrite firstn_length, skipn_length in EL. lia. }
    destruct p as [|k' o|k' u off len]; [destruct f; contradiction| |].
    - destruct f; [contradiction|]. pose proof D as D'. cbn in D'. destruct D' as (-> & G & Nl). cbn [trim]. rewrite G. cbn [option_bind]. rewrite TR. cbn [option_bind fst snd].
      pose proof (nth_len _ _ _ (proj1 (get_iff _ _ _ _) G)) as B.
      destruct (Nat.eqb_spec n 0) as [Z|Z].
      + destruct (destroy_ok s w i _ _ R Ep Ev (Some PNone) (Some None) (or_intror (conj eq_refl eq_refl))) as (s' & Q & R').
        cbn [destroy] in Q. rewrite Q. cbn. eexists. eexists. split; [reflexivity|]. destruct t; [exact R'|cbn in EL; lia].
      + specialize (Sub Z). eexists. eexists. split; [reflexivity|].
        set (l1 := if a =? 0 then l else skipn a l).
        assert (E1 : l1 = skipn a l) by (unfold l1; destruct (Nat.eqb_spec a 0) as [->|]; reflexivity).
        set (l2 := if n =? length l1 then l1 else firstn n l1 ++ repeat 0%N (n - length l1)).
        assert (E2 : l2 = t).
        { unfold l2. rewrite ET. unfold substr. rewrite <- E1. assert (Hl : length l1 = length l - a) by (rewrite E1; apply skipn_length).
          destruct (Nat.eqb_spec n (length l1)) as [H|H]; [rewrite H; symmetry; apply firstn_all|].
          replace (n - length l1) with 0 by lia. apply app_nil_r. }
        rewrite E2. assert (Nt : t <> []) by (intros ->; cbn in EL; lia).
        apply (rel_put s w i (upd (objs s) o (Some (k, t))) _ _ R I0).
        * apply (delta_one s i _ _ _ Ep).
          -- rewrite upd_length. lia.
          -- intros m M _. apply upd_other. intros ->. apply M. exists k. reflexivity.
          -- intros m O. left. exact O.
          -- intros m k2 l3 E L M. destruct M as [M|M]; [exact M|]. apply nth_len in E. rewrite upd_length in E. lia.
        * destruct t; [congruence|]. cbn. split; [reflexivity|]. split; [|exact Nt]. apply get_iff. apply upd_same, B.
    - destruct f as [f|]; [|contradiction]. pose proof D as D'. cbn in D'. destruct D' as (-> & <- & Nl & whole & G & SL).
      cbn [trim]. rewrite G. cbn [option_bind]. rewrite SL. cbn [option_bind]. rewrite TR. cbn [option_bind fst snd].
      assert (NO : forall o, ~ owns (Some (PView k u off len)) o) by (intros o (k2 & H); discriminate).
      assert (Plain : forall q v, (forall o, ~ owns q o) -> denotes s q v -> rel (set_par s i q) (put w i v)).
      { intros q v NQ DQ. apply (rel_put s w i (objs s) q v R I0); [|revert DQ; apply denotes_frame; reflexivity].
        apply delta_same; [exact NQ|]. intros m r [-> | ->] E o O; [apply (NO o); congruence|apply nth_len in E; lia]. }
      destruct (Nat.eqb_spec n 0) as [Z|Z].
      + eexists. eexists. split; [reflexivity|]. destruct t; [|cbn in EL; lia]. apply Plain; [intros o (k2 & H); discriminate|exact I].
      + specialize (Sub Z). eexists. eexists. split; [reflexivity|]. assert (Nt : t <> []) by (intros ->; cbn in EL; lia).
        apply Plain; [intros o (k2 & H); discriminate|]. destruct t as [|c t]; [congruence|]. cbn. split; [reflexivity|]. split; [reflexivity|]. split; [exact Nt|].
        exists whole. split; [exact G|]. rewrite ET. clear - SL Sub. pose proof (slice_len _ _ _ _ SL) as Hl.
        unfold slice in *. destruct (Nat.leb_spec (off + len) (length whole)) as [H|H]; [|discriminate]. injection SL as <-.
        rewrite (proj2 (Nat.leb_le _ _)) by lia. f_equal. unfold substr. rewrite skipn_firstn_comm, firstn_firstn, skipn_add.
        rewrite Nat.min_l by lia. reflexivity.
  Qed.

  Lemma init_view_ok s k u off len whole l : get (users s) k u = Some whole -> slice whole off len = Some l ->
    (forall o, ~ owns (Some (init_view k u off len)) o) /\ denotes s (Some (init_view k u off len)) (Some (mk k l (Some u))).
  Proof.
    intros G SL. pose proof (slice_len _ _ _ _ SL) as L. unfold init_view. destruct (Nat.eqb_spec len 0) as [Z|Z].
    - split; [intros o (k2 & H); discriminate|]. destruct l; [exact I|cbn in L; lia].
    - split; [intros o (k2 & H); discriminate|]. destruct l as [|c l]; [cbn in L; lia|]. cbn. split; [reflexivity|]. split; [reflexivity|]. split; [discriminate|].
      exists whole. split; assumption.
  Qed.
  Lemma c_str_prefix l : exists r, l = c_str l ++ r /\ length (c_str (l ++ [0%N])) = length (c_str l).
  Proof.
    induction l as [|c l (r & E & L)]; [exists []; split; reflexivity|]. cbn. destruct (c =? 0)%N; [eexists; split; reflexivity|].
    exists r. cbn. rewrite L, <- E. split; reflexivity.
  Qed.

  Lemma step_ok s w c w' a : rel s w -> wstep be schar wsz ws w c = Some (w', a) ->
    exists s' o, step be schar wsz ws s c = Some (s', o) /\ rel s' w' /\ same_answer s' o a.
  Proof.
    intros R H. pose proof R as (RU & RL & RD & RO & RK).
    assert (PP : forall i v, par w i = Some v -> exists p, get_par s i = Some p /\ nth_error (pars s) i = Some (Some p) /\ nth_error (w_pars w) i = Some (Some v) /\ denotes s (Some p) (Some v)).
    { intros i v E. apply par_iff in E. destruct (nth_error (pars s) i) as [p|] eqn:P; [|apply nth_error_None in P; apply nth_len in E; lia].
      pose proof (RD _ _ _ P E) as D. destruct p as [p|]; [|contradiction]. exists p. split; [apply get_par_iff, P|]. split; [reflexivity|]. split; [exact E|exact D]. }
    assert (UU : forall k u l, user w k u = Some l -> get (users s) k u = Some l).
    { intros k u l E. rewrite RU. exact E. }
    destruct c as [k l|u| |k u off len|k u|k u off|k u|j|i j|i|i|i|i|i k|i k]; cbn [wstep step] in *.
    - injection H as <- <-. eexists. eexists. split; [reflexivity|]. split; [|exact I]. rewrite RU. apply rel_users; [exact R|].
      intros i k' l' u E. destruct (nth_error (pars s) i) as [p|] eqn:P; [|apply nth_error_None in P; apply nth_len in E; lia].
      pose proof (RD _ _ _ P E) as D. destruct p as [[|k2 o|k2 u2 off len]|]; try contradiction. cbn in D. destruct D as (_ & -> & _ & whole & G & _).
      apply get_iff in G. rewrite <- RU. apply nth_error_app1. exact (nth_len _ _ _ G).
    - rewrite RU. destruct (nth_error (w_users w) u) as [[x|]|]; try discriminate. destruct (unviewed w u) eqn:V; [|discriminate]. injection H as <- <-.
      eexists. eexists. split; [reflexivity|]. split; [|exact I]. apply rel_users; [exact R|].
      intros i k l u' E. rewrite RU. apply upd_other. intros <-. exact (unviewed_ok _ _ _ _ _ V E).
    - injection H as <- <-. eexists. eexists. split; [reflexivity|]. split; [apply rel_new, R|exact I].
    - destruct (user w k u) as [l|] eqn:U; [|discriminate]. cbn [option_bind] in H. rewrite (UU _ _ _ U). cbn [option_bind].
      destruct (off + len <=? length l) eqn:B; [|discriminate]. injection H as <- <-.
      assert (SL : slice l off len = Some (firstn len (skipn off l))) by (unfold slice; rewrite B; reflexivity). rewrite SL. cbn [option_bind].
      destruct (init_view_ok s k u off len l _ (UU _ _ _ U) SL) as [N D].
      eexists. eexists. split; [reflexivity|]. split; [apply rel_add_plain; assumption|exact I].
    - destruct (user w k u) as [l|] eqn:U; [|discriminate]. cbn [option_bind] in H. rewrite (UU _ _ _ U). cbn [option_bind]. injection H as <- <-.
      assert (SL : slice l 0 (length l) = Some l) by (unfold slice; cbn; rewrite Nat.leb_refl, firstn_all; reflexivity).
      destruct (init_view_ok s k u 0 (length l) l _ (UU _ _ _ U) SL) as [N D].
      eexists. eexists. split; [reflexivity|]. split; [apply rel_add_plain; assumption|exact I].
    - destruct (user w k u) as [l|] eqn:U; [|discriminate]. cbn [option_bind] in H. rewrite (UU _ _ _ U). cbn [option_bind].
      destruct (Nat.leb_spec off (length l)) as [B|B]; [|discriminate]. injection H as <- <-.
      unfold slice. rewrite (proj2 (Nat.leb_le _ _)) by lia. cbn [option_bind].
      replace (firstn (length l - off) (skipn off l)) with (skipn off l) by (symmetry; apply firstn_all2; rewrite skipn_length; lia).
      destruct (c_str_prefix (skipn off l)) as (r & E & L). rewrite L.
      assert (SL : slice l off (length (c_str (skipn off l))) = Some (c_str (skipn off l))).
      { unfold slice. pose proof (f_equal (@length N) E) as E'. rewrite skipn_length, app_length in E'. rewrite (proj2 (Nat.leb_le _ _)) by lia.
        f_equal. rewrite E at 2. rewrite firstn_app, Nat.sub_diag, firstn_all. apply app_nil_r. }
      destruct (init_view_ok s k u off _ l _ (UU _ _ _ U) SL) as [N D].
      eexists. eexists. split; [reflexivity|]. split; [apply rel_add_plain; assumption|exact I].
    - destruct (user w k u) as [l|] eqn:U; [|discriminate]. cbn [option_bind] in H. rewrite (UU _ _ _ U). cbn [option_bind].
      destruct (unviewed w u) eqn:V; [|discriminate]. injection H as <- <-.
      assert (R2 : rel {| users := upd (users s) u (Some (k, [])); objs := objs s; pars := pars s |} {| w_users := upd (w_users w) u (Some (k, [])); w_pars := w_pars w |}).
      { rewrite RU. apply rel_users; [exact R|]. intros i k' l' u' E. rewrite RU. apply upd_other. intros <-. exact (unviewed_ok _ _ _ _ _ V E). }
      destruct l as [|c l].
      + eexists. eexists. split; [reflexivity|]. split; [|exact I]. apply rel_new.
        pose proof (UU _ _ _ U) as G. apply get_iff in G. rewrite (upd_self _ _ _ G) in R2. rewrite <- RU, (upd_self _ _ _ G). rewrite <- RU, (upd_self _ _ _ G) in R2.
        destruct s; exact R2.
      + eexists. eexists. split; [reflexivity|]. split; [|exact I].
        set (s2 := {| users := upd (users s) u (Some (k, [])); objs := objs s; pars := pars s |}) in *.
        apply (rel_add s2 _ (objs s ++ [Some (k, c :: l)]) (POwn k (length (objs s))) (Some (k, c :: l, None)) R2).
        * assert (NN : forall m q, m = length (pars s2) \/ m = S (length (pars s2)) -> nth_error (pars (add_par s2 PNone)) m = Some q -> forall o, ~ owns q o).
          { cbn. intros m q [-> | ->] E o (k2 & O); subst q; [rewrite nth_error_app2, Nat.sub_diag in E by lia; discriminate|]. apply nth_len in E. rewrite app_length in E. cbn in E. lia. }
          split; [cbn; rewrite app_length; lia|]. split; [|split].
          -- intros o _ B. cbn in *. apply nth_error_app1, B.
          -- intros o (k2 & [= _ <-]). right. cbn. lia.
          -- intros o k2 l2 E L [(m & q & M & E' & O)|B]; [exfalso; exact (NN m q M E' o O)|]. cbn in B. apply nth_len in E. rewrite app_length in E. cbn in E.
             exists k. f_equal. f_equal. lia.
        * cbn. split; [reflexivity|]. split; [|discriminate]. apply get_iff. rewrite nth_error_app2, Nat.sub_diag by lia. reflexivity.
    - destruct (par w j) as [[vq|]|] eqn:Q; cbn [option_bind] in H; try discriminate. injection H as <- <-.
      destruct (PP _ _ Q) as (q & Gq & Eq & Ewq & Dq). rewrite Gq. cbn [option_bind].
      pose proof (rel_new _ _ R) as R'. pose proof (nth_len _ _ _ Eq) as Bj. pose proof (nth_len _ _ _ Ewq) as Bj'.
      destruct (move_assign_ok (add_par s PNone) (add w None) (length (pars s)) j PNone q None vq R') as (s' & p' & M & SR & DL & DD).
      + lia.
      + cbn. rewrite nth_error_app2, Nat.sub_diag by lia. reflexivity.
      + cbn. rewrite RL, nth_error_app2, Nat.sub_diag by lia. reflexivity.
      + cbn. rewrite nth_error_app1 by lia. exact Eq.
      + cbn. rewrite nth_error_app1 by lia. exact Ewq.
      + assert (MA : move_assign s PNone q = Some (set_objs s (objs s'), p')).
        { destruct q as [|k2 o|k2 u off len]; [destruct vq as [[? ?] []]; contradiction| |].
          - destruct vq as [[k3 l3] [f3|]]; [contradiction|]. cbn in Dq. destruct Dq as (-> & G & Nl).
            cbn [move_assign option_bind] in M |- *.
            rewrite (init_move_ok s _ _ _ G Nl).
            rewrite (init_move_ok (add_par s PNone) k3 o l3 G Nl) in M. cbn in M |- *. injection M as <- <-. reflexivity.
          - cbn in M |- *. injection M as <- <-. destruct s; reflexivity. }
        rewrite MA. cbn [option_bind fst snd]. eexists. eexists. split; [reflexivity|]. split; [|exact I].
        pose proof (rel_put2 (add_par s PNone) (add w None) (length (pars s)) j (objs s') (Some p') (Some (Some vq)) R') as X.
        cbn [pars add_par] in X. rewrite app_length in X. cbn [length] in X. specialize (X ltac:(lia) ltac:(lia) DL).
        rewrite <- (same_rest_objs _ _ SR) in X. specialize (X DD). rewrite (same_rest_objs _ _ SR) in X.
        unfold set_par, put, set_objs, add_par, add in X |- *. cbn [users objs pars w_users w_pars] in X |- *.
        rewrite RL in X. rewrite (upd_app (w_pars w)) in X. rewrite <- RL in X. rewrite (upd_app (pars s)) in X.
        assert (UA : forall {A} (l : list A) x y n, n < length l -> upd (l ++ [x]) n y = upd l n y ++ [x]).
        { clear. induction l as [|z l IH]; intros x y [|n] H; cbn in *; try lia; [reflexivity|]. rewrite IH by lia. reflexivity. }
        rewrite (UA _ (pars s)) in X by lia. rewrite (UA _ (w_pars w)) in X by lia. exact X.
    - destruct (par w i) as [v|] eqn:P; cbn [option_bind] in H; [|discriminate]. destruct (par w j) as [vq|] eqn:Q; cbn [option_bind] in H; [|discriminate].
      destruct (PP _ _ P) as (p & Gp & Ep & Ewp & Dp). destruct (PP _ _ Q) as (q & Gq & Eq & Ewq & Dq). rewrite Gp, Gq. cbn [option_bind].
      destruct (Nat.eqb_spec i j) as [E|E]; [injection H as <- <-; eexists; eexists; split; [reflexivity|]; split; [exact R|exact I]|].
      destruct vq as [vq|]; [|discriminate]. injection H as <- <-.
      destruct (move_assign_ok s w i j p q v vq R E Ep Ewp Eq Ewq) as (s' & p' & M & SR & DL & DD). rewrite M. cbn [option_bind fst snd].
      eexists. eexists. split; [reflexivity|]. split; [|exact I]. pose proof (nth_len _ _ _ Ep) as Bi.
      pose proof (rel_put2 s w i j (objs s') (Some p') (Some (Some vq)) R E Bi DL) as X. rewrite <- (same_rest_objs _ _ SR) in X. exact (X DD).
    - destruct (par w i) as [v|] eqn:P; cbn [option_bind] in H; [|discriminate]. injection H as <- <-.
      destruct (PP _ _ P) as (p & Gp & Ep & Ewp & Dp). rewrite Gp. cbn [option_bind].
      destruct (destroy_ok s w i p v R Ep Ewp None None (or_introl (conj eq_refl eq_refl))) as (s' & D & R'). rewrite D. cbn [option_bind].
      eexists. eexists. split; [reflexivity|]. split; [exact R'|exact I].
    - destruct (par w i) as [v|] eqn:P; cbn [option_bind] in H; [|discriminate]. injection H as <- <-.
      destruct (PP _ _ P) as (p & Gp & Ep & Ewp & Dp). rewrite Gp. cbn [option_bind]. rewrite (empty_ok _ _ _ Dp). cbn [option_bind].
      eexists. eexists. split; [reflexivity|]. split; [exact R|reflexivity].
    - destruct (par w i) as [v|] eqn:P; cbn [option_bind] in H; [|discriminate]. injection H as <- <-.
      destruct (PP _ _ P) as (p & Gp & Ep & Ewp & Dp). rewrite Gp. cbn [option_bind].
      eexists. eexists. split; [reflexivity|]. split; [exact R|]. cbn. destruct p as [|k o|k u off len], v as [[[k' l] [f|]]|]; try contradiction; reflexivity.
    - destruct (par w i) as [v|] eqn:P; cbn [option_bind] in H; [|discriminate]. destruct v as [[[k l] f]|]; [|discriminate].
      destruct (PP _ _ P) as (p & Gp & Ep & Ewp & Dp). rewrite Gp. cbn [option_bind].
      destruct (predicated_trim be schar (size_of wsz k) (fun c => negb (ws c)) l) as [t|] eqn:T; [|discriminate]. cbn [option_bind] in H. injection H as <- <-.
      destruct (trim_ok s w i p k l f t R Ep Ewp T) as (s' & p' & E & R'). rewrite E. cbn [option_bind fst snd].
      eexists. eexists. split; [reflexivity|]. split; [exact R'|exact I].
    - destruct (par w i) as [v|] eqn:P; cbn [option_bind] in H; [|discriminate].
      destruct (PP _ _ P) as (p & Gp & Ep & Ewp & Dp). rewrite Gp. cbn [option_bind]. rewrite (empty_ok _ _ _ Dp). cbn [option_bind].
      destruct v as [[[k' l] f]|]; [|injection H as <- <-; eexists; eexists; split; [reflexivity|]; split; [exact R|reflexivity]].
      pose proof (get_view_ok s w i p k' l f k R Ep Ewp) as G. destruct (kind_eqb k' k) eqn:KE.
      + injection H as <- <-. destruct G as (v & G & L). rewrite G. cbn [option_bind fst snd]. eexists. eexists. split; [reflexivity|].
        unfold set_par. rewrite (upd_self _ _ _ Ep). destruct s. split; [exact R|exact L].
      + destruct (transcode be schar wsz k' k l) as [t|] eqn:T; [|discriminate]. cbn [option_bind] in H. destruct t as [|c t]; [discriminate|].
        injection H as <- <-. destruct (G (c :: t) eq_refl ltac:(discriminate)) as (s' & p' & v & E & L & R'). rewrite E. cbn [option_bind fst snd].
        eexists. eexists. split; [reflexivity|]. split; [exact R'|exact L].
    - destruct (par w i) as [v|] eqn:P; cbn [option_bind] in H; [|discriminate].
      destruct (PP _ _ P) as (p & Gp & Ep & Ewp & Dp). rewrite Gp. cbn [option_bind]. rewrite (empty_ok _ _ _ Dp). cbn [option_bind].
      destruct v as [[[k' l] f]|]; [|injection H as <- <-; eexists; eexists; split; [reflexivity|]; split; [exact R|reflexivity]].
      pose proof (move_into_ok s w i p k' l f k R Ep Ewp) as G. destruct (kind_eqb k' k) eqn:KE.
      + injection H as <- <-. destruct G as (s' & p' & G & R'). rewrite G. cbn [option_bind fst snd]. eexists. eexists. split; [reflexivity|]. split; [exact R'|reflexivity].
      + destruct (transcode be schar wsz k' k l) as [t|] eqn:T; [|discriminate]. cbn [option_bind] in H. injection H as <- <-.
        rewrite (G t eq_refl). cbn [option_bind fst snd]. eexists. eexists. split; [reflexivity|]. unfold set_par. rewrite (upd_self _ _ _ Ep). destruct s. split; [exact R|reflexivity].
  Qed.
End Ops.

Lemma rel_start : rel start wstart.
Proof.
  split; [reflexivity|]. split; [reflexivity|]. split; [intros [|i] p v H; discriminate|]. split; [intros [|i] j p q o H; discriminate|]. intros [|o] k l H; discriminate.
Qed.
Lemma run_ok be schar wsz ws prog : forall s w w' answers, rel s w -> wrun be schar wsz ws w prog = Some (w', answers) ->
  exists s', conforms be schar wsz ws s prog answers s' /\ rel s' w'.
Proof.
  induction prog as [|c prog IH]; intros s w w' answers R H; cbn [wrun] in H.
  - injection H as <- <-. exists s. split; [reflexivity|exact R].
  - destruct (wstep be schar wsz ws w c) as [[w1 a]|] eqn:E; [|discriminate]. cbn [option_bind fst snd] in H.
    destruct (wrun be schar wsz ws w1 prog) as [[w2 l]|] eqn:E2; [|discriminate]. cbn [option_bind fst snd] in H. injection H as <- <-.
    destruct (step_ok be schar wsz ws s w c w1 a R E) as (s1 & o & S1 & R1 & A1). destruct (IH _ _ _ _ R1 E2) as (s2 & C & R2).
    exists s2. split; [|exact R2]. cbn. exists s1, o. split; [exact S1|]. split; [exact A1|exact C].
Qed.

Lemma destroy_pars s p s' : destroy s p = Some s' -> same_rest s s'.
Proof.
  destruct p as [|k o|k u off len]; cbn; [discriminate| |intros [= <-]; split; reflexivity]. unfold destroy_obj.
  destruct (get (objs s) k o); [|discriminate]. intros [= <-]. split; reflexivity.
Qed.
Lemma init_move_pars s k o r : init_move s k o = Some r -> same_rest s (fst (fst r)).
Proof.
  unfold init_move, move_obj. destruct (get (objs s) k o) as [[|c l]|]; cbn; [|  |discriminate]; intros [= <-]; split; reflexivity.
Qed.
Lemma same_rest_trans a b c : same_rest a b -> same_rest b c -> same_rest a c.
Proof. intros [A B] [C D]. split; congruence. Qed.
Lemma move_pars s p q r : move_assign s p q = Some r -> same_rest s (fst r).
Proof.
  assert (Base : same_rest s s) by (split; reflexivity).
  assert (Ini : forall s1 k o r, same_rest s s1 -> (x <- init_move s1 k o ;; Some (fst (fst x), snd (fst x))) = Some r -> same_rest s (fst r)).
  { intros s1 k o r1 S1 H. destruct (init_move s1 k o) as [x|] eqn:I; [|discriminate]. cbn in H. injection H as <-. cbn.
    exact (same_rest_trans _ _ _ S1 (init_move_pars _ _ _ _ I)). }
  destruct p as [|k o|k u off len], q as [|k' o'|k' u' off' len']; cbn [move_assign option_bind destroy]; try discriminate.
  - apply Ini, Base.
  - intros [= <-]. exact Base.
  - destruct (destroy_obj s k o); discriminate.
  - destruct (kind_eqb k k').
    + destruct (get (objs s) k' o') as [l|]; [|discriminate]. cbn [option_bind]. destruct (get (objs s) k o); [|discriminate]. cbn [option_bind].
      destruct (destroy_obj _ k' o') as [s'|] eqn:D; [|discriminate]. cbn. intros [= <-]. unfold destroy_obj in D. cbn in D.
      destruct (get _ k' o'); [|discriminate]. injection D as <-. split; reflexivity.
    + destruct (destroy_obj s k o) as [s1|] eqn:D; [|discriminate]. cbn [option_bind]. apply Ini. exact (destroy_pars s (POwn k o) s1 D).
  - destruct (destroy_obj s k o) as [s1|] eqn:D; [|discriminate]. cbn [option_bind]. intros [= <-]. exact (destroy_pars s (POwn k o) s1 D).
  - apply Ini, Base.
  - destruct (kind_eqb k k'); intros [= <-]; exact Base.
Qed.
