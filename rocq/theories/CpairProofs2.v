(** Proofs about compressed_pair: the pair's layout from the elements' side. *)
From Coq Require Import Arith List Bool Lia.
From Verif Require Import Words CpairModel CpairSpec CpairProofs.
Import ListNotations.
Local Open Scope nat_scope.

Definition weightless (nua : bool) (t : ty) : bool := can_be_base t || (nua && t_empty t).

Record facts (nua : bool) (f s : ty) (L : layout) : Prop := {
  f_inv : inv (Nat.max (depth (t_id f)) (depth (t_id s))) (l_state L);
  f_al1 : Nat.divide (t_align f) (l_first L);
  f_al2 : Nat.divide (t_align s) (l_second L);
  f_clash : ~ clash (l_first L) f (l_second L) s;
  f_size : s_size (l_state L) = Nat.max (l_first L + t_size f) (l_second L + t_size s);
  f_align : s_align (l_state L) = Nat.max (t_align f) (t_align s);
  f_subs : forall x, In x (s_subs (l_state L)) <-> In x (at_offset (l_first L) (t_subs f)) \/ In x (at_offset (l_second L) (t_subs s));
  f_data : t_dsize f = 0 \/ t_dsize s = 0 \/ l_first L + t_dsize f <= l_second L \/ l_second L + t_dsize s <= l_first L;
  f_in1 : t_dsize f = 0 \/ l_first L + t_dsize f <= s_dsize (l_state L);
  f_in2 : t_dsize s = 0 \/ l_second L + t_dsize s <= s_dsize (l_state L);
  f_share : weightless nua f = true \/ weightless nua s = true -> ~ clash 0 f 0 s -> l_first L = 0 /\ l_second L = 0;
  f_bound : (l_first L = 0 /\ (forall m, Nat.divide (t_align s) m -> t_size f <= m -> l_second L <= m)) \/
            (l_second L = 0 /\ (forall m, Nat.divide (t_align f) m -> t_size s <= m -> l_first L <= m));
  f_empty : weightless nua f = true -> weightless nua s = true -> s_dsize (l_state L) = 0 }.

Lemma clash_sym : forall a t b u, clash a t b u <-> clash b u a t.
Proof. intros a t b u. split; intros (i & j & c & I & J & E); exists j, i, c; repeat split; auto. Qed.

Lemma weight_of : forall nua f s b k, In (b, k) (components f s) -> overlapping nua k && t_empty (pick f s b) = weightless nua (pick f s b).
Proof.
  intros nua f s b k I. unfold components, weightless in *. destruct (can_be_base f) eqn:Ef; destruct (can_be_base s) eqn:Es; cbn [In] in I;
    destruct I as [I | [I | []]]; inversion I; subst; cbn [pick overlapping];
    rewrite ?Ef, ?Es; cbn [orb andb]; try reflexivity;
    unfold can_be_base in *; rewrite ?andb_true_iff in *; intuition.
Qed.

Lemma data_of : forall t (w : bool), good t -> t_dsize t <= (if w then t_dsize t else t_size t).
Proof. intros t w G. pose proof (g_data t G). destruct w; lia. Qed.

Lemma weightless_empty : forall nua t, good t -> weightless nua t = true -> t_dsize t = 0.
Proof.
  intros nua t G W. apply (g_empty t G). unfold weightless, can_be_base in W.
  apply orb_true_iff in W as [W | W]; apply andb_true_iff in W; tauto.
Qed.

Lemma layout_facts : forall nua f s, good f -> good s -> facts nua f s (pair_layout nua f s).
Proof.
  intros nua f s Gf Gs.
  assert (exists b k1 k2, components f s = [(b, k1); (negb b, k2)]) as (b & k1 & k2 & C).
  { unfold components. destruct (can_be_base f), (can_be_base s); first [exists true; eexists _, _; reflexivity | exists false; eexists _, _; reflexivity]. }
  pose proof (weight_of nua f s b k1) as W1. pose proof (weight_of nua f s (negb b) k2) as W2. rewrite C in W1, W2.
  specialize (W1 (or_introl eq_refl)). specialize (W2 (or_intror (or_introl eq_refl))).
  unfold pair_layout. rewrite C.
  destruct (place nua start k1 (pick f s b)) as [o1 st1] eqn:P1.
  destruct (place nua st1 k2 (pick f s (negb b))) as [o2 st2] eqn:P2.
  assert (good (pick f s b)) as G1 by (destruct b; assumption). assert (good (pick f s (negb b))) as G2 by (destruct b; assumption).
  destruct (two_places _ _ _ _ _ _ _ _ _ G1 G2 P1 P2) as (V & Z & A & NC & Sz & Al & Sb & Bd & Dd & Sh & Dl & Ds).
  rewrite W1, W2 in *. subst o1. clear P1 P2 W1 W2.
  pose proof (data_of (pick f s b) (overlapping nua k1) G1) as DD1. pose proof (data_of (pick f s (negb b)) (overlapping nua k2) G2) as DD2.
  pose proof (weightless_empty nua _ G1) as E1. pose proof (weightless_empty nua _ G2) as E2.
  destruct b; cbn [negb pick] in *.
  - split; cbn [l_first l_second l_state].
    + exact V.
    + apply Nat.divide_0_r.
    + exact A.
    + exact NC.
    + rewrite Sz. lia.
    + exact Al.
    + intros x. rewrite Sb, in_app_iff. reflexivity.
    + destruct Dd as [D | [D | D]]; [left; auto | right; left; auto | right; right; left; lia].
    + destruct (weightless nua f); [left; auto |]. right. rewrite Ds. destruct (weightless nua s); [lia |].
      destruct Dd as [D | [D | D]]; try discriminate. lia.
    + destruct (weightless nua s); [left; auto |]. right. rewrite Ds. lia.
    + intros W N. split; [reflexivity |]. apply Sh; assumption.
    + left. split; [reflexivity | exact Bd].
    + intros Wf Ws. rewrite Ds, Wf, Ws. reflexivity.
  - split; cbn [l_first l_second l_state].
    + rewrite Nat.max_comm. exact V.
    + exact A.
    + apply Nat.divide_0_r.
    + rewrite clash_sym. exact NC.
    + rewrite Sz. lia.
    + rewrite Al. apply Nat.max_comm.
    + intros x. rewrite Sb, in_app_iff. tauto.
    + destruct Dd as [D | [D | D]]; [right; left; auto | left; auto | right; right; right; lia].
    + destruct (weightless nua f); [left; auto |]. right. rewrite Ds. lia.
    + destruct (weightless nua s); [left; auto |]. right. rewrite Ds. destruct (weightless nua f); [lia |].
      destruct Dd as [D | [D | D]]; try discriminate. lia.
    + intros W N. split; [| reflexivity]. apply Sh; [tauto |]. rewrite clash_sym. exact N.
    + right. split; [reflexivity | exact Bd].
    + intros Wf Ws. rewrite Ds, Wf, Ws. reflexivity.
Qed.

Lemma cp_some : forall nua tail f s p, compressed_pair nua tail f s = Some p ->
  p = {| t_id := PPair (t_id f) (t_id s);
         t_empty := weightless nua f && weightless nua s;
         t_final := false;
         t_size := up (s_align (l_state (pair_layout nua f s))) (s_size (l_state (pair_layout nua f s)));
         t_dsize := if weightless nua f && weightless nua s then 0 else if tail then s_dsize (l_state (pair_layout nua f s)) else up (s_align (l_state (pair_layout nua f s))) (s_size (l_state (pair_layout nua f s)));
         t_align := s_align (l_state (pair_layout nua f s));
         t_subs := (0, PPair (t_id f) (t_id s)) :: (0, PBase (t_id f) (t_id s)) :: s_subs (l_state (pair_layout nua f s));
         t_bases := PBase (t_id f) (t_id s) :: pair_bases f s |}.
Proof.
  intros nua tail f s p E. unfold compressed_pair in E.
  destruct (can_be_base f && can_be_base s && cid_eqb (t_id f) (t_id s)); [discriminate |].
  inversion E. reflexivity.
Qed.

Lemma cbb_empty : forall t, can_be_base t = true -> t_empty t = true.
Proof. intros t E. apply andb_true_iff in E. tauto. Qed.

Lemma pair_good : forall nua tail f s p, good f -> good s -> compressed_pair nua tail f s = Some p -> good p.
Proof.
  intros nua tail f s p Gf Gs E. apply cp_some in E. pose proof (layout_facts nua f s Gf Gs) as F. set (L := pair_layout nua f s) in *.
  destruct F as [V _ _ _ Sz Al Sb _ _ _ _ _ _]. destruct V as [Va Vd Vi Vm Vu].
  assert (0 < s_align (l_state L)) as Pa. { destruct Va as [k ->]. apply pow_pos. }
  destruct (up_spec (s_align (l_state L)) (s_size (l_state L)) Pa) as (U1 & U2 & U3).
  pose proof (g_size f Gf) as Zf.
  subst p. split; cbn [t_id t_empty t_final t_size t_dsize t_align t_subs t_bases].
  - exact Va.
  - lia.
  - exact U1.
  - destruct (weightless nua f && weightless nua s); [lia |]. destruct tail; lia.
  - intros W. rewrite W. reflexivity.
  - intros _. left. reflexivity.
  - intros o c [I | [I | I]]; [inversion I; subst; lia | inversion I; subst; lia |]. apply Vi in I. lia.
  - intros o c [I | [I | I]]; [inversion I; subst; cbn [depth]; lia | inversion I; subst; cbn [depth]; lia |]. apply Vm in I. cbn [depth]. lia.
  - constructor; [| constructor; [| exact Vu]].
    + intros [I | I]; [discriminate I |]. apply Vm in I. cbn [depth] in I. lia.
    + intros I. apply Vm in I. cbn [depth] in I. lia.
  - assert (forall t off, good t -> can_be_base t = true -> forall c, In c (t_id t :: t_bases t) -> exists o, In (o, c) (at_offset off (t_subs t))) as H.
    { intros t off G B c [<- | I].
      - exists (off + 0). apply in_at. exists 0. split; [reflexivity |]. apply (g_self t G). apply cbb_empty. exact B.
      - destruct (g_bases t G c I) as [o J]. exists (off + o). apply in_at. exists o. auto. }
    intros c [<- | I]; [exists 0; right; left; reflexivity |].
    unfold pair_bases in I. apply in_app_iff in I as [I | I].
    + destruct (can_be_base f) eqn:B; [| destruct I]. destruct (H f (l_first L) Gf B c I) as [o J]. exists o. right; right. apply Sb. left. exact J.
    + destruct (can_be_base s) eqn:B; [| destruct I]. destruct (H s (l_second L) Gs B c I) as [o J]. exists o. right; right. apply Sb. right. exact J.
Qed.

Lemma pair_size : forall nua tail f s p, good f -> good s -> compressed_pair nua tail f s = Some p ->
  multiple_at_least (Nat.max (t_align f) (t_align s)) (Nat.max (l_first (pair_layout nua f s) + t_size f) (l_second (pair_layout nua f s) + t_size s)) (t_size p) /\
  t_align p = Nat.max (t_align f) (t_align s).
Proof.
  intros nua tail f s p Gf Gs E. apply cp_some in E. pose proof (layout_facts nua f s Gf Gs) as F. set (L := pair_layout nua f s) in *.
  destruct F as [V _ _ _ Sz Al Sb _ _ _ _ _ _]. subst p. cbn [t_size t_align].
  rewrite <- Sz, <- Al. split; [| reflexivity]. apply up_spec. destruct (v_align _ _ V) as [k ->]. apply pow_pos.
Qed.

Lemma never_larger : forall nua tail f s p n, good f -> good s -> compressed_pair nua tail f s = Some p -> plain_struct f s n -> t_size p <= n.
Proof.
  intros nua tail f s p n Gf Gs E (o & (O1 & O2 & O3) & (N1 & N2 & N3)).
  destruct (pair_size _ _ _ _ _ Gf Gs E) as [(P1 & P2 & P3) _].
  pose proof (layout_facts nua f s Gf Gs) as F. set (L := pair_layout nua f s) in *.
  apply P3; [exact N1 |].
  destruct (f_bound _ _ _ _ F) as [[Z B] | [Z B]]; rewrite Z.
  - specialize (B o O1 O2). lia.
  - pose proof (good_pos f Gf) as Pf. pose proof (good_pos s Gs) as Ps.
    destruct (up_spec (t_align f) (t_size s) Pf) as (U1 & U2 & U3).
    specialize (B _ U1 U2). pose proof (g_mult f Gf) as [x Mf]. pose proof (g_mult s Gs) as [y Ms].
    assert (up (t_align f) (t_size s) + t_size f <= n); [| lia].
    destruct (le_lt_dec (t_align s) (t_align f)) as [Le | Lt].
    + rewrite Nat.max_l in N1 by lia. destruct N1 as [q N1].
      assert (t_size s <= n - t_size f) as K by lia.
      assert (Nat.divide (t_align f) (n - t_size f)) as Dv. { rewrite N1, Mf. rewrite <- Nat.mul_sub_distr_r. apply Nat.divide_factor_r. }
      specialize (U3 _ Dv K). lia.
    + destruct (g_align f Gf) as [a Ea], (g_align s Gs) as [b Eb].
      assert (Nat.divide (t_align f) (t_size s)) as Dv.
      { apply (Nat.divide_trans _ (t_align s)); [| apply (g_mult s Gs)]. rewrite Ea, Eb in *. apply pow_divide. lia. }
      specialize (U3 _ Dv (Nat.le_refl _)). lia.
Qed.

Lemma base_count_app : forall c l m, base_count c (l ++ m) = base_count c l + base_count c m.
Proof. intros c l m. unfold base_count. rewrite filter_app, app_length. reflexivity. Qed.
Lemma base_count_zero : forall c l, base_count c l = 0 <-> ~ In c l.
Proof.
  intros c l. unfold base_count. split.
  - intros E I. assert (In c (filter (cid_eqb c) l)) as J by (apply filter_In; split; [exact I | apply cid_eqb_eq; reflexivity]).
    destruct (filter (cid_eqb c) l); [destruct J | discriminate].
  - intros N. destruct (filter (cid_eqb c) l) as [| d r] eqn:E; [reflexivity | exfalso].
    assert (In d (filter (cid_eqb c) l)) as J by (rewrite E; left; reflexivity).
    apply filter_In in J as [I Q]. apply cid_eqb_eq in Q. subst. exact (N I).
Qed.
Lemma base_count_self : forall c l, base_count c (c :: l) = S (base_count c l).
Proof. intros c l. unfold base_count. cbn [filter]. replace (cid_eqb c c) with true by (symmetry; apply cid_eqb_eq; reflexivity). reflexivity. Qed.

Lemma first_ok_iff : forall f s, ~ In (t_id f) (t_bases f) ->
  first_ok f s = false <-> can_be_base f = true /\ can_be_base s = true /\ (t_id f = t_id s \/ In (t_id f) (t_bases s)).
Proof.
  intros f s N. unfold first_ok, pair_bases. destruct (can_be_base f); [| split; [discriminate | intros X; decompose [and] X; discriminate]].
  apply base_count_zero in N. rewrite base_count_app, base_count_self, N. destruct (can_be_base s).
  - rewrite Nat.eqb_neq. assert (In (t_id f) (t_id s :: t_bases s) <-> t_id f = t_id s \/ In (t_id f) (t_bases s)) as Q by (cbn [In]; intuition).
    rewrite <- Q. destruct (in_dec ltac:(intros x y; destruct (cid_eqb x y) eqn:E; [left; apply cid_eqb_eq; exact E | right; intros ->; rewrite (proj2 (cid_eqb_eq y y) eq_refl) in E; discriminate]) (t_id f) (t_id s :: t_bases s)) as [I | I].
    + assert (base_count (t_id f) (t_id s :: t_bases s) <> 0) by (rewrite base_count_zero; tauto). split; [tauto | lia].
    + assert (base_count (t_id f) (t_id s :: t_bases s) = 0) as -> by (apply base_count_zero; exact I). split; [intros X; lia | intros (_ & _ & X); contradiction].
  - cbn. split; [discriminate | intros (_ & X & _); discriminate X].
Qed.
Lemma second_ok_iff : forall f s, ~ In (t_id s) (t_bases s) ->
  second_ok f s = false <-> can_be_base f = true /\ can_be_base s = true /\ (t_id s = t_id f \/ In (t_id s) (t_bases f)).
Proof.
  intros f s N. unfold second_ok, pair_bases. destruct (can_be_base s); [| split; [discriminate | intros X; decompose [and] X; discriminate]].
  apply base_count_zero in N. rewrite base_count_app, base_count_self, N. destruct (can_be_base f).
  - rewrite Nat.eqb_neq. assert (In (t_id s) (t_id f :: t_bases f) <-> t_id s = t_id f \/ In (t_id s) (t_bases f)) as Q by (cbn [In]; intuition).
    rewrite <- Q. destruct (in_dec ltac:(intros x y; destruct (cid_eqb x y) eqn:E; [left; apply cid_eqb_eq; exact E | right; intros ->; rewrite (proj2 (cid_eqb_eq y y) eq_refl) in E; discriminate]) (t_id s) (t_id f :: t_bases f)) as [I | I].
    + assert (base_count (t_id s) (t_id f :: t_bases f) <> 0) by (rewrite base_count_zero; tauto). split; [tauto | lia].
    + assert (base_count (t_id s) (t_id f :: t_bases f) = 0) as -> by (apply base_count_zero; exact I). split; [intros X; lia | intros (_ & _ & X); contradiction].
  - cbn. split; [discriminate | intros (X & _); discriminate X].
Qed.
