From Coq Require Import Lia ZifyBool ZifyNat ZifyN.
From Verif Require Import Words WordsProofs CoreModel EarrProofs SpanSpec FstrModel FstrSpec.
Local Open Scope nat_scope.
Ltac Zify.zify_post_hook ::= idtac.

Lemma mapM_seq {A} (f : nat -> option A) : forall n k (l : list A),
  (forall i, i < n -> f (k + i) = nth_error l i) -> n <= length l -> mapM f (seq k n) = Some (firstn n l).
Proof.
  induction n as [|n IH]; intros k l H L; [reflexivity|]. destruct l as [|a l]; [cbn in L; lia|].
  cbn [seq mapM firstn]. pose proof (H 0 ltac:(lia)) as E. rewrite Nat.add_0_r in E. rewrite E. cbn.
  rewrite (IH (S k) l); [reflexivity| |cbn in L; lia].
  intros i Hi. specialize (H (S i) ltac:(lia)). cbn in H. rewrite <- H. f_equal. lia.
Qed.

Lemma indices_ok L n f l : n <= L -> n <= length l -> (forall i, i < n -> f i = nth_error l i) ->
  exists s, f_indices L n f = Some s /\ holds s (firstn n l ++ repeat 0%Z (L - n)).
Proof.
  intros H1 H2 H. unfold f_indices. apply Nat.leb_le in H1 as H1'. rewrite H1'.
  rewrite (mapM_seq f n 0 l) by (try exact H; exact H2). cbn. eexists. split; [reflexivity|]. split; cbn [f_len f_chars].
  - rewrite app_length, firstn_length, repeat_length. lia.
  - rewrite <- app_assoc. f_equal. replace (L + 1 - n) with ((L - n) + 1) by lia. rewrite repeat_app. reflexivity.
Qed.

Lemma zero_ok L : holds (f_zero L) (repeat 0%Z L).
Proof. split; cbn; [rewrite repeat_length; reflexivity|]. rewrite repeat_app. reflexivity. Qed.

Lemma holds_get s l i : holds s l -> f_get s i = nth_error l i.
Proof.
  intros [H1 H2]. unfold f_get. rewrite H1, H2. destruct (Nat.ltb_spec i (length l)) as [H|H].
  - apply nth_error_app1. exact H.
  - symmetry. apply nth_error_None. exact H.
Qed.
Lemma fit_long n l : n <= length l -> fit n l = firstn n l.
Proof. intros H. unfold fit. replace (n - length l) with 0 by lia. apply app_nil_r. Qed.
Lemma fit_short n l : length l <= n -> fit n l = l ++ repeat 0%Z (n - length l).
Proof. intros H. unfold fit. rewrite firstn_all2 by exact H. reflexivity. Qed.
Lemma fit_min n l : fit n l = firstn (Nat.min n (length l)) l ++ repeat 0%Z (n - Nat.min n (length l)).
Proof.
  destruct (Nat.le_ge_cases n (length l)) as [H|H].
  - rewrite fit_long by exact H. replace (Nat.min n (length l)) with n by lia. rewrite Nat.sub_diag. symmetry. apply app_nil_r.
  - rewrite fit_short by exact H. replace (Nat.min n (length l)) with (length l) by lia. rewrite firstn_all. reflexivity.
Qed.

Lemma from_array_ok L arr : exists s, f_from_array L arr = Some s /\ holds s (fit L arr).
Proof.
  unfold f_from_array. destruct (Nat.eqb_spec (length arr) 0) as [H|H]; [|destruct (Nat.eqb_spec L 0) as [H'|H']]; cbn [orb].
  - eexists. split; [reflexivity|]. rewrite fit_short by lia. destruct arr; [|discriminate]. cbn. rewrite Nat.sub_0_r. apply zero_ok.
  - subst L. eexists. split; [reflexivity|]. apply (zero_ok 0).
  - rewrite fit_min. apply indices_ok; [lia|lia|]. reflexivity.
Qed.
Lemma from_view_ok L str : exists s, f_from_view L str = Some s /\ holds s (fit L str).
Proof.
  unfold f_from_view. destruct (Nat.eqb_spec L 0) as [H|H]; [subst L; eexists; split; [reflexivity|apply (zero_ok 0)]|].
  destruct (indices_ok L L (fun i => if i <? length str then nth_error str i else Some 0%Z) (str ++ repeat 0%Z L)) as (s & E & V).
  - lia.
  - rewrite app_length, repeat_length. lia.
  - intros i Hi. destruct (Nat.ltb_spec i (length str)) as [H'|H']; [symmetry; apply nth_error_app1; exact H'|].
    rewrite nth_error_app2 by exact H'. symmetry. apply nth_error_repeat. lia.
  - exists s. split; [exact E|]. rewrite Nat.sub_diag in V. cbn in V. rewrite app_nil_r in V. rewrite firstn_app in V.
    unfold fit. replace (firstn (L - length str) (repeat 0%Z L)) with (repeat 0%Z (L - length str)) in V; [exact V|].
    clear. assert (K : forall a b, a <= b -> firstn a (repeat 0%Z b) = repeat 0%Z a).
    { induction a as [|a IH]; intros [|b] H; [reflexivity..|lia|cbn; rewrite IH by lia; reflexivity]. }
    symmetry. apply K. lia.
Qed.
Lemma from_fstr_ok L s l : holds s l -> exists s', f_from_fstr L s = Some s' /\ holds s' (fit L l).
Proof.
  intros V. pose proof V as [H1 H2]. unfold f_from_fstr. rewrite H1. destruct (Nat.eqb_spec (length l) L) as [H|H].
  { exists s. split; [reflexivity|]. rewrite fit_long, firstn_all2 by lia. exact V. }
  destruct (Nat.eqb_spec (length l) 0) as [H0|H0]; [|destruct (Nat.eqb_spec L 0) as [H'|H']]; cbn [orb].
  - eexists. split; [reflexivity|]. rewrite fit_short by lia. destruct l; [|discriminate]. cbn. rewrite Nat.sub_0_r. apply zero_ok.
  - subst L. eexists. split; [reflexivity|]. apply (zero_ok 0).
  - rewrite fit_min. apply indices_ok; [lia|lia|]. intros i Hi. apply holds_get, V.
Qed.
Lemma firstn_repeat {A} (c : A) : forall a b, a <= b -> firstn a (repeat c b) = repeat c a.
Proof. induction a as [|a IH]; intros [|b] H; [reflexivity..|lia|cbn; rewrite IH by lia; reflexivity]. Qed.
Lemma fill_ok L c : exists s, f_fill L c = Some s /\ holds s (repeat c L).
Proof.
  destruct (indices_ok L L (fun _ => Some c) (repeat c L)) as (s & E & V); [lia|rewrite repeat_length; lia|intros i Hi; symmetry; apply nth_error_repeat, Hi|].
  exists s. split; [exact E|]. rewrite Nat.sub_diag in V. cbn in V. rewrite app_nil_r, firstn_repeat in V by lia. exact V.
Qed.
Lemma from_ptr_ok L str n : n <= length str -> exists s, f_from_ptr L str n = Some s /\ holds s (fit L (firstn n str)).
Proof.
  intros Hn. unfold f_from_ptr. destruct (Nat.eqb_spec n 0) as [H|H]; [|destruct (Nat.eqb_spec L 0) as [H'|H']]; cbn [orb].
  - subst n. eexists. split; [reflexivity|]. rewrite fit_short by (cbn; lia). cbn. rewrite Nat.sub_0_r. apply zero_ok.
  - subst L. eexists. split; [reflexivity|]. apply (zero_ok 0).
  - rewrite fit_min, firstn_length, firstn_firstn. replace (Nat.min (Nat.min L (Nat.min n (length str))) n) with (Nat.min L n) by lia.
    replace (Nat.min L (Nat.min n (length str))) with (Nat.min L n) by lia. apply indices_ok; [lia|lia|]. reflexivity.
Qed.

Lemma view_ok s l : holds s l -> f_view s = l.
Proof. intros [H1 H2]. unfold f_view. rewrite H1, H2, firstn_app, firstn_all, Nat.sub_diag. cbn. apply app_nil_r. Qed.
Lemma holds_inj s l l' : holds s l -> holds s l' -> l = l'.
Proof. intros H H'. rewrite <- (view_ok s l H). apply view_ok, H'. Qed.
Lemma cstr_ok l r : Forall (fun c => c <> 0%Z) l -> cstr (l ++ 0%Z :: r) = Some l.
Proof.
  induction 1 as [|c l Hc Hl IH]; [reflexivity|]. cbn [app cstr]. apply Z.eqb_neq in Hc. rewrite Hc, IH. reflexivity.
Qed.

Lemma set_ok s a x b y : holds s (a ++ x :: b) -> exists s', f_set s (length a) y = Some s' /\ holds s' (a ++ y :: b).
Proof.
  intros [H1 H2]. unfold f_set. rewrite H1. rewrite app_length. cbn [length]. rewrite (proj2 (Nat.ltb_lt _ _)) by lia.
  eexists. split; [reflexivity|]. split; cbn [f_len f_chars]; [rewrite app_length; reflexivity|].
  rewrite H2. clear. induction a as [|c a IH]; [reflexivity|]. cbn [app length EarrModel.upd]. f_equal. exact IH.
Qed.

Lemma write_ok rhs lr : holds rhs lr -> forall todo done res pre fill,
  lr = done ++ todo -> length fill = length todo -> holds res (pre ++ done ++ fill) ->
  exists s, f_write res rhs (length pre) (length done) (length todo) = Some s /\ holds s (pre ++ lr).
Proof.
  intros V. induction todo as [|c todo IH]; intros done res pre fill E L H.
  - destruct fill; [|discriminate]. exists res. split; [reflexivity|]. rewrite E. exact H.
  - destruct fill as [|x fill]; [discriminate|]. cbn [length f_write]. rewrite (holds_get rhs lr) by exact V.
    replace (nth_error lr (length done)) with (Some c) by (rewrite E, nth_error_app2, Nat.sub_diag by lia; reflexivity). cbn [option_bind].
    rewrite app_assoc in H. destruct (set_ok res (pre ++ done) x fill c H) as (s' & S' & V'). rewrite app_length in S'.
    rewrite S'. cbn [option_bind]. rewrite <- app_assoc in V'.
    specialize (IH (done ++ [c]) s' pre fill). rewrite app_length in IH. cbn [length] in IH. apply IH.
    + rewrite <- app_assoc. exact E.
    + cbn in L. lia.
    + rewrite <- app_assoc. exact V'.
Qed.

Lemma concat_ok a b la lb : holds a la -> holds b lb -> exists s, f_concat a b = Some s /\ holds s (la ++ lb).
Proof.
  intros Ha Hb. pose proof Ha as [A1 A2]. pose proof Hb as [B1 B2]. unfold f_concat. rewrite A1, B1.
  destruct la as [|x la]; [|destruct lb as [|y lb]].
  - cbn [length Nat.eqb andb]. destruct lb as [|y lb]; cbn [length Nat.eqb]; (eexists; split; [reflexivity|]); [apply (zero_ok 0)|exact Hb].
  - cbn [length Nat.eqb andb]. eexists. split; [reflexivity|]. rewrite app_nil_r. exact Ha.
  - replace (length (x :: la) =? 0) with false by reflexivity. replace (length (y :: lb) =? 0) with false by reflexivity. cbn [andb].
    destruct (from_fstr_ok (length (x :: la) + length (y :: lb)) a _ Ha) as (r & R & V). rewrite R. cbn [option_bind].
    rewrite fit_short in V by lia.
    apply (write_ok b _ Hb (y :: lb) [] r (x :: la) (repeat 0%Z (length (y :: lb)))).
    + reflexivity.
    + apply repeat_length.
    + cbn [app]. replace (length (x :: la) + length (y :: lb) - length (x :: la)) with (length (y :: lb)) in V by lia. exact V.
Qed.
Lemma snoc_ok a la c : holds a la -> exists s, f_snoc a c = Some s /\ holds s (la ++ [c]).
Proof.
  intros Ha. pose proof Ha as [A1 A2]. unfold f_snoc. rewrite A1. destruct (from_fstr_ok (length la + 1) a _ Ha) as (r & R & V). rewrite R. cbn [option_bind].
  rewrite fit_short in V by lia. replace (length la + 1 - length la) with 1 in V by lia. apply (set_ok r la 0%Z [] c). exact V.
Qed.
Lemma cons_ok a la c : holds a la -> exists s, f_cons c a = Some s /\ holds s (c :: la).
Proof.
  intros Ha. pose proof Ha as [A1 A2]. unfold f_cons. rewrite A1. destruct (fill_ok (length la + 1) c) as (r & R & V). rewrite R. cbn [option_bind].
  apply (write_ok a la Ha la [] r [c] (repeat c (length la))); [reflexivity|apply repeat_length|].
  rewrite Nat.add_comm in V. exact V.
Qed.

(* ---- substrings *)
Lemma conv_unsigned_small sw x : (0 <= x < 2 ^ sw)%Z -> conv {| isigned := false; ibits := sw |} x = x.
Proof. intros H. unfold conv. cbn. apply Z.mod_small. exact H. Qed.
Lemma clamp_ok sw T L i : (Z.abs i < 2 ^ sw)%Z -> in_ity T i -> (i = ity_min T -> Z.of_nat L <= - i \/ 0 <= i)%Z ->
  f_clamp sw T L i = py_index L i.
Proof.
  intros H1 H2 H3. unfold f_clamp, py_index. destruct (Nat.eqb_spec L 0) as [->|H]; [destruct (i <? 0)%Z eqn:E; lia|].
  destruct (Z.ltb_spec i 0) as [N|N].
  - assert (S : isigned T = true).
    { destruct (isigned T) eqn:S; [reflexivity|]. unfold in_ity, ity_min in H2. rewrite S in H2. lia. }
    rewrite S. cbn [andb]. destruct (Z.eqb_spec i (ity_min T)) as [M|M]; [specialize (H3 M); lia|].
    rewrite conv_unsigned_small by lia. destruct (Z.leb_spec (Z.of_nat L) (- i)); lia.
  - rewrite andb_false_r. rewrite conv_unsigned_small by lia. unfold clamp.
    destruct (Z.ltb_spec i 0); [lia|]. destruct (Z.ltb_spec (Z.of_nat L) i); lia.
Qed.
Lemma clamp_lowest sw T L i : isigned T = true -> i = ity_min T -> (i < 0)%Z -> f_clamp sw T L i = 0.
Proof.
  intros S H N. unfold f_clamp. destruct (L =? 0); [reflexivity|]. rewrite S. apply Z.ltb_lt in N. rewrite N. cbn [andb].
  rewrite H, Z.eqb_refl. reflexivity.
Qed.

Lemma substr_impl_ok s l a n : holds s l -> exists r, f_substr_impl s a n = Some r /\ holds r (firstn n (skipn a l)).
Proof.
  intros V. pose proof V as [H1 H2]. unfold f_substr_impl. rewrite H1.
  assert (Z0 : forall l', l' = [] -> exists r, Some (f_zero 0) = Some r /\ holds r l') by (intros l' ->; eexists; split; [reflexivity|apply (zero_ok 0)]).
  destruct (Nat.eqb_spec (length l) 0) as [E|E]; cbn [orb].
  { apply Z0. destruct l; [|discriminate]. rewrite skipn_nil. apply firstn_nil. }
  destruct (Nat.eqb_spec n 0) as [E'|E']; cbn [orb]; [apply Z0; subst; reflexivity|].
  destruct (Nat.leb_spec (length l) a) as [G|G]; [apply Z0; rewrite skipn_all2 by lia; apply firstn_nil|].
  set (m := Nat.min (a + Nat.min (length l) n) (length l) - a).
  assert (M : m = Nat.min n (length l - a)) by lia.
  destruct (Nat.eqb_spec m 0) as [Q|Q]; [lia|].
  assert (X : firstn n (skipn a l) = firstn m (skipn a l)).
  { rewrite M. destruct (Nat.le_ge_cases n (length l - a)) as [K|K]; [f_equal; lia|]. rewrite firstn_all2 by (rewrite skipn_length; lia).
    symmetry. apply firstn_all2. rewrite skipn_length. lia. }
  rewrite X. destruct (Nat.eqb_spec a 0) as [->|A].
  - cbn [skipn]. destruct (from_fstr_ok m s l V) as (r & R & W). rewrite fit_long in W by lia. exists r. split; [exact R|exact W].
  - destruct (from_ptr_ok m (skipn a (f_chars s)) m) as (r & R & W).
    { rewrite H2, skipn_length, app_length. cbn. lia. }
    exists r. split; [exact R|]. rewrite fit_long in W by (rewrite firstn_length, skipn_length, H2, app_length; cbn; lia).
    rewrite firstn_firstn, Nat.min_id in W. rewrite H2, skipn_app, firstn_app in W.
    replace (m - length (skipn a l)) with 0 in W by (rewrite skipn_length; lia). cbn in W. rewrite app_nil_r in W. exact W.
Qed.
Lemma slice_impl_ok s l a b : holds s l -> exists r, f_slice_impl s a b = Some r /\ holds r (firstn (b - a) (skipn a l)).
Proof.
  intros V. unfold f_slice_impl. destruct (Nat.leb_spec b a) as [H|H]; [|apply substr_impl_ok, V].
  eexists. split; [reflexivity|]. replace (b - a) with 0 by lia. apply (zero_ok 0).
Qed.

(* ---- comparisons *)
Lemma eq_loop_ok a b la lb : holds a la -> holds b lb -> length la = length lb -> forall n i, n + i = length la ->
  exists r, f_eq_loop a b i n = Some r /\ (r = true <-> skipn i la = skipn i lb).
Proof.
  intros Ha Hb L. induction n as [|n IH]; intros i H.
  - exists true. split; [reflexivity|]. rewrite !skipn_all2 by lia. tauto.
  - cbn [f_eq_loop]. rewrite (holds_get _ _ _ Ha), (holds_get _ _ _ Hb).
    destruct (nth_error la i) as [x|] eqn:X; [|apply nth_error_None in X; lia].
    destruct (nth_error lb i) as [y|] eqn:Y; [|apply nth_error_None in Y; lia]. cbn [option_bind].
    assert (K : forall (l : list Z) z, nth_error l i = Some z -> skipn i l = z :: skipn (i + 1) l).
    { clear. revert i. induction i as [|i IH]; intros [|c l] z E; try discriminate; cbn in *; [congruence|]. apply IH, E. }
    rewrite (K _ _ X), (K _ _ Y). destruct (Z.eqb_spec x y) as [->|N].
    + destruct (IH (i + 1) ltac:(lia)) as (r & R & P). exists r. split; [exact R|]. rewrite P. split; [intros ->; reflexivity|intros Q; congruence].
    + exists false. split; [reflexivity|]. split; [discriminate|]. intros Q. congruence.
Qed.
Lemma eq_ok a b la lb same : holds a la -> holds b lb -> (same = true -> a = b) ->
  exists r, f_eq same a b = Some r /\ (r = true <-> la = lb).
Proof.
  intros Ha Hb Hs. pose proof Ha as [A1 _]. pose proof Hb as [B1 _]. unfold f_eq. rewrite A1, B1.
  destruct (Nat.eqb_spec (length la) (length lb)) as [L|L]; cbn [andb].
  - destruct (Nat.ltb_spec 0 (length la)) as [G|G].
    + destruct same.
      * exists true. split; [reflexivity|]. specialize (Hs eq_refl). subst b. pose proof (holds_inj _ _ _ Ha Hb). tauto.
      * destruct (eq_loop_ok a b la lb Ha Hb L (length la) 0 ltac:(lia)) as (r & R & P). exists r. split; assumption.
    + exists true. split; [reflexivity|]. destruct la; [|cbn in G; lia]. destruct lb; [|discriminate]. tauto.
  - exists false. split; [reflexivity|]. split; [discriminate|congruence].
Qed.

Definition sgn_spec (r : Z) (ka kb : list Z) : Prop :=
  ((r < 0)%Z <-> lex Z.lt ka kb) /\ ((0 < r)%Z <-> lex Z.lt kb ka) /\ (r = 0%Z <-> ka = kb).
Lemma lex_irr l : ~ lex Z.lt l l.
Proof. induction l as [|x l IH]; intros H; inversion H; subst; [lia|auto]. Qed.
Lemma lex_asym : forall l m, lex Z.lt l m -> ~ lex Z.lt m l.
Proof. induction 1; intros K; inversion K; subst; try lia. auto. Qed.
Lemma lex_trans : forall l m, lex Z.lt l m -> forall k, lex Z.lt m k -> lex Z.lt l k.
Proof.
  induction 1 as [y b|x y a b H|x a b H IH]; intros k K; inversion K; subst.
  - constructor.
  - constructor.
  - apply lex_head. lia.
  - apply lex_head. exact H.
  - apply lex_head. assumption.
  - apply lex_tail. apply IH. assumption.
Qed.
Lemma lex_total : forall l m, lex Z.lt l m \/ l = m \/ lex Z.lt m l.
Proof.
  induction l as [|x l IH]; intros [|y m].
  - right. left. reflexivity.
  - left. constructor.
  - right. right. constructor.
  - destruct (Z.lt_trichotomy x y) as [H|[->|H]].
    + left. apply lex_head. exact H.
    + destruct (IH m) as [K|[->|K]]; [left; apply lex_tail, K|right; left; reflexivity|right; right; apply lex_tail, K].
    + right. right. apply lex_head. exact H.
Qed.
Lemma sgn_lt ka kb : lex Z.lt ka kb -> sgn_spec (-1) ka kb.
Proof.
  intros H. split; [split; [intros _; exact H|lia]|]. split; [split; [lia|intros K; exfalso; exact (lex_asym _ _ H K)]|].
  split; [lia|]. intros ->. exfalso. exact (lex_irr _ H).
Qed.
Lemma sgn_gt ka kb : lex Z.lt kb ka -> sgn_spec 1 ka kb.
Proof.
  intros H. split; [split; [lia|intros K; exfalso; exact (lex_asym _ _ H K)]|]. split; [split; [intros _; exact H|lia]|].
  split; [lia|]. intros ->. exfalso. exact (lex_irr _ H).
Qed.
Lemma sgn_eq ka : sgn_spec 0 ka ka.
Proof.
  split; [split; [lia|intros K; exfalso; exact (lex_irr _ K)]|]. split; [split; [lia|intros K; exfalso; exact (lex_irr _ K)]|]. tauto.
Qed.
Lemma tr_ok key : forall n a b ra rb, length a = n -> length b = n ->
  exists r, tr_compare key (a ++ ra) (b ++ rb) n = Some r /\
    ((r = (-1)%Z /\ forall ta tb, lex Z.lt (map key a ++ ta) (map key b ++ tb)) \/
     (r = 1%Z /\ forall ta tb, lex Z.lt (map key b ++ tb) (map key a ++ ta)) \/
     (r = 0%Z /\ map key a = map key b)).
Proof.
  induction n as [|n IH]; intros [|x a] [|y b] ra rb La Lb; try discriminate.
  - exists 0%Z. split; [reflexivity|]. right. right. split; reflexivity.
  - cbn [app tr_compare map]. destruct (Z.ltb_spec (key x) (key y)) as [H|H].
    { eexists. split; [reflexivity|]. left. split; [reflexivity|]. intros. apply lex_head. exact H. }
    destruct (Z.ltb_spec (key y) (key x)) as [H'|H'].
    { eexists. split; [reflexivity|]. right. left. split; [reflexivity|]. intros. apply lex_head. exact H'. }
    assert (E : key x = key y) by lia. rewrite E. destruct (IH a b ra rb) as (r & R & P); [cbn in La; lia|cbn in Lb; lia|].
    exists r. split; [exact R|]. destruct P as [[-> P]|[[-> P]|[-> P]]].
    + left. split; [reflexivity|]. intros. apply lex_tail, P.
    + right. left. split; [reflexivity|]. intros. apply lex_tail, P.
    + right. right. split; [reflexivity|]. rewrite P. reflexivity.
Qed.
Lemma compare_ok key a b la lb : holds a la -> holds b lb ->
  exists r, f_compare key false a b = Some r /\ sgn_spec r (map key la) (map key lb).
Proof.
  intros [A1 A2] [B1 B2]. unfold f_compare. rewrite A1, B1.
  destruct la as [|x la]; [|destruct lb as [|y lb]].
  - cbn [length Nat.ltb Nat.leb andb]. destruct lb as [|y lb]; cbn [length Nat.eqb map].
    + eexists. split; [reflexivity|]. apply sgn_eq.
    + eexists. split; [reflexivity|]. apply sgn_lt. constructor.
  - cbn [length Nat.ltb Nat.leb andb Nat.eqb map]. eexists. split; [reflexivity|]. apply sgn_gt. constructor.
  - set (l := x :: la) in *. set (m := y :: lb) in *.
    replace ((0 <? length l) && (0 <? length m)) with true by reflexivity.
    destruct (Nat.eqb_spec (length l) (length m)) as [L|L].
    + rewrite A2, B2. destruct (tr_ok key (length l) l m [0%Z] [0%Z]) as (r & R & P); [reflexivity|lia|].
      exists r. split; [exact R|]. destruct P as [[-> P]|[[-> P]|[-> P]]].
      * apply sgn_lt. specialize (P [] []). rewrite !app_nil_r in P. exact P.
      * apply sgn_gt. specialize (P [] []). rewrite !app_nil_r in P. exact P.
      * rewrite P. apply sgn_eq.
    + destruct (tr_ok key (Nat.min (length l) (length m)) (firstn (Nat.min (length l) (length m)) l) (firstn (Nat.min (length l) (length m)) m)
                  (skipn (Nat.min (length l) (length m)) l ++ [0%Z]) (skipn (Nat.min (length l) (length m)) m ++ [0%Z])) as (r & R & P);
        [apply firstn_length_le; lia..|].
      rewrite !app_assoc, !firstn_skipn, <- A2, <- B2 in R. rewrite R. cbn [option_bind]. eexists. split; [reflexivity|].
      set (k := Nat.min (length l) (length m)) in *.
      assert (El : map key l = map key (firstn k l) ++ map key (skipn k l)) by (rewrite <- map_app, firstn_skipn; reflexivity).
      assert (Em : map key m = map key (firstn k m) ++ map key (skipn k m)) by (rewrite <- map_app, firstn_skipn; reflexivity).
      rewrite El, Em. assert (K : k = Nat.min (length l) (length m)) by reflexivity. clearbody k.
      destruct P as [[-> P]|[[-> P]|[-> P]]]; cbn [Z.eqb].
      * apply sgn_lt, P.
      * apply sgn_gt, P.
      * rewrite P. assert (T : forall p u v, lex Z.lt u v -> lex Z.lt (p ++ u) (p ++ v)) by (induction p; intros; [assumption|cbn; apply lex_tail; auto]).
        destruct (Nat.ltb_spec (length l) (length m)) as [G|G].
        -- apply sgn_lt, T. rewrite (skipn_all2 l) by lia. cbn [map]. destruct (skipn k m) as [|z r'] eqn:E; [|constructor].
           apply (f_equal (@length Z)) in E. rewrite skipn_length in E. change (length (@nil Z)) with 0 in E. lia.
        -- apply sgn_gt, T. rewrite (skipn_all2 m) by lia. cbn [map]. destruct (skipn k l) as [|z r'] eqn:E; [|constructor].
           apply (f_equal (@length Z)) in E. rewrite skipn_length in E. change (length (@nil Z)) with 0 in E. lia.
Qed.
Lemma three_way_ok a b la lb : holds a la -> holds b lb -> length la = length lb ->
  exists r, f_three_way a b = Some r /\ sgn_spec r la lb.
Proof.
  intros [A1 A2] [B1 B2] L. unfold f_three_way. rewrite A1, B1, L, Nat.eqb_refl, A2, B2.
  destruct (tr_ok (fun c => c) (length lb + 1) (la ++ [0%Z]) (lb ++ [0%Z]) [] []) as (r & R & P); [rewrite app_length; cbn; lia..|].
  rewrite !app_nil_r in R. exists r. split; [exact R|]. rewrite !map_id in P.
  assert (Q : forall l m, length l = length m -> lex Z.lt (l ++ [0%Z]) (m ++ [0%Z]) -> lex Z.lt l m).
  { clear. induction l as [|x l IH]; intros [|y m] H K; try discriminate; cbn [app] in K; inversion K; subst; try lia.
    - match goal with H : lex _ [] [] |- _ => inversion H end.
    - apply lex_head. assumption.
    - apply lex_tail. apply IH; [cbn in H; lia|assumption]. }
  destruct P as [[-> P]|[[-> P]|[-> P]]].
  - apply sgn_lt, Q; [exact L|]. specialize (P [] []). rewrite !app_nil_r in P. exact P.
  - apply sgn_gt, Q; [lia|]. specialize (P [] []). rewrite !app_nil_r in P. exact P.
  - apply app_inv_tail in P. subst. apply sgn_eq.
Qed.
