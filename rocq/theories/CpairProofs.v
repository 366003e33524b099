(** Proofs about compressed_pair: the layout. *)
From Coq Require Import Arith List Bool Lia.
From Verif Require Import Words CpairModel CpairSpec.
Import ListNotations.
Local Open Scope nat_scope.

Lemma up_spec : forall a x, 0 < a -> multiple_at_least a x (up a x).
Proof.
  intros a x Ha. unfold up, multiple_at_least.
  pose proof (Nat.div_mod (x + (a - 1)) a ltac:(lia)) as D.
  pose proof (Nat.mod_upper_bound (x + (a - 1)) a ltac:(lia)) as M.
  set (q := (x + (a - 1)) / a) in *. set (r := (x + (a - 1)) mod a) in *.
  split; [exists q; reflexivity |]. split; [nia |].
  intros z [k ->] Hz. destruct (le_lt_dec q k) as [L | L]; nia.
Qed.
Lemma mal_unique : forall a x y z, multiple_at_least a x y -> multiple_at_least a x z -> y = z.
Proof. intros a x y z (A & B & C) (A' & B' & C'). specialize (C z A' B'). specialize (C' y A B). lia. Qed.

Lemma cid_eqb_eq : forall x y, cid_eqb x y = true <-> x = y.
Proof.
  induction x as [n l | a IHa b IHb | a IHa b IHb]; intros [n' l' | a' b' | a' b']; cbn [cid_eqb];
    try (split; [discriminate | intros E; discriminate E]).
  - rewrite andb_true_iff, N.eqb_eq, Nat.eqb_eq. split; [intros [-> ->]; reflexivity | intros E; inversion E; auto].
  - rewrite andb_true_iff, IHa, IHb. split; [intros [-> ->]; reflexivity | intros E; inversion E; auto].
  - rewrite andb_true_iff, IHa, IHb. split; [intros [-> ->]; reflexivity | intros E; inversion E; auto].
Qed.

Lemma in_at : forall off l o c, In (o, c) (at_offset off l) <-> exists k, o = off + k /\ In (k, c) l.
Proof.
  intros off l o c. unfold at_offset. rewrite in_map_iff. split.
  - intros ((k, c') & E & I). cbn [fst snd] in E. inversion E; subst. exists k. auto.
  - intros (k & -> & I). exists (k, c). auto.
Qed.
Lemma occupied_in : forall subs o c, occupied subs (o, c) = true <-> In (o, c) subs.
Proof.
  intros subs o c. unfold occupied. rewrite existsb_exists. split.
  - intros ((a, d) & I & E). cbn [fst snd] in E. apply andb_true_iff in E as [E1 E2]. apply Nat.eqb_eq in E1. apply cid_eqb_eq in E2. subst. exact I.
  - intros I. exists (o, c). split; [exact I |]. cbn [fst snd]. apply andb_true_iff. split; [apply Nat.eqb_refl | apply cid_eqb_eq; reflexivity].
Qed.
Lemma conflict_in : forall subs off t, conflict subs off t = true <-> exists k c, In (k, c) (t_subs t) /\ In (off + k, c) subs.
Proof.
  intros subs off t. unfold conflict. rewrite existsb_exists. split.
  - intros ((o, c) & I & Q). apply in_at in I as (k & -> & I). apply occupied_in in Q. exists k, c. auto.
  - intros (k & c & I & Q). exists (off + k, c). split; [apply in_at; exists k; auto | apply occupied_in; exact Q].
Qed.

Lemma find_low : forall fuel subs off t, off <= find fuel subs off t.
Proof. induction fuel as [| k IH]; intros; cbn [find]; [lia |]. destruct (conflict subs off t); [| lia]. specialize (IH subs (off + t_align t) t). lia. Qed.
Lemma find_aligned : forall fuel subs off t, Nat.divide (t_align t) off -> Nat.divide (t_align t) (find fuel subs off t).
Proof.
  induction fuel as [| k IH]; intros subs off t D; cbn [find]; [exact D |].
  destruct (conflict subs off t); [| exact D]. apply IH. apply Nat.divide_add_r; [exact D | apply Nat.divide_refl].
Qed.
Lemma beyond : forall subs B off t, (forall o c, In (o, c) subs -> o < B) -> B <= off -> conflict subs off t = false.
Proof.
  intros subs B off t H L. destruct (conflict subs off t) eqn:E; [| reflexivity].
  apply conflict_in in E as (k & c & _ & I). apply H in I. lia.
Qed.
Lemma find_free : forall fuel subs B off t, 0 < t_align t -> (forall o c, In (o, c) subs -> o < B) -> B < off + fuel ->
  conflict subs (find fuel subs off t) t = false.
Proof.
  induction fuel as [| k IH]; intros subs B off t Ha H L; cbn [find].
  - apply (beyond subs B); [exact H | lia].
  - destruct (conflict subs off t) eqn:E; [| exact E]. apply (IH _ B); [exact Ha | exact H | lia].
Qed.
Lemma find_high : forall fuel subs B off t m, 0 < t_align t -> (forall o c, In (o, c) subs -> o < B) ->
  Nat.divide (t_align t) off -> Nat.divide (t_align t) m -> off <= m -> B <= m -> find fuel subs off t <= m.
Proof.
  induction fuel as [| k IH]; intros subs B off t m Ha H D Dm L Lb; cbn [find]; [exact L |].
  destruct (conflict subs off t) eqn:E; [| exact L].
  apply (IH _ B); try assumption.
  - apply Nat.divide_add_r; [exact D | apply Nat.divide_refl].
  - assert (off <> m) as N by (intros ->; rewrite (beyond subs B m t H Lb) in E; discriminate).
    destruct D as [x ->], Dm as [y ->]. assert (x < y) by nia. nia.
Qed.

Record inv (n : nat) (st : state) : Prop := {
  v_align : exists k, s_align st = 2 ^ k;
  v_data : s_dsize st <= s_size st;
  v_in : forall o c, In (o, c) (s_subs st) -> o < s_size st;
  v_made : forall o c, In (o, c) (s_subs st) -> depth c <= n;
  v_unique : NoDup (s_subs st) }.

Lemma inv_start : forall n, inv n start.
Proof. intros n. split; cbn; try (intros o c []); [exists 0; reflexivity | lia | constructor]. Qed.
Lemma pow_pos : forall k, 0 < 2 ^ k.
Proof. intros k. pose proof (Nat.pow_nonzero 2 k ltac:(lia)). lia. Qed.
Lemma good_pos : forall t, good t -> 0 < t_align t.
Proof. intros t G. destruct (g_align t G) as [k ->]. apply pow_pos. Qed.
Lemma max_pow : forall a b, (exists k, a = 2 ^ k) -> (exists k, b = 2 ^ k) -> (exists k, Nat.max a b = 2 ^ k).
Proof.
  intros a b [k ->] [j ->]. destruct (Nat.max_spec (2 ^ k) (2 ^ j)) as [[_ ->] | [_ ->]]; eauto.
Qed.
Lemma pow_divide : forall k j, 2 ^ k <= 2 ^ j -> Nat.divide (2 ^ k) (2 ^ j).
Proof.
  intros k j L. apply Nat.pow_le_mono_r_iff in L; [| lia]. exists (2 ^ (j - k)). rewrite <- Nat.pow_add_r. f_equal. lia.
Qed.
Lemma max_divide : forall a b, (exists k, a = 2 ^ k) -> (exists k, b = 2 ^ k) -> Nat.divide a (Nat.max a b) /\ Nat.divide b (Nat.max a b).
Proof.
  intros a b [k ->] [j ->]. split; apply Nat.max_case_strong; intros L; try apply Nat.divide_refl; apply pow_divide; exact L.
Qed.

Lemma nodup_app : forall {A} (l m : list A), NoDup l -> NoDup m -> (forall x, In x l -> ~ In x m) -> NoDup (l ++ m).
Proof.
  intros A l m Hl Hm H. induction Hl as [| x l N Hl IH]; [exact Hm |]. cbn [app]. constructor.
  - rewrite in_app_iff. intros [I | I]; [exact (N I) | exact (H x (or_introl eq_refl) I)].
  - apply IH. intros y I. apply H. right. exact I.
Qed.
Lemma nodup_at : forall off l, NoDup l -> NoDup (at_offset off l).
Proof.
  intros off l N. induction N as [| (o, c) l NI N IH]; cbn [at_offset map]; [constructor |]. constructor; [| exact IH].
  intros I. apply in_at in I as (k & E & I). cbn [fst] in E. assert (k = o) by lia. subst. exact (NI I).
Qed.

(** What placing one more component does. *)
Lemma place_facts : forall nua st k t off st' n, inv n st -> good t -> depth (t_id t) <= n -> place nua st k t = (off, st') ->
  Nat.divide (t_align t) off /\ conflict (s_subs st) off t = false /\ inv n st' /\
  (forall m, Nat.divide (t_align t) m -> s_size st <= m -> off <= m) /\
  (overlapping nua k && t_empty t = false -> s_dsize st <= off) /\
  s_size st' = Nat.max (s_size st) (off + t_size t) /\
  s_align st' = Nat.max (s_align st) (t_align t) /\
  s_subs st' = s_subs st ++ at_offset off (t_subs t) /\
  s_dsize st' = (if overlapping nua k && t_empty t then s_dsize st else off + (if overlapping nua k then t_dsize t else t_size t)).
Proof.
  intros nua st k t off st' n V G Dp E. unfold place in E. inversion E as [[Eo Es]]. clear E Es.
  pose proof (good_pos t G) as Ha. destruct (up_spec (t_align t) (s_dsize st) Ha) as (U1 & U2 & U3).
  set (u := up (t_align t) (s_dsize st)) in *.
  set (nx := find (S (s_size st)) (s_subs st) u t) in *.
  assert (conflict (s_subs st) nx t = false) as Fn.
  { apply (find_free _ _ (s_size st)); [exact Ha | apply (v_in n st V) | lia]. }
  assert (u <= nx) as Ln by apply find_low.
  assert (Nat.divide (t_align t) nx) as Dn by (apply find_aligned; exact U1).
  assert (forall m, Nat.divide (t_align t) m -> s_size st <= m -> nx <= m) as Hn.
  { intros m Dm Lm. apply (find_high _ _ (s_size st)); try assumption; [apply (v_in n st V) |].
    apply U3; [exact Dm |]. pose proof (v_data n st V). lia. }
  rewrite Eo.
  assert (Nat.divide (t_align t) off) as D0. { subst off. destruct (overlapping nua k && t_empty t); [| exact Dn]. destruct (conflict (s_subs st) 0 t); [exact Dn | apply Nat.divide_0_r]. }
  assert (conflict (s_subs st) off t = false) as F0.
  { subst off. destruct (overlapping nua k && t_empty t); [| exact Fn]. destruct (conflict (s_subs st) 0 t) eqn:E; [exact Fn | exact E]. }
  assert (forall m, Nat.divide (t_align t) m -> s_size st <= m -> off <= m) as H0.
  { intros m Dm Lm. subst off. destruct (overlapping nua k && t_empty t); [| apply Hn; assumption]. destruct (conflict (s_subs st) 0 t); [apply Hn; assumption | lia]. }
  split; [exact D0 |]. split; [exact F0 |]. split; [| split; [exact H0 |]].
  - split; cbn [s_align s_dsize s_size s_subs].
    + apply max_pow; [apply (v_align n st V) | apply (g_align t G)].
    + pose proof (v_data n st V). pose proof (g_data t G). destruct (overlapping nua k && t_empty t); [lia |]. destruct (overlapping nua k); lia.
    + intros o c I. apply in_app_iff in I as [I | I]; [apply (v_in n st V) in I; lia |].
      apply in_at in I as (j & -> & I). apply (g_in t G) in I. lia.
    + intros o c I. apply in_app_iff in I as [I | I]; [apply (v_made n st V) in I; lia |].
      apply in_at in I as (j & -> & I). apply (g_made t G) in I. lia.
    + apply nodup_app; [apply (v_unique n st V) | apply nodup_at; apply (g_unique t G) |].
      intros (o, c) I J. apply in_at in J as (j & -> & J).
      assert (conflict (s_subs st) off t = true) as C by (apply conflict_in; eauto). rewrite C in F0. discriminate.
  - split; [| repeat split; reflexivity].
    intros B. rewrite B in Eo. rewrite <- Eo. apply (Nat.le_trans _ u); assumption.
Qed.

(** Two components, one after the other, in an empty class. *)
Lemma two_places : forall nua k1 k2 t1 t2 o1 st1 o2 st2, good t1 -> good t2 ->
  place nua start k1 t1 = (o1, st1) -> place nua st1 k2 t2 = (o2, st2) ->
  let n := Nat.max (depth (t_id t1)) (depth (t_id t2)) in
  inv n st2 /\ o1 = 0 /\ Nat.divide (t_align t2) o2 /\ ~ clash 0 t1 o2 t2 /\
  s_size st2 = Nat.max (t_size t1) (o2 + t_size t2) /\
  s_align st2 = Nat.max (t_align t1) (t_align t2) /\
  s_subs st2 = at_offset 0 (t_subs t1) ++ at_offset o2 (t_subs t2) /\
  (forall m, Nat.divide (t_align t2) m -> t_size t1 <= m -> o2 <= m) /\
  (overlapping nua k1 && t_empty t1 = true \/ overlapping nua k2 && t_empty t2 = true \/
   (if overlapping nua k1 then t_dsize t1 else t_size t1) <= o2) /\
  (overlapping nua k1 && t_empty t1 = true \/ overlapping nua k2 && t_empty t2 = true -> ~ clash 0 t1 0 t2 -> o2 = 0) /\
  s_dsize st2 <= s_size st2 /\
  s_dsize st2 = (if overlapping nua k2 && t_empty t2 then (if overlapping nua k1 && t_empty t1 then 0 else (if overlapping nua k1 then t_dsize t1 else t_size t1))
     else o2 + (if overlapping nua k2 then t_dsize t2 else t_size t2)).
Proof.
  intros nua k1 k2 t1 t2 o1 st1 o2 st2 G1 G2 P1 P2 n.
  assert (depth (t_id t1) <= n) as D1 by (unfold n; lia). assert (depth (t_id t2) <= n) as D2 by (unfold n; lia).
  destruct (place_facts _ _ _ _ _ _ n (inv_start n) G1 D1 P1) as (A1 & F1 & V1 & H1 & L1 & S1 & Al1 & Sb1 & Ds1).
  destruct (place_facts _ _ _ _ _ _ n V1 G2 D2 P2) as (A2 & F2 & V2 & H2 & L2 & S2 & Al2 & Sb2 & Ds2).
  assert (o1 = 0) as Z. { specialize (H1 0 (Nat.divide_0_r _) (Nat.le_refl 0)). lia. }
  subst o1. cbn [start s_subs s_size s_dsize s_align] in *.
  assert (s_subs st1 = at_offset 0 (t_subs t1)) as Sb by (rewrite Sb1; reflexivity).
  assert (s_size st1 = t_size t1) as Ss by (rewrite S1; lia).
  assert (forall o, conflict (s_subs st1) o t2 = true <-> clash 0 t1 o t2) as CC.
  { intros o. rewrite conflict_in, Sb. unfold clash. split.
    - intros (k & c & I & J). apply in_at in J as (j & E & J). exists j, k, c. split; [exact J |]. split; [exact I | lia].
    - intros (a & b & c & I & J & E). exists b, c. split; [exact J |]. apply in_at. exists a. split; [lia | exact I]. }
  split; [exact V2 |]. split; [reflexivity |]. split; [exact A2 |]. split; [intros C; apply CC in C; rewrite C in F2; discriminate |].
  split; [rewrite S2, Ss; reflexivity |]. split; [rewrite Al2, Al1; pose proof (good_pos t1 G1); lia |]. split; [rewrite Sb2, Sb; reflexivity |].
  split; [rewrite <- Ss; exact H2 |].
  split.
  { destruct (overlapping nua k1 && t_empty t1); [left; reflexivity | right].
    destruct (overlapping nua k2 && t_empty t2); [left; reflexivity | right]. specialize (L2 eq_refl). lia. }
  split.
  { intros B N. assert (conflict (s_subs st1) 0 t2 = false) as F. { destruct (conflict (s_subs st1) 0 t2) eqn:E; [| reflexivity]. apply CC in E. contradiction. }
    unfold place in P2. inversion P2 as [[Eo Es]]. clear P2 Es.
    destruct (overlapping nua k2 && t_empty t2) eqn:B2; [rewrite F; reflexivity |].
    destruct B as [B | B]; [| discriminate]. rewrite B in Ds1. rewrite Ds1.
    assert (up (t_align t2) 0 = 0) as U. { unfold up. rewrite Nat.div_small; [reflexivity |]. pose proof (good_pos t2 G2). lia. }
    rewrite U. cbn [find]. rewrite F. reflexivity. }
  split; [exact (v_data n st2 V2) |].
  rewrite Ds2, Ds1. reflexivity.
Qed.
