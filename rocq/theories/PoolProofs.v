From Coq Require Import Lia Permutation.
From Verif Require Import Words EarrModel EarrProofs SparamProofs PoolModel PoolSpec.
Local Open Scope nat_scope.

(* ------------------------------------------------------------------ lists *)
Lemma frame_list {A B} (f : A -> list B) l : forall i old, nth_error l i = Some old ->
  exists R, Permutation (flat_map f l) (f old ++ R) /\ forall x, Permutation (flat_map f (upd l i x)) (f x ++ R).
Proof.
  induction l as [|y l IH]; intros [|i] old H; try discriminate H; cbn in H.
  - injection H as ->. exists (flat_map f l). split; [reflexivity|]. intros x. reflexivity.
  - destruct (IH _ _ H) as (R & P1 & P2). exists (f y ++ R). split; [|intros x].
    + cbn [flat_map]. rewrite P1. rewrite !app_assoc. apply Permutation_app_tail, Permutation_app_comm.
    + cbn [upd flat_map]. rewrite (P2 x). rewrite !app_assoc. apply Permutation_app_tail, Permutation_app_comm.
Qed.
Lemma flat_map_ext_in {A B} (f g : A -> list B) l : (forall x, In x l -> f x = g x) -> flat_map f l = flat_map g l.
Proof. induction l as [|x l IH]; intros H; cbn; [reflexivity|]. rewrite IH by (intros y Hy; apply H; right; exact Hy). rewrite (H x (or_introl eq_refl)). reflexivity. Qed.
Lemma frame_fun {B} (f : nat -> list B) q n : forall a, a <= q < a + n ->
  exists R, forall g, (forall k, k <> q -> g k = f k) -> Permutation (flat_map g (seq a n)) (g q ++ R).
Proof.
  induction n as [|n IH]; intros a H; [lia|]. destruct (Nat.eq_dec a q) as [->|N].
  - exists (flat_map f (seq (S q) n)). intros g E. cbn [seq flat_map]. apply Permutation_app_head. rewrite (flat_map_ext_in g f); [reflexivity|].
    intros k Hk. apply in_seq in Hk. apply E. lia.
  - destruct (IH (S a) ltac:(lia)) as (R & P). exists (f a ++ R). intros g E. cbn [seq flat_map]. rewrite (P g E), (E a N). rewrite !app_assoc. apply Permutation_app_tail, Permutation_app_comm.
Qed.
Lemma flat_map_len_le {B C} (f : nat -> list B) (g : nat -> list C) l : (forall k, length (f k) <= length (g k)) -> length (flat_map f l) <= length (flat_map g l).
Proof. intros H. induction l as [|x l IH]; cbn; [lia|]. rewrite !app_length. specialize (H x). lia. Qed.
Lemma upd_same_id {A} (l : list A) : forall i x, nth_error l i = Some x -> upd l i x = l.
Proof. induction l as [|y l IH]; intros [|i] x H; cbn in *; try discriminate; [congruence|]. f_equal. apply IH. exact H. Qed.

Definition fset {B} (c : nat -> B) (q : nat) (x : B) : nat -> B := fun k => if k =? q then x else c k.
Lemma fset_same {B} (c : nat -> B) q x : fset c q x q = x. Proof. unfold fset. rewrite Nat.eqb_refl. reflexivity. Qed.
Lemma fset_other {B} (c : nat -> B) q x k : k <> q -> fset c q x k = c k.
Proof. intros H. unfold fset. destruct (Nat.eqb_spec k q); [contradiction|reflexivity]. Qed.

Section P.
  Context {A : Type}.
  Variables (M cap : nat).
  Hypotheses (Hcap : 0 < cap) (HM : cap < M).
  Notation queue := (@queue A). Notation state := (@state A). Notation event := (@event A).

  (* ---------------------------------------------------------------- ring *)
  Definition slot (p : nat) : nat := (p mod M) mod cap.
  Lemma slot_lt p : slot p < cap. Proof. unfold slot. apply Nat.mod_upper_bound. lia. Qed.
  Lemma mod_M p : p mod M < M. Proof. apply Nat.mod_upper_bound. lia. Qed.

  Lemma mod_near a b n : n <> 0 -> a < b -> b - a < n -> a mod n <> b mod n.
  Proof.
    intros N L D E. pose proof (Nat.div_mod a n N) as Ea. pose proof (Nat.div_mod b n N) as Eb. rewrite <- E in Eb.
    assert (b - a = n * (b / n - a / n)) by nia. destruct (b / n - a / n); nia.
  Qed.
  Lemma slot_inj p p' : (M mod cap = 0 \/ (p < M /\ p' < M)) -> p < p' -> p' - p < cap -> slot p <> slot p'.
  Proof.
    intros H L D. unfold slot. destruct H as [H|[H1 H2]].
    - assert (E : forall x, (x mod M) mod cap = x mod cap).
      { intros x. pose proof (Nat.div_mod x M ltac:(lia)) as X. pose proof (Nat.div_mod M cap ltac:(lia)) as Y. rewrite H, Nat.add_0_r in Y.
        rewrite X at 2. rewrite Y at 2. rewrite <- Nat.mul_assoc, Nat.add_comm, Nat.mul_comm, Nat.mod_add by lia. reflexivity. }
      rewrite !E. apply mod_near; lia.
    - rewrite !(Nat.mod_small _ M) by assumption. apply mod_near; lia.
  Qed.

  (** Queue [Q] holds [l] from position [F] on, and [a] further slots are acquired. *)
  Definition ring (Q : queue) (l : list A) (F a : nat) : Prop :=
    q_front Q = F mod M /\ q_back Q = (F + length l + a) mod M /\ length l + a <= cap /\ length (q_slots Q) = cap /\
    (forall k t, nth_error l k = Some t -> nth_error (q_slots Q) (slot (F + k)) = Some (Some t)) /\
    (forall j, j < cap -> (forall k, k < length l -> slot (F + k) <> j) -> nth_error (q_slots Q) j = Some None).

  Lemma ring_size Q l F a : ring Q l F a -> size M Q = length l + a.
  Proof.
    intros (E1 & E2 & L & _). unfold size. rewrite E1, E2. set (n := length l + a) in *. replace (F + length l + a) with (F + n) by (unfold n; lia).
    pose proof (mod_M F) as B. rewrite Nat.add_mod by lia. rewrite (Nat.mod_small n M) by lia.
    destruct (lt_dec (F mod M + n) M) as [C|C].
    - rewrite (Nat.mod_small (F mod M + n)) by exact C. replace (F mod M + n + M - F mod M) with (n + 1 * M) by lia. rewrite Nat.mod_add by lia. apply Nat.mod_small. lia.
    - assert ((F mod M + n) mod M = F mod M + n - M) as ->. { symmetry. apply (Nat.mod_unique _ _ 1); lia. }
      replace (F mod M + n - M + M - F mod M) with n by lia. apply Nat.mod_small. lia.
  Qed.
  Lemma ring_empty Q l F : ring Q l F 0 -> (empty Q = true <-> l = []).
  Proof.
    intros R. pose proof (ring_size _ _ _ _ R) as SZ. destruct R as (E1 & E2 & L & _). unfold empty. split.
    - intros H. apply Nat.eqb_eq in H. unfold size in SZ. rewrite H in SZ. replace (q_front Q + M - q_front Q) with (0 + 1 * M) in SZ by lia. rewrite Nat.mod_add, Nat.mod_small in SZ by lia. destruct l; [reflexivity|cbn in SZ; lia].
    - intros ->. cbn [length] in E2. rewrite !Nat.add_0_r in E2. apply Nat.eqb_eq. congruence.
  Qed.

  Lemma ring_owner Q l F a o : ring Q l F a -> ring (set_owner Q o) l F a.
  Proof. intros H. exact H. Qed.
  Lemma ring_enq Q l F a n : ring Q l F a -> ring (set_enq Q n) l F a.
  Proof. intros H. exact H. Qed.

  (** The positions in use can be told apart by their slots. *)
  Definition apart (F n : nat) : Prop := M mod cap = 0 \/ F + n <= M.
  Lemma apart_inj F n k k' : apart F n -> n <= cap -> k < n -> k' < n -> k <> k' -> slot (F + k) <> slot (F + k').
  Proof.
    intros H N K K' D. destruct (lt_dec k k') as [L|L].
    - apply slot_inj; [destruct H; [left; assumption|right; lia]|lia|lia].
    - intros E. symmetry in E. revert E. apply slot_inj; [destruct H; [left; assumption|right; lia]|lia|lia].
  Qed.

  Lemma ring_pop Q t l F : apart F (S (length l)) -> ring Q (t :: l) F 0 ->
    exists Q', pop_front M cap Q = Some (t, Q') /\ ring Q' l (F + 1) 0 /\ q_owner Q' = q_owner Q /\ q_term Q' = q_term Q /\ q_alive Q' = q_alive Q /\ q_enq Q' = q_enq Q.
  Proof.
    intros AP (E1 & E2 & L & LS & S1 & S2). cbn [length] in *. unfold pop_front. rewrite E1.
    pose proof (S1 0 t eq_refl) as H0. rewrite Nat.add_0_r in H0. change (F mod M mod cap) with (slot F). rewrite H0. eexists. split; [reflexivity|].
    cbn [q_owner q_term q_alive q_enq]. split; [|repeat split]. unfold ring. cbn [q_front q_back q_slots]. rewrite upd_length. split; [rewrite <- Nat.add_mod_idemp_l by lia; rewrite Nat.add_mod_idemp_l by lia; rewrite Nat.add_mod_idemp_l by lia; reflexivity|]. split; [rewrite E2; f_equal; lia|]. split; [lia|]. split; [exact LS|]. split.
    - intros k u Hk. rewrite upd_other.
      + replace (F + 1 + k) with (F + S k) by lia. apply (S1 (S k)). exact Hk.
      + replace (F + 1 + k) with (F + S k) by lia. replace F with (F + 0) at 1 by lia. apply (apart_inj F (S (length l))); try assumption; try lia. apply nth_len in Hk. lia.
    - intros j Hj Hn. destruct (Nat.eq_dec (slot F) j) as [<-|N].
      + apply upd_same. rewrite LS. apply slot_lt.
      + rewrite upd_other by exact N. apply S2; [exact Hj|]. intros [|k] Hk; [rewrite Nat.add_0_r; exact N|]. replace (F + S k) with (F + 1 + k) by lia. apply Hn. lia.
  Qed.

  Lemma ring_acquire Q l F : ring Q l F 0 -> length l < cap ->
    exists Q', acquire M cap Q = Some (slot (F + length l), Q') /\ ring Q' l F 1 /\ q_owner Q' = q_owner Q /\ q_term Q' = q_term Q /\ q_alive Q' = q_alive Q /\ q_enq Q' = q_enq Q + 1.
  Proof.
    intros R L. pose proof (ring_size _ _ _ _ R) as SZ. destruct R as (E1 & E2 & L0 & LS & S1 & S2). unfold acquire, full. rewrite SZ.
    replace (cap <=? length l + 0) with false by (symmetry; apply Nat.leb_gt; lia). eexists. split; [rewrite E2, Nat.add_0_r; reflexivity|].
    cbn [q_owner q_term q_alive q_enq]. split; [|repeat split]. unfold ring. cbn [q_front q_back q_slots]. split; [exact E1|]. split; [rewrite Nat.add_mod_idemp_l by lia; f_equal; lia|]. split; [lia|]. split; [exact LS|]. split; assumption.
  Qed.

  Lemma ring_construct Q l F t : apart F (S (length l)) -> ring Q l F 1 ->
    nth_error (q_slots Q) (slot (F + length l)) = Some None /\ ring (set_slots Q (upd (q_slots Q) (slot (F + length l)) (Some t))) (l ++ [t]) F 0.
  Proof.
    intros AP (E1 & E2 & L & LS & S1 & S2). split.
    - apply S2; [apply slot_lt|]. intros k Hk. apply (apart_inj F (S (length l))); try assumption; lia.
    - unfold ring. cbn [set_slots q_front q_back q_slots]. rewrite app_length, upd_length. cbn [length]. split; [exact E1|]. split; [rewrite E2; f_equal; lia|]. split; [lia|]. split; [exact LS|]. split.
      + intros k u Hk. destruct (lt_dec k (length l)) as [B|B].
        * rewrite nth_error_app1 in Hk by exact B. rewrite upd_other; [apply S1; exact Hk|]. apply (apart_inj F (S (length l))); try assumption; lia.
        * pose proof (nth_len _ _ _ Hk) as Q1. rewrite app_length in Q1. cbn in Q1. assert (k = length l) by lia. subst k. rewrite nth_app_mid in Hk. injection Hk as <-. apply upd_same. rewrite LS. apply slot_lt.
      + intros j Hj Hn. destruct (Nat.eq_dec (slot (F + length l)) j) as [E|N]; [exfalso; apply (Hn (length l)); [lia|exact E]|].
        rewrite upd_other by exact N. apply S2; [exact Hj|]. intros k Hk. apply Hn. lia.
  Qed.

  Lemma ring_last Q l F : ring Q l F 0 -> l <> [] -> exists t, nth_error (q_slots Q) (((q_front Q + (size M Q - 1)) mod M) mod cap) = Some (Some t).
  Proof.
    intros R N. pose proof (ring_size _ _ _ _ R) as SZ. destruct R as (E1 & E2 & L & LS & S1 & S2). rewrite SZ, E1, Nat.add_0_r, Nat.add_mod_idemp_l by lia.
    destruct l as [|x l] using rev_ind; [congruence|]. exists x. rewrite app_length. cbn [length]. replace (length l + 1 - 1) with (length l) by lia. apply (S1 (length l)). apply nth_app_mid.
  Qed.

  Lemma ring_drain l : forall Q F, apart F (length l) -> ring Q l F 0 ->
    exists Q', drain M cap (length l) Q = Some (l, Q') /\ ring Q' [] (F + length l) 0 /\ q_owner Q' = q_owner Q /\ q_term Q' = q_term Q /\ q_alive Q' = q_alive Q /\ q_enq Q' = q_enq Q.
  Proof.
    induction l as [|t l IH]; intros Q F AP R.
    - exists Q. cbn. rewrite Nat.add_0_r. repeat split; apply R.
    - destruct (ring_pop Q t l F AP R) as (Q1 & P & R1 & H1 & H2 & H3 & H4). destruct (IH Q1 (F + 1)) as (Q2 & D & R2 & K1 & K2 & K3 & K4); [destruct AP as [AP|AP]; [left; exact AP|right; cbn in AP; lia]|exact R1|].
      exists Q2. cbn [length drain]. rewrite P. cbn [option_bind fst snd]. rewrite D. cbn [option_bind fst snd]. split; [reflexivity|]. split; [cbn [length]; replace (F + S (length l)) with (F + 1 + length l) by lia; exact R2|]. repeat split; congruence.
  Qed.

  Lemma content_ring_aux (Q : queue) (l : list A) F n : forall k, (forall i t, nth_error l i = Some t -> nth_error (q_slots Q) (slot (F + (k + i))) = Some (Some t)) -> n = length l ->
    flat_map (fun i => match nth_error (q_slots Q) (slot (F + i)) with Some (Some t) => [t] | _ => [] end) (seq k n) = l.
  Proof.
    revert l. induction n as [|n IH]; intros [|t l] k H E; try discriminate; cbn [seq flat_map]; [reflexivity|].
    pose proof (H 0 t eq_refl) as H0. rewrite Nat.add_0_r in H0. rewrite H0. cbn [app]. f_equal. apply IH; [|cbn in E; lia]. intros i u Hi. replace (S k + i) with (k + S i) by lia. apply H. exact Hi.
  Qed.
  Lemma content_ring Q l F a : a <= 1 -> (a = 1 -> apart F (S (length l))) -> ring Q l F a -> content M cap Q = l.
  Proof.
    intros Ha AP R. pose proof (ring_size _ _ _ _ R) as SZ. destruct R as (E1 & E2 & L & LS & S1 & S2). unfold content. rewrite SZ.
    assert (G : forall k, ((q_front Q + k) mod M) mod cap = slot (F + k)) by (intros k; rewrite E1, Nat.add_mod_idemp_l by lia; reflexivity).
    rewrite (flat_map_ext_in _ (fun i => match nth_error (q_slots Q) (slot (F + i)) with Some (Some t) => [t] | _ => [] end)) by (intros k _; rewrite G; reflexivity).
    rewrite seq_app, flat_map_app. rewrite (content_ring_aux Q l F (length l) 0) by (try reflexivity; exact S1).
    destruct a as [|[|a]]; [cbn; apply app_nil_r| |lia]. specialize (AP eq_refl). cbn [seq flat_map].
    rewrite S2; [apply app_nil_r|apply slot_lt|]. intros k Hk. apply (apart_inj F (S (length l))); try assumption; lia.
  Qed.

  (* ---------------------------------------------------------------- events *)
  Lemma inserted_app q (a b : list event) : inserted q (a ++ b) = inserted q a ++ inserted q b. Proof. apply flat_map_app. Qed.
  Lemma removed_app q (a b : list event) : removed q (a ++ b) = removed q a ++ removed q b. Proof. apply flat_map_app. Qed.
  Lemma all_inserted_app (a b : list event) : all_inserted (a ++ b) = all_inserted a ++ all_inserted b. Proof. apply flat_map_app. Qed.
  Lemma invoked_app (a b : list event) : invoked (a ++ b) = invoked a ++ invoked b. Proof. apply flat_map_app. Qed.
  Lemma finished_app (a b : list event) : finished (a ++ b) = finished a ++ finished b. Proof. apply flat_map_app. Qed.
  Lemma dropped_app (a b : list event) : dropped (a ++ b) = dropped a ++ dropped b. Proof. apply flat_map_app. Qed.

  (* ------------------------------------------------------------- invariant *)
  Definition hold_w (p : @wpc A) : option nat := match p with WLocked q | WLeave q | WGot q _ => Some q | _ => None end.
  Definition hold_c (p : @cpc A) : option nat := match p with CCheck q _ | CFill q _ _ | CCons q _ _ _ | CLeave q => Some q | _ => None end.
  Definition pc_acq (q : nat) (c : @cpc A) : nat := match c with CCons q' _ _ _ => if q' =? q then 1 else 0 | _ => 0 end.
  Definition acq (s : state) (q : nat) : nat :=
    match nth_error (queues s) q with
    | Some Q => match q_owner Q with Some (C j) => match nth_error (clients s) j with Some c => pc_acq q c | None => 0 end | _ => 0 end
    | None => 0
    end.
  Definition pc_ok (s : state) (tr : list event) (c : nat -> list A) (p : @cpc A) : Prop :=
    match p with
    | CCheck q ts => ts <> [] /\ forall Q, nth_error (queues s) q = Some Q -> q_enq Q = 0
    | CFill q d ts => d ++ ts <> [] /\ length (c q) + length ts <= cap /\ forall Q, nth_error (queues s) q = Some Q -> q_enq Q = length d
    | CCons q k d ts => ts <> [] /\ length (c q) + length ts <= cap /\ k = slot (length (removed q tr) + length (c q)) /\
                        forall Q, nth_error (queues s) q = Some Q -> q_enq Q = length d + 1
    | _ => True
    end.

  Record Inv (s : state) (tr : list event) (c : nat -> list A) : Prop := {
    v_ownw : forall i w q, nth_error (workers s) i = Some w -> hold_w (w_pc w) = Some q -> exists Q, nth_error (queues s) q = Some Q /\ q_owner Q = Some (W i);
    v_ownc : forall j p q, nth_error (clients s) j = Some p -> hold_c p = Some q -> exists Q, nth_error (queues s) q = Some Q /\ q_owner Q = Some (C j);
    v_ring : forall q Q, nth_error (queues s) q = Some Q -> ring Q (c q) (length (removed q tr)) (acq s q);
    v_log : forall q, inserted q tr = removed q tr ++ c q;
    v_out : forall q, length (queues s) <= q -> c q = [];
    v_fill : forall q, exists c0, c q = c0 ++ fill s q;
    v_pc : forall j p, nth_error (clients s) j = Some p -> pc_ok s tr c p;
    v_busy : busy s + length (unpublished s) = length (flat_map c (seq 0 (length (queues s)))) + length (ready s) + length (ran s);
    v_perm1 : Permutation (all_inserted tr) (invoked tr ++ dropped tr ++ ready s ++ flat_map c (seq 0 (length (queues s))));
    v_perm2 : Permutation (invoked tr) (finished tr ++ ran s);
    v_alive : dying s = false -> dropped tr = [] /\ forall q Q, nth_error (queues s) q = Some Q -> q_alive Q = true;
    v_dead : forall q Q, nth_error (queues s) q = Some Q -> q_alive Q = false -> dying s = true /\ forallb is_exit (workers s) = true;
    v_dying : dying s = true -> forallb is_idle (clients s) = true
  }.

  (** Who holds a queue holds it alone. *)
  Lemma fill_w (s : state) q Q i : nth_error (queues s) q = Some Q -> q_owner Q = Some (W i) -> fill s q = [].
  Proof. intros H O. unfold fill. rewrite H, O. reflexivity. Qed.
  Lemma fill_n (s : state) q Q : nth_error (queues s) q = Some Q -> q_owner Q = None -> fill s q = [].
  Proof. intros H O. unfold fill. rewrite H, O. reflexivity. Qed.
  Lemma fill_c (s : state) q Q j p : nth_error (queues s) q = Some Q -> q_owner Q = Some (C j) -> nth_error (clients s) j = Some p -> fill s q = pc_fill q p.
  Proof. intros H O N. unfold fill. rewrite H, O, N. reflexivity. Qed.
  Lemma acq_w (s : state) q Q i : nth_error (queues s) q = Some Q -> q_owner Q = Some (W i) -> acq s q = 0.
  Proof. intros H O. unfold acq. rewrite H, O. reflexivity. Qed.
  Lemma acq_n (s : state) q Q : nth_error (queues s) q = Some Q -> q_owner Q = None -> acq s q = 0.
  Proof. intros H O. unfold acq. rewrite H, O. reflexivity. Qed.
  Lemma acq_c (s : state) q Q j p : nth_error (queues s) q = Some Q -> q_owner Q = Some (C j) -> nth_error (clients s) j = Some p -> acq s q = pc_acq q p.
  Proof. intros H O N. unfold acq. rewrite H, O, N. reflexivity. Qed.

  Lemma apart_of s tr c q n : Inv s tr c -> no_wrap M cap tr -> n <= length (c q) + 1 -> apart (length (removed q tr)) n.
  Proof.
    intros I [H|H] L; [left; exact H|right]. specialize (H q). rewrite (v_log _ _ _ I), app_length in H. lia.
  Qed.

  (* ---------------------------------------------------------------- steps *)
  Lemma nth_upd_eq {B} (l : list B) i x y : nth_error l i = Some x -> nth_error (upd l i y) i = Some y.
  Proof. intros H. apply upd_same. apply nth_len in H. exact H. Qed.
  Lemma nth_upd_inv {B} (l : list B) i x y k z : nth_error l i = Some x -> nth_error (upd l i y) k = Some z -> (k = i /\ z = y) \/ (k <> i /\ nth_error l k = Some z).
  Proof.
    intros H K. destruct (Nat.eq_dec i k) as [<-|N].
    - rewrite (nth_upd_eq _ _ _ _ H) in K. left. split; congruence.
    - rewrite upd_other in K by exact N. right. split; congruence.
  Qed.
  Lemma forallb_nth {B} (f : B -> bool) l i x : forallb f l = true -> nth_error l i = Some x -> f x = true.
  Proof. intros H N. rewrite forallb_forall in H. apply H. apply nth_error_In in N. exact N. Qed.
  Lemma forallb_upd {B} (f : B -> bool) l i x y : forallb f l = true -> nth_error l i = Some x -> (f x = true -> f y = true) -> forallb f (upd l i y) = true.
  Proof.
    intros H N I. rewrite forallb_forall. intros z Hz. apply In_nth_error in Hz. destruct Hz as [k Hk].
    destruct (nth_upd_inv _ _ _ _ _ _ N Hk) as [[_ ->]|[_ K]]; [apply I|]; eapply forallb_nth; eassumption.
  Qed.

  Lemma removed_same q' (tr es : list event) : removed q' es = [] -> removed q' (tr ++ es) = removed q' tr.
  Proof. intros H. rewrite removed_app, H. apply app_nil_r. Qed.

  (** A worker without its queue. *)
  Lemma inv_worker s s' tr es c i w w' : Inv s tr c -> nth_error (workers s) i = Some w ->
    queues s' = queues s -> workers s' = upd (workers s) i w' -> clients s' = clients s -> dying s' = dying s ->
    hold_w (w_pc w') = hold_w (w_pc w) \/ hold_w (w_pc w') = None -> (is_exit w = true -> is_exit w' = true) ->
    busy s' + length (w_ready w) + length (w_ran w) = busy s + length (w_ready w') + length (w_ran w') ->
    (forall q, inserted q es = [] /\ removed q es = []) -> all_inserted es = [] -> dropped es = [] ->
    Permutation (invoked es ++ w_ready w') (w_ready w) -> Permutation (invoked es ++ w_ran w) (finished es ++ w_ran w') ->
    Inv s' (tr ++ es) c.
  Proof.
    intros I Hw EQ EW EC ED Hh He Hb Hl H1 H2 P1 P2.
    assert (FL : forall q, fill s' q = fill s q) by (intros q; unfold fill; rewrite EQ, EC; reflexivity).
    assert (AQ : forall q, acq s' q = acq s q) by (intros q; unfold acq; rewrite EQ, EC; reflexivity).
    assert (RM : forall q, removed q (tr ++ es) = removed q tr) by (intros q; apply removed_same, Hl).
    destruct (frame_list w_ready _ _ _ Hw) as (Ra & Ra1 & Ra2). specialize (Ra2 w').
    destruct (frame_list w_ran _ _ _ Hw) as (Rb & Rb1 & Rb2). specialize (Rb2 w').
    assert (UP : unpublished s' = unpublished s) by (unfold unpublished; rewrite EQ; apply flat_map_ext_in; intros q _; apply FL).
    constructor.
    - intros k v q Hk Hv. rewrite EW in Hk. rewrite EQ. destruct (nth_upd_inv _ _ _ _ _ _ Hw Hk) as [[-> ->]|[_ K]]; [|eapply (v_ownw _ _ _ I); eassumption].
      destruct Hh as [Hh|Hh]; [|congruence]. apply (v_ownw _ _ _ I i w q Hw). congruence.
    - rewrite EC, EQ. apply (v_ownc _ _ _ I).
    - rewrite EQ. intros q Q HQ. rewrite RM, AQ. apply (v_ring _ _ _ I). exact HQ.
    - intros q. rewrite RM, inserted_app. rewrite (proj1 (Hl q)), app_nil_r. apply (v_log _ _ _ I).
    - rewrite EQ. apply (v_out _ _ _ I).
    - intros q. rewrite FL. apply (v_fill _ _ _ I).
    - rewrite EC. intros j p Hp. pose proof (v_pc _ _ _ I j p Hp) as K. destruct p; cbn [pc_ok] in *; rewrite ?EQ, ?RM; exact K.
    - rewrite UP, EQ. pose proof (v_busy _ _ _ I) as B. unfold ready, ran in *. rewrite EW.
      rewrite (Permutation_length Ra2), (Permutation_length Rb2). rewrite (Permutation_length Ra1), (Permutation_length Rb1) in B. rewrite !app_length in *. lia.
    - rewrite all_inserted_app, H1, app_nil_r, invoked_app, dropped_app, H2, app_nil_r, EQ. rewrite (v_perm1 _ _ _ I). unfold ready. rewrite EW, Ra1, Ra2, <- P1.
      rewrite <- !app_assoc. apply Permutation_app_head. rewrite !app_assoc. do 3 apply Permutation_app_tail. apply Permutation_app_comm.
    - rewrite invoked_app, finished_app. rewrite (v_perm2 _ _ _ I). unfold ran. rewrite EW, Rb1, Rb2. rewrite <- !app_assoc. apply Permutation_app_head.
      rewrite !app_assoc, <- P2. rewrite (Permutation_app_comm (w_ran w ++ Rb)). rewrite !app_assoc. reflexivity.
    - rewrite ED, EQ, dropped_app, H2, app_nil_r. apply (v_alive _ _ _ I).
    - rewrite ED, EQ, EW. intros q Q HQ HA. destruct (v_dead _ _ _ I q Q HQ HA) as [D1 D2]. split; [exact D1|]. eapply forallb_upd; eassumption.
    - rewrite ED, EC. apply (v_dying _ _ _ I).
  Qed.

  (** A worker and the queue it locks, holds or unlocks. *)
  Lemma inv_worker_q s s' tr es c i w w' q Q Q' l' : Inv s tr c -> nth_error (workers s) i = Some w -> nth_error (queues s) q = Some Q ->
    queues s' = upd (queues s) q Q' -> workers s' = upd (workers s) i w' -> clients s' = clients s -> dying s' = dying s -> busy s' = busy s ->
    (q_owner Q = None \/ q_owner Q = Some (W i)) -> (q_owner Q' = None \/ q_owner Q' = Some (W i)) ->
    (forall q', hold_w (w_pc w') = Some q' -> q' = q /\ q_owner Q' = Some (W i)) -> is_exit w = false -> q_alive Q' = q_alive Q ->
    w_ran w = [] -> w_ran w' = [] ->
    ring Q' l' (length (removed q (tr ++ es))) 0 -> inserted q (tr ++ es) = removed q (tr ++ es) ++ l' ->
    (forall q', q' <> q -> inserted q' es = [] /\ removed q' es = []) -> all_inserted es = [] -> dropped es = [] -> invoked es = [] -> finished es = [] ->
    Permutation (w_ready w' ++ l') (w_ready w ++ c q) ->
    Inv s' (tr ++ es) (fset c q l').
  Proof.
    intros I Hw HQ EQ EW EC ED EB O O' Hh He HA N1 N2 R HL Ho H1 H2 H3 H4 P.
    assert (QI : forall k Z, nth_error (queues s') k = Some Z -> (k = q /\ Z = Q') \/ (k <> q /\ nth_error (queues s) k = Some Z)).
    { intros k Z K. rewrite EQ in K. exact (nth_upd_inv _ _ _ _ _ _ HQ K). }
    assert (QO : forall k, k <> q -> nth_error (queues s') k = nth_error (queues s) k) by (intros k K; rewrite EQ; apply upd_other; congruence).
    assert (QQ : nth_error (queues s') q = Some Q') by (rewrite EQ; exact (nth_upd_eq _ _ _ _ HQ)).
    assert (FQ : fill s q = []) by (destruct O as [O|O]; [eapply fill_n|eapply fill_w]; eassumption).
    assert (FQ' : fill s' q = []) by (destruct O' as [O'|O']; [eapply fill_n|eapply fill_w]; eassumption).
    assert (AQ : acq s q = 0) by (destruct O as [O|O]; [eapply acq_n|eapply acq_w]; eassumption).
    assert (AQ' : acq s' q = 0) by (destruct O' as [O'|O']; [eapply acq_n|eapply acq_w]; eassumption).
    assert (FL : forall k, fill s' k = fill s k).
    { intros k. destruct (Nat.eq_dec k q) as [->|K]; [congruence|]. unfold fill. rewrite QO, EC by exact K. reflexivity. }
    assert (AL : forall k, acq s' k = acq s k).
    { intros k. destruct (Nat.eq_dec k q) as [->|K]; [congruence|]. unfold acq. rewrite QO, EC by exact K. reflexivity. }
    assert (RM : forall k, k <> q -> removed k (tr ++ es) = removed k tr) by (intros k K; apply removed_same, Ho; exact K).
    assert (LQ : length (queues s') = length (queues s)) by (rewrite EQ; apply upd_length).
    assert (Bq : 0 <= q < 0 + length (queues s)) by (apply nth_len in HQ; lia).
    destruct (frame_list w_ready _ _ _ Hw) as (Ra & Ra1 & Ra2). specialize (Ra2 w').
    destruct (frame_list w_ran _ _ _ Hw) as (Rb & Rb1 & Rb2). specialize (Rb2 w'). rewrite N1 in Rb1. rewrite N2 in Rb2.
    destruct (frame_fun c q (length (queues s)) 0 Bq) as (Rc & Rc1). pose proof (Rc1 c ltac:(reflexivity)) as Rc0. specialize (Rc1 (fset c q l') ltac:(intros; apply fset_other; assumption)). rewrite fset_same in Rc1.
    assert (UP : unpublished s' = unpublished s) by (unfold unpublished; rewrite LQ; apply flat_map_ext_in; intros k _; apply FL).
    constructor.
    - intros k v q' Hk Hv. rewrite EW in Hk. destruct (nth_upd_inv _ _ _ _ _ _ Hw Hk) as [[-> ->]|[Nk K]].
      + destruct (Hh _ Hv) as [-> X]. exists Q'. split; assumption.
      + destruct (v_ownw _ _ _ I _ _ _ K Hv) as (Z & Z1 & Z2). destruct (Nat.eq_dec q' q) as [->|E]; [|exists Z; rewrite QO by exact E; split; assumption].
        exfalso. rewrite HQ in Z1. injection Z1 as <-. destruct O as [O|O]; congruence.
    - rewrite EC. intros j p q' Hj Hp. destruct (v_ownc _ _ _ I _ _ _ Hj Hp) as (Z & Z1 & Z2). destruct (Nat.eq_dec q' q) as [->|E]; [|exists Z; rewrite QO by exact E; split; assumption].
      exfalso. rewrite HQ in Z1. injection Z1 as <-. destruct O as [O|O]; congruence.
    - intros k Z K. destruct (QI _ _ K) as [[-> ->]|[Nk K1]].
      + rewrite AQ', fset_same. exact R.
      + rewrite AL, fset_other, RM by exact Nk. apply (v_ring _ _ _ I). exact K1.
    - intros k. destruct (Nat.eq_dec k q) as [->|K]; [rewrite fset_same; exact HL|]. rewrite fset_other, RM, inserted_app, (proj1 (Ho k K)), app_nil_r by exact K. apply (v_log _ _ _ I).
    - intros k K. rewrite LQ in K. rewrite fset_other by lia. apply (v_out _ _ _ I). exact K.
    - intros k. rewrite FL. destruct (Nat.eq_dec k q) as [->|K]; [rewrite fset_same, FQ; exists l'; symmetry; apply app_nil_r|]. rewrite fset_other by exact K. apply (v_fill _ _ _ I).
    - rewrite EC. intros j p Hp. pose proof (v_pc _ _ _ I j p Hp) as K.
      assert (X : forall q', hold_c p = Some q' -> q' <> q).
      { intros q' Hq' ->. destruct (v_ownc _ _ _ I _ _ _ Hp Hq') as (Z & Z1 & Z2). rewrite HQ in Z1. injection Z1 as <-. destruct O as [O|O]; congruence. }
      destruct p; cbn [pc_ok hold_c] in *; try exact K; specialize (X _ eq_refl); rewrite QO, ?fset_other, ?RM by exact X; exact K.
    - rewrite UP, EB, LQ. pose proof (v_busy _ _ _ I) as B. unfold ready, ran in *. rewrite EW.
      rewrite (Permutation_length Ra2), (Permutation_length Rb2), (Permutation_length Rc1). rewrite (Permutation_length Ra1), (Permutation_length Rb1), (Permutation_length Rc0) in B.
      apply Permutation_length in P. rewrite !app_length in *. cbn [app length] in *. lia.
    - rewrite all_inserted_app, H1, app_nil_r, invoked_app, H3, app_nil_r, dropped_app, H2, app_nil_r, LQ. rewrite (v_perm1 _ _ _ I). unfold ready. rewrite EW, Ra1, Ra2, Rc0, Rc1.
      do 2 apply Permutation_app_head. rewrite <- !app_assoc. rewrite (Permutation_app_comm Ra (c q ++ Rc)), (Permutation_app_comm Ra (l' ++ Rc)). rewrite !app_assoc. do 2 apply Permutation_app_tail. symmetry. exact P.
    - rewrite invoked_app, finished_app, H3, H4, !app_nil_r. rewrite (v_perm2 _ _ _ I). unfold ran. rewrite EW, Rb1, Rb2. reflexivity.
    - rewrite ED, dropped_app, H2, app_nil_r. intros D. destruct (v_alive _ _ _ I D) as [D1 D2]. split; [exact D1|]. intros k Z K. destruct (QI _ _ K) as [[-> ->]|[Nk K1]]; [rewrite HA|]; eapply D2; eassumption.
    - intros k Z K KA. exfalso. assert (X : forallb is_exit (workers s) = true).
      { destruct (QI _ _ K) as [[-> ->]|[Nk K1]]; [rewrite HA in KA|]; eapply (v_dead _ _ _ I); eassumption. }
      pose proof (forallb_nth _ _ _ _ X Hw). congruence.
    - rewrite ED, EC. apply (v_dying _ _ _ I).
  Qed.

  (** A client and its queue. *)
  Lemma inv_client_q s s' tr es c j p p' q Q Q' l' f' a' : Inv s tr c -> nth_error (clients s) j = Some p -> nth_error (queues s) q = Some Q ->
    queues s' = upd (queues s) q Q' -> workers s' = workers s -> clients s' = upd (clients s) j p' -> dying s = false -> dying s' = false ->
    (q_owner Q = None \/ q_owner Q = Some (C j)) -> (q_owner Q' = None /\ f' = [] /\ a' = 0 \/ q_owner Q' = Some (C j) /\ f' = pc_fill q p' /\ a' = pc_acq q p') ->
    (forall q', hold_c p' = Some q' -> q' = q /\ q_owner Q' = Some (C j)) -> q_alive Q' = q_alive Q ->
    (forall q', q' <> q -> pc_fill q' p = [] /\ pc_fill q' p' = [] /\ pc_acq q' p = 0 /\ pc_acq q' p' = 0) ->
    ring Q' l' (length (removed q tr)) a' -> (forall q', removed q' es = []) -> (forall q', q' <> q -> inserted q' es = []) -> l' = c q ++ inserted q es ->
    (exists c0, l' = c0 ++ f') -> (pc_ok s' (tr ++ es) (fset c q l') p') ->
    busy s' + length f' + length (c q) = busy s + length (fill s q) + length l' ->
    all_inserted es = inserted q es -> dropped es = [] -> invoked es = [] -> finished es = [] ->
    Inv s' (tr ++ es) (fset c q l').
  Proof.
    intros I Hp HQ EQ EW EC ED ED' O O' Hh HA Hf R HR Ho HL HF HPC HB H1 H2 H3 H4.
    assert (QI : forall k Z, nth_error (queues s') k = Some Z -> (k = q /\ Z = Q') \/ (k <> q /\ nth_error (queues s) k = Some Z)).
    { intros k Z K. rewrite EQ in K. exact (nth_upd_inv _ _ _ _ _ _ HQ K). }
    assert (QO : forall k, k <> q -> nth_error (queues s') k = nth_error (queues s) k) by (intros k K; rewrite EQ; apply upd_other; congruence).
    assert (QQ : nth_error (queues s') q = Some Q') by (rewrite EQ; exact (nth_upd_eq _ _ _ _ HQ)).
    assert (CC : nth_error (clients s') j = Some p') by (rewrite EC; exact (nth_upd_eq _ _ _ _ Hp)).
    assert (FQ' : fill s' q = f').
    { destruct O' as [(O' & -> & _)|(O' & -> & _)]; [eapply fill_n; eassumption|]. erewrite fill_c; try eassumption. reflexivity. }
    assert (AQ' : acq s' q = a').
    { destruct O' as [(O' & _ & ->)|(O' & _ & ->)]; [eapply acq_n; eassumption|]. erewrite acq_c; try eassumption. reflexivity. }
    assert (FL : forall k, k <> q -> fill s' k = fill s k).
    { intros k K. unfold fill. rewrite QO by exact K. destruct (nth_error (queues s) k) as [Z|]; [|reflexivity]. destruct (q_owner Z) as [[i|j']|]; try reflexivity.
      destruct (Nat.eq_dec j' j) as [->|J]; [rewrite CC, Hp; destruct (Hf k K) as (F1 & F2 & _); congruence|]. rewrite EC, upd_other by congruence. reflexivity. }
    assert (AL : forall k, k <> q -> acq s' k = acq s k).
    { intros k K. unfold acq. rewrite QO by exact K. destruct (nth_error (queues s) k) as [Z|]; [|reflexivity]. destruct (q_owner Z) as [[i|j']|]; try reflexivity.
      destruct (Nat.eq_dec j' j) as [->|J]; [rewrite CC, Hp; destruct (Hf k K) as (_ & _ & F1 & F2); congruence|]. rewrite EC, upd_other by congruence. reflexivity. }
    assert (RM : forall k, removed k (tr ++ es) = removed k tr) by (intros k; apply removed_same, HR).
    assert (LQ : length (queues s') = length (queues s)) by (rewrite EQ; apply upd_length).
    assert (Bq : 0 <= q < 0 + length (queues s)) by (apply nth_len in HQ; lia).
    destruct (frame_fun c q (length (queues s)) 0 Bq) as (Rc & Rc1). pose proof (Rc1 c ltac:(reflexivity)) as Rc0. specialize (Rc1 (fset c q l') ltac:(intros; apply fset_other; assumption)). rewrite fset_same in Rc1.
    destruct (frame_fun (fill s) q (length (queues s)) 0 Bq) as (Rf & Rf1). pose proof (Rf1 (fill s) ltac:(reflexivity)) as Rf0. specialize (Rf1 (fill s') FL). rewrite FQ' in Rf1.
    constructor.
    - rewrite EW. intros i v q' Hv Hq'. destruct (v_ownw _ _ _ I _ _ _ Hv Hq') as (Z & Z1 & Z2). destruct (Nat.eq_dec q' q) as [->|E]; [|exists Z; rewrite QO by exact E; split; assumption].
      exfalso. rewrite HQ in Z1. injection Z1 as <-. destruct O as [O|O]; congruence.
    - intros k v q' Hk Hv. rewrite EC in Hk. destruct (nth_upd_inv _ _ _ _ _ _ Hp Hk) as [[-> ->]|[Nk K]].
      + destruct (Hh _ Hv) as [-> X]. exists Q'. split; assumption.
      + destruct (v_ownc _ _ _ I _ _ _ K Hv) as (Z & Z1 & Z2). destruct (Nat.eq_dec q' q) as [->|E]; [|exists Z; rewrite QO by exact E; split; assumption].
        exfalso. rewrite HQ in Z1. injection Z1 as <-. destruct O as [O|O]; congruence.
    - intros k Z K. destruct (QI _ _ K) as [[-> ->]|[Nk K1]].
      + rewrite AQ', fset_same, RM. exact R.
      + rewrite AL, fset_other, RM by exact Nk. apply (v_ring _ _ _ I). exact K1.
    - intros k. rewrite RM, inserted_app, (v_log _ _ _ I). destruct (Nat.eq_dec k q) as [->|K]; [rewrite fset_same, HL; symmetry; apply app_assoc|]. rewrite fset_other, Ho, app_nil_r by exact K. reflexivity.
    - intros k K. rewrite LQ in K. rewrite fset_other by lia. apply (v_out _ _ _ I). exact K.
    - intros k. destruct (Nat.eq_dec k q) as [->|K]; [rewrite fset_same, FQ'; exact HF|]. rewrite fset_other, FL by exact K. apply (v_fill _ _ _ I).
    - intros k v Hk. rewrite EC in Hk. destruct (nth_upd_inv _ _ _ _ _ _ Hp Hk) as [[-> ->]|[Nk K]]; [exact HPC|].
      pose proof (v_pc _ _ _ I k v K) as KP.
      assert (X : forall q', hold_c v = Some q' -> q' <> q).
      { intros q' Hq' ->. destruct (v_ownc _ _ _ I _ _ _ K Hq') as (Z & Z1 & Z2). rewrite HQ in Z1. injection Z1 as <-. destruct O as [O|O]; congruence. }
      destruct v; cbn [pc_ok hold_c] in *; try exact KP; specialize (X _ eq_refl); rewrite QO, ?fset_other, ?RM by exact X; exact KP.
    - pose proof (v_busy _ _ _ I) as B. unfold unpublished in *. rewrite LQ. unfold ready, ran in *. rewrite EW. rewrite (Permutation_length Rc1), (Permutation_length Rf1). rewrite (Permutation_length Rc0), (Permutation_length Rf0) in B. rewrite !app_length in *. lia.
    - rewrite all_inserted_app, H1, invoked_app, H3, app_nil_r, dropped_app, H2, app_nil_r, LQ. rewrite (v_perm1 _ _ _ I). unfold ready. rewrite EW, Rc0, Rc1, HL. rewrite <- !app_assoc.
      do 4 apply Permutation_app_head. apply Permutation_app_comm.
    - rewrite invoked_app, finished_app, H3, H4, !app_nil_r. unfold ran. rewrite EW. apply (v_perm2 _ _ _ I).
    - intros _. rewrite dropped_app, H2, app_nil_r. destruct (v_alive _ _ _ I ED) as [D1 D2]. split; [exact D1|]. intros k Z K. destruct (QI _ _ K) as [[-> ->]|[Nk K1]]; [rewrite HA|]; eapply D2; eassumption.
    - intros k Z K KA. exfalso. assert (X : dying s = true).
      { destruct (QI _ _ K) as [[-> ->]|[Nk K1]]; [rewrite HA in KA|]; eapply (v_dead _ _ _ I); eassumption. }
      congruence.
    - congruence.
  Qed.

  (** A client in or out of [wait]. *)
  Lemma inv_client s s' tr es c j p p' : Inv s tr c -> nth_error (clients s) j = Some p ->
    queues s' = queues s -> workers s' = workers s -> clients s' = upd (clients s) j p' -> dying s = false -> dying s' = false -> busy s' = busy s ->
    (p = CIdle /\ p' = CWaiting \/ p = CWaiting /\ p' = CIdle) -> (es = [] \/ es = [EWaited j]) -> Inv s' (tr ++ es) c.
  Proof.
    intros I Hp EQ EW EC ED ED' EB PP ES.
    assert (V : forall q, pc_fill q p = pc_fill q p' /\ pc_acq q p = pc_acq q p') by (intros q; destruct PP as [[-> ->]|[-> ->]]; split; reflexivity).
    assert (CC : nth_error (clients s') j = Some p') by (rewrite EC; exact (nth_upd_eq _ _ _ _ Hp)).
    assert (FL : forall q, fill s' q = fill s q).
    { intros k. unfold fill. rewrite EQ. destruct (nth_error (queues s) k) as [Z|]; [|reflexivity]. destruct (q_owner Z) as [[i|j']|]; try reflexivity.
      destruct (Nat.eq_dec j' j) as [->|J]; [rewrite CC, Hp; symmetry; apply V|]. rewrite EC, upd_other by congruence. reflexivity. }
    assert (AQ : forall q, acq s' q = acq s q).
    { intros k. unfold acq. rewrite EQ. destruct (nth_error (queues s) k) as [Z|]; [|reflexivity]. destruct (q_owner Z) as [[i|j']|]; try reflexivity.
      destruct (Nat.eq_dec j' j) as [->|J]; [rewrite CC, Hp; symmetry; apply V|]. rewrite EC, upd_other by congruence. reflexivity. }
    assert (EV : forall q, inserted q es = [] /\ removed q es = []) by (intros q; destruct ES as [->| ->]; split; reflexivity).
    assert (EV1 : all_inserted es = [] /\ invoked es = [] /\ finished es = [] /\ dropped es = []) by (destruct ES as [->| ->]; repeat split; reflexivity).
    destruct EV1 as (H1 & H2 & H3 & H4).
    assert (RM : forall q, removed q (tr ++ es) = removed q tr) by (intros q; apply removed_same, EV).
    assert (UP : unpublished s' = unpublished s) by (unfold unpublished; rewrite EQ; apply flat_map_ext_in; intros q _; apply FL).
    constructor.
    - rewrite EW, EQ. apply (v_ownw _ _ _ I).
    - intros k v q Hk Hv. rewrite EC in Hk. rewrite EQ. destruct (nth_upd_inv _ _ _ _ _ _ Hp Hk) as [[-> ->]|[_ K]]; [|eapply (v_ownc _ _ _ I); eassumption].
      exfalso. destruct PP as [[-> ->]|[-> ->]]; discriminate Hv.
    - rewrite EQ. intros q Q HQ. rewrite RM, AQ. apply (v_ring _ _ _ I). exact HQ.
    - intros q. rewrite RM, inserted_app. rewrite (proj1 (EV q)), app_nil_r. apply (v_log _ _ _ I).
    - rewrite EQ. apply (v_out _ _ _ I).
    - intros q. rewrite FL. apply (v_fill _ _ _ I).
    - intros k v Hk. rewrite EC in Hk. destruct (nth_upd_inv _ _ _ _ _ _ Hp Hk) as [[-> ->]|[_ K]].
      + destruct PP as [[-> ->]|[-> ->]]; exact Logic.I.
      + pose proof (v_pc _ _ _ I k v K) as KP. destruct v; cbn [pc_ok] in *; rewrite ?EQ, ?RM; exact KP.
    - rewrite UP, EQ, EB. unfold ready, ran. rewrite EW. apply (v_busy _ _ _ I).
    - rewrite all_inserted_app, H1, invoked_app, H2, dropped_app, H4, !app_nil_r, EQ. unfold ready. rewrite EW. apply (v_perm1 _ _ _ I).
    - rewrite invoked_app, finished_app, H2, H3, !app_nil_r. unfold ran. rewrite EW. apply (v_perm2 _ _ _ I).
    - intros _. rewrite EQ, dropped_app, H4, app_nil_r. apply (v_alive _ _ _ I). exact ED.
    - rewrite EQ. intros q Q HQ HA. destruct (v_dead _ _ _ I q Q HQ HA) as [D1 D2]. congruence.
    - congruence.
  Qed.


  Lemma idle_not_dying s tr c j p : Inv s tr c -> nth_error (clients s) j = Some p -> is_idle p = false -> dying s = false.
  Proof.
    intros I Hp N. destruct (dying s) eqn:D; [|reflexivity]. pose proof (forallb_nth _ _ _ _ (v_dying _ _ _ I D) Hp). congruence.
  Qed.
  Lemma single_q (q q' : nat) (t : A) : q' <> q -> (if q =? q' then [t] else []) = [].
  Proof. intros N. destruct (Nat.eqb_spec q q'); congruence. Qed.

  (** Nothing goes wrong, and the invariant stays. *)
  Lemma step_worker_inv s tr c i w a : Inv s tr c -> no_wrap M cap tr -> nth_error (workers s) i = Some w ->
    match step_worker M cap s i w a with Disabled => True | Bad => False | Next s' es => exists c', Inv s' (tr ++ es) c' end.
  Proof.
    intros I NW Hw. unfold step_worker. destruct a; try exact Logic.I; destruct (w_pc w) as [|q'|q'|q' t|t|t|t|] eqn:EP; try exact Logic.I.
    - (* lock *)
      destruct (nth_error (queues s) q) as [Q|] eqn:HQ; [|exact Logic.I]. destruct (q_alive Q) eqn:AL; cbn [negb].
      2:{ destruct (v_dead _ _ _ I q Q HQ AL) as [_ X]. pose proof (forallb_nth _ _ _ _ X Hw) as Y. unfold is_exit in Y. rewrite EP in Y. discriminate Y. }
      destruct (q_owner Q) eqn:OW; [exact Logic.I|]. pose proof (v_ring _ _ _ I q Q HQ) as R. rewrite (acq_n _ _ _ HQ OW) in R.
      eexists. eapply (inv_worker_q s _ tr [] c i w _ q Q _ (c q)); try eassumption; try reflexivity; cbn [at_w w_pc set_owner q_owner q_alive].
      + left. exact OW.
      + right. reflexivity.
      + intros q' [= <-]. split; reflexivity.
      + unfold is_exit. rewrite EP. reflexivity.
      + unfold w_ran. rewrite EP. reflexivity.
      + rewrite app_nil_r. exact R.
      + rewrite app_nil_r. apply (v_log _ _ _ I).
      + intros; split; reflexivity.
      + unfold w_ready. rewrite EP. reflexivity.
    - (* check *)
      destruct (v_ownw _ _ _ I i w q' Hw) as (Q & HQ & OW); [rewrite EP; reflexivity|]. rewrite HQ.
      pose proof (v_ring _ _ _ I q' Q HQ) as R. rewrite (acq_w _ _ _ _ HQ OW) in R.
      destruct (empty Q || q_term Q) eqn:ET.
      + exists c. eapply (inv_worker s _ tr [] c i w); try eassumption; try reflexivity; cbn [at_w w_pc].
        * left. rewrite EP. reflexivity.
        * unfold is_exit. rewrite EP. discriminate.
        * cbn [put_w busy]. unfold w_ready, w_ran. rewrite EP. reflexivity.
        * intros; split; reflexivity.
        * unfold w_ready. rewrite EP. reflexivity.
        * unfold w_ran. rewrite EP. reflexivity.
      + destruct (c q') as [|t l] eqn:EC.
        { assert (X : empty Q = true) by (apply (ring_empty Q [] _ R); reflexivity). rewrite X in ET. discriminate ET. }
        destruct (ring_pop Q t l (length (removed q' tr))) as (Q' & P & R' & K1 & K2 & K3 & K4); [|exact R|].
        { eapply apart_of; try eassumption. rewrite EC. cbn. lia. }
        rewrite P. exists (fset c q' l). eapply (inv_worker_q s _ tr [EPop q' i t] c i w _ q' Q Q' l); try eassumption; try reflexivity; cbn [at_w w_pc].
        * right. exact OW.
        * right. congruence.
        * intros k [= <-]. split; congruence.
        * unfold is_exit. rewrite EP. reflexivity.
        * unfold w_ran. rewrite EP. reflexivity.
        * rewrite removed_app. cbn [removed flat_map]. rewrite Nat.eqb_refl, app_length. exact R'.
        * rewrite inserted_app, removed_app. cbn [removed inserted flat_map]. rewrite Nat.eqb_refl, !app_nil_r. rewrite (v_log _ _ _ I), EC, <- app_assoc. reflexivity.
        * intros k K. cbn [inserted removed flat_map]. rewrite single_q by exact K. split; reflexivity.
        * unfold w_ready. rewrite EP. cbn [w_pc app]. rewrite EC. reflexivity.
    - (* unlock without a task *)
      destruct (v_ownw _ _ _ I i w q' Hw) as (Q & HQ & OW); [rewrite EP; reflexivity|]. rewrite HQ.
      pose proof (v_ring _ _ _ I q' Q HQ) as R. rewrite (acq_w _ _ _ _ HQ OW) in R.
      eexists. eapply (inv_worker_q s _ tr [] c i w _ q' Q _ (c q')); try eassumption; try reflexivity; cbn [at_w w_pc set_owner q_owner q_alive].
      + right. exact OW.
      + left. reflexivity.
      + intros k K. discriminate K.
      + unfold is_exit. rewrite EP. reflexivity.
      + unfold w_ran. rewrite EP. reflexivity.
      + rewrite app_nil_r. exact R.
      + rewrite app_nil_r. apply (v_log _ _ _ I).
      + intros; split; reflexivity.
      + unfold w_ready. rewrite EP. reflexivity.
    - (* unlock with a task *)
      destruct (v_ownw _ _ _ I i w q' Hw) as (Q & HQ & OW); [rewrite EP; reflexivity|]. rewrite HQ.
      pose proof (v_ring _ _ _ I q' Q HQ) as R. rewrite (acq_w _ _ _ _ HQ OW) in R.
      eexists. eapply (inv_worker_q s _ tr [] c i w _ q' Q _ (c q')); try eassumption; try reflexivity; cbn [at_w w_pc set_owner q_owner q_alive].
      + right. exact OW.
      + left. reflexivity.
      + intros k K. discriminate K.
      + unfold is_exit. rewrite EP. reflexivity.
      + unfold w_ran. rewrite EP. reflexivity.
      + rewrite app_nil_r. exact R.
      + rewrite app_nil_r. apply (v_log _ _ _ I).
      + intros; split; reflexivity.
      + unfold w_ready. rewrite EP. reflexivity.
    - (* invoke *)
      exists c. eapply (inv_worker s _ tr _ c i w); try eassumption; try reflexivity; cbn [at_w w_pc].
      + right. reflexivity.
      + unfold is_exit. rewrite EP. discriminate.
      + cbn [put_w busy]. unfold w_ready, w_ran. rewrite EP. cbn. lia.
      + intros; split; reflexivity.
      + unfold w_ready. rewrite EP. reflexivity.
      + unfold w_ran. rewrite EP. reflexivity.
    - (* report *)
      assert (B : busy s <> 0).
      { pose proof (v_busy _ _ _ I) as B. assert (L : length (unpublished s) <= length (flat_map c (seq 0 (length (queues s))))).
        { apply flat_map_len_le. intros k. destruct (v_fill _ _ _ I k) as [c0 ->]. rewrite app_length. lia. }
        destruct (frame_list w_ran _ _ _ Hw) as (Rb & Rb1 & _). unfold ran in B. rewrite (Permutation_length Rb1), app_length in B. unfold w_ran in B. rewrite EP in B. cbn in B. lia. }
      destruct (Nat.eqb_spec (busy s) 0) as [E|_]; [exact (B E)|].
      exists c. eapply (inv_worker s _ tr _ c i w); try eassumption; try reflexivity; cbn [at_w w_pc].
      + right. reflexivity.
      + unfold is_exit. rewrite EP. discriminate.
      + cbn [put_w put_busy busy]. unfold w_ready, w_ran. rewrite EP. cbn. lia.
      + intros; split; reflexivity.
      + unfold w_ready. rewrite EP. reflexivity.
      + unfold w_ran. rewrite EP. reflexivity.
    - (* destroy *)
      exists c. eapply (inv_worker s _ tr [] c i w); try eassumption; try reflexivity; cbn [at_w w_pc].
      + right. reflexivity.
      + unfold is_exit. rewrite EP. discriminate.
      + cbn [put_w busy]. unfold w_ready, w_ran. rewrite EP. reflexivity.
      + intros; split; reflexivity.
      + unfold w_ready. rewrite EP. reflexivity.
      + unfold w_ran. rewrite EP. reflexivity.
    - (* quit *)
      destruct (w_term w); [|exact Logic.I].
      exists c. eapply (inv_worker s _ tr [] c i w); try eassumption; try reflexivity; cbn [at_w w_pc].
      + right. reflexivity.
      + cbn [put_w busy]. unfold w_ready, w_ran. rewrite EP. reflexivity.
      + intros; split; reflexivity.
      + unfold w_ready. rewrite EP. reflexivity.
      + unfold w_ran. rewrite EP. reflexivity.
  Qed.

  Lemma other_q {B} (q q' : nat) (x y : B) : q' <> q -> (if q =? q' then x else y) = y.
  Proof. intros N. destruct (Nat.eqb_spec q q'); congruence. Qed.

  Lemma step_client_inv s tr c j p a : Inv s tr c -> no_wrap M cap tr -> nth_error (clients s) j = Some p ->
    match step_client M cap s j p a with Disabled => True | Bad => False | Next s' es => exists c', Inv s' (tr ++ es) c' end.
  Proof.
    intros I NW Hp. unfold step_client. destruct a; try exact Logic.I; destruct p as [|q' us|q' d us|q' k d us|q'|] eqn:EP; try exact Logic.I.
    - (* lock *)
      destruct (dying s) eqn:ED; [exact Logic.I|]. destruct (nth_error (queues s) q) as [Q|] eqn:HQ; [|exact Logic.I]. destruct ts as [|t ts]; [exact Logic.I|].
      rewrite (proj2 (v_alive _ _ _ I ED) q Q HQ). cbn [negb]. destruct (q_owner Q) eqn:OW; [exact Logic.I|].
      pose proof (v_ring _ _ _ I q Q HQ) as R. rewrite (acq_n _ _ _ HQ OW) in R.
      eexists. eapply (inv_client_q s _ tr [] c j _ _ q Q (set_enq (set_owner Q (Some (C j))) 0) (c q) [] 0); try eassumption; try reflexivity.
      + left. exact OW.
      + right. repeat split.
      + intros q' [= <-]. split; reflexivity.
      + intros q' _. repeat split.
      + symmetry. apply app_nil_r.
      + exists (c q). symmetry. apply app_nil_r.
      + cbn [pc_ok]. split; [discriminate|]. intros Q0. cbn [put_c put_q queues]. rewrite (nth_upd_eq _ _ _ _ HQ). intros [= <-]. reflexivity.
      + cbn [put_c put_q busy]. rewrite (fill_n _ _ _ HQ OW). reflexivity.
    - (* room *)
      pose proof (idle_not_dying _ _ _ _ _ I Hp eq_refl) as ED.
      destruct (v_ownc _ _ _ I j _ q' Hp eq_refl) as (Q & HQ & OW). rewrite HQ.
      pose proof (v_ring _ _ _ I q' Q HQ) as R. rewrite (acq_c _ _ _ _ _ HQ OW Hp) in R. cbn [pc_acq] in R.
      pose proof (fill_c _ _ _ _ _ HQ OW Hp) as F. cbn [pc_fill] in F. destruct (v_pc _ _ _ I _ _ Hp) as [T1 T2].
      exists (fset c q' (c q')). eapply (inv_client_q s _ tr [] c j _ _ q' Q Q (c q') [] 0); try eassumption; try reflexivity.
      + cbn [put_c queues]. symmetry. apply upd_same_id. exact HQ.
      + right. exact OW.
      + right. destruct (length us <=? available M cap Q); cbn; rewrite ?Nat.eqb_refl; repeat split; exact OW.
      + intros k. destruct (length us <=? available M cap Q); intros [= <-]; split; congruence.
      + intros k K. destruct (length us <=? available M cap Q); cbn [pc_fill pc_acq]; rewrite ?other_q by congruence; repeat split.
      + symmetry. apply app_nil_r.
      + exists (c q'). symmetry. apply app_nil_r.
      + destruct (length us <=? available M cap Q) eqn:EL; [|exact Logic.I]. cbn [pc_ok]. rewrite fset_same. apply Nat.leb_le in EL. unfold available in EL. rewrite (ring_size _ _ _ _ R) in EL.
        split; [exact T1|]. split; [destruct us; [congruence|cbn in *; lia]|]. exact T2.
      + cbn [put_c busy]. rewrite F. reflexivity.
    - (* acquire *)
      destruct us as [|t ts]; [exact Logic.I|]. pose proof (idle_not_dying _ _ _ _ _ I Hp eq_refl) as ED.
      destruct (v_ownc _ _ _ I j _ q' Hp eq_refl) as (Q & HQ & OW). rewrite HQ.
      pose proof (v_ring _ _ _ I q' Q HQ) as R. rewrite (acq_c _ _ _ _ _ HQ OW Hp) in R. cbn [pc_acq] in R.
      pose proof (fill_c _ _ _ _ _ HQ OW Hp) as F. cbn [pc_fill] in F. rewrite Nat.eqb_refl in F. destruct (v_pc _ _ _ I _ _ Hp) as (T1 & T2 & T3). cbn [length] in T2.
      destruct (ring_acquire Q _ _ R ltac:(lia)) as (Q' & P & R' & K1 & K2 & K3 & K4). rewrite P.
      eexists. eapply (inv_client_q s _ tr [] c j _ _ q' Q Q' (c q') d 1); try eassumption; try reflexivity.
      + right. exact OW.
      + right. cbn. rewrite Nat.eqb_refl. repeat split. congruence.
      + intros k [= <-]. split; congruence.
      + intros k K. cbn [pc_fill pc_acq]. rewrite !other_q by exact K. repeat split.
      + symmetry. apply app_nil_r.
      + rewrite <- F. apply (v_fill _ _ _ I).
      + cbn [pc_ok]. rewrite fset_same, app_nil_r. split; [discriminate|]. split; [cbn; lia|]. split; [reflexivity|]. intros Q0. cbn [put_c put_q queues]. rewrite (nth_upd_eq _ _ _ _ HQ). intros [= <-]. rewrite K4, (T3 _ HQ). reflexivity.
      + cbn [put_c put_q busy]. rewrite F. reflexivity.
    - (* construct *)
      destruct us as [|t ts]; [exact Logic.I|]. pose proof (idle_not_dying _ _ _ _ _ I Hp eq_refl) as ED.
      destruct (v_ownc _ _ _ I j _ q' Hp eq_refl) as (Q & HQ & OW). rewrite HQ.
      pose proof (v_ring _ _ _ I q' Q HQ) as R. rewrite (acq_c _ _ _ _ _ HQ OW Hp) in R. cbn [pc_acq] in R. rewrite Nat.eqb_refl in R.
      pose proof (fill_c _ _ _ _ _ HQ OW Hp) as F. cbn [pc_fill] in F. rewrite Nat.eqb_refl in F. destruct (v_pc _ _ _ I _ _ Hp) as (T1 & T2 & T3 & T4). cbn [length] in T2.
      destruct (ring_construct Q (c q') _ t (apart_of _ _ _ q' (S (length (c q'))) I NW ltac:(lia)) R) as [Z R']. rewrite T3, Z.
      eexists. eapply (inv_client_q s _ tr [EInsert q' t] c j _ _ q' Q _ (c q' ++ [t]) (d ++ [t]) 0); try eassumption; try reflexivity.
      + right. exact OW.
      + right. cbn. rewrite Nat.eqb_refl. repeat split. exact OW.
      + intros k' [= <-]. split; [reflexivity|exact OW].
      + intros k' K. cbn [pc_fill pc_acq]. rewrite !other_q by exact K. repeat split.
      + intros k' K. cbn [inserted flat_map]. rewrite other_q by exact K. reflexivity.
      + cbn [inserted flat_map]. rewrite Nat.eqb_refl. reflexivity.
      + destruct (v_fill _ _ _ I q') as [c0 E]. rewrite F in E. exists c0. rewrite E, <- app_assoc. reflexivity.
      + cbn [pc_ok]. rewrite fset_same, !app_length. cbn [length]. split; [destruct d; discriminate|]. split; [lia|]. intros Q0. cbn [put_c put_q queues]. rewrite (nth_upd_eq _ _ _ _ HQ). intros [= <-]. cbn [set_slots q_enq]. apply (T4 _ HQ).
      + cbn [put_c put_q busy]. rewrite F, !app_length. cbn. lia.
      + cbn [all_inserted inserted flat_map]. rewrite Nat.eqb_refl. reflexivity.
    - (* publish *)
      destruct us as [|t ts]; [|exact Logic.I]. pose proof (idle_not_dying _ _ _ _ _ I Hp eq_refl) as ED.
      destruct (v_ownc _ _ _ I j _ q' Hp eq_refl) as (Q & HQ & OW). rewrite HQ.
      pose proof (v_ring _ _ _ I q' Q HQ) as R. rewrite (acq_c _ _ _ _ _ HQ OW Hp) in R. cbn [pc_acq] in R.
      pose proof (fill_c _ _ _ _ _ HQ OW Hp) as F. cbn [pc_fill] in F. rewrite Nat.eqb_refl in F. destruct (v_pc _ _ _ I _ _ Hp) as (T1 & T2 & T3). specialize (T3 _ HQ). rewrite app_nil_r in T1.
      assert (NE : c q' <> []). { destruct (v_fill _ _ _ I q') as [c0 E]. rewrite F in E. rewrite E. destruct c0; [exact T1|discriminate]. }
      rewrite T3. destruct (Nat.eqb_spec (length d) 0) as [E0|_]; [destruct d; [congruence|discriminate E0]|].
      destruct (ring_last _ _ _ R NE) as [u ->].
      exists (fset c q' (c q')). eapply (inv_client_q s _ tr [] c j _ _ q' Q Q (c q') [] 0); try eassumption; try reflexivity.
      + cbn [put_c put_busy queues]. symmetry. apply upd_same_id. exact HQ.
      + right. exact OW.
      + right. repeat split. exact OW.
      + intros k [= <-]. split; congruence.
      + intros k K. cbn [pc_fill pc_acq]. rewrite ?other_q by exact K. repeat split.
      + symmetry. apply app_nil_r.
      + exists (c q'). symmetry. apply app_nil_r.
      + cbn [put_c put_busy busy]. rewrite F. cbn. lia.
    - (* unlock *)
      pose proof (idle_not_dying _ _ _ _ _ I Hp eq_refl) as ED.
      destruct (v_ownc _ _ _ I j _ q' Hp eq_refl) as (Q & HQ & OW). rewrite HQ.
      pose proof (v_ring _ _ _ I q' Q HQ) as R. rewrite (acq_c _ _ _ _ _ HQ OW Hp) in R. cbn [pc_acq] in R.
      pose proof (fill_c _ _ _ _ _ HQ OW Hp) as F. cbn [pc_fill] in F.
      eexists. eapply (inv_client_q s _ tr [] c j _ _ q' Q (set_owner Q None) (c q') [] 0); try eassumption; try reflexivity.
      + right. exact OW.
      + left. repeat split.
      + intros k K. discriminate K.
      + intros k K. repeat split.
      + symmetry. apply app_nil_r.
      + exists (c q'). symmetry. apply app_nil_r.
      + cbn [put_c put_q busy]. rewrite F. reflexivity.
    - (* wait *)
      destruct (dying s) eqn:ED; [exact Logic.I|]. exists c. eapply (inv_client s _ tr [] c j); try eassumption; try reflexivity; [left; split; reflexivity|left; reflexivity].
    - pose proof (idle_not_dying _ _ _ _ _ I Hp eq_refl) as ED. destruct (busy s =? 0); [|exact Logic.I].
      exists c. eapply (inv_client s _ tr _ c j); try eassumption; try reflexivity; [right; split; reflexivity|right; reflexivity].
  Qed.

  Lemma idle_fill s tr c : Inv s tr c -> dying s = true -> forall q, fill s q = [].
  Proof.
    intros I D q. unfold fill. destruct (nth_error (queues s) q) as [Q|]; [|reflexivity]. destruct (q_owner Q) as [[i|j]|]; try reflexivity.
    destruct (nth_error (clients s) j) as [p|] eqn:E; [|reflexivity]. pose proof (forallb_nth _ _ _ _ (v_dying _ _ _ I D) E) as X. destruct p; try discriminate X. reflexivity.
  Qed.
  Lemma exit_tasks (l : list (@worker A)) : forallb is_exit l = true -> flat_map w_ready l = [] /\ flat_map w_ran l = [].
  Proof.
    induction l as [|w l IH]; cbn; [split; reflexivity|]. intros H. apply andb_true_iff in H. destruct H as [H1 H2]. destruct (IH H2) as [-> ->].
    unfold w_ready, w_ran, is_exit in *. destruct (w_pc w); try discriminate H1. split; reflexivity.
  Qed.
  Lemma unpublished_nil (s : state) : (forall q, fill s q = []) -> unpublished s = [].
  Proof. intros H. unfold unpublished. induction (seq 0 (length (queues s))) as [|k l IH]; cbn; [reflexivity|]. rewrite H, IH. reflexivity. Qed.
  Lemma drops_removed q (l : list A) : removed q (map (EDrop q) l) = l.
  Proof. induction l as [|t l IH]; cbn; [reflexivity|]. rewrite Nat.eqb_refl. cbn. f_equal. exact IH. Qed.
  Lemma drops_dropped q (l : list A) : dropped (map (EDrop q) l) = l.
  Proof. induction l as [|t l IH]; cbn; [reflexivity|]. f_equal. exact IH. Qed.
  Lemma drops_other q q' (l : list A) : q' <> q -> removed q' (map (EDrop q) l) = [].
  Proof. intros N. induction l as [|t l IH]; cbn; [reflexivity|]. rewrite other_q by exact N. exact IH. Qed.
  Lemma drops_none q (l : list A) : all_inserted (map (EDrop q) l) = [] /\ invoked (map (EDrop q) l) = [] /\ finished (map (EDrop q) l) = [] /\ forall q', inserted q' (map (EDrop q) l) = [].
  Proof. induction l as [|t l (I1 & I2 & I3 & I4)]; cbn; repeat split; try assumption. Qed.

  Lemma step_inv s tr c a : Inv s tr c -> no_wrap M cap tr ->
    match step M cap s a with Disabled => True | Bad => False | Next s' es => exists c', Inv s' (tr ++ es) c' end.
  Proof.
    intros I NW. unfold step.
    destruct a; try (destruct (nth_error (workers s) i) as [w|] eqn:Hw; [|exact Logic.I]; first [exact (step_worker_inv s tr c i w _ I NW Hw)|idtac]);
      try (destruct (nth_error (clients s) j) as [p|] eqn:Hp; [|exact Logic.I]; exact (step_client_inv s tr c j p _ I NW Hp)).
    - (* begin *)
      destruct (dying s) eqn:ED; [exact Logic.I|]. cbn [negb andb]. destruct (forallb is_idle (clients s)) eqn:EI; [|exact Logic.I].
      exists c. rewrite app_nil_r. destruct I. constructor; try assumption; cbn [dying queues workers clients].
      + discriminate.
      + intros q Q HQ HA. destruct (v_dead0 q Q HQ HA) as [X _]. congruence.
      + intros _. exact EI.
    - (* terminate queue *)
      destruct (nth_error (queues s) q) as [Q|] eqn:HQ; [|exact Logic.I]. destruct (dying s) eqn:ED; [|exact Logic.I]. rewrite app_nil_r. exists c.
      set (s' := put_q _ _ _). set (Q' := {| q_front := _ |}) in s'.
      assert (QI : forall k Z, nth_error (queues s') k = Some Z -> (k = q /\ Z = Q') \/ (k <> q /\ nth_error (queues s) k = Some Z)) by (intros k Z K; exact (nth_upd_inv _ _ _ _ _ _ HQ K)).
      assert (QO : forall k, k <> q -> nth_error (queues s') k = nth_error (queues s) k) by (intros k K; apply upd_other; congruence).
      assert (QQ : nth_error (queues s') q = Some Q') by (exact (nth_upd_eq _ _ _ _ HQ)).
      assert (FL : forall k, fill s' k = fill s k).
      { intros k. unfold fill. destruct (Nat.eq_dec k q) as [->|K]; [rewrite QQ, HQ; reflexivity|rewrite QO by exact K; reflexivity]. }
      assert (AL : forall k, acq s' k = acq s k).
      { intros k. unfold acq. destruct (Nat.eq_dec k q) as [->|K]; [rewrite QQ, HQ; reflexivity|rewrite QO by exact K; reflexivity]. }
      assert (LQ : length (queues s') = length (queues s)) by apply upd_length.
      assert (UP : unpublished s' = unpublished s) by (unfold unpublished; rewrite LQ; apply flat_map_ext_in; intros k _; apply FL).
      destruct I. constructor; try assumption.
      + intros i w q' H1 H2. destruct (v_ownw0 i w q' H1 H2) as (Z & Z1 & Z2). destruct (Nat.eq_dec q' q) as [->|K]; [|exists Z; rewrite QO by exact K; split; assumption]. exists Q'. split; [exact QQ|]. rewrite HQ in Z1. injection Z1 as <-. exact Z2.
      + intros j p q' H1 H2. destruct (v_ownc0 j p q' H1 H2) as (Z & Z1 & Z2). destruct (Nat.eq_dec q' q) as [->|K]; [|exists Z; rewrite QO by exact K; split; assumption]. exists Q'. split; [exact QQ|]. rewrite HQ in Z1. injection Z1 as <-. exact Z2.
      + intros k Z K. rewrite AL. destruct (QI _ _ K) as [[-> ->]|[_ K1]]; [exact (v_ring0 q Q HQ)|apply v_ring0; exact K1].
      + rewrite LQ. exact v_out0.
      + intros k. rewrite FL. apply v_fill0.
      + intros j p H1. pose proof (forallb_nth _ _ _ _ (v_dying0 ED) H1) as X. destruct p; try discriminate X. exact Logic.I.
      + rewrite UP, LQ. exact v_busy0.
      + rewrite LQ. exact v_perm3.
      + intros X. exfalso. cbn in X. congruence.
      + intros k Z K KA. cbn [s' put_q dying workers]. destruct (QI _ _ K) as [[-> ->]|[_ K1]]; [exact (v_dead0 q Q HQ KA)|exact (v_dead0 _ _ K1 KA)].
    - (* terminate worker *)
      destruct (dying s) eqn:ED; [|exact Logic.I]. exists c. eapply (inv_worker s _ tr [] c i w); try eassumption; try reflexivity.
      + left. reflexivity.
      + exact (fun x => x).
      + intros; split; reflexivity.
    - (* destroy a queue *)
      destruct (nth_error (queues s) q) as [Q|] eqn:HQ; [|exact Logic.I]. destruct (dying s) eqn:ED; [|exact Logic.I]. destruct (forallb is_exit (workers s)) eqn:EX; [|exact Logic.I].
      destruct (q_alive Q) eqn:EA; [|exact Logic.I]. destruct (q_owner Q) eqn:OW; [exact Logic.I|]. cbn [andb].
      pose proof (v_ring _ _ _ I q Q HQ) as R. rewrite (acq_n _ _ _ HQ OW) in R. rewrite (ring_size _ _ _ _ R), Nat.add_0_r.
      destruct (ring_drain (c q) Q _ (apart_of _ _ _ q (length (c q)) I NW ltac:(lia)) R) as (Q1 & P & R1 & K1 & K2 & K3 & K4). rewrite P.
      destruct (exit_tasks _ EX) as [X1 X2]. pose proof (idle_fill _ _ _ I ED) as FN.
      assert (Bq : 0 <= q < 0 + length (queues s)) by (apply nth_len in HQ; lia).
      destruct (frame_fun c q (length (queues s)) 0 Bq) as (Rc & Rc1). pose proof (Rc1 c ltac:(reflexivity)) as Rc0. specialize (Rc1 (fset c q []) ltac:(intros; apply fset_other; assumption)). rewrite fset_same in Rc1.
      pose proof (v_busy _ _ _ I) as B. rewrite (unpublished_nil _ FN) in B. unfold ready, ran in B. rewrite X1, X2, (Permutation_length Rc0), app_length in B. cbn [length] in B.
      destruct (Nat.ltb_spec (busy s) (length (c q))) as [L|L]; [lia|].
      exists (fset c q []). set (s' := put_busy _ _). set (Q' := {| q_front := _ |}) in s'.
      assert (QI : forall k Z, nth_error (queues s') k = Some Z -> (k = q /\ Z = Q') \/ (k <> q /\ nth_error (queues s) k = Some Z)) by (intros k Z K; exact (nth_upd_inv _ _ _ _ _ _ HQ K)).
      assert (QO : forall k, k <> q -> nth_error (queues s') k = nth_error (queues s) k) by (intros k K; apply upd_other; congruence).
      assert (QQ : nth_error (queues s') q = Some Q') by (exact (nth_upd_eq _ _ _ _ HQ)).
      assert (FL : forall k, fill s' k = []).
      { intros k. destruct (Nat.eq_dec k q) as [->|K]; [apply (fill_n _ _ _ QQ); cbn; congruence|]. rewrite <- (FN k). unfold fill. rewrite QO by exact K. reflexivity. }
      assert (AL : forall k, k <> q -> acq s' k = acq s k).
      { intros k K. unfold acq. rewrite QO by exact K. reflexivity. }
      assert (LQ : length (queues s') = length (queues s)) by apply upd_length.
      destruct (drops_none q (c q)) as (D1 & D2 & D3 & D4).
      destruct I. constructor.
      + intros i w q' H1 H2. exfalso. pose proof (forallb_nth _ _ _ _ EX H1) as X. unfold is_exit in X. destruct (w_pc w); try discriminate X. discriminate H2.
      + intros j p q' H1 H2. exfalso. pose proof (forallb_nth _ _ _ _ (v_dying0 ED) H1) as X. destruct p; try discriminate X. discriminate H2.
      + intros k Z K. destruct (QI _ _ K) as [[-> ->]|[Nk KZ]].
        * rewrite fset_same, removed_app, drops_removed, app_length. rewrite (acq_n s' q Q' QQ) by (cbn; congruence). exact R1.
        * rewrite fset_other, AL, removed_app, drops_other, app_nil_r by exact Nk. apply v_ring0. exact KZ.
      + intros k. rewrite inserted_app, removed_app, D4, app_nil_r, v_log0. destruct (Nat.eq_dec k q) as [->|K]; [rewrite fset_same, drops_removed, app_nil_r; reflexivity|].
        rewrite fset_other, drops_other, app_nil_r by exact K. reflexivity.
      + intros k K. rewrite LQ in K. destruct (Nat.eq_dec k q) as [->|N]; [apply fset_same|]. rewrite fset_other by exact N. apply v_out0. exact K.
      + intros k. rewrite FL. eexists. symmetry. apply app_nil_r.
      + intros j p H1. pose proof (forallb_nth _ _ _ _ (v_dying0 ED) H1) as X. destruct p; try discriminate X. exact Logic.I.
      + rewrite (unpublished_nil s' FL), LQ, (Permutation_length Rc1). unfold ready, ran. cbn [s' put_busy put_q workers busy]. rewrite X1, X2. cbn [app length]. lia.
      + rewrite all_inserted_app, invoked_app, dropped_app, D1, D2, drops_dropped, !app_nil_r, LQ, v_perm3. unfold ready. cbn [s' put_busy put_q workers]. rewrite X1, Rc0, Rc1. cbn [app]. rewrite <- !app_assoc. reflexivity.
      + rewrite invoked_app, finished_app, D2, D3, !app_nil_r. exact v_perm4.
      + intros X. exfalso. cbn in X. congruence.
      + intros k Z K KA. split; [exact ED|exact EX].
      + intros _. apply v_dying0. exact ED.
  Qed.
End P.
