(** C50: how [thread_pool::for_each] divides its range. *)
From Coq Require Import Lia.
From Verif Require Import Words CoreModel CoreProofs BatchModel BatchSpec BatchProofs.
Local Open Scope Z_scope.

Definition visited (T : ity) (bs : list (Z * Z * Z)) : list Z := concat (map (run_batch T) bs).
Definition batch_sizes (bs : list (Z * Z * Z)) : list Z := map (fun b => snd b - snd (fst b)) bs.
Definition batch_indices (bs : list (Z * Z * Z)) : list Z := map (fun b => fst (fst b)) bs.

Lemma partition_ok T lo J W : 1 <= J -> 1 <= W -> in_ity T lo ->
  concat (map (run_batch T) (ideal 0 lo (shares J W))) = zseq lo (Z.to_nat J) ->
  exactly_once (visited T (ideal 0 lo (shares J W))) lo (lo + J) /\
  Forall (fun n => 1 <= n) (batch_sizes (ideal 0 lo (shares J W))) /\ even_sizes (batch_sizes (ideal 0 lo (shares J W))) /\
  Z.of_nat (length (ideal 0 lo (shares J W))) = Z.min J W /\
  forall i, In i (batch_indices (ideal 0 lo (shares J W))) <-> 0 <= i < Z.min J W.
Proof.
  intros HJ HW Hlo E. destruct (shares_facts J W HJ HW) as (LEN & SUM & POS & EV). unfold visited, batch_sizes, batch_indices. rewrite E, ideal_sizes, ideal_indices.
  assert (LI : length (ideal 0 lo (shares J W)) = batches J W) by (rewrite <- LEN, <- (map_length (fun b => snd b - snd (fst b))), ideal_sizes; reflexivity).
  assert (BM : Z.of_nat (batches J W) = Z.min J W) by (unfold batches; destruct (Z.ltb_spec J W); lia).
  split; [|split; [|split; [|split]]].
  - pose proof (zseq_once lo (Z.to_nat J)) as Q. rewrite Z2Nat.id in Q by lia. exact Q.
  - apply Forall_forall. exact POS.
  - exact EV.
  - rewrite LI. exact BM.
  - intros i. rewrite zseq_in, LEN. rewrite BM. lia.
Qed.

(** For every integer type, every number of workers and every range that does not touch the limits of the
    type, each value is visited exactly once; no batch is empty; batch sizes differ by at most one; there
    are min(values, workers) batches, exactly as many as the slots asked of the queue, and they have the
    indices 0, 1, ... below the number of workers. *)
Theorem C50_each_value_once_partial sw T W start stop : 0 < ibits T -> 0 < sw -> 1 <= W -> in_ity T start -> in_ity T stop ->
  start <> stop -> (stop < start -> start < ity_max T) ->
  (isigned T = true -> Z.abs (stop - start) <= ity_max (offset_type T)) ->
  exists bs, for_each sw T W start stop = Some bs /\
    visits_once (visited T bs) start stop /\
    Forall (fun n => 1 <= n) (batch_sizes bs) /\ even_sizes (batch_sizes bs) /\
    Z.of_nat (length bs) = batch_count (Z.abs (stop - start)) W /\
    forall i, In i (batch_indices bs) <-> 0 <= i < Z.min (Z.abs (stop - start)) W.
Proof.
  intros BT Bsw HW H1 H2 NE MX WD.
  assert (BC : batch_count (Z.abs (stop - start)) W = Z.min (Z.abs (stop - start)) W) by (unfold batch_count, min2; destruct (Z.ltb_spec (Z.abs (stop - start)) W); lia).
  rewrite BC. destruct (Z.lt_trichotomy start stop) as [L|[L|L]]; [|congruence|].
  - eexists. split; [apply for_each_fwd; try assumption; intros ST; specialize (WD ST); lia|]. replace (Z.abs (stop - start)) with (stop - start) by lia.
    destruct (ideal_run T W BT HW start (stop - start)) as [_ E]; [lia|assumption|left; replace (start + (stop - start)) with stop by lia; assumption|].
    destruct (ideal_run T W BT HW start (stop - start)) as [ID _]; [lia|assumption|left; replace (start + (stop - start)) with stop by lia; assumption|].
    cbn zeta in E, ID. rewrite ID in E.
    destruct (partition_ok T start (stop - start) W ltac:(lia) HW H1 E) as ([ND IN] & Q). split; [|exact Q]. split; [exact ND|]. intros x. rewrite IN. unfold in_call. lia.
  - rewrite for_each_bwd by (try assumption; auto). specialize (MX L). assert (in_ity T (stop + 1)) by (unfold in_ity in *; lia). assert (in_ity T (start + 1)) by (unfold in_ity in *; lia).
    eexists. split; [apply for_each_fwd; try assumption; [lia|intros ST; specialize (WD ST); lia]|]. replace (Z.abs (stop - start)) with (start + 1 - (stop + 1)) by lia. set (J := start + 1 - (stop + 1)) in *.
    destruct (ideal_run T W BT HW (stop + 1) J) as [ID E]; [lia|assumption|left; replace (stop + 1 + J) with (start + 1) by lia; assumption|].
    cbn zeta in E, ID. rewrite ID in E.
    destruct (partition_ok T (stop + 1) J W ltac:(lia) HW ltac:(assumption) E) as ([ND IN] & Q). split; [|exact Q]. split; [exact ND|]. intros x. rewrite IN. unfold in_call. lia.
Qed.
Print Assumptions C50_each_value_once_partial.

(** An empty range does nothing. *)
Theorem C50_empty_range sw T W x : for_each sw T W x x = Some [].
Proof. unfold for_each. rewrite Z.eqb_refl. reflexivity. Qed.
Print Assumptions C50_empty_range.

(** A descending range from the highest value of an unsigned type: the last batch is never run, so that at
    least the starting value itself is missed - and with one worker, everything. *)
Theorem C50_from_highest_refuted sw T W stop : isigned T = false -> 32 <= ibits T -> 0 < sw -> 1 <= W -> in_ity T stop -> stop < ity_max T ->
  exists bs, for_each sw T W (ity_max T) stop = Some bs /\
    (forall x, In x (visited T bs) <-> stop < x <= ity_max T - Z.max 1 ((ity_max T - stop) / W)) /\
    ~ visits_once (visited T bs) (ity_max T) stop /\ (W = 1 -> visited T bs = []).
Proof.
  intros U B Hsw HW Hs L. destruct (for_each_from_highest sw T W stop U B Hsw HW Hs L) as (bs & E & LEN & V). exists bs. split; [exact E|]. unfold visited. rewrite V.
  set (J := ity_max T - stop) in *. assert (1 <= Z.max 1 (J / W) <= J). { assert (J / W <= J) by (apply Z.div_le_upper_bound; unfold J; nia). unfold J in *. lia. }
  assert (IN : forall x, In x (zseq (stop + 1) (Z.to_nat (J - Z.max 1 (J / W)))) <-> stop < x <= ity_max T - Z.max 1 (J / W)) by (intros x; rewrite zseq_in; unfold J in *; lia).
  split; [exact IN|]. split.
  - intros [_ X]. specialize (X (ity_max T)). rewrite IN in X. unfold in_call in X. destruct X as [_ X]. specialize (X ltac:(lia)). lia.
  - intros ->. rewrite Z.div_1_r. replace (J - Z.max 1 J) with 0 by (unfold J; lia). reflexivity.
Qed.
Print Assumptions C50_from_highest_refuted.

(** The same for [int] and wider signed types is undefined behaviour ... *)
Theorem C50_from_highest_signed_refuted sw T W stop : isigned T = true -> 32 <= ibits T -> in_ity T stop -> stop < ity_max T ->
  for_each sw T W (ity_max T) stop = None.
Proof.
  intros ST B Hs L. unfold for_each. replace (ity_max T =? stop) with false by (symmetry; apply Z.eqb_neq; lia). replace (stop <? ity_max T) with true by (symmetry; apply Z.ltb_lt; lia).
  unfold plus_one. rewrite ST. replace (32 <=? ibits T) with true by (symmetry; apply Z.leb_le; exact B). rewrite Z.leb_refl. reflexivity.
Qed.
Print Assumptions C50_from_highest_signed_refuted.

(** ... and so is every range of a signed type that has more values than the type has non-negative ones. *)
Theorem C50_wide_signed_range_refuted sw T W start stop : isigned T = true -> 0 < ibits T -> in_ity T start -> in_ity T stop ->
  ity_max (offset_type T) < stop - start -> for_each sw T W start stop = None.
Proof.
  intros ST B H1 H2 WD. assert (0 <= ity_max (offset_type T)).
  { unfold ity_max. change (isigned (offset_type T)) with (isigned T). rewrite ST. assert (0 < 2 ^ (ibits (offset_type T) - 1)); [|lia]. apply Z.pow_pos_nonneg; unfold offset_type; cbn; lia. }
  unfold for_each. replace (start =? stop) with false by (symmetry; apply Z.eqb_neq; lia). replace (stop <? start) with false by (symmetry; apply Z.ltb_ge; lia).
  cbn [option_bind fst snd]. rewrite !(conv_id (offset_type T)) by (try (apply offset_wider; assumption); unfold offset_type; cbn; lia).
  unfold subtract. change (isigned (offset_type T)) with (isigned T). rewrite ST. replace (stop - start <=? ity_max (offset_type T)) with false by (symmetry; apply Z.leb_gt; exact WD). rewrite andb_false_r. reflexivity.
Qed.
Print Assumptions C50_wide_signed_range_refuted.

(** The iterator and collection forms: every position of the collection exactly once, in even shares. *)
Theorem C50_each_element_once sw W J : 0 < sw -> 1 <= W -> 1 <= J < 2 ^ sw ->
  exists bs, for_each_it sw W J = Some bs /\
    exactly_once (concat (map (fun b => match run_batch_it b with Some l => l | None => [] end) bs)) 0 J /\
    Forall (fun b => run_batch_it b <> None) bs /\
    Forall (fun n => 1 <= n) (batch_sizes bs) /\ even_sizes (batch_sizes bs) /\
    Z.of_nat (length bs) = batch_count J W /\ forall i, In i (batch_indices bs) <-> 0 <= i < Z.min J W.
Proof.
  intros Bsw HW HJ. unfold for_each_it. replace (J <=? 0) with false by (symmetry; apply Z.leb_gt; lia).
  destruct (first_step {| isigned := false; ibits := sw |} J W eq_refl Bsw HJ HW) as (n & g & k & E & V & K & SH). cbn zeta. rewrite E. cbn [fst snd].
  pose proof (dispatch_it_eq {| isigned := false; ibits := sw |} k eq_refl Bsw (S (Z.to_nat W)) 0 0 n g V K) as D. change (0 + n) with n in D. rewrite D, <- SH.
  eexists. split; [reflexivity|]. destruct (shares_facts J W ltac:(lia) HW) as (LEN & SUM & POS & EV).
  assert (BC : batch_count J W = Z.min J W) by (unfold batch_count, min2; destruct (Z.ltb_spec J W); lia).
  assert (LI : length (ideal 0 0 (shares J W)) = batches J W) by (rewrite <- LEN, <- (map_length (fun b => snd b - snd (fst b))), ideal_sizes; reflexivity).
  assert (BM : Z.of_nat (batches J W) = Z.min J W) by (unfold batches; destruct (Z.ltb_spec J W); lia).
  assert (RUN : forall b, In b (ideal 0 0 (shares J W)) -> run_batch_it b = Some (raw_batch b)).
  { intros b Hb. apply ideal_in in Hb; [|exact POS]. unfold run_batch_it, raw_batch. replace (snd b <? snd (fst b)) with false by (symmetry; apply Z.ltb_ge; lia). rewrite count_up_range by lia. reflexivity. }
  split; [|split; [|split; [|split; [|split]]]].
  - rewrite (map_ext_in _ raw_batch) by (intros b Hb; rewrite (RUN b Hb); reflexivity). rewrite ideal_concat by exact POS. rewrite SUM.
    pose proof (zseq_once 0 (Z.to_nat J)) as Q. rewrite Z2Nat.id in Q by lia. exact Q.
  - apply Forall_forall. intros b Hb. rewrite (RUN b Hb). discriminate.
  - unfold batch_sizes. rewrite ideal_sizes. apply Forall_forall. exact POS.
  - unfold batch_sizes. rewrite ideal_sizes. exact EV.
  - rewrite LI, BM, BC. reflexivity.
  - intros i. unfold batch_indices. rewrite ideal_indices, zseq_in, LEN, BM. lia.
Qed.
Print Assumptions C50_each_element_once.

(* ------------------------------------------------------------------ witnesses *)
Definition i32 := {| isigned := true; ibits := 32 |}.
Definition u32 := {| isigned := false; ibits := 32 |}.
Definition i8 := {| isigned := true; ibits := 8 |}.
Example C50_witness_forward : for_each 64 i32 4 (-3) 7 = Some [(0, -3, 0); (1, 0, 3); (2, 3, 5); (3, 5, 7)].
Proof. vm_compute. reflexivity. Qed.
Example C50_witness_backward : for_each 64 i32 3 5 (-2) = Some [(0, -1, 2); (1, 2, 4); (2, 4, 6)].
Proof. vm_compute. reflexivity. Qed.
Example C50_witness_few : for_each 64 i8 100 126 123 = Some [(0, 124, 125); (1, 125, 126); (2, 126, 127)].
Proof. vm_compute. reflexivity. Qed.
Example C50_witness_hypotheses : 0 < ibits i32 /\ in_ity i32 5 /\ in_ity i32 (-2) /\ 5 <> -2 /\ (-2 < 5 -> 5 < ity_max i32) /\ Z.abs (-2 - 5) <= ity_max (offset_type i32).
Proof. unfold in_ity, ity_min, ity_max, offset_type, i32. cbn. lia. Qed.
Example C50_witness_missed : for_each 64 u32 2 (2 ^ 32 - 1) (2 ^ 32 - 6) = Some [(0, 2 ^ 32 - 5, 2 ^ 32 - 2); (1, 2 ^ 32 - 2, 0)].
Proof. vm_compute. reflexivity. Qed.
Example C50_witness_elements : for_each_it 64 3 8 = Some [(0, 0, 3); (1, 3, 6); (2, 6, 8)].
Proof. vm_compute. reflexivity. Qed.
