(** Property C42. *)
From Coq Require Import Lia ZifyBool ZifyNat ZifyN.
From Verif Require Import Words WordsProofs EarrProofs BlobModel BlobSpec BlobProofs.
Local Open Scope N_scope.
Ltac Zify.zify_post_hook ::= idtac.

(** Every program that does not assign a blob from its own bytes keeps the bytes it should, at the alignment it was promised,
    never touches freed memory, and every block is owned by exactly one blob. *)
Theorem C42_contents_partial sw ma os t : 16 <= sw -> pow2 ma -> ma + 128 < 2 ^ (sw - 1) -> Forall (sane sw) os -> srun ma [] os = Some t ->
  exists s, run sw ma start os = Some s /\
    (forall i, var s i = None <-> svar t i = None) /\
    (forall i x, svar t i = Some x -> exists b m, var s i = Some b /\ b_size b = N.of_nat (length (s_bytes x)) /\ contents s b = Some m /\ agrees m (s_bytes x) /\
       (s_promise x | b_align b) /\ (b_data b = None <-> s_bytes x = []) /\ (s_bytes x <> [] -> data_align s b = Some (b_align b))) /\
    (forall k c, nth_error (mem s) k = Some (Some c) -> exists i b, var s i = Some b /\ b_data b = Some k) /\
    (forall i j b b' k, var s i = Some b -> var s j = Some b' -> b_data b = Some k -> b_data b' = Some k -> i = j).
Proof.
  intros Hsw Hma HB F E. destruct (run_ok sw ma Hsw Hma HB os start [] t (sim_start sw ma) F E) as (s & RN & S). exists s. split; [exact RN|]. pose proof S as (_ & _ & U & K). split; [|split; [|split]].
  - intros i. pose proof (sim_var sw ma s t i S) as J. destruct (var s i), (svar t i); try contradiction; split; congruence.
  - intros i x X. pose proof (sim_var sw ma s t i S) as J. rewrite X in J. destruct (var s i) as [b|] eqn:V; [|contradiction]. pose proof J as (J1 & J2 & (J3 & J3') & J4 & J5 & J6 & J7). exists b.
    assert (DV : (s_promise x | b_align b)) by (apply (pow2_divide sw ma); assumption). unfold contents, data_align. destruct (b_data b) as [k|] eqn:D.
    + assert (NE : s_bytes x <> []) by (intros N; rewrite N in J1; destruct J7; contradiction).
      destruct (peek_blob sw ma Hsw HB (mem s) b x 0 (b_size b) J ltac:(congruence) ltac:(lia)) as (k' & m & E1 & AG & P). rewrite D in E1. injection E1 as <-. exists m. rewrite (P _ eq_refl).
      rewrite J1, Nat2N.id in AG. cbn [N.to_nat skipn] in AG. rewrite firstn_all in AG. destruct J7 as (_ & m' & rest & E2 & _). rewrite E2. cbn [k_align].
      repeat (split; [first [assumption|reflexivity]|]). split; [split; [discriminate|contradiction]|reflexivity].
    + exists []. assert (s_bytes x = []) as X0 by (destruct (s_bytes x); [reflexivity|cbn in J1; lia]). rewrite J7. rewrite X0 in *. cbn [length N.of_nat N.eqb].
      repeat (split; [first [assumption|reflexivity|apply Forall2_nil]|]). split; [split; reflexivity|congruence].
  - intros k c H. destruct (K k c H) as (i & b & Hb & Hk). destruct b as [b|]; [|discriminate]. exists i, b. split; [unfold var; rewrite Hb; reflexivity|exact Hk].
  - intros i j b b' k Hi Hj Hb Hb'. apply var_nth in Hi, Hj. apply (U i j k); [exists (Some b); split; assumption|exists (Some b'); split; assumption].
Qed.
Print Assumptions C42_contents_partial.

(** Copying a blob onto itself changes nothing if its alignment is what a blob of its size would get now, ... *)
Theorem C42_self_assign_partial sw ma s i b : var s i = Some b -> actual_alignment ma (b_size b) (b_align b) <= b_align b -> (b_data b = None -> b_size b = 0) ->
  step sw ma s (CopyAssign i i) = Some s.
Proof.
  intros V H D. cbn [step]. rewrite V. cbn [option_bind]. unfold blob_assign. apply N.leb_le in H. rewrite H. unfold blob_resize. rewrite N.eqb_refl. cbn [option_bind].
  assert (SV : set_var s i (b, mem s) = s). { unfold set_var. cbn [fst snd]. rewrite upd_self by (apply var_nth; exact V). destruct s; reflexivity. }
  unfold data_of. destruct (b_data b) as [k|]; [|cbn [option_bind]; rewrite SV; reflexivity]. cbn [is_null same_place negb andb]. rewrite Nat.eqb_refl. cbn [negb andb N.eqb option_bind]. rewrite SV. reflexivity.
Qed.
Print Assumptions C42_self_assign_partial.
(** ... otherwise the bytes are read after they were freed. *)
Theorem C42_self_assign_stale sw ma s i b k d : var s i = Some b -> b_align b < actual_alignment ma (b_size b) (b_align b) -> b_data b = Some k -> nth_error (mem s) k = Some (Some d) ->
  b_size b <> 0 -> step sw ma s (CopyAssign i i) = None.
Proof.
  intros V H D E S0. cbn [step]. rewrite V. cbn [option_bind]. unfold blob_assign. apply N.leb_gt in H. rewrite H, D. rewrite (free_ok _ _ _ E). cbn [option_bind].
  apply N.eqb_neq in S0. rewrite S0. unfold data_of. rewrite D. cbn [is_null]. unfold aligned_alloc. destruct ((b_size b =? 0) || _); [reflexivity|]. cbn [option_bind fst snd]. unfold memcpy.
  match goal with |- option_bind (option_bind ?m _) _ = None => assert (M : m = None); [|rewrite M; reflexivity] end.
  destruct (Nat.eqb _ _ && _); [reflexivity|]. unfold peek. rewrite nth_error_app1 by (rewrite upd_length; apply (nth_len _ _ _ E)). rewrite upd_same by apply (nth_len _ _ _ E). reflexivity.
Qed.
Print Assumptions C42_self_assign_stale.
Theorem C42_self_assign_refuted : exists os t, srun 16 [] (os ++ [CopyAssign 0 0]) = Some t /\ (exists s, run 64 16 start os = Some s) /\ run 64 16 start (os ++ [CopyAssign 0 0]) = None.
Proof.
  exists [New; Resize 0 2048]. eexists. split; [vm_compute; reflexivity|]. split; [eexists; vm_compute; reflexivity|]. vm_compute. reflexivity.
Qed.
Print Assumptions C42_self_assign_refuted.
(** Assigning part of a blob to the blob itself reads freed memory. *)
Theorem C42_assign_part_refuted : exists os t, srun 16 [] (os ++ [Assign 0 2 (UBlob 0 1) 0]) = Some t /\ (exists s, run 64 16 start os = Some s) /\ run 64 16 start (os ++ [Assign 0 2 (UBlob 0 1) 0]) = None.
Proof.
  exists [NewSized 4 (UOutside [Some 1; Some 2; Some 3; Some 4]) 0]. eexists. split; [vm_compute; reflexivity|]. split; [eexists; vm_compute; reflexivity|]. vm_compute. reflexivity.
Qed.
Print Assumptions C42_assign_part_refuted.
(** Copy assignment does not make the alignment match the source's, as documented, if the target's is larger. *)
Theorem C42_copy_alignment_refuted : exists os s a b, run 64 16 start os = Some s /\ var s 0 = Some a /\ var s 1 = Some b /\ nth_error os 2 = Some (CopyAssign 0 1) /\ length os = 3%nat /\ b_align a <> b_align b.
Proof.
  exists [NewSized 4 UNull 256; NewSized 4 UNull 32; CopyAssign 0 1]. do 3 eexists. split; [vm_compute; reflexivity|]. split; [reflexivity|]. split; [reflexivity|]. split; [reflexivity|]. split; [reflexivity|]. cbn. lia.
Qed.
Print Assumptions C42_copy_alignment_refuted.
Definition C42_program : list op := [NewSized 3 (UOutside [Some 7; Some 8; Some 9]) 64; Copy 0; Resize 1 5; Write 1 4 1; Assign 0 2 (UBlob 1 1) 0; MoveNew 1; New; CopyAssign 3 2].
Example C42_witness : Forall (sane 64) C42_program /\ pow2 16 /\ 16 + 128 < 2 ^ 63 /\
  srun 16 [] C42_program = Some [Some {| s_promise := 16; s_bytes := [Some 8; Some 9] |}; Some {| s_promise := 16; s_bytes := [] |};
    Some {| s_promise := 64; s_bytes := [Some 7; Some 8; Some 9; None; Some 1] |}; Some {| s_promise := 64; s_bytes := [Some 7; Some 8; Some 9; None; Some 1] |}].
Proof.
  split; [|split; [exists 4; reflexivity|split; [reflexivity|vm_compute; reflexivity]]].
  assert (F : forall size align, (align = 0 \/ pow2 align) -> align + 128 < 2 ^ 63 -> size + 128 < 2 ^ 63 -> fits 64 size align) by (intros; repeat split; assumption).
  assert (G : forall size align, (align = 0 \/ align = 64) -> size < 100 -> fits 64 size align).
  { intros size align A S. apply F; [destruct A as [->| ->]; [left; reflexivity|right; exists 6; reflexivity]| |]; change (2 ^ 63) with 9223372036854775808; lia. }
  unfold C42_program. repeat first [apply Forall_nil | apply Forall_cons; [cbn [sane]; first [exact I | discriminate | apply G; lia | split; [apply G; lia|discriminate]]|]].
Qed.
