(** Properties C43 (span) and C41 (static_array). *)
From Coq Require Import Lia ZifyBool ZifyNat ZifyN.
From Verif Require Import Words WordsProofs SpanModel SpanSpec SpanProofs.
Local Open Scope N_scope.
Ltac Zify.zify_post_hook ::= idtac.

(** A span on the whole array, or on any part of it, and the empty span on nothing. *)
Theorem C43_construct {A} (mem a b l : list A) id : mem = a ++ l ++ b ->
  (exists s, span_new None (Some (id, Z.of_nat (length a))) (N.of_nat (length l)) = Some s /\ views mem s l) /\
  (exists s, span_new (Some (N.of_nat (length l))) (Some (id, Z.of_nat (length a))) (N.of_nat (length l)) = Some s /\ views mem s l) /\
  (exists s, span_new None None 0 = Some s /\ views mem s []) /\
  (forall n p, n <> N.of_nat (length l) -> span_new (Some (N.of_nat (length l))) p n = None).
Proof.
  intros M. split; [|split; [|split]].
  - eexists. split; [reflexivity|]. split; [reflexivity|]. split; [exists a, b; split; [exact M|reflexivity]|exact I].
  - eexists. split; [cbn [span_new]; rewrite N.eqb_refl, orb_true_r; reflexivity|]. split; [reflexivity|]. split; [exists a, b; split; [exact M|reflexivity]|reflexivity].
  - eexists. split; [reflexivity|]. split; [reflexivity|]. split; [reflexivity|exact I].
  - intros n p H. apply N.eqb_neq in H. cbn [span_new]. rewrite H. reflexivity.
Qed.
Print Assumptions C43_construct.

(** [first], [last] and [subspan], with run-time and with static counts, are the list operations; anything out of range is
    caught by an assertion. *)
Theorem C43_first {A} (mem : list A) s l n : views mem s l ->
  (n <= N.of_nat (length l) ->
    (exists s', span_first s n = Some s' /\ views mem s' (firstn (N.to_nat n) l)) /\
    (exists s', span_first_static s n = Some s' /\ views mem s' (firstn (N.to_nat n) l))) /\
  (N.of_nat (length l) < n -> span_first s n = None /\ span_first_static s n = None).
Proof.
  intros V. split; [apply first_ok, V|]. intros H. unfold span_first, span_first_static. rewrite (proj1 V). apply N.leb_gt in H. rewrite H. split; reflexivity.
Qed.
Print Assumptions C43_first.
Theorem C43_last {A} (mem : list A) s l n : views mem s l ->
  (n <= N.of_nat (length l) ->
    (exists s', span_last (N.of_nat (length mem)) s n = Some s' /\ views mem s' (skipn (length l - N.to_nat n) l)) /\
    (exists s', span_last_static (N.of_nat (length mem)) s n = Some s' /\ views mem s' (skipn (length l - N.to_nat n) l))) /\
  (N.of_nat (length l) < n -> span_last (N.of_nat (length mem)) s n = None /\ span_last_static (N.of_nat (length mem)) s n = None).
Proof.
  intros V. split; [apply last_ok, V|]. intros H. unfold span_last, span_last_static. rewrite (proj1 V). apply N.leb_gt in H. rewrite H. split; reflexivity.
Qed.
Print Assumptions C43_last.
(** [dyn] asks for everything up to the end. *)
Theorem C43_subspan_partial {A} (mem : list A) sw s l o n : views mem s l -> N.of_nat (length mem) < dyn sw ->
  o < N.of_nat (length l) -> (n = dyn sw \/ o + n <= N.of_nat (length l)) ->
  let part := if n =? dyn sw then skipn (N.to_nat o) l else firstn (N.to_nat n) (skipn (N.to_nat o) l) in
  (exists s', span_sub sw (N.of_nat (length mem)) s o n = Some s' /\ views mem s' part) /\
  (exists s', span_sub_static sw (N.of_nat (length mem)) s o n = Some s' /\ views mem s' part).
Proof. exact (sub_ok mem sw s l o n). Qed.
Print Assumptions C43_subspan_partial.
(** The empty subspan at the end, which std::span has, is refused. *)
Theorem C43_subspan_end_refuted {A} (mem : list A) sw s l n : views mem s l -> span_sub sw (N.of_nat (length mem)) s (N.of_nat (length l)) n = None.
Proof. intros V. unfold span_sub. rewrite (proj1 V), N.ltb_irrefl. reflexivity. Qed.
Print Assumptions C43_subspan_end_refuted.

(** Reading. *)
Theorem C43_elements {A} (mem : list A) s l : views mem s l ->
  s_size s = N.of_nat (length l) /\ (span_empty s = true <-> l = []) /\
  (forall i, i < N.of_nat (length l) -> span_at (N.of_nat (length mem)) mem s i = nth_error l (N.to_nat i) /\ nth_error l (N.to_nat i) <> None) /\
  (forall x r, l = x :: r -> span_front mem s = Some x) /\
  (forall x r, l = r ++ [x] -> span_back (N.of_nat (length mem)) mem s = Some x) /\
  span_iterate (N.of_nat (length mem)) mem s = Some l.
Proof.
  intros V. split; [exact (proj1 V)|]. split.
  { unfold span_empty. destruct V as (S & _ & T). destruct (s_static s) as [e|]; [subst e|]; rewrite S, N.eqb_eq; (split; [intros H; destruct l; [reflexivity|cbn in H; lia]|intros ->; reflexivity]). }
  split; [intros i; exact (at_ok mem s l i V)|]. split; [intros x r; exact (front_ok mem s l x r V)|]. split; [intros x r; exact (back_ok mem s l x r V)|]. exact (iterate_ok mem s l V).
Qed.
Print Assumptions C43_elements.

(** A span converts to dynamic extent, and to a static extent that is its size; a wrong static extent goes unnoticed, and
    the resulting span claims elements the original did not have. *)
Theorem C43_convert_partial {A} (mem : list A) s l : views mem s l ->
  (exists s', span_convert None s = Some s' /\ views mem s' l) /\
  (exists s', span_convert (Some (N.of_nat (length l))) s = Some s' /\ views mem s' l).
Proof.
  intros (S & V & T). unfold span_convert. rewrite S. split.
  - destruct (s_ptr s) as [[o k]|] eqn:E; cbn [span_new].
    + eexists. split; [reflexivity|]. split; [reflexivity|]. split; [exact V|exact I].
    + subst l. cbn. eexists. split; [reflexivity|]. split; [reflexivity|]. split; [reflexivity|exact I].
  - destruct (s_ptr s) as [[o k]|] eqn:E.
    + rewrite orb_true_r. eexists. split; [reflexivity|]. split; [reflexivity|]. split; [exact V|reflexivity].
    + subst l. cbn. eexists. split; [reflexivity|]. split; [reflexivity|]. split; [reflexivity|reflexivity].
Qed.
Print Assumptions C43_convert_partial.
(** Without a pointer only the extent zero is accepted; and [dynamic_extent] is the largest value of size_t. *)
Theorem C43_convert_null s e : s_ptr s = None -> (exists s', span_convert (Some e) s = Some s') <-> e = 0.
Proof.
  intros P. unfold span_convert. rewrite P. destruct (N.eqb_spec e 0) as [->|Z]; cbn [orb].
  - split; [easy|]. intros _. eexists. reflexivity.
  - split; [intros [s' [=]] | easy].
Qed.
Print Assumptions C43_convert_null.
Theorem C43_dynamic_extent sw : dyn sw < 2 ^ sw /\ forall n, n < 2 ^ sw -> n <= dyn sw.
Proof. unfold dyn. assert (2 ^ sw <> 0) by (apply N.pow_nonzero; lia). split; intros; lia. Qed.
Print Assumptions C43_dynamic_extent.
Theorem C43_convert_refuted : exists (mem : list N) s l s', views mem s l /\ span_convert (Some 5) s = Some s' /\ s_size s' = 5 /\ (length l < 5)%nat.
Proof.
  exists [7; 8], {| s_ptr := Some (1, 0%Z); s_size := 2; s_static := None |}, [7; 8]. eexists. split.
  - split; [reflexivity|]. split; [exists [], []; split; reflexivity|exact I].
  - split; [reflexivity|]. split; [reflexivity|]. cbn. lia.
Qed.
Print Assumptions C43_convert_refuted.
Example C43_witness : let mem := [10; 11; 12; 13; 14] in let s := {| s_ptr := Some (1, 1%Z); s_size := 3; s_static := None |} in
  views mem s [11; 12; 13] /\ 5 < dyn 64 /\
  option_map s_ptr (span_sub 64 5 s 1 (dyn 64)) = Some (Some (1, 2%Z)) /\ span_back 5 mem s = Some 13.
Proof. split; [split; [reflexivity|split; [exists [10], [14]; split; reflexivity|exact I]]|]. vm_compute. repeat split. Qed.

(* ------------------------------------------------------------------------ C41 *)

(** Size, elements, equality. *)
Theorem C41_queries_partial {A} (eqb : A -> A -> bool) (l : list A) : (forall x y, eqb x y = true <-> x = y) ->
  sa_size l = N.of_nat (length l) /\ (forall i, sa_at l i = nth_error l (N.to_nat i)) /\
  (forall x r, l = x :: r -> sa_front l = Some x) /\ (forall x r, l = r ++ [x] -> sa_back l = Some x) /\
  (forall l', sa_equal eqb l l' = true <-> l = l').
Proof.
  intros H. split; [reflexivity|]. split; [reflexivity|]. split; [intros x r ->; reflexivity|]. split; [|apply sa_equal_eq, H].
  intros x r ->. unfold sa_back, sa_at, sa_size. rewrite app_length. cbn [length]. rewrite nth_error_app2 by lia.
  replace (N.to_nat (N.of_nat (length r + 1) - 1) - length r)%nat with 0%nat by lia. reflexivity.
Qed.
Print Assumptions C41_queries_partial.
(** [empty()] is the wrong way round. *)
Theorem C41_empty_refuted {A} (l : list A) : sa_empty l = true <-> l <> [].
Proof. unfold sa_empty, sa_size. rewrite N.ltb_lt. destruct l; cbn [length]; split; intros H; [lia|congruence|discriminate|lia]. Qed.
Print Assumptions C41_empty_refuted.
(** No two different arrays can be ordered: the comparison needs a pointer beyond the end of the first array. *)
Theorem C41_order_refuted {A} (eqb ltb : A -> A -> bool) a b : (forall x y, eqb x y = true <-> x = y) -> b <> [] -> a <> b -> sa_less eqb ltb a b = None.
Proof. apply sa_less_never. Qed.
Print Assumptions C41_order_refuted.
Example C41_witness : sa_back [3; 1; 4] = Some 4 /\ sa_equal N.eqb [3; 1] [3; 1] = true /\ sa_less N.eqb N.ltb [1] [2] = None /\ lex N.lt [1] [2] /\ sa_less N.eqb N.ltb [1; 2] [1; 2] = Some false.
Proof. repeat split; try reflexivity. apply lex_head. reflexivity. Qed.
