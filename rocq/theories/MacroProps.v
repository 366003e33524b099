(** C171: MUU_FOR_EACH and MUU_COUNT_VA_ARGS. *)
From Coq Require Import List Arith Lia.
From Verif Require Import MacroModel.
Import ListNotations.
Local Open Scope nat_scope.

Section Tokens.
  Context {A : Type} (empty : A).
  Lemma nth_countdown i : i < 125 -> nth_error (@countdown A) i = Some (Number (124 - i)).
  Proof.
    intros H. unfold countdown. rewrite nth_error_map. rewrite (nth_error_nth' _ 0) by (rewrite rev_length, seq_length; exact H). rewrite rev_nth by (rewrite seq_length; exact H). rewrite seq_length, seq_nth by lia. cbn [option_map]. repeat f_equal; lia.
  Qed.
  Lemma impl_all (l : list A) n : length l = S n -> for_each_impl n l = Some l.
  Proof. revert n. induction l as [|x l IH]; intros n H; [discriminate|]. destruct n as [|n]; cbn [length] in H; [destruct l; [reflexivity|discriminate]|]. cbn [for_each_impl]. rewrite (IH n) by lia. reflexivity. Qed.
  Lemma arguments_some (l : list A) : l <> [] -> arguments empty l = l.
  Proof. destruct l; [contradiction|reflexivity]. Qed.
  Lemma nonempty (l : list A) : 1 <= length l -> l <> [].
  Proof. intros H ->. cbn in H. lia. Qed.
  (** The function is called with each argument, once and in order. *)
  Theorem C171_for_each : forall l : list A, 1 <= length l <= 125 -> for_each empty l = Some l.
  Proof.
    intros l H. unfold for_each. rewrite arguments_some by (apply nonempty; lia). unfold select. rewrite nth_error_app2 by (rewrite map_length; lia). rewrite map_length, nth_countdown by lia. apply impl_all. lia.
  Qed.
  Theorem C171_count : forall l : list A, 1 <= length l <= 124 -> count_va_args empty l = Some (Number (length l)).
  Proof.
    intros l H. unfold count_va_args. rewrite arguments_some by (apply nonempty; lia). unfold count_impl. rewrite nth_error_app2 by (rewrite map_length; lia). rewrite map_length, nth_countdown by lia. repeat f_equal; lia.
  Qed.
  (** No argument counts as an empty one. *)
  Theorem C171_none_refuted : count_va_args empty [] = Some (Number 1) /\ for_each empty [] = Some [empty].
  Proof. split; [exact (C171_count [empty] ltac:(cbn; lia))|exact (C171_for_each [empty] ltac:(cbn; lia))]. Qed.
  (** With more, the count is the 125th argument itself, and no macro is found. *)
  Theorem C171_many_refuted : forall l : list A, (124 < length l -> exists a, nth_error l 124 = Some a /\ count_va_args empty l = Some (Arg a)) /\ (125 < length l -> for_each empty l = None).
  Proof.
    intros l. split; intros H.
    - destruct (nth_error l 124) as [a|] eqn:E; [|apply nth_error_None in E; lia]. exists a. split; [reflexivity|]. unfold count_va_args, count_impl. rewrite arguments_some by (apply nonempty; lia). rewrite nth_error_app1 by (rewrite map_length; lia). rewrite nth_error_map, E. reflexivity.
    - unfold for_each, select. rewrite arguments_some by (apply nonempty; lia). rewrite nth_error_app1 by (rewrite map_length; lia). rewrite nth_error_map. destruct (nth_error l 125); reflexivity.
  Qed.
End Tokens.
Print Assumptions C171_for_each.
Print Assumptions C171_count.
Print Assumptions C171_none_refuted.
Print Assumptions C171_many_refuted.
Example C171_three : for_each 0 [7; 8; 9] = Some [7; 8; 9] /\ count_va_args 0 [7; 8; 9] = Some (Number 3) /\ count_va_args 0 (repeat 7 125) = Some (Arg 7).
Proof. split; [|split]; reflexivity. Qed.
