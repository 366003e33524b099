(** Lemmas about machine words. *)
From Verif Require Import Words.
From Coq Require Import ZifyBool ZifyNat ZifyN.
Ltac Zify.zify_post_hook ::= Z.div_mod_to_equations.

Lemma pow2_pos w : 0 < 2 ^ w.
Proof. apply N.neq_0_lt_0, N.pow_nonzero. discriminate. Qed.

Lemma trunc_lt w x : trunc w x < 2 ^ w.
Proof. apply N.mod_lt. pose proof (pow2_pos w); lia. Qed.

Lemma trunc_small w x : x < 2 ^ w -> trunc w x = x.
Proof. apply N.mod_small. Qed.

Lemma testbit_trunc w x i : N.testbit (trunc w x) i = (i <? w) && N.testbit x i.
Proof.
  unfold trunc. destruct (N.ltb_spec i w) as [H|H].
  - rewrite N.mod_pow2_bits_low by exact H. reflexivity.
  - rewrite N.mod_pow2_bits_high by exact H. reflexivity.
Qed.

Lemma testbit_shiftl x s i : N.testbit (N.shiftl x s) i = (s <=? i) && N.testbit x (i - s).
Proof.
  destruct (N.leb_spec s i) as [H|H].
  - rewrite N.shiftl_spec_high' by exact H. reflexivity.
  - rewrite N.shiftl_spec_low by exact H. reflexivity.
Qed.

Lemma testbit_shiftr x s i : N.testbit (N.shiftr x s) i = N.testbit x (i + s).
Proof. apply N.shiftr_spec'. Qed.

Lemma testbit_high w x i : x < 2 ^ w -> w <= i -> N.testbit x i = false.
Proof.
  intros H Hi. rewrite <- (N.mod_small x (2 ^ w)) by exact H.
  apply N.mod_pow2_bits_high; exact Hi.
Qed.

Lemma lt_pow2_bits w x : (forall i, w <= i -> N.testbit x i = false) -> x < 2 ^ w.
Proof.
  intros H. destruct (N.eq_dec x 0) as [->|Hx]; [apply pow2_pos|].
  apply N.log2_lt_pow2; [lia|].
  destruct (N.ltb_spec (N.log2 x) w) as [Hl|Hl]; [exact Hl|].
  pose proof (H _ Hl) as Hf. rewrite N.bit_log2 in Hf by exact Hx. discriminate.
Qed.

Lemma le_bytes_length n x : length (le_bytes n x) = n.
Proof. revert x; induction n as [|n IH]; intros x; cbn [le_bytes length]; [|rewrite IH]; reflexivity. Qed.

Lemma pow256 n : 2 ^ (8 * N.of_nat (S n)) = 256 * 2 ^ (8 * N.of_nat n).
Proof.
  replace (8 * N.of_nat (S n)) with (8 + 8 * N.of_nat n) by lia.
  rewrite N.pow_add_r. reflexivity.
Qed.

Lemma of_le_bytes_le_bytes n x : of_le_bytes (le_bytes n x) = x mod 2 ^ (8 * N.of_nat n).
Proof.
  revert x; induction n as [|n IH]; intros x; cbn [le_bytes of_le_bytes].
  - change (2 ^ (8 * N.of_nat 0)) with 1. rewrite N.mod_1_r. reflexivity.
  - rewrite IH, pow256. pose proof (pow2_pos (8 * N.of_nat n)) as Hp.
    rewrite N.mod_mul_r by lia. lia.
Qed.

Lemma le_bytes_inj n x y :
  x < 2 ^ (8 * N.of_nat n) -> y < 2 ^ (8 * N.of_nat n) -> le_bytes n x = le_bytes n y -> x = y.
Proof.
  intros Hx Hy H. rewrite <- (N.mod_small _ _ Hx), <- (N.mod_small _ _ Hy).
  rewrite <- !of_le_bytes_le_bytes. now rewrite H.
Qed.

Lemma le_bytes_nth n x i d :
  (i < n)%nat -> nth i (le_bytes n x) d = (x / 2 ^ (8 * N.of_nat i)) mod 256.
Proof.
  revert x i; induction n as [|n IH]; intros x i Hi; [lia|].
  destruct i as [|i]; cbn [le_bytes nth].
  - change (2 ^ (8 * N.of_nat 0)) with 1. now rewrite N.div_1_r.
  - rewrite IH by lia. rewrite pow256, N.div_div; [reflexivity|lia|].
    pose proof (pow2_pos (8 * N.of_nat i)); lia.
Qed.

Lemma le_bytes_bound n x b : In b (le_bytes n x) -> b < 256.
Proof.
  revert x; induction n as [|n IH]; intros x; cbn [le_bytes In]; [intros []|].
  intros [<-|H]; [lia|eauto].
Qed.

Lemma of_le_bytes_bound l : Forall (fun b => b < 256) l -> of_le_bytes l < 2 ^ (8 * N.of_nat (length l)).
Proof.
  induction l as [|b l IH]; intros H; cbn [of_le_bytes length].
  - reflexivity.
  - inversion H as [|? ? Hb Hl]; subst. specialize (IH Hl). rewrite pow256. lia.
Qed.

Lemma le_bytes_of_le_bytes l : Forall (fun b => b < 256) l -> le_bytes (length l) (of_le_bytes l) = l.
Proof.
  induction l as [|b l IH]; intros H; cbn [of_le_bytes length le_bytes]; [reflexivity|].
  inversion H as [|? ? Hb Hl]; subst. specialize (IH Hl).
  replace ((b + 256 * of_le_bytes l) mod 256) with b by lia.
  replace ((b + 256 * of_le_bytes l) / 256) with (of_le_bytes l) by lia.
  now rewrite IH.
Qed.
