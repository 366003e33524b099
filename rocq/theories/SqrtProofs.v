(** Newton's iteration for the square root with rounding errors. *)
From Coq Require Import ZArith Bool List Reals Lra Lia Psatz.
From Flocq Require Import Core BinarySingleNaN Relative Mult_error.
From Verif Require Import FpModel FpProofs SqrtModel.
Import ListNotations.
Local Open Scope R_scope.

(* ------------------------------------------------------------------ the iteration on the quotient t of the estimate and the root *)
Section Newton.
  Variable u : R.
  Hypothesis u_pos : 0 < u.
  Hypothesis u_small : u <= / 1000000.

  Definition step (t t' : R) : Prop := exists d1 d2, Rabs d1 <= u /\ Rabs d2 <= u /\ t' = / 2 * (t + (1 + d1) / t) * (1 + d2).

  Lemma inv_pos t : 0 < t -> 0 < / t. Proof. apply Rinv_0_lt_compat. Qed.

  Lemma step_low t t' : 0 < t -> step t t' -> 1 - 2 * u <= t'.
  Proof.
    intros Ht (d1 & d2 & H1 & H2 & ->). apply Rabs_le_inv in H1. apply Rabs_le_inv in H2.
    assert (A : 1 - u <= / 2 * (t + (1 + d1) / t)).
    { apply Rmult_le_reg_r with t; [exact Ht|]. replace (/ 2 * (t + (1 + d1) / t) * t) with (/ 2 * (t * t + (1 + d1))) by (field; lra).
      pose proof (Rle_0_sqr (t - (1 - u))) as Q. unfold Rsqr in Q. nra. }
    nra.
  Qed.

  Lemma step_high T t t' : 1 - 2 * u <= t <= T -> 1 + 4 * u <= T -> step t t' -> t' <= / 2 * (T + / T + 2 * u) * (1 + u).
  Proof.
    intros [L U] HT (d1 & d2 & H1 & H2 & ->). apply Rabs_le_inv in H1. apply Rabs_le_inv in H2. assert (Ht : 0 < t) by lra.
    pose proof (inv_pos t Ht) as Hi. assert (E : t * / t = 1) by (field; lra). assert (HT0 : 0 < T) by lra. pose proof (inv_pos T HT0) as HiT. assert (ET : T * / T = 1) by (field; lra).
    assert (I2 : / t <= 2). { apply Rmult_le_reg_l with t; [exact Ht|]. rewrite E. lra. }
    assert (A : t + / t <= T + / T).
    { apply Rmult_le_reg_r with (t * T); [nra|]. replace ((t + / t) * (t * T)) with (t * t * T + T) by (field; lra). replace ((T + / T) * (t * T)) with (t * T * T + t) by (field; lra).
      assert (K : 1 <= t * T). { assert ((1 - 2 * u) * (1 + 4 * u) <= t * T) by (apply Rmult_le_compat; lra). nra. }
      assert (0 <= (T - t) * (t * T - 1)) by (apply Rmult_le_pos; lra). lra. }
    assert (B : (1 + d1) / t <= / t + 2 * u). { unfold Rdiv. assert (d1 * / t <= u * 2); [|lra]. apply Rle_trans with (u * / t); [apply Rmult_le_compat_r; lra|apply Rmult_le_compat_l; lra]. }
    assert (B0 : 0 <= (1 + d1) / t) by (unfold Rdiv; apply Rmult_le_pos; lra).
    apply Rmult_le_compat; lra.
  Qed.

  Lemma step_far t t' : 8 <= t -> step t t' -> t' <= 51 / 100 * t.
  Proof.
    intros Ht S. assert (H := step_high t t t' ltac:(lra) ltac:(lra) S). assert (E : t * / t = 1) by (field; lra).
    assert (I : / t <= / 64 * t). { apply Rmult_le_reg_l with t; [lra|]. rewrite E. nra. }
    apply Rle_trans with (1 := H). apply Rle_trans with (/ 2 * (t + / 64 * t + / 100000 * t) * (1 + / 1000000)); [|lra].
    assert (0 < / t) by (apply inv_pos; lra). apply Rmult_le_compat; lra.
  Qed.

  Lemma step_quad a t t' : 0 <= a <= / 100 -> 1 - 2 * u <= t <= 1 + a + 2 * u -> step t t' -> t' <= 1 + (/ 2 * (a * a) + 3 / 2 * u + u / 10) /\ t' <= 1 + a * a + 2 * u.
  Proof.
    intros Ha [L U] (d1 & d2 & H1 & H2 & ->). apply Rabs_le_inv in H1. apply Rabs_le_inv in H2. assert (Ht : 0 < t) by lra.
    pose proof (inv_pos t Ht) as Hi. assert (E : t * / t = 1) by (field; lra).
    assert (I2 : / t <= 1 + 3 * u). { apply Rmult_le_reg_l with t; [exact Ht|]. rewrite E. nra. }
    assert (A : / 2 * (t + (1 + d1) / t) = 1 + (t - 1) * (t - 1) * (/ 2 * / t) + d1 * (/ 2 * / t)) by (field; lra). rewrite A.
    assert (Q : (t - 1) * (t - 1) <= (a + 2 * u) * (a + 2 * u)).
    { destruct (Rle_lt_dec 1 t); [apply Rmult_le_compat; lra|]. replace ((t - 1) * (t - 1)) with ((1 - t) * (1 - t)) by ring. apply Rmult_le_compat; lra. }
    assert (Q0 : 0 <= (t - 1) * (t - 1)) by (pose proof (Rle_0_sqr (t - 1)) as K; exact K).
    set (q := (t - 1) * (t - 1)) in *. set (i := / 2 * / t) in *. assert (Hi2 : 0 < i <= / 2 * (1 + 3 * u)) by (unfold i; lra). clearbody q i. clear A E Hi I2.
    assert (Aa : 0 <= a * a <= / 100 * a) by (split; [apply Rmult_le_pos; lra|apply Rmult_le_compat_r; lra]).
    assert (Au : 0 <= a * u <= / 100 * u) by (split; [apply Rmult_le_pos; lra|apply Rmult_le_compat_r; lra]).
    assert (Uu : 0 <= u * u <= / 1000000 * u) by (split; [apply Rmult_le_pos; lra|apply Rmult_le_compat_r; lra]).
    assert (Qb : q <= a * a + / 20 * u) by lra.
    assert (P1 : q * i <= (a * a + / 20 * u) * (/ 2 * (1 + 3 * u))) by (apply Rmult_le_compat; lra).
    assert (aau : a * a * u <= / 10000 * u) by (apply Rmult_le_compat_r; lra).
    assert (P1' : q * i <= / 2 * (a * a) + / 39 * u) by lra.
    assert (P2 : d1 * i <= u * (/ 2 * (1 + 3 * u))) by (apply Rle_trans with (u * i); [apply Rmult_le_compat_r; lra|apply Rmult_le_compat_l; lra]).
    assert (P3 : 1 + q * i + d1 * i <= 1 + (/ 2 * (a * a) + / 38 * u + / 2 * u)) by lra.
    assert (P0 : 0 <= 1 + q * i + d1 * i). { assert (0 <= q * i) by (apply Rmult_le_pos; lra). assert (- d1 * i <= u * 1) by (apply Rle_trans with (u * i); [apply Rmult_le_compat_r; lra|apply Rmult_le_compat_l; lra]). lra. }
    assert (P4 : (1 + q * i + d1 * i) * (1 + d2) <= (1 + (/ 2 * (a * a) + / 38 * u + / 2 * u)) * (1 + u)) by (apply Rmult_le_compat; lra).
    split; lra.
  Qed.
  Lemma step_final a t t' : 0 <= a <= / 100 -> a * a <= u / 4 -> 1 - 2 * u <= t <= 1 + a + 2 * u -> step t t' -> t' <= 1 + 2 * u.
  Proof. intros Ha Haa H S. destruct (step_quad a t t' Ha H S) as [K _]. lra. Qed.

  Lemma step_fixed t : 0 < t -> step t t -> 1 - 2 * u <= t <= 1 + 2 * u.
  Proof.
    intros Ht S. split; [exact (step_low t t Ht S)|]. destruct S as (d1 & d2 & H1 & H2 & E). apply Rabs_le_inv in H1. apply Rabs_le_inv in H2.
    assert (E2 : t * t * (1 - d2) = (1 + d1) * (1 + d2)). { apply Rmult_eq_compat_r with (r := 2 * t) in E. replace (/ 2 * (t + (1 + d1) / t) * (1 + d2) * (2 * t)) with ((t * t + (1 + d1)) * (1 + d2)) in E by (field; lra). lra. }
    destruct (Rle_lt_dec t (1 + 2 * u)) as [K|K]; [exact K|exfalso].
    assert (A : (1 + 2 * u) * (1 + 2 * u) < t * t) by (apply Rmult_le_0_lt_compat; lra).
    assert (B : (1 + 2 * u) * (1 + 2 * u) * (1 - u) < t * t * (1 - d2)). { apply Rlt_le_trans with (t * t * (1 - u)); [apply Rmult_lt_compat_r; lra|apply Rmult_le_compat_l; [|lra]; apply Rmult_le_pos; lra]. }
    assert (C : (1 + d1) * (1 + d2) <= (1 + u) * (1 + u)) by (apply Rmult_le_compat; lra). rewrite E2 in B.
    assert (Uu : 0 < u * u) by (apply Rmult_lt_0_compat; lra). assert (Uuu : u * u * u <= / 1000000 * (u * u)) by (replace (/ 1000000 * (u * u)) with ((u * u) * / 1000000) by ring; apply Rmult_le_compat_l; lra).
    assert (D : u * u <= / 1000000 * u) by (apply Rmult_le_compat_r; lra). lra.
  Qed.

  (** The bounds after one step and more. *)
  Definition tail : list R := [41 / 10; 22 / 10; 133 / 100; 1041 / 1000; 1 + / 1000 + 2 * u; 1 + / 1000000 + 2 * u; 1 + / 10 ^ 12 + 2 * u; 1 + / 10 ^ 24 + 2 * u].
  Definition bound (k : nat) : R := if (k <=? 81)%nat then Rmax 8 (2 ^ 80 * (51 / 100) ^ (k - 1)) else nth (k - 82) tail (1 + 2 * u).
  Hypothesis u_large : / 10 ^ 46 <= u.

  Lemma pow51_80 : 2 ^ 80 * (51 / 100) ^ 80 <= 8.
  Proof. rewrite <- Rpow_mult_distr. replace (2 * (51 / 100)) with (1 + / 50) by field. assert (E : (1 + / 50) ^ 80 = ((1 + / 50) ^ 4) ^ 20) by (rewrite <- pow_mult; reflexivity). rewrite E.
    apply Rle_trans with ((109 / 100) ^ 20). { apply pow_incr. split; [apply pow_le; lra|]. cbn [pow]. lra. }
    replace ((109 / 100) ^ 20) with (((109 / 100) ^ 4) ^ 5) by (rewrite <- pow_mult; reflexivity).
    apply Rle_trans with ((142 / 100) ^ 5). { apply pow_incr. split; [apply pow_le; lra|]. cbn [pow]. lra. } cbn [pow]. lra.
  Qed.
  Lemma bound_81 : bound 81 = 8.
  Proof. unfold bound. cbn [Nat.leb Nat.sub]. apply Rmax_left. exact pow51_80. Qed.

  Lemma bound_step k t t' : (1 <= k)%nat -> 1 - 2 * u <= t <= bound k -> step t t' -> 1 - 2 * u <= t' <= bound (S k).
  Proof.
    intros Hk [L U] S. split; [apply (step_low t t'); [lra|exact S]|].
    destruct (Nat.leb_spec k 80) as [K|K].
    - assert (U' : t <= Rmax 8 (2 ^ 80 * (51 / 100) ^ (k - 1))). { revert U. unfold bound. replace (k <=? 81)%nat with true by (symmetry; apply Nat.leb_le; lia). trivial. }
      unfold bound. replace (Datatypes.S k <=? 81)%nat with true by (symmetry; apply Nat.leb_le; lia).
      replace (Datatypes.S k - 1)%nat with (Datatypes.S (k - 1)) by lia. cbn [pow].
      destruct (Rle_lt_dec 8 t) as [F|F].
      + pose proof (step_far t t' F S) as H. unfold Rmax in U' |- *. destruct (Rle_dec 8 (2 ^ 80 * (51 / 100) ^ (k - 1))); destruct (Rle_dec 8 _); lra.
      + pose proof (step_high 8 t t' ltac:(lra) ltac:(lra) S) as H. apply Rle_trans with (2 := Rmax_l _ _). apply Rle_trans with (1 := H). nra.
    - destruct (Nat.eq_dec k 81) as [->|K81].
      { rewrite bound_81 in U. pose proof (step_high 8 t t' ltac:(lra) ltac:(lra) S) as H. change (bound 82) with (41 / 10). apply Rle_trans with (1 := H). nra. }
      assert (E : exists m, k = (82 + m)%nat) by (exists (k - 82)%nat; lia). destruct E as [m ->].
      assert (B : forall m, bound (82 + m) = nth m tail (1 + 2 * u)). { intros n. unfold bound. replace (82 + n <=? 81)%nat with false by (symmetry; apply Nat.leb_gt; lia). f_equal. lia. }
      change (Datatypes.S (82 + m)) with (82 + Datatypes.S m)%nat. rewrite B in U |- *.
      destruct m as [|[|[|[|[|[|[|[|m]]]]]]]]; cbn [nth tail] in U |- *.
      + apply Rle_trans with (1 := step_high (41 / 10) t t' ltac:(lra) ltac:(lra) S). nra.
      + apply Rle_trans with (1 := step_high (22 / 10) t t' ltac:(lra) ltac:(lra) S). nra.
      + apply Rle_trans with (1 := step_high (133 / 100) t t' ltac:(lra) ltac:(lra) S). nra.
      + apply Rle_trans with (1 := step_high (1041 / 1000) t t' ltac:(lra) ltac:(lra) S). nra.
      + destruct (step_quad (/ 1000) t t' ltac:(lra) ltac:(lra) S). lra.
      + destruct (step_quad (/ 1000000) t t' ltac:(lra) ltac:(lra) S). lra.
      + destruct (step_quad (/ 10 ^ 12) t t' ltac:(lra) ltac:(lra) S). lra.
      + apply (step_final (/ 10 ^ 24) t t'); [lra|lra|lra|exact S].
      + assert (N : nth m [] (1 + 2 * u) = 1 + 2 * u) by (destruct m; reflexivity). rewrite ?N in *.
        apply (step_final 0 t t'); [lra|lra| |exact S]. destruct m; lra.
  Qed.
  Lemma bound_max k : bound k <= 2 ^ 80.
  Proof.
    unfold bound. destruct (Nat.leb_spec k 81).
    - apply Rmax_lub; [|rewrite <- (Rmult_1_r (2 ^ 80)) at 2; apply Rmult_le_compat_l; [apply pow_le; lra|]].
      + replace 8 with (2 ^ 3) by (cbn; lra). apply Rle_pow; [lra|lia].
      + rewrite <- (pow1 (k - 1)). apply pow_incr. lra.
    - assert (A : 8 <= 2 ^ 80) by (replace 8 with (2 ^ 3) by (cbn; lra); apply Rle_pow; [lra|lia]).
      destruct (k - 82)%nat as [|[|[|[|[|[|[|[|m]]]]]]]]; cbn [nth tail]; try lra. destruct m; lra.
  Qed.
  Lemma bound_end k : (90 <= k)%nat -> bound k = 1 + 2 * u.
  Proof. intros H. unfold bound. replace (k <=? 81)%nat with false by (symmetry; apply Nat.leb_gt; lia). apply nth_overflow. cbn. lia. Qed.
End Newton.
