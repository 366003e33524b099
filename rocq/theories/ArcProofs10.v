(** Arguments at which the compile-time arc sine and arc cosine are far off. *)
From Coq Require Import ZArith Bool List Reals Lra Lia.
From Flocq Require Import Core BinarySingleNaN.
From Verif Require Import FpModel SqrtModel SqrtProps ConstProofs TrigSpec TrigProofs2 TrigProofs5 ArcModel ArcSpec ArcProofs4 ArcProofs5 ArcProofs8.
Local Open Scope R_scope.

(** The angle of a cosine *)
Lemma cos_half_angle t : cos (2 * t) = 1 - 2 * (sin t * sin t).
Proof. rewrite cos_2a. pose proof (sin2_cos2 t) as E. unfold Rsqr in E. lra. Qed.
(** Taylor's bound for the sine of half of [v] *)
Definition half_sin (v : R) : R := v / 2 - v / 2 * (v / 2) * (v / 2) / 6 + v / 2 * (v / 2) * (v / 2) * (v / 2) * (v / 2) / 120.
Lemma cos_above v : 0 <= v <= 1 -> 1 - 2 * (half_sin v * half_sin v) <= cos v.
Proof.
  intros V. replace v with (2 * (v / 2)) at 3 by field. rewrite cos_half_angle. unfold half_sin. set (t := v / 2). assert (T : 0 <= t <= 0.5) by (unfold t; lra). pose proof PI_bounds.
  destruct (pre_sin_bound t 0 ltac:(lra) ltac:(lra)) as [_ L]. assert (S : 0 <= sin t) by (apply sin_ge_0; lra).
  assert (L' : sin t <= t - t * t * t / 6 + t * t * t * t * t / 120) by (apply Rle_trans with (1 := L); right; unfold sin_approx, sin_term; cbn; field).
  assert (sin t * sin t <= (t - t * t * t / 6 + t * t * t * t * t / 120) * (t - t * t * t / 6 + t * t * t * t * t / 120)) by (apply Rmult_le_compat; lra). lra.
Qed.
Lemma cos_below v : 0 <= v <= 1 -> cos v <= 1 - v * v / 2 + v * v * (v * v) / 24.
Proof.
  intros V. replace v with (2 * (v / 2)) at 1 by field. rewrite cos_half_angle. set (t := v / 2). assert (T : 0 <= t <= 0.5) by (unfold t; lra). pose proof PI_bounds.
  destruct (pre_sin_bound t 0 ltac:(lra) ltac:(lra)) as [L _].
  assert (L' : t - t * t * t / 6 <= sin t) by (apply Rle_trans with (2 := L); right; unfold sin_approx, sin_term; cbn; field).
  assert (T3 : 0 <= t * t * t <= t). { assert (t * t <= 1 * 1) by (apply Rmult_le_compat; lra). assert (0 <= t * t) by (apply Rmult_le_pos; lra). split; [apply Rmult_le_pos; lra|]. apply Rle_trans with (1 * t); [apply Rmult_le_compat_r; lra|lra]. }
  assert (S : (t - t * t * t / 6) * (t - t * t * t / 6) <= sin t * sin t) by (apply Rmult_le_compat; lra).
  replace (v * v / 2) with (2 * (t * t)) by (unfold t; field). replace (v * v * (v * v) / 24) with (2 / 3 * (t * t * (t * t))) by (unfold t; field).
  replace ((t - t * t * t / 6) * (t - t * t * t / 6)) with (t * t - t * t * (t * t) / 3 + (t * t * t) * (t * t * t) / 36) in S by field. assert (0 <= (t * t * t) * (t * t * t)) by (apply Rmult_le_pos; lra). lra.
Qed.
Lemma acos_above v x : 0 <= v <= 1 -> -1 <= x <= 1 -> x < 1 - 2 * (half_sin v * half_sin v) -> v < acos x.
Proof.
  intros V X H. apply Rnot_le_lt. intros L. pose proof (acos_bound x) as B. pose proof PI_bounds. pose proof (cos_above v V) as C. assert (cos v <= cos (acos x)); [|rewrite cos_acos in *; lra].
  destruct (Req_dec (acos x) v) as [E|E]; [rewrite E; lra|]. left. apply cos_decreasing_1; lra.
Qed.
Lemma acos_below v x : 0 <= v <= 1 -> -1 <= x <= 1 -> 1 - v * v / 2 + v * v * (v * v) / 24 < x -> acos x < v.
Proof.
  intros V X H. apply Rnot_le_lt. intros L. pose proof (acos_bound x) as B. pose proof PI_bounds. pose proof (cos_below v V) as C. assert (cos (acos x) <= cos v); [|rewrite cos_acos in *; lra].
  destruct (Req_dec (acos x) v) as [E|E]; [rewrite E; lra|]. left. apply cos_decreasing_1; lra.
Qed.
Lemma pi_digits : 3.1415926535897932384 < PI < 3.1415926535897932385.
Proof.
  destruct pi_within as [L H]. let s := eval vm_compute in scale in change scale with s in *. let l := eval vm_compute in pi_l in change pi_l with l in *. let h := eval vm_compute in pi_h in change pi_h with h in *. lra.
Qed.

Definition near1 : binary_float 53 1024 := @num 53 1024 9007199253249395 (-53) eq_refl.
Definition near2 : binary_float 53 1024 := @num 53 1024 9007199187590268 (-53) eq_refl.
Definition near3 : binary_float 53 1024 := @num 53 1024 9007199254740990 (-53) eq_refl.
Definition got1 : binary_float 53 1024 := @num 53 1024 7074155791332415 (-52) eq_refl.
Definition got2 : binary_float 53 1024 := @num 53 1024 7073687824783402 (-52) eq_refl.
Definition got3 : binary_float 53 1024 := @num 53 1024 6369051672510464 (-78) eq_refl.
Definition got4 : binary_float 53 1024 := @num 53 1024 6369051697741824 (-78) eq_refl.
Definition result (o : option (binary_float 53 1024)) (y : binary_float 53 1024) : bool := match o with Some z => match B2SF z, B2SF y with SpecFloat.S754_finite false m e, SpecFloat.S754_finite false m' e' => Pos.eqb m m' && Z.eqb e e' | _, _ => false end | None => false end.
Lemma result_ok o y : result o y = true -> o = Some y.
Proof.
  unfold result. destruct o as [z|]; [|discriminate]. intros H. f_equal. apply B2SF_inj.
  destruct (B2SF z) as [b|b| |b m e]; [discriminate H|discriminate H|discriminate H|]. destruct b; [discriminate H|]. destruct (B2SF y) as [b|b| |b m' e']; [discriminate H|discriminate H|discriminate H|]. destruct b; [discriminate H|].
  apply andb_prop in H. destruct H as [H1 H2]. apply Pos.eqb_eq in H1. apply Z.eqb_eq in H2. now subst.
Qed.
Lemma run1 : result (asin_narrow 53 1024 64 16384 p53 e1024 p64 e16384 arc64 2 near1) got1 = true. Proof. vm_compute. reflexivity. Qed.
Lemma run2 : result (asin_naive 53 1024 p53 e1024 arc53 2 near2) got2 = true. Proof. vm_compute. reflexivity. Qed.
Lemma run3 : result (acos_narrow 53 1024 64 16384 p53 e1024 p64 e16384 arc64 2 near3) got3 = true. Proof. vm_compute. reflexivity. Qed.
Lemma run4 : result (acos_naive 53 1024 p53 e1024 arc53 2 near3) got4 = true. Proof. vm_compute. reflexivity. Qed.

Lemma value (m : positive) (k : Z) H : B2R (@num 53 1024 m (Z.neg (Z.to_pos k)) H) = IZR (Zpos m) * / IZR (2 ^ Zpos (Z.to_pos k)).
Proof. rewrite num_value. change (Z.neg (Z.to_pos k)) with (- Zpos (Z.to_pos k))%Z. rewrite bpow_opp. now rewrite <- (IZR_Zpower radix2) by lia. Qed.
Lemma x1 : B2R near1 = 9007199253249395 / 9007199254740992. Proof. exact (value 9007199253249395 53 eq_refl). Qed.
Lemma x2 : B2R near2 = 9007199187590268 / 9007199254740992. Proof. exact (value 9007199187590268 53 eq_refl). Qed.
Lemma x3 : B2R near3 = 9007199254740990 / 9007199254740992. Proof. exact (value 9007199254740990 53 eq_refl). Qed.
Lemma y1 : B2R got1 = 7074155791332415 / 4503599627370496. Proof. exact (value 7074155791332415 52 eq_refl). Qed.
Lemma y2 : B2R got2 = 7073687824783402 / 4503599627370496. Proof. exact (value 7073687824783402 52 eq_refl). Qed.
Lemma y3 : B2R got3 = 6369051672510464 / 302231454903657293676544. Proof. exact (value 6369051672510464 78 eq_refl). Qed.
Lemma y4 : B2R got4 = 6369051697741824 / 302231454903657293676544. Proof. exact (value 6369051697741824 78 eq_refl). Qed.
Lemma far1 : 3 * bpow radix2 (-52) < B2R got1 - asin (B2R near1).
Proof.
  assert (X : -1 <= B2R near1 <= 1) by (rewrite x1; lra). pose proof (acos_above 0.0000181989303690 (B2R near1) ltac:(lra) X ltac:(rewrite x1; unfold half_sin; lra)) as A. rewrite acos_asin in A by exact X. pose proof pi_digits. rewrite y1. change (bpow radix2 (-52)) with (/ 4503599627370496). lra.
Qed.
Lemma far2 : 1000 * bpow radix2 (-52) < B2R got2 - asin (B2R near2).
Proof.
  assert (X : -1 <= B2R near2 <= 1) by (rewrite x2; lra). pose proof (acos_above 0.000122108378085 (B2R near2) ltac:(lra) X ltac:(rewrite x2; unfold half_sin; lra)) as A. rewrite acos_asin in A by exact X. pose proof pi_digits. rewrite y2. change (bpow radix2 (-52)) with (/ 4503599627370496). lra.
Qed.
Lemma far3 : 20000 * bpow radix2 (-53) * acos (B2R near3) < acos (B2R near3) - B2R got3.
Proof.
  assert (X : -1 <= B2R near3 <= 1) by (rewrite x3; lra). pose proof (acos_above 0.000000021073424255447 (B2R near3) ltac:(lra) X ltac:(rewrite x3; unfold half_sin; lra)) as A. rewrite y3. change (bpow radix2 (-53)) with (/ 9007199254740992). lra.
Qed.
Lemma far4 : 30000000 * bpow radix2 (-53) * acos (B2R near3) < B2R got4 - acos (B2R near3).
Proof.
  assert (X : -1 <= B2R near3 <= 1) by (rewrite x3; lra). pose proof (acos_below 0.000000021073424256 (B2R near3) ltac:(lra) X ltac:(rewrite x3; lra)) as A. rewrite y4. change (bpow radix2 (-53)) with (/ 9007199254740992). lra.
Qed.
