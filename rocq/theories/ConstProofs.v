(** Interval arithmetic on integers, for comparing the constants with the real numbers they stand for. *)
From Coq Require Import ZArith Reals Lra Lia Bool List Machin Ratan.
From Flocq Require Import Core.
From Verif Require Import ConstModel ConstSpec.
Import ListNotations.
Local Open Scope R_scope.

(** [x], times [s], lies between [l] and [h]. *)
Definition within (s : Z) (x : R) (l h : Z) : Prop := IZR l <= x * IZR s <= IZR h.

Lemma floor_div a b : (0 < b)%Z -> IZR (a / b) <= IZR a / IZR b.
Proof.
  intros B. assert (P : 0 < IZR b) by (now apply IZR_lt).
  apply Rmult_le_reg_r with (IZR b); [exact P|].
  replace (IZR a / IZR b * IZR b) with (IZR a) by (field; lra).
  rewrite <- mult_IZR. apply IZR_le. rewrite Z.mul_comm. now apply Z.mul_div_le.
Qed.
Definition cdiv (a b : Z) : Z := (- ((- a) / b))%Z.
Lemma ceil_div a b : (0 < b)%Z -> IZR a / IZR b <= IZR (cdiv a b).
Proof.
  intros B. unfold cdiv. rewrite opp_IZR. pose proof (floor_div (- a) b B) as H. rewrite opp_IZR in H.
  unfold Rdiv in *. lra.
Qed.

Section Interval.
  Variable s : Z.
  Hypothesis s_pos : (0 < s)%Z.
  Variables (pi_l pi_h e_l e_h : Z) (e : R).
  Hypothesis pi_in : within s PI pi_l pi_h.
  Hypothesis e_in : within s e e_l e_h.

  Definition guard (l h : Z) : option (Z * Z) := if (0 <? l)%Z then Some (l, h) else None.
  Definition isqrt (l h : Z) : option (Z * Z) := guard (Z.sqrt (l * s)) (Z.sqrt (h * s) + 1).
  Definition idiv (a b : Z * Z) : option (Z * Z) := guard (fst a * s / snd b) (cdiv (snd a * s) (fst b)).
  Definition imul (a b : Z * Z) : option (Z * Z) := guard (fst a * fst b / s) (cdiv (snd a * snd b) s).
  Fixpoint ieval (x : expr) : option (Z * Z) :=
    match x with
    | Num n => guard (n * s) (n * s)
    | Pi => guard pi_l pi_h
    | E => guard e_l e_h
    | Phi => match isqrt (5 * s) (5 * s) with Some (l, h) => guard ((s + l) / 2) (cdiv (s + h) 2) | None => None end
    | Sqrt x => match ieval x with Some (l, h) => isqrt l h | None => None end
    | Mul x y => match ieval x, ieval y with Some a, Some b => imul a b | _, _ => None end
    | Div x y => match ieval x, ieval y with Some a, Some b => idiv a b | _, _ => None end
    end.

  Definition inside (x : R) (r : option (Z * Z)) : Prop :=
    match r with Some (l, h) => (0 < l)%Z /\ within s x l h | None => True end.
  Lemma guard_inside x l h : within s x l h -> inside x (guard l h).
  Proof. intros W. unfold guard. destruct (Z.ltb_spec 0 l); cbn; auto. Qed.
  Let sp : 0 < IZR s. Proof. now apply IZR_lt. Qed.
  Lemma inside_pos x l h : (0 < l)%Z -> within s x l h -> 0 < x /\ (0 < h)%Z.
  Proof using s_pos.
    intros L [A B]. assert (0 < IZR l) by (now apply IZR_lt). split.
    - apply Rmult_lt_reg_r with (IZR s); lra.
    - apply lt_IZR. lra.
  Qed.
  Lemma isqrt_inside x l h : (0 < l)%Z -> within s x l h -> inside (sqrt x) (isqrt l h).
  Proof using s_pos.
    intros L W. destruct (inside_pos _ _ _ L W) as [X H]. destruct W as [A B]. apply guard_inside.
    assert (E : sqrt x * IZR s = sqrt (x * IZR s * IZR s)).
    { rewrite Rmult_assoc, sqrt_mult by (try lra; apply Rmult_le_pos; lra). now rewrite sqrt_square by lra. }
    unfold within. rewrite E. split.
    - rewrite <- (sqrt_square (IZR (Z.sqrt (l * s)))) by (apply (IZR_le 0), Z.sqrt_nonneg).
      apply sqrt_le_1_alt. rewrite <- mult_IZR.
      apply Rle_trans with (IZR (l * s)); [apply IZR_le; apply Z.sqrt_spec; nia|]. rewrite mult_IZR. apply Rmult_le_compat_r; lra.
    - assert (N : 0 <= IZR (Z.sqrt (h * s) + 1)) by (apply (IZR_le 0); pose proof (Z.sqrt_nonneg (h * s)); lia).
      rewrite <- (sqrt_square (IZR (Z.sqrt (h * s) + 1))) by exact N.
      apply sqrt_le_1_alt. rewrite <- mult_IZR.
      apply Rle_trans with (IZR (h * s)); [rewrite mult_IZR; apply Rmult_le_compat_r; lra|].
      apply IZR_le. pose proof (Z.sqrt_spec (h * s) ltac:(nia)) as Q. cbv zeta in Q. fold (Z.succ (Z.sqrt (h * s))). lia.
  Qed.
  Lemma imul_inside x y a b : inside x (Some a) -> inside y (Some b) -> inside (x * y) (imul a b).
  Proof using s_pos.
    destruct a as [la ha], b as [lb hb]. intros [A P] [B Q]. destruct (inside_pos _ _ _ A P) as [X HX], (inside_pos _ _ _ B Q) as [Y HY].
    destruct P as [P1 P2], Q as [Q1 Q2]. apply guard_inside. unfold within. cbn [fst snd].
    replace (x * y * IZR s) with ((x * IZR s) * (y * IZR s) / IZR s) by (field; lra).
    assert (0 < IZR la) by (now apply IZR_lt). assert (0 < IZR lb) by (now apply IZR_lt).
    assert (0 < / IZR s) by (now apply Rinv_0_lt_compat).
    split.
    - apply Rle_trans with (IZR (la * lb) / IZR s); [now apply floor_div|]. rewrite mult_IZR. unfold Rdiv.
      apply Rmult_le_compat_r; [lra|]. apply Rmult_le_compat; lra.
    - apply Rle_trans with (IZR (ha * hb) / IZR s); [|now apply ceil_div]. rewrite mult_IZR. unfold Rdiv.
      apply Rmult_le_compat_r; [lra|]. apply Rmult_le_compat; lra.
  Qed.
  Lemma idiv_inside x y a b : inside x (Some a) -> inside y (Some b) -> inside (x / y) (idiv a b).
  Proof using s_pos.
    destruct a as [la ha], b as [lb hb]. intros [A P] [B Q]. destruct (inside_pos _ _ _ A P) as [X HX], (inside_pos _ _ _ B Q) as [Y HY].
    destruct P as [P1 P2], Q as [Q1 Q2]. apply guard_inside. unfold within. cbn [fst snd].
    assert (0 < IZR la) by (now apply IZR_lt). assert (0 < IZR lb) by (now apply IZR_lt).
    assert (YS : 0 < y * IZR s) by (apply Rmult_lt_0_compat; lra).
    replace (x / y * IZR s) with ((x * IZR s * IZR s) * / (y * IZR s)) by (field; lra).
    assert (HB : 0 < IZR hb) by (now apply IZR_lt).
    assert (0 <= x * IZR s * IZR s) by (apply Rmult_le_pos; [apply Rmult_le_pos|]; lra).
    split.
    - apply Rle_trans with (IZR (la * s) / IZR hb); [now apply floor_div|]. rewrite mult_IZR. unfold Rdiv.
      apply Rmult_le_compat; [apply Rmult_le_pos; lra|apply Rlt_le, Rinv_0_lt_compat; lra|apply Rmult_le_compat_r; lra|].
      apply Rinv_le; lra.
    - apply Rle_trans with (IZR (ha * s) / IZR lb); [|now apply ceil_div]. rewrite mult_IZR. unfold Rdiv.
      apply Rmult_le_compat; [lra|apply Rlt_le, Rinv_0_lt_compat; lra|apply Rmult_le_compat_r; lra|].
      apply Rinv_le; lra.
  Qed.
  Lemma ieval_inside x : inside (ev e x) (ieval x).
  Proof using s_pos pi_in e_in.
    induction x as [n| | | |x IH|x IHx y IHy|x IHx y IHy]; cbn [ieval ev].
    - apply guard_inside. unfold within. rewrite mult_IZR. lra.
    - now apply guard_inside.
    - now apply guard_inside.
    - assert (W : within s 5 (5 * s) (5 * s)) by (unfold within; rewrite mult_IZR; lra).
      pose proof (isqrt_inside 5 (5 * s) (5 * s) ltac:(lia) W) as Q.
      destruct (isqrt (5 * s) (5 * s)) as [[l h]|]; [|exact I]. destruct Q as [L [Q1 Q2]]. apply guard_inside. unfold within.
      replace ((1 + sqrt 5) / 2 * IZR s) with ((IZR s + sqrt 5 * IZR s) / 2) by field. split.
      + apply Rle_trans with (IZR (s + l) / IZR 2); [now apply floor_div|]. rewrite plus_IZR. lra.
      + apply Rle_trans with (IZR (s + h) / IZR 2); [|now apply ceil_div]. rewrite plus_IZR. lra.
    - destruct (ieval x) as [[l h]|]; [|exact I]. destruct IH. now apply isqrt_inside.
    - destruct (ieval x) as [a|]; [|exact I]. destruct (ieval y) as [b|]; [|exact I]. now apply imul_inside.
    - destruct (ieval x) as [a|]; [|exact I]. destruct (ieval y) as [b|]; [|exact I]. now apply idiv_inside.
  Qed.
End Interval.

(** Rounding to nearest, from an interval: the significand and [k], for the number [m * 2^-k], if the whole interval rounds to it. *)
Definition try_k (p s l h k : Z) : option (Z * Z) :=
  let m := ((2 * l * 2 ^ k + s) / (2 * s))%Z in
  if ((0 <=? k) && (2 ^ (p - 1) <=? m) && (m <? 2 ^ p) && (2 * m * s - s <? 2 * l * 2 ^ k) && (2 * h * 2 ^ k <? 2 * m * s + s)
      && ((2 ^ (p - 1) <? m) || (m * s <=? l * 2 ^ k)))%Z
  then Some (m, k) else None.
Definition near (p s l h : Z) : option (Z * Z) :=
  let k := (p - 1 - (Z.log2 l - Z.log2 s))%Z in
  match try_k p s l h k with Some r => Some r | None => try_k p s l h (k + 1) end.

Definition dyadic (m k : Z) : R := IZR m * bpow radix2 (- k).

Lemma try_k_round p emax s l h k m x :
  (1 < p)%Z -> (0 < s)%Z -> (k <= emax + p - 3)%Z -> within s x l h -> forall k', try_k p s l h k = Some (m, k') ->
  k' = k /\ rnd p emax x = dyadic m k.
Proof.
  intros Hp Hs Hk [W1 W2] k'. unfold try_k. set (m0 := ((2 * l * 2 ^ k + s) / (2 * s))%Z).
  destruct (_ && _) eqn:C; [|discriminate]. intros [= <- <-]. split; [reflexivity|].
  repeat (rewrite andb_true_iff in C). destruct C as [[[[[K0 A] B] D] F] G].
  apply Z.leb_le in K0, A. apply Z.ltb_lt in B, D, F. apply orb_true_iff in G.
  assert (sp : 0 < IZR s) by (now apply IZR_lt).
  set (t := x * bpow radix2 k).
  assert (K : IZR (2 ^ k) = bpow radix2 k) by (rewrite <- (IZR_Zpower radix2) by lia; reflexivity).
  assert (kp : 0 < bpow radix2 k) by apply bpow_gt_0.
  assert (T1 : IZR m0 - / 2 < t).
  { apply Rmult_lt_reg_r with (IZR s); [exact sp|]. apply IZR_lt in D. rewrite minus_IZR, !mult_IZR, K in D.
    assert (IZR l * bpow radix2 k <= x * IZR s * bpow radix2 k) by (apply Rmult_le_compat_r; lra). unfold t. lra. }
  assert (T2 : t < IZR m0 + / 2).
  { apply Rmult_lt_reg_r with (IZR s); [exact sp|]. apply IZR_lt in F. rewrite plus_IZR, !mult_IZR, K in F.
    assert (x * IZR s * bpow radix2 k <= IZR h * bpow radix2 k) by (apply Rmult_le_compat_r; lra). unfold t. lra. }
  assert (T3 : bpow radix2 (p - 1) <= t).
  { rewrite <- (IZR_Zpower radix2) by lia. change (radix_val radix2 ^ (p - 1))%Z with (2 ^ (p - 1))%Z.
    destruct G as [G|G].
    - apply Z.ltb_lt in G. assert (IZR (2 ^ (p - 1) + 1) <= IZR m0) by (apply IZR_le; lia). rewrite plus_IZR in *. lra.
    - apply Z.leb_le in G. apply Rle_trans with (IZR m0); [now apply IZR_le|].
      apply Rmult_le_reg_r with (IZR s); [exact sp|]. apply IZR_le in G. rewrite !mult_IZR, K in G.
      assert (IZR l * bpow radix2 k <= x * IZR s * bpow radix2 k) by (apply Rmult_le_compat_r; lra). unfold t. lra. }
  assert (T4 : t < bpow radix2 p).
  { rewrite <- (IZR_Zpower radix2) by lia. change (radix_val radix2 ^ p)%Z with (2 ^ p)%Z.
    assert (IZR (m0 + 1) <= IZR (2 ^ p)) by (apply IZR_le; lia). rewrite plus_IZR in *. lra. }
  assert (XT : x = t * bpow radix2 (- k)).
  { unfold t. rewrite Rmult_assoc, <- bpow_plus. replace (k + - k)%Z with 0%Z by lia. cbn. ring. }
  assert (M : mag radix2 x = (p - k)%Z :> Z).
  { apply mag_unique. rewrite XT, Rabs_pos_eq.
    - replace (p - k - 1)%Z with (p - 1 + - k)%Z by ring. replace (p - k)%Z with (p + - k)%Z by ring.
      rewrite (bpow_plus radix2 (p - 1) (- k)), (bpow_plus radix2 p (- k)).
      split; [apply Rmult_le_compat_r; [apply bpow_ge_0|exact T3]|apply Rmult_lt_compat_r; [apply bpow_gt_0|exact T4]].
    - apply Rmult_le_pos; [|apply bpow_ge_0]. pose proof (bpow_gt_0 radix2 (p - 1)). lra. }
  unfold rnd, round, F2R, dyadic, scaled_mantissa, cexp. rewrite M. unfold FLT_exp.
  rewrite Z.max_l by lia. replace (p - k - p)%Z with (- k)%Z by ring. cbn [Fnum Fexp]. f_equal. f_equal.
  rewrite Z.opp_involutive. fold t. apply Znearest_imp. apply Rabs_def1; lra.
Qed.

Lemma near_round p emax s l h m k x :
  (1 < p)%Z -> (0 < s)%Z -> within s x l h -> near p s l h = Some (m, k) -> (k <= emax + p - 3)%Z -> rnd p emax x = dyadic m k.
Proof.
  intros Hp Hs W N Hk. unfold near in N. set (j := (p - 1 - (Z.log2 l - Z.log2 s))%Z) in N.
  destruct (try_k p s l h j) as [[m' k']|] eqn:T.
  - injection N as -> ->. assert (k = j) by (revert T; unfold try_k; destruct (_ && _); congruence). subst k.
    now apply (try_k_round p emax s l h j m x Hp Hs Hk W j).
  - assert (k = j + 1)%Z by (revert N; unfold try_k; destruct (_ && _); congruence). subst k.
    now apply (try_k_round p emax s l h (j + 1) m x Hp Hs Hk W (j + 1)).
Qed.

Lemma within_dyadic m k : (0 <= k)%Z -> within (2 ^ k) (dyadic m k) m m.
Proof.
  intros K. unfold within, dyadic. change 2%Z with (radix_val radix2). rewrite IZR_Zpower by exact K.
  rewrite Rmult_assoc, <- bpow_plus. replace (- k + k)%Z with 0%Z by lia. cbn. lra.
Qed.
Lemma within_ratio n s : (0 < s)%Z -> within s (IZR n / IZR s) n n.
Proof. intros P. unfold within. assert (0 < IZR s) by (now apply IZR_lt). replace (IZR n / IZR s * IZR s) with (IZR n) by (field; lra). lra. Qed.
Lemma dyadic_eq m k n j : (m * 2 ^ j = n * 2 ^ k)%Z -> (0 <= k)%Z -> (0 <= j)%Z -> dyadic m k = dyadic n j.
Proof.
  intros E K J. unfold dyadic. apply (f_equal IZR) in E. rewrite !mult_IZR in E.
  change 2%Z with (radix_val radix2) in E. rewrite !IZR_Zpower in E by assumption. rewrite !bpow_opp.
  pose proof (bpow_gt_0 radix2 k). pose proof (bpow_gt_0 radix2 j).
  apply Rmult_eq_reg_r with (bpow radix2 k * bpow radix2 j); [|apply Rmult_integral_contrapositive; split; lra].
  field_simplify; [lra|lra|lra].
Qed.
Lemma dyadic_neq m k n j : (m * 2 ^ j <> n * 2 ^ k)%Z -> (0 <= k)%Z -> (0 <= j)%Z -> dyadic m k <> dyadic n j.
Proof.
  intros E K J H. apply E. unfold dyadic in H. apply eq_IZR. rewrite !mult_IZR.
  change 2%Z with (radix_val radix2). rewrite !IZR_Zpower by assumption. rewrite !bpow_opp in H.
  pose proof (bpow_gt_0 radix2 k). pose proof (bpow_gt_0 radix2 j).
  assert (Q : IZR m * / bpow radix2 k * (bpow radix2 k * bpow radix2 j) = IZR n * / bpow radix2 j * (bpow radix2 k * bpow radix2 j)) by (now rewrite H).
  field_simplify in Q; lra.
Qed.

(* ------------------------------------------------------------------ the circle constant *)
Definition pi_term_l (s : Z) (n : nat) : Z := let d := Z.of_nat (2 * n + 1) in (2 * s / (3 ^ d * d) + s / (7 ^ d * d))%Z.
Definition pi_term_h (s : Z) (n : nat) : Z := let d := Z.of_nat (2 * n + 1) in (cdiv (2 * s) (3 ^ d * d) + cdiv s (7 ^ d * d))%Z.
Lemma pi_term s n : (0 < s)%Z -> within s (PI_2_3_7_tg n) (pi_term_l s n) (pi_term_h s n).
Proof.
  intros P. unfold within, pi_term_l, pi_term_h, PI_2_3_7_tg, Ratan_seq. cbv zeta. set (d := Z.of_nat (2 * n + 1)).
  assert (D : (0 < d)%Z) by (unfold d; lia). assert (0 < IZR d) by (now apply IZR_lt).
  assert (Q : INR (2 * n + 1) = IZR d) by (unfold d; apply INR_IZR_INZ).
  assert (F : forall b, (0 < b)%Z -> (0 < b ^ d * d)%Z /\ IZR (b ^ d * d) = IZR b ^ (2 * n + 1) * IZR d /\ 0 < IZR b ^ (2 * n + 1)).
  { intros b B. assert (0 < b ^ d)%Z by (apply Z.pow_pos_nonneg; lia). assert (0 < IZR b) by (now apply IZR_lt). repeat split; [nia| |now apply pow_lt].
    rewrite mult_IZR. f_equal. unfold d. now rewrite <- pow_IZR. }
  destruct (F 3%Z ltac:(lia)) as (A3 & B3 & C3), (F 7%Z ltac:(lia)) as (A7 & B7 & C7).
  rewrite Q. rewrite !plus_IZR.
  assert (X3 : 2 * ((/ 3) ^ (2 * n + 1) / IZR d) * IZR s = IZR (2 * s) / IZR (3 ^ d * d)).
  { rewrite B3, mult_IZR, pow_inv by lra. field. split; [lra|apply Rgt_not_eq, C3]. }
  assert (X7 : (/ 7) ^ (2 * n + 1) / IZR d * IZR s = IZR s / IZR (7 ^ d * d)).
  { rewrite B7, pow_inv by lra. field. split; [lra|apply Rgt_not_eq, C7]. }
  rewrite Rmult_plus_distr_r, X3, X7.
  pose proof (floor_div (2 * s) _ A3). pose proof (ceil_div (2 * s) _ A3). pose proof (floor_div s _ A7). pose proof (ceil_div s _ A7). lra.
Qed.
(** The partial sums of an alternating series. *)
Fixpoint alt_sum (tl th : nat -> Z) (n : nat) : Z * Z :=
  match n with
  | O => (tl O, th O)
  | S m => let (l, h) := alt_sum tl th m in if Nat.even n then (l + tl n, h + th n)%Z else (l - th n, h - tl n)%Z
  end.
Lemma alt_sum_ok s f tl th n : (forall i, within s (f i) (tl i) (th i)) ->
  within s (sum_f_R0 (tg_alt f) n) (fst (alt_sum tl th n)) (snd (alt_sum tl th n)).
Proof.
  intros H. induction n as [|n IH].
  - cbn [alt_sum sum_f_R0 fst snd]. unfold tg_alt. replace ((-1) ^ 0 * f 0%nat) with (f 0%nat) by (cbn; ring). apply H.
  - cbn [alt_sum sum_f_R0]. destruct (alt_sum tl th n) as [l h]. cbn [fst snd] in IH. unfold within in *.
    replace (tg_alt f (S n)) with ((-1) ^ S n * f (S n)) by reflexivity. set (a := sum_f_R0 (tg_alt f) n) in *. clearbody a.
    rewrite Rmult_plus_distr_r. pose proof (H (S n)) as T. set (m := S n) in *. clearbody m. destruct (Nat.even m) eqn:Ev; cbn [fst snd].
    + apply Nat.even_spec in Ev. destruct Ev as [q Ev].
      assert (pow : (-1) ^ m = 1) by (rewrite Ev; apply pow_1_even).
      rewrite pow, !plus_IZR. lra.
    + assert (O : Nat.odd m = true) by (unfold Nat.odd; now rewrite Ev). apply Nat.odd_spec in O. destruct O as [q O].
      assert (pow : (-1) ^ m = -1) by (rewrite O; replace (2 * q + 1)%nat with (S (2 * q)) by lia; apply pow_1_odd).
      rewrite pow, !minus_IZR. lra.
Qed.

Definition scale : Z := (10 ^ 60)%Z.
(** 52 digits of pi, found by the series up to the term 3^-109. *)
Definition pi_l : Z := (3141592653589793238462643383279502884197169399375105 * 10 ^ 9)%Z.
Definition pi_h : Z := (3141592653589793238462643383279502884197169399375106 * 10 ^ 9)%Z.
Lemma pi_within : within scale PI pi_l pi_h.
Proof.
  pose proof (alt_sum_ok scale _ _ _ (2 * 54) (fun i => pi_term scale i eq_refl)) as [_ A].
  pose proof (alt_sum_ok scale _ _ _ (S (2 * 54)) (fun i => pi_term scale i eq_refl)) as [B _].
  pose proof (PI_2_3_7_ineq 54) as [C D].
  assert (E1 : (pi_l <= 4 * fst (alt_sum (pi_term_l scale) (pi_term_h scale) (S (2 * 54))))%Z) by (apply Z.leb_le; vm_compute; reflexivity).
  assert (E2 : (4 * snd (alt_sum (pi_term_l scale) (pi_term_h scale) (2 * 54)) <= pi_h)%Z) by (apply Z.leb_le; vm_compute; reflexivity).
  apply IZR_le in E1, E2. rewrite mult_IZR in E1, E2. assert (sp : 0 < IZR scale) by (now apply IZR_lt).
  revert A B C D. generalize (sum_f_R0 (tg_alt PI_2_3_7_tg) (S (2 * 54))), (sum_f_R0 (tg_alt PI_2_3_7_tg) (2 * 54)). intros a b A B C D.
  unfold within. split.
  - apply Rle_trans with (4 * (a * IZR scale)); [lra|]. assert (a * IZR scale <= PI / 4 * IZR scale) by (apply Rmult_le_compat_r; lra). lra.
  - apply Rle_trans with (4 * (b * IZR scale)); [|lra]. assert (PI / 4 * IZR scale <= b * IZR scale) by (apply Rmult_le_compat_r; lra). lra.
Qed.

(* ------------------------------------------------------------------ Euler's number *)
Definition e_fact (n : nat) : R := / INR (fact n).
Lemma e_fact_pos n : 0 < INR (fact n).
Proof. apply lt_0_INR, lt_O_fact. Qed.
Lemma exp_m1 n : sum_f_R0 (tg_alt e_fact) (S (2 * n)) <= exp (-1) <= sum_f_R0 (tg_alt e_fact) (2 * n).
Proof.
  apply alternated_series_ineq.
  - intros i. unfold e_fact. apply Rinv_le; [apply e_fact_pos|]. apply le_INR. apply fact_le. lia.
  - intros eps P. destruct (cv_speed_pow_fact 1 eps P) as [N H]. exists N. intros i I. specialize (H i I).
    rewrite pow1 in H. unfold e_fact. now replace (/ INR (fact i)) with (1 / INR (fact i)) by (unfold Rdiv; ring).
  - unfold exp. destruct (exist_exp (-1)) as [l H]. cbn [proj1_sig]. unfold exp_in, infinite_sum in H. intros eps P.
    destruct (H eps P) as [N Q]. exists N. intros i I. specialize (Q i I).
    replace (sum_f_R0 (tg_alt e_fact) i) with (sum_f_R0 (fun k => / INR (fact k) * (-1) ^ k) i); [exact Q|].
    apply sum_eq. intros j _. unfold tg_alt, e_fact. ring.
Qed.
Fixpoint zfact (n : nat) : Z := match n with O => 1 | S m => Z.of_nat n * zfact m end%Z.
Lemma zfact_ok n : INR (fact n) = IZR (zfact n).
Proof.
  induction n as [|n IH]; [reflexivity|]. rewrite fact_simpl, mult_INR, IH, INR_IZR_INZ, <- mult_IZR. reflexivity.
Qed.
Lemma e_term s n : (0 < s)%Z -> within s (e_fact n) (s / zfact n) (cdiv s (zfact n)).
Proof.
  intros P. assert (Q : (0 < zfact n)%Z) by (apply lt_IZR; rewrite <- zfact_ok; apply e_fact_pos).
  unfold within, e_fact. rewrite zfact_ok. replace (/ IZR (zfact n) * IZR s) with (IZR s / IZR (zfact n)) by (unfold Rdiv; ring).
  split; [now apply floor_div|now apply ceil_div].
Qed.
Definition e_l : Z := (2718281828459045235360287471352662497757247093699959 * 10 ^ 9)%Z.
Definition e_h : Z := (2718281828459045235360287471352662497757247093699960 * 10 ^ 9)%Z.
Lemma e_within : within scale (exp 1) e_l e_h.
Proof.
  pose proof (alt_sum_ok scale _ _ _ (2 * 24) (fun i => e_term scale i eq_refl)) as [_ A].
  pose proof (alt_sum_ok scale _ _ _ (S (2 * 24)) (fun i => e_term scale i eq_refl)) as [B _].
  pose proof (exp_m1 24) as [C D].
  set (u := fst (alt_sum (fun i => scale / zfact i)%Z (fun i => cdiv scale (zfact i)) (S (2 * 24)))) in B.
  set (v := snd (alt_sum (fun i => scale / zfact i)%Z (fun i => cdiv scale (zfact i)) (2 * 24))) in A.
  assert (E0 : (0 < u)%Z) by (apply Z.ltb_lt; vm_compute; reflexivity).
  assert (E1 : (e_l * v <= scale * scale)%Z) by (apply Z.leb_le; vm_compute; reflexivity).
  assert (E2 : (scale * scale <= e_h * u)%Z) by (apply Z.leb_le; vm_compute; reflexivity).
  clearbody u v. apply IZR_lt in E0. apply IZR_le in E1, E2. rewrite !mult_IZR in E1, E2. assert (sp : 0 < IZR scale) by (now apply IZR_lt).
  revert A B C D. generalize (sum_f_R0 (tg_alt e_fact) (S (2 * 24))), (sum_f_R0 (tg_alt e_fact) (2 * 24)). intros a b A B C D.
  replace (exp (-1)) with (/ exp 1) in C, D by (rewrite <- exp_Ropp; f_equal; ring).
  pose proof (exp_pos 1) as P. set (x := exp 1) in *. clearbody x.
  assert (U : IZR u <= / x * IZR scale) by (apply Rle_trans with (a * IZR scale); [lra|apply Rmult_le_compat_r; lra]).
  assert (V : / x * IZR scale <= IZR v) by (apply Rle_trans with (b * IZR scale); [apply Rmult_le_compat_r; lra|lra]).
  assert (eh : (0 < e_h)%Z) by (apply Z.ltb_lt; vm_compute; reflexivity). assert (el : (0 < e_l)%Z) by (apply Z.ltb_lt; vm_compute; reflexivity).
  apply IZR_lt in eh, el. unfold within. set (EH := IZR e_h) in *. set (EL := IZR e_l) in *. clearbody EH EL.
  assert (px : 0 < / x) by (now apply Rinv_0_lt_compat).
  split.
  - apply Rmult_le_reg_r with (/ x * IZR scale); [apply Rmult_lt_0_compat; lra|].
    replace (x * IZR scale * (/ x * IZR scale)) with (IZR scale * IZR scale) by (field; lra).
    apply Rle_trans with (EL * IZR v); [|lra]. apply Rmult_le_compat_l; lra.
  - apply Rmult_le_reg_r with (/ x * IZR scale); [apply Rmult_lt_0_compat; lra|].
    replace (x * IZR scale * (/ x * IZR scale)) with (IZR scale * IZR scale) by (field; lra).
    apply Rle_trans with (EH * IZR u); [lra|]. apply Rmult_le_compat_l; lra.
Qed.
