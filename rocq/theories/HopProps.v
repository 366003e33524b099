(** Properties C159 to C161: arithmetic, comparisons and functions of the emulated half. *)
From Coq Require Import ZArith NArith Bool Reals Lra Lia List.
From Flocq Require Import Core BinarySingleNaN.
From Verif Require Import Words WordsProofs HalfModel HalfSpec HalfProofs FpModel FpProofs HopModel HopSpec HopProofs HopProofs2 HopProofs3.
From Verif Require TrigProofs5.
Local Open Scope R_scope.
#[local] Existing Instances HopModel.float_prec HopModel.float_emax.

(** The range of results that halves other than subnormal ones can express, and zero. *)
Definition ordinary (z : R) : Prop := (/ 16384 <= Rabs z <= 65535) \/ z = 0.
Lemma ordinary_good z : ordinary z -> good z.
Proof. intros H. exact H. Qed.
Ltac known h v :=
  split; [reflexivity|]; let x := eval vm_compute in (f16_value h) in match x with Fin ?s ?m => exists s, m; split; [reflexivity|]; rewrite real_signed; cbn; lra end.

(* ================================================================== C159 *)
(** Sums and differences: one of the two halves next to the exact result, the exact result if that is a half. *)
Theorem C159_sum a b x y : half_is a x -> half_is b y ->
  (ordinary (x + y) -> exists h, half_add a b = Some h /\ faithful (x + y) h) /\
  (ordinary (x - y) -> exists h, half_sub a b = Some h /\ faithful (x - y) h).
Proof. intros Ha Hb. split; intros G; [apply add_faithful | apply sub_faithful]; auto. Qed.
Print Assumptions C159_sum.
(** Products and quotients: the half next to the exact result towards zero. *)
Theorem C159_product a b x y : half_is a x -> half_is b y ->
  (ordinary (x * y) -> exists h, half_mul a b = Some h /\ truncated (x * y) h) /\
  (y <> 0 -> ordinary (x / y) -> exists h, half_div a b = Some h /\ truncated (x / y) h).
Proof. intros Ha Hb. split; [intros G; apply mul_truncated; auto | intros Ny G; apply div_truncated; auto]. Qed.
Print Assumptions C159_product.
(** 2048 + 3 and 10 / 3 lie between two halves. *)
Lemma is_one : half_is 0x3C00 1. Proof. known 0x3C00%N 1. Qed.
Lemma is_zero : half_is 0 0. Proof. known 0%N 0. Qed.
Lemma is_3 : half_is 0x4200 3. Proof. known 0x4200%N 3. Qed.
Lemma is_10 : half_is 0x4900 10. Proof. known 0x4900%N 10. Qed.
Lemma is_2048 : half_is 0x6800 2048. Proof. known 0x6800%N 2048. Qed.
Example C159_found : half_add 0x6800 0x4200 = Some 0x6801%N /\ half_is 0x6801 2050 /\ ordinary (2048 + 3) /\ half_div 0x4900 0x4200 = Some 0x42AA%N /\ half_mul 0x42AA 0x4200 = Some 0x48FF%N.
Proof.
  split; [vm_compute; reflexivity|]. split; [known 0x6801%N 2050|]. split; [left; rewrite Rabs_pos_eq; lra|]. split; vm_compute; reflexivity.
Qed.
(** A sum may also be rounded away from zero: 32768 - 2^-24 gives 32768. *)
Example C159_sum_up : half_add 0x7800 0x8001 = Some 0x7800%N /\ half_is 0x7800 32768 /\ half_is 0x8001 (- / 16777216).
Proof. split; [vm_compute; reflexivity|]. split; [known 0x7800%N 32768 | known 0x8001%N 0]. Qed.

(** Whenever the exact result is zero or a half that is not subnormal, it is the result. *)
Lemma ordinary_half c z : half_is c z -> ~ subnormal16 c -> ordinary z.
Proof.
  intros H S. pose proof H as (L & s & m & V & E). destruct (Req_dec z 0) as [Z0|N0]; [right; exact Z0|left]. split.
  - destruct (N.lt_ge_cases m (2 ^ 135)) as [B|B].
    + exfalso. apply S, (subnormal_small c s m L V). split; [|exact B]. destruct (N.eq_0_gt_0_cases m) as [M0|M0]; [|exact M0]. exfalso. apply N0. rewrite E, M0, real_of_bpow. cbn. ring.
    + rewrite E. change (/ 16384) with (bpow radix2 (-14)). apply real_bound; [lia|exact B].
  - destruct (half_parts c z H) as (M & Ex & -> & BM & BE). rewrite abs_parts. assert (Z.abs M <= 2047)%Z as B1 by lia. apply IZR_le in B1. assert (0 <= IZR (Z.abs M)) by (apply IZR_le; lia).
    assert (bpow radix2 Ex <= 32) by (change 32 with (bpow radix2 5); apply bpow_le; lia). pose proof (bpow_gt_0 radix2 Ex). nra.
Qed.
Theorem C159_exact a b c x y z : half_is a x -> half_is b y -> half_is c z -> ~ subnormal16 c ->
  (z = x + y -> exists h, half_add a b = Some h /\ half_is h z) /\ (z = x - y -> exists h, half_sub a b = Some h /\ half_is h z) /\
  (z = x * y -> exists h, half_mul a b = Some h /\ half_is h z) /\ (y <> 0 -> z = x / y -> exists h, half_div a b = Some h /\ half_is h z).
Proof.
  intros Ha Hb Hc S. pose proof (ordinary_half c z Hc S) as O. split; [|split; [|split]].
  - intros ->. destruct (proj1 (C159_sum a b x y Ha Hb) O) as (h & E & F). exists h. split; [exact E|]. apply (faithful_exact c); assumption.
  - intros ->. destruct (proj2 (C159_sum a b x y Ha Hb) O) as (h & E & F). exists h. split; [exact E|]. apply (faithful_exact c); assumption.
  - intros ->. destruct (proj1 (C159_product a b x y Ha Hb) O) as (h & E & F). exists h. split; [exact E|]. apply (faithful_exact c); [assumption|apply F].
  - intros Ny ->. destruct (proj2 (C159_product a b x y Ha Hb) Ny O) as (h & E & F). exists h. split; [exact E|]. apply (faithful_exact c); [assumption|apply F].
Qed.
Print Assumptions C159_exact.
Example C159_exact_case : half_is 0x4200 3 /\ half_is 0x4900 10 /\ half_is 0x4A80 13 /\ ~ subnormal16 0x4A80 /\ half_add 0x4200 0x4900 = Some 0x4A80%N.
Proof. split; [exact is_3|]. split; [exact is_10|]. split; [known 0x4A80%N 13|]. split; [intros [H _]; discriminate H | vm_compute; reflexivity]. Qed.

(** Increments and decrements. *)
Theorem C159_step a x : half_is a x -> (ordinary (x + 1) -> exists h, half_inc a = Some h /\ faithful (x + 1) h) /\ (ordinary (x - 1) -> exists h, half_dec a = Some h /\ faithful (x - 1) h).
Proof.
  intros Ha. destruct (widen_finite a x Ha) as (u & W & F & V). destruct (of_Z_round 1 ltac:(lia)) as [F1 V1]. rewrite (rfmt 1) in V1 by (apply fmt_int; lia). unfold half_inc, half_dec. rewrite W. cbn [option_bind].
  split; intros G; eexists; (split; [reflexivity|]).
  - pose proof (plus_val u float_one F F1) as P. fold float_one in V1. rewrite V, V1 in P. destruct (P (fits _ G)) as [Fs Es]. apply faithful_narrow; assumption.
  - pose proof (minus_val u float_one F F1) as P. fold float_one in V1. rewrite V, V1 in P. destruct (P (fits _ G)) as [Fs Es]. apply faithful_narrow; assumption.
Qed.
Print Assumptions C159_step.
(** ... so that counting up ends at 2048. *)
Example C159_step_stuck : half_inc 0x6800 = Some 0x6800%N /\ half_dec 0x3C00 = Some 0%N /\ half_is 0x6800 2048 /\ half_inc 0x67FF = Some 0x6800%N.
Proof. split; [vm_compute; reflexivity|]. split; [vm_compute; reflexivity|]. split; [exact is_2048 | vm_compute; reflexivity]. Qed.

(** With integers: exact ones below 2^24, which are first converted to float. Conversion from integers is faithful, to integers drops the fraction. *)
Theorem C159_integers a x n : half_is a x -> (Z.abs n < 2 ^ 24)%Z ->
  (ordinary (x + IZR n) -> exists h, half_add_int a n = Some h /\ faithful (x + IZR n) h) /\
  (ordinary (x * IZR n) -> exists h, half_mul_int a n = Some h /\ faithful (x * IZR n) h) /\
  ((Z.abs n <= 65535)%Z -> faithful (IZR n) (half_of_int n)) /\
  half_to_intmax a = Some (Ztrunc x).
Proof.
  intros Ha Hn. destruct (widen_finite a x Ha) as (u & W & F & V). destruct (of_Z_round n ltac:(lia)) as [F1 V1]. rewrite (rfmt (IZR n)) in V1 by (apply fmt_int, Hn).
  unfold half_add_int, half_mul_int, with_int, half_to_intmax. rewrite W. cbn [option_bind]. split; [|split; [|split]].
  - intros G. eexists. split; [reflexivity|]. pose proof (plus_val u _ F F1) as P. rewrite V, V1 in P. destruct (P (fits _ G)) as [Fs Es]. apply faithful_narrow; assumption.
  - intros G. eexists. split; [reflexivity|]. pose proof (mult_val u _ F F1) as P. rewrite V, V1 in P. destruct (P (fits _ G)) as [Fs Es]. apply faithful_narrow; assumption.
  - apply of_int_faithful.
  - apply (to_int_trunc a x u Ha F V).
Qed.
Print Assumptions C159_integers.
Example C159_integers_case : half_mul_int 0x3800 7 = Some 0x4300%N /\ half_is 0x3800 (/ 2) /\ half_is 0x4300 (7 / 2) /\ half_of_int 2049 = 0x6800%N /\ half_to_intmax 0xC300 = Some (-3)%Z.
Proof. split; [vm_compute; reflexivity|]. split; [known 0x3800%N 1|]. split; [known 0x4300%N 1|]. split; vm_compute; reflexivity. Qed.

(** Sums that are too large for a half are infinite. *)
Theorem C159_sum_overflow a b x y : half_is a x -> half_is b y -> 65536 <= Rabs (x + y) ->
  exists h, half_add a b = Some h /\ f16_value h = Inf (Rlt_bool (x + y) 0).
Proof.
  intros Ha Hb L. destruct (widen_finite a x Ha) as (u & W & F & V). destruct (widen_finite b y Hb) as (v & W' & F' & V'). unfold half_add, binary. rewrite W, W'. cbn [option_bind]. eexists. split; [reflexivity|].
  assert (U : Rabs (x + y) <= 131008).
  { assert (B : forall c z, half_is c z -> Rabs z <= 65504).
    { intros c z H. destruct (half_parts c z H) as (M & Ex & -> & BM & BE). rewrite abs_parts. assert (Z.abs M <= 2047)%Z as B1 by lia. apply IZR_le in B1. assert (0 <= IZR (Z.abs M)) by (apply IZR_le; lia).
      assert (bpow radix2 Ex <= 32) by (change 32 with (bpow radix2 5); apply bpow_le; lia). pose proof (bpow_gt_0 radix2 Ex). nra. }
    pose proof (Rabs_triang x y). pose proof (B a x Ha). pose proof (B b y Hb). lra. }
  apply rle in L, U. rewrite (rfmt 65536) in L by (apply fmt_int; lia). rewrite (rfmt 131008) in U by (apply fmt_int; lia). rewrite <- rabs in L, U.
  pose proof (plus_val u v F F') as P. rewrite V, V' in P. destruct P as [Fs Es]; [apply Rle_lt_trans with (1 := U); apply Rlt_trans with (bpow radix2 17); [rewrite (eq_refl : bpow radix2 17 = 131072); lra | apply bpow_lt; lia]|].
  rewrite (narrow_infinite _ Fs); [|rewrite Es; change (bpow radix2 16) with 65536; change (bpow radix2 17) with 131072; lra]. f_equal. rewrite Es.
  destruct (Rlt_bool_spec (x + y) 0) as [S|S]; [apply Rlt_bool_true | apply Rlt_bool_false].
  - assert (R0 : rnd (x + y) <= 0) by (rewrite <- (rfmt 0) by apply generic_format_0; apply rle; lra). rewrite Rabs_left1 in L by exact R0. lra.
  - rewrite <- (rfmt 0) by apply generic_format_0. apply rle. exact S.
Qed.
Print Assumptions C159_sum_overflow.
Example C159_sum_overflow_case : half_is 0x7BFF 65504 /\ half_add 0x7BFF 0x7BFF = Some 0x7C00%N.
Proof. split; [known 0x7BFF%N 65504 | vm_compute; reflexivity]. Qed.
(** Products that are too large need not be: those of magnitude in [131072, 262144) become zero or a tiny negative number, whatever their sign. *)
Theorem C159_product_overflow_refuted a b x y : half_is a x -> half_is b y -> 131072 <= Rabs (x * y) < 262144 ->
  exists h r, half_mul a b = Some h /\ half_is h r /\ - / 16384 < r <= 0.
Proof.
  intros Ha Hb [L U]. destruct (widen_finite a x Ha) as (u & W & F & V). destruct (widen_finite b y Hb) as (v & W' & F' & V'). unfold half_mul, binary. rewrite W, W'. cbn [option_bind].
  pose proof (mult_val u v F F') as P. rewrite V, V' in P. rewrite (rfmt (x * y)) in P by (apply (product_format a b); assumption).
  destruct P as [Fs Es]; [apply Rlt_trans with (1 := U); change 262144 with (bpow radix2 18); apply bpow_lt; lia|].
  destruct (narrow_too_large _ Fs) as (r & Hr & B); [rewrite Es; split; assumption|]. exists (narrow (Bmult mode_NE u v)), r. split; [reflexivity|]. split; [exact Hr | exact B].
Qed.
Print Assumptions C159_product_overflow_refuted.
Example C159_512_squared : half_is 0x6000 512 /\ half_is 0x5C00 256 /\ half_mul 0x6000 0x5C00 = Some 0x8000%N.
Proof. split; [known 0x6000%N 512|]. split; [known 0x5C00%N 256 | vm_compute; reflexivity]. Qed.
(** Products of magnitude in [2^-16, 2^-15) become minus infinity or NaN. *)
Theorem C159_product_underflow_refuted a b x y : half_is a x -> half_is b y -> / 65536 <= Rabs (x * y) < / 32768 ->
  exists h, half_mul a b = Some h /\ (f16_value h = Inf true \/ f16_value h = NaN).
Proof.
  intros Ha Hb [L U]. destruct (widen_finite a x Ha) as (u & W & F & V). destruct (widen_finite b y Hb) as (v & W' & F' & V'). unfold half_mul, binary. rewrite W, W'. cbn [option_bind].
  pose proof (mult_val u v F F') as P. rewrite V, V' in P. rewrite (rfmt (x * y)) in P by (apply (product_format a b); assumption).
  destruct P as [Fs Es]; [apply Rlt_trans with (1 := U); change (/ 32768) with (bpow radix2 (-15)); apply bpow_lt; lia|].
  eexists. split; [reflexivity|]. apply narrow_too_small; [exact Fs|]. rewrite Es. split; assumption.
Qed.
Print Assumptions C159_product_underflow_refuted.
Example C159_small_squared : half_is 0x1C00 (/ 256) /\ half_mul 0x1C00 0x1C00 = Some 0xFC00%N.
Proof. split; [known 0x1C00%N 0 | vm_compute; reflexivity]. Qed.
(** Adding zero to a subnormal half, or multiplying it by one, changes it. *)
Theorem C159_subnormal_refuted a x : half_is a x -> subnormal16 a ->
  (exists h, half_add a 0 = Some h /\ ~ half_is h x) /\ (exists h, half_mul a 0x3C00 = Some h /\ ~ half_is h x).
Proof.
  intros Ha S. destruct (widen_finite a x Ha) as (u & W & F & V). destruct (widen_finite 0 0 is_zero) as (o & W0 & F0 & V0). destruct (widen_finite 0x3C00 1 is_one) as (i & W1 & F1 & V1).
  assert (Fx : format x) by (apply (half_format a), Ha). assert (Bx : Rabs x < bpow radix2 128).
  { apply Rlt_trans with (1 := half_bound a x Ha). change 65536 with (bpow radix2 16). apply bpow_lt. lia. }
  unfold half_add, half_mul, binary. rewrite W, W0, W1. cbn [option_bind]. split; (eexists; split; [reflexivity|]).
  - pose proof (plus_val u o F F0) as P. rewrite V, V0, Rplus_0_r, (rfmt x Fx) in P. destruct (P Bx) as [Fs Es]. apply (narrow_subnormal a); assumption.
  - pose proof (mult_val u i F F1) as P. rewrite V, V1, Rmult_1_r, (rfmt x Fx) in P. destruct (P Bx) as [Fs Es]. apply (narrow_subnormal a); assumption.
Qed.
Print Assumptions C159_subnormal_refuted.
Example C159_subnormal_case : half_is 0x0200 (/ 32768) /\ subnormal16 0x0200 /\ half_add 0x0200 0 = Some 0x0100%N.
Proof. split; [known 0x0200%N 0|]. split; [split; [reflexivity | discriminate] | vm_compute; reflexivity]. Qed.
(** NaN stays NaN. *)
Theorem C159_nan a b : (a < 2 ^ 16)%N -> (b < 2 ^ 16)%N -> f16_value a = NaN \/ f16_value b = NaN -> forall f, In f [half_add; half_sub; half_mul; half_div] ->
  exists h, f a b = Some h /\ f16_value h = NaN.
Proof.
  intros Ha Hb N f I. assert (Q : forall g : float32 -> float32 -> float32, (forall u v, u = B754_nan \/ v = B754_nan -> g u v = B754_nan) -> exists h, binary (fun u v => narrow (g u v)) a b = Some h /\ f16_value h = NaN).
  { intros g G. destruct (widen_stands a Ha) as (u & W & S). destruct (widen_stands b Hb) as (v & W' & S'). unfold binary. rewrite W, W'. cbn [option_bind]. eexists. split; [reflexivity|].
    rewrite G; [vm_compute; reflexivity|]. destruct N as [N|N]; [rewrite N in S; left; exact S | rewrite N in S'; right; exact S']. }
  cbn [In] in I. destruct I as [<-|[<-|[<-|[<-|[]]]]]; apply Q; intros u v [-> | ->]; try reflexivity; destruct u as [| | |]; reflexivity.
Qed.
Print Assumptions C159_nan.
(** Infinities behave as they should, and so does the division by a zero. *)
Theorem C159_infinite a b s r : (a < 2 ^ 16)%N -> f16_value a = Inf s -> half_is b r ->
  (forall f t, In (f, t) [(half_add a b, s); (half_add b a, s); (half_sub a b, s); (half_sub b a, negb s)] -> exists h, f = Some h /\ f16_value h = Inf t) /\
  (r <> 0 -> forall f, In f [half_mul a b; half_mul b a; half_div a b] -> exists h, f = Some h /\ f16_value h = Inf (xorb s (Rlt_bool r 0))) /\
  (exists h, half_div b a = Some h /\ half_is h 0) /\
  (r <> 0 -> forall z t, In (z, t) [(0%N, false); (0x8000%N, true)] -> exists h, half_div b z = Some h /\ f16_value h = Inf (xorb t (Rlt_bool r 0))).
Proof.
  intros Ha A Hb. pose proof (widen_inf a s Ha A) as Wa. destruct (widen_finite b r Hb) as (x & Wb & Fx & Vx).
  assert (N : forall t, f16_value (narrow (B754_infinity t)) = Inf t) by (intros []; vm_compute; reflexivity).
  assert (Sg : r <> 0 -> exists t m e g, x = B754_finite t m e g /\ Rlt_bool r 0 = t).
  { intros Nr. destruct x as [t|t| |t m e g]; try discriminate; [cbn in Vx; congruence|]. exists t, m, e, g. split; [reflexivity|]. rewrite <- Vx. cbn [B2R].
    destruct t; [apply Rlt_bool_true; apply F2R_lt_0; reflexivity|apply Rlt_bool_false; apply F2R_ge_0; cbn; lia]. }
  split; [|split; [|split]].
  - intros f t I. cbn [In] in I. unfold half_add, half_sub, binary in I. rewrite Wa, Wb in I. cbn [option_bind] in I.
    destruct I as [E|[E|[E|[E|[]]]]]; injection E as <- <-; (eexists; split; [reflexivity|]); destruct x as [t|t| |t m e g]; try discriminate; apply N.
  - intros Nr f I. destruct (Sg Nr) as (t & m & e & g & -> & ->). cbn [In] in I. unfold half_mul, half_div, binary in I. rewrite Wa, Wb in I. cbn [option_bind] in I.
    destruct I as [<-|[<-|[<-|[]]]]; (eexists; split; [reflexivity|]); [apply N|rewrite xorb_comm; apply N|apply N].
  - unfold half_div, binary. rewrite Wa, Wb. cbn [option_bind]. eexists. split; [reflexivity|].
    destruct x as [t|t| |t m e g]; try discriminate; cbn [Bdiv]; destruct (xorb t s); (exact is_zero || (split; [vm_compute; reflexivity|]; exists true, 0%N; split; [vm_compute; reflexivity|rewrite real_signed; cbn; lra])).
  - intros Nr z t I. destruct (Sg Nr) as (q & m & e & g & -> & ->). unfold half_div, binary. rewrite Wb.
    assert (widen z = Some (B754_zero t)) as -> by (destruct I as [I|[I|[]]]; injection I as <- <-; vm_compute; reflexivity).
    cbn [option_bind]. eexists. split; [reflexivity|]. cbn [Bdiv]. rewrite xorb_comm. apply N.
Qed.
Print Assumptions C159_infinite.
Example C159_infinite_case : f16_value 0xFC00 = Inf true /\ half_add 0xFC00 0x3C00 = Some 0xFC00%N /\ half_div 0x3C00 0x8000 = Some 0xFC00%N.
Proof. split; [|split]; vm_compute; reflexivity. Qed.
Example C159_nan_case : f16_value 0x7E00 = NaN /\ half_sub 0x7C00 0x7C00 = Some 0x7E00%N.
Proof. split; vm_compute; reflexivity. Qed.

(* ================================================================== C160 *)
(** Comparisons of halves agree with their values, including infinities, NaN, subnormals and the two zeros. *)
Theorem C160_compare a b : (a < 2 ^ 16)%N -> (b < 2 ^ 16)%N -> exists eq ne lt le gt ge,
  half_eq a b = Some eq /\ half_ne a b = Some ne /\ half_lt a b = Some lt /\ half_le a b = Some le /\ half_gt a b = Some gt /\ half_ge a b = Some ge /\
  (eq = true <-> same (f16_value a) (f16_value b)) /\ (ne = true <-> ~ same (f16_value a) (f16_value b)) /\
  (lt = true <-> below (f16_value a) (f16_value b)) /\ (gt = true <-> below (f16_value b) (f16_value a)) /\
  (le = true <-> below (f16_value a) (f16_value b) \/ same (f16_value a) (f16_value b)) /\ (ge = true <-> below (f16_value b) (f16_value a) \/ same (f16_value a) (f16_value b)).
Proof.
  intros Ha Hb. destruct (widen_stands a Ha) as (u & W & S). destruct (widen_stands b Hb) as (v & W' & S').
  unfold half_eq, half_ne, half_lt, half_le, half_gt, half_ge, binary. rewrite W, W'. cbn [option_bind]. do 6 eexists. do 6 (split; [reflexivity|]).
  pose proof (eqb_stands _ _ _ _ S S') as E. pose proof (eqb_stands _ _ _ _ S' S) as E'. pose proof (ltb_stands _ _ _ _ S S') as L. pose proof (ltb_stands _ _ _ _ S' S) as L'.
  assert (Sym : same (f16_value b) (f16_value a) <-> same (f16_value a) (f16_value b)).
  { unfold same. destruct (f16_value a), (f16_value b); try tauto; split; congruence. }
  split; [exact E|]. split; [|split; [exact L|]; split; [exact L'|]; split].
  - rewrite negb_true_iff, <- E. destruct (Beqb u v); intuition congruence.
  - rewrite leb_split, L, E. tauto.
  - rewrite leb_split, L', E', Sym. tauto.
Qed.
Print Assumptions C160_compare.
Example C160_zeros : half_eq 0x8000 0 = Some true /\ half_lt 0x8001 0x8000 = Some true /\ half_eq 0x7E00 0x7E00 = Some false /\ half_lt 0x7BFF 0x7C00 = Some true.
Proof. repeat split; vm_compute; reflexivity. Qed.
(** So do comparisons with integers of every built-in type (up to 2^127 in magnitude): the conversion to float rounds, but never across a half. *)
Theorem C160_compare_integer a n : (a < 2 ^ 16)%N -> (Z.abs n <= 2 ^ 127)%Z -> exists eq lt gt, half_eq_int a n = Some eq /\ half_lt_int a n = Some lt /\ half_gt_int a n = Some gt /\
  (eq = true <-> same (f16_value a) (whole n)) /\ (lt = true <-> below (f16_value a) (whole n)) /\ (gt = true <-> below (whole n) (f16_value a)).
Proof.
  intros Ha Hn. destruct (int_compare a n Ha Hn) as (f & W & L & G & E). unfold half_eq_int, half_lt_int, half_gt_int, with_int. rewrite W. cbn [option_bind]. do 3 eexists. do 3 (split; [reflexivity|]). tauto.
Qed.
Print Assumptions C160_compare_integer.
Example C160_integer : half_lt_int 0x7BFF (2 ^ 64 - 1) = Some true /\ half_eq_int 0x6801 2050 = Some true /\ half_gt_int 0x7C00 (2 ^ 63) = Some true /\ whole (-3) = Fin true (3 * one_unit).
Proof. repeat split; vm_compute; reflexivity. Qed.

(* ================================================================== C161 *)
(** [floor] and [ceil] of a finite half are exact. *)
Theorem C161_floor h r : half_is h r -> (exists j, half_floor h = Some j /\ half_is j (IZR (Zfloor r))) /\ (exists j, half_ceil h = Some j /\ half_is j (IZR (Zceil r))).
Proof. intros H. split; [apply floor_half | apply ceil_half]; exact H. Qed.
Print Assumptions C161_floor.
Example C161_floor_case : half_floor 0xC100 = Some 0xC200%N /\ half_is 0xC100 (- (5 / 2)) /\ half_is 0xC200 (-3) /\ half_ceil 0x0001 = Some 0x3C00%N.
Proof. split; [vm_compute; reflexivity|]. split; [known 0xC100%N 0|]. split; [known 0xC200%N 0 | vm_compute; reflexivity]. Qed.
(** Of an infinite half they are undefined, at run time as well. *)
Theorem C161_floor_infinite_refuted h s : (h < 2 ^ 16)%N -> f16_value h = Inf s -> half_floor h = None /\ half_ceil h = None.
Proof. intros H V. unfold half_floor, half_ceil. rewrite (widen_inf h s H V). destruct s; split; reflexivity. Qed.
Print Assumptions C161_floor_infinite_refuted.
Example C161_infinite_case : f16_value 0xFC00 = Inf true.
Proof. reflexivity. Qed.
(** The square root is the half next to the exact root towards zero, for every positive half; of zero it is zero, of negative numbers NaN. *)
Theorem C161_sqrt h r : half_is h r -> (0 < r -> exists j, half_sqrt h = Some j /\ truncated (sqrt r) j) /\ (r = 0 -> exists j, half_sqrt h = Some j /\ half_is j 0) /\
  (r < 0 -> exists j, half_sqrt h = Some j /\ f16_value j = NaN).
Proof.
  intros H. split; [apply sqrt_half, H|]. destruct (widen_finite h r H) as (x & W & F & E). unfold half_sqrt. rewrite W. cbn [option_bind]. split; intros S; (eexists; split; [reflexivity|]); subst r.
  - pose proof (Bsqrt_correct 24 128 _ _ mode_NE x) as (C1 & C2 & _). rewrite S, sqrt_0 in C1. assert (C0 : B2R (Bsqrt mode_NE x) = 0) by (rewrite C1; apply round_0; apply valid_rnd_N).
    assert (Fs : is_finite (Bsqrt mode_NE x) = true). { rewrite C2. destruct x as [[]|[]| |[] m e B]; try reflexivity; try discriminate F. exfalso.
      cbn [B2R] in S. assert (F2R (Float radix2 (cond_Zopp true (Z.pos m)) e) < 0) by (apply F2R_lt_0; reflexivity). lra. }
    destruct (narrow_ok _ Fs (or_intror C0)) as (q & Hq & Lq & _). rewrite C0, Rabs_R0 in Lq. replace 0 with q; [exact Hq|]. destruct (Req_dec q 0) as [Q|Q]; [exact Q|]. apply Rabs_pos_lt in Q. lra.
  - destruct x as [[]|[]| |[] m e B]; try discriminate F; cbn [B2R] in S; try lra; [vm_compute; reflexivity|]. exfalso. assert (0 < F2R (Float radix2 (cond_Zopp false (Z.pos m)) e)) by (apply F2R_gt_0; reflexivity). lra.
Qed.
Print Assumptions C161_sqrt.
Example C161_sqrt_case : half_sqrt 0x4000 = Some 0x3DA8%N /\ half_sqrt 0x0001 = Some 0x0C00%N /\ half_is 0x0001 (/ 16777216) /\ half_is 0x0C00 (/ 4096).
Proof. split; [vm_compute; reflexivity|]. split; [vm_compute; reflexivity|]. split; [known 0x0001%N 0 | known 0x0C00%N 0]. Qed.
(** [approx_equal] holds only if the distance is less than epsilon, and does if there is a half between the distance and epsilon. *)
Theorem C161_approx_equal a b e x y d : half_is a x -> half_is b y -> half_is e d -> exists r, half_approx_equal a b e = Some r /\
  (r = true -> Rabs (y - x) < d) /\ ((exists k q, half_is k q /\ Rabs (y - x) <= q /\ q < d) -> r = true).
Proof.
  intros Ha Hb He. destruct (widen_finite a x Ha) as (u & W & F & V). destruct (widen_finite b y Hb) as (v & W' & F' & V'). destruct (widen_finite e d He) as (w & W'' & F'' & V'').
  unfold half_approx_equal. rewrite W, W', W''. cbn [option_bind]. eexists. split; [reflexivity|]. unfold approx_equal. rewrite abs_Babs.
  pose proof (minus_val v u F' F) as P. rewrite V, V' in P. destruct P as [Fs Es].
  { rewrite rabs. apply Rle_lt_trans with (bpow radix2 17); [|apply bpow_lt; lia]. rewrite <- (rfmt (bpow radix2 17)) by (apply fmt_pow; lia). apply rle. change (bpow radix2 17) with 131072.
    pose proof (half_bound a x Ha) as Bx. pose proof (half_bound b y Hb) as By. apply Rabs_def2 in Bx, By. apply Rabs_le. lra. }
  rewrite Bltb_correct; [|rewrite is_finite_Babs; exact Fs|exact F'']. rewrite B2R_Babs, Es, V'', rabs. split.
  - intros T. apply Rnot_le_lt. intros C. apply rle in C. rewrite (rfmt d) in C by (apply (half_format e), He). destruct (Rlt_bool_spec (rnd (Rabs (y - x))) d); [lra|discriminate T].
  - intros (k & q & Hq & L & U). apply Rlt_bool_true. apply rle in L. rewrite (rfmt q) in L by (apply (half_format k), Hq). lra.
Qed.
Print Assumptions C161_approx_equal.
Example C161_approx_case : half_approx_equal 0x3C00 0x3C01 0x1800 = Some true /\ half_approx_equal 0x3C00 0x3C01 0x1400 = Some false /\ half_is 0x3C01 (1 + / 1024).
Proof. split; [vm_compute; reflexivity|]. split; [vm_compute; reflexivity | known 0x3C01%N 0]. Qed.
(** [atan2] of halves exchanges its arguments: given an [atan2] of floats that is right within 1/1000 at (x, 0), the result for the point (x, 0) on the positive x axis, whose
    angle is zero, is more than 5/4. *)
Theorem C161_atan2_refuted atan2 x r : half_is x r -> 0 < r ->
  (forall u v, is_finite u = true -> is_finite v = true -> B2R u = r -> B2R v = 0 -> is_finite (atan2 u v) = true /\ Rabs (B2R (atan2 u v) - PI / 2) <= / 1000) ->
  exists h q, half_atan2 atan2 0 x = Some h /\ half_is h q /\ 5 / 4 < q.
Proof.
  intros Hx P A. destruct (widen_finite x r Hx) as (u & W & F & V). destruct (widen_finite 0 0 is_zero) as (o & W0 & F0 & V0). unfold half_atan2. rewrite W, W0. cbn [option_bind].
  destruct (A u o F F0 V V0) as [Fa Ba]. set (f := atan2 u o) in *. pose proof PI_4 as P4. pose proof PI2_3_2 as P3.
  apply Rabs_le_inv in Ba.
  assert (Lo : 11 / 8 <= B2R f) by lra.
  assert (G : bpow radix2 (-14) <= Rabs (B2R f) < bpow radix2 16 \/ B2R f = 0) by (left; change (bpow radix2 (-14)) with (/ 16384); change (bpow radix2 16) with 65536; rewrite Rabs_pos_eq by lra; lra).
  destruct (narrow_ok f Fa G) as (q & Hq & _ & S & Mx). exists (narrow f), q. split; [reflexivity|]. split; [exact Hq|].
  assert (K : half_is 0x3D80 (11 / 8)) by (known 0x3D80%N 0). specialize (Mx _ _ K). rewrite !Rabs_pos_eq in Mx by lra. specialize (Mx ltac:(lra)). destruct (Rle_lt_dec 0 q) as [Q|Q]; [rewrite (Rabs_pos_eq q) in Mx by exact Q; lra|nra].
Qed.
Print Assumptions C161_atan2_refuted.
(** A function that meets the hypotheses, and what comes out. *)
Definition some_atan2 (u v : float32) : float32 := if Beqb v (zero 24 128) then float_of_bits 0x3FC90FDB else zero 24 128.
Example C161_atan2_case : half_is 0x3C00 1 /\ half_atan2 some_atan2 0 0x3C00 = Some 0x3E48%N /\ half_is 0x3E48 (201 / 128) /\
  forall u v, is_finite u = true -> is_finite v = true -> B2R u = 1 -> B2R v = 0 -> is_finite (some_atan2 u v) = true /\ Rabs (B2R (some_atan2 u v) - PI / 2) <= / 1000.
Proof.
  split; [exact is_one|]. split; [vm_compute; reflexivity|]. split; [known 0x3E48%N 0|]. intros u v Fu Fv Vu Vv. unfold some_atan2.
  assert (Z0 : Beqb v (zero 24 128) = true) by (rewrite Beqb_correct by (exact Fv || reflexivity); rewrite Vv; apply Req_bool_true; reflexivity). rewrite Z0. split; [reflexivity|].
  assert (E : B2R (float_of_bits 0x3FC90FDB) = 13176795 / 8388608) by (cbn; unfold F2R; cbn; lra). rewrite E. pose proof TrigProofs5.PI_bounds. apply Rabs_le. lra.
Qed.
