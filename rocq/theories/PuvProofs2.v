(** Packing and unpacking in exact arithmetic: which integer is stored, and which vector comes back. *)
From Coq Require Import Reals Lra Psatz.
From Flocq Require Import Core BinarySingleNaN.
From Verif Require Import Words WordsProofs PuvModel PuvSpec PuvProofs.

Local Open Scope R_scope.

Definition neg (x : R) : bool := Rlt_bool x 0.
Definition sg (s : bool) : R := if s then -1 else 1.

Lemma neg_spec x : negative x (neg x).
Proof. unfold negative, neg. destruct (Rlt_bool_spec x 0) as [H|H]; split; intros K; trivial; try discriminate; lra. Qed.

Lemma sg_neg x : sg (neg x) * Rabs x = x.
Proof.
  unfold neg. destruct (Rlt_bool_spec x 0) as [H|H]; unfold sg; [rewrite Rabs_left by lra|rewrite Rabs_pos_eq by lra]; lra.
Qed.

Lemma take_sign_exact x k : take_sign exact x (N.shiftl 1 k) = (weight (neg x) k, Rabs x).
Proof.
  rewrite N.shiftl_1_l. unfold take_sign, neg. cbn [nonneg opp exact]. destruct (Rle_bool_spec 0 x) as [H|H].
  - rewrite Rlt_bool_false by lra. rewrite Rabs_pos_eq by lra. reflexivity.
  - rewrite Rlt_bool_true by lra. rewrite Rabs_left by lra. reflexivity.
Qed.

(** The level nearest to [t] times the largest but one. *)
Definition near (n : N) (t : R) : N := Z.to_N (Zfloor (t * (real n - 1) + / 2)).

Section Near.
  Variable n : N.
  Hypothesis Hn : (1 <= n)%N.
  Variable t : R.
  Hypothesis Ht : 0 <= t <= 1.

  Lemma real_ge : 1 <= real n.
  Proof using Hn. unfold real. apply IZR_le. lia. Qed.

  Lemma near_arg : / 2 <= t * (real n - 1) + / 2 <= real n - / 2.
  Proof using Hn Ht. pose proof real_ge as G. assert (0 <= t * (real n - 1)) by (apply Rmult_le_pos; lra).
    assert (t * (real n - 1) <= 1 * (real n - 1)) by (apply Rmult_le_compat_r; lra). lra. Qed.

  Lemma near_floor : (0 <= Zfloor (t * (real n - 1) + / 2) < Z.of_N n)%Z.
  Proof using Hn Ht.
    pose proof near_arg as G. split.
    - apply Zfloor_lub. simpl. lra.
    - apply lt_IZR. apply Rle_lt_trans with (1 := Zfloor_lb _). change (IZR (Z.of_N n)) with (real n). lra.
  Qed.

  Lemma near_real : real (near n t) = IZR (Zfloor (t * (real n - 1) + / 2)).
  Proof using Hn Ht. pose proof near_floor as G. unfold near, real at 1. rewrite Z2N.id by lia. reflexivity. Qed.

  Lemma near_le : (near n t <= n - 1)%N.
  Proof using Hn Ht. pose proof near_floor as G. unfold near. lia. Qed.

  Lemma near_bounds : t * (real n - 1) - / 2 < real (near n t) <= t * (real n - 1) + / 2.
  Proof using Hn Ht.
    rewrite near_real. pose proof (Zfloor_lb (t * (real n - 1) + / 2)) as A. pose proof (Zfloor_ub (t * (real n - 1) + / 2)) as B. lra.
  Qed.
End Near.

Lemma near_unique n t i : real i <= t * (real n - 1) + / 2 < real i + 1 -> near n t = i.
Proof.
  intros H. unfold near. rewrite (Zfloor_imp (Z.of_N i)); [apply N2Z.id|]. rewrite plus_IZR. exact H.
Qed.

Lemma real_pred n : (1 <= n)%N -> real (n - 1) = real n - 1.
Proof. intros H. unfold real. rewrite N2Z.inj_sub by exact H. rewrite minus_IZR. reflexivity. Qed.

Lemma quantize_exact w d n t : x_range w d = n -> (1 <= n)%N -> (Z.of_N n < 2 ^ Z.of_N (arith_bits w))%Z -> 0 <= t <= 1 ->
  quantize exact w d t = Some (near n t).
Proof.
  intros E Hn Hw Ht. unfold quantize. cbn [to_int mul add of_int half exact]. rewrite E. change (IZR (Z.of_N (n - 1))) with (real (n - 1)).
  rewrite real_pred by exact Hn. pose proof (near_arg n Hn t Ht) as A.
  rewrite Ztrunc_floor by lra. pose proof (near_floor n Hn t Ht) as F.
  unfold fit. rewrite (proj2 (Z.leb_le _ _)) by lia. rewrite (proj2 (Z.ltb_lt _ _)) by lia. cbn.
  change (Z.to_N (Zfloor (t * (real n - 1) + / 2))) with (near n t).
  pose proof (near_le n Hn t Ht) as Q. rewrite (proj2 (N.leb_le _ _)) by lia. reflexivity.
Qed.

Lemma real_le a b : (a <= b)%N -> real a <= real b.
Proof. intros H. apply IZR_le. lia. Qed.
Lemma real_lt a b : (a < b)%N -> real a < real b.
Proof. intros H. apply IZR_lt. lia. Qed.
Lemma real_add a b : real (a + b) = real a + real b.
Proof. unfold real. rewrite N2Z.inj_add, plus_IZR. reflexivity. Qed.
Lemma real_pos a : 0 <= real a.
Proof. apply IZR_le. lia. Qed.
Lemma real_sub a b : (b <= a)%N -> real (a - b) = real a - real b.
Proof. intros H. unfold real. rewrite N2Z.inj_sub by exact H. apply minus_IZR. Qed.

Lemma lt_pow_Z n w : (n < 2 ^ w)%N -> (Z.of_N n < 2 ^ Z.of_N w)%Z.
Proof. intros H. change 2%Z with (Z.of_N 2). rewrite <- N2Z.inj_pow. lia. Qed.

(** ** Two components *)
Section Two.
  Variable w : N.
  Hypothesis Hw : std_width w.
  Let n := levels2 w.

  Lemma levels2_facts : (7 <= n /\ n < 2 ^ (w - 2) /\ n < 2 ^ arith_bits w)%N.
  Proof using Hw. clear -Hw. unfold n, levels2, arith_bits, promoted.
    destruct Hw as [->|[->|[->|[->| ->]]]]; vm_compute; repeat split; congruence. Qed.

  Lemma pack2_exact x y : 0 < Rabs x + Rabs y ->
    pack2 exact w x y = Some (stored2 w (neg x) (neg y) (near n (share2 x y))).
  Proof using Hw.
    intros S. destruct levels2_facts as (G & F & A). unfold pack2, x_sign_bit, y_sign_bit. rewrite !take_sign_exact.
    cbn [div add exact]. change (Rabs x / (Rabs x + Rabs y)) with (share2 x y).
    assert (T : 0 <= share2 x y <= 1).
    { unfold share2, Rdiv. pose proof (Rabs_pos x) as PX. pose proof (Rabs_pos y) as PY.
      pose proof (Rinv_0_lt_compat _ S) as PI. split; [apply Rmult_le_pos; lra|].
      apply Rmult_le_reg_r with (1 := S). rewrite Rmult_assoc, Rinv_l by lra. lra. }
    rewrite (quantize_exact w 2 n _ (range2 w Hw)); [|lia|now apply lt_pow_Z|exact T].
    cbn [option_bind]. pose proof (near_le n ltac:(lia) _ T) as Q.
    rewrite stored2_lor by (try exact Hw; lia).
    pose proof (stored2_lt w Hw (neg x) (neg y) (near n (share2 x y)) ltac:(lia)) as B.
    rewrite (proj2 (N.ltb_lt _ _)) by exact B. rewrite trunc_small by exact B. reflexivity.
  Qed.

  Lemma unpack2_exact sx sy i : (i <= n)%N ->
    let x := real i / real n in
    unpack2 exact w (stored2 w sx sy i)
    = (sg sx * x / len2 x (1 - x), sg sy * (1 - x) / len2 x (1 - x)).
  Proof using Hw.
    intros Hi x. destruct levels2_facts as (G & F & A). unfold unpack2. rewrite (stored2_i w Hw) by lia.
    rewrite (stored2_x w Hw), (stored2_y w Hw) by lia. rewrite (range2 w Hw). fold n. cbn -[IZR Z.of_N].
    change (IZR (Z.of_N i)) with (real i). change (IZR (Z.of_N n)) with (real n). change (IZR (Z.of_N 1)) with 1.
    replace (real i * (1 / real n)) with x by (unfold x; unfold Rdiv; ring).
    unfold normalize2, sign, one. cbn -[IZR Z.of_N]. change (IZR (Z.of_N 1)) with 1.
    replace (if sx then - (1) else 1) with (sg sx) by (destruct sx; reflexivity).
    replace (if sy then - (1) else 1) with (sg sy) by (destruct sy; reflexivity).
    replace (sg sx * x * (sg sx * x) + sg sy * (1 - x) * (sg sy * (1 - x))) with (x * x + (1 - x) * (1 - x))
      by (destruct sx, sy; unfold sg; ring).
    change (sqrt (x * x + (1 - x) * (1 - x))) with (len2 x (1 - x)). unfold Rdiv. f_equal; ring.
  Qed.
End Two.

(** ** Three components *)
(** What is stored for two levels, and what is read. *)
Definition fold3 (n i j : N) : N * N := if (n + 1 <=? 2 * j)%N then (n - i, n - j)%N else (i, j).

Section Three.
  Variable w xb yb : N.
  Hypothesis L : lay w xb yb.
  Let n := levels3 w.

  Lemma levels3_facts : (n = 2 ^ xb - 1 /\ 7 <= n /\ n < 2 ^ arith_bits w /\ 2 ^ xb = n + 1 /\ 2 * 2 ^ yb = n + 1
    /\ 2 * n < 2 ^ arith_bits w)%N.
  Proof using L. clear -L.
    assert (E : n = (2 ^ xb - 1)%N) by (unfold n, levels3; rewrite <- (lay_xb w xb yb L); reflexivity).
    pose proof (xb_yb w xb yb L) as D. pose proof (lay_m w xb yb L) as M. pose proof (lay_s w xb yb L) as S.
    assert (P : (2 ^ 2 <= 2 ^ yb)%N) by (apply N.pow_le_mono_r; lia). change (2 ^ 2)%N with 4%N in P.
    assert (Q : (2 ^ (xb + 1) < 2 ^ arith_bits w)%N) by (apply N.pow_lt_mono_r; [lia|apply (lay_a2 w xb yb L)]).
    rewrite N.pow_add_r in Q. lia.
  Qed.

  Lemma fold3_fits i j : (i <= n -> j <= n -> fst (fold3 n i j) < 2 ^ xb /\ snd (fold3 n i j) < 2 ^ yb)%N.
  Proof using L.
    destruct levels3_facts as (E & G & A & X & Y & A2). intros Hi Hj. unfold fold3.
    destruct (N.leb_spec (n + 1) (2 * j)) as [H|H]; cbn; lia.
  Qed.

  Lemma share3_bounds x y z : 0 < Rabs x + Rabs y + Rabs z ->
    0 <= share3 x y z /\ 0 <= share3 y x z /\ share3 x y z + share3 y x z <= 1.
  Proof using.
    intros S. unfold share3, Rdiv. pose proof (Rabs_pos x) as PX. pose proof (Rabs_pos y) as PY. pose proof (Rabs_pos z) as PZ.
    replace (Rabs y + Rabs x + Rabs z) with (Rabs x + Rabs y + Rabs z) by ring.
    pose proof (Rinv_0_lt_compat _ S) as PI. split; [apply Rmult_le_pos; lra|]. split; [apply Rmult_le_pos; lra|].
    apply Rmult_le_reg_r with (1 := S). rewrite Rmult_plus_distr_r, !Rmult_assoc, Rinv_l by lra. lra.
  Qed.

  (** The two levels never add up to more than the largest level. *)
  Lemma near_sum t s : 0 <= t -> 0 <= s -> t + s <= 1 -> (near n t + near n s <= n)%N.
  Proof using L.
    destruct levels3_facts as (E & G & A & X & Y & A2). intros Ht Hs H.
    pose proof (near_bounds n ltac:(lia) t ltac:(lra)) as B1. pose proof (near_bounds n ltac:(lia) s ltac:(lra)) as B2.
    assert (R7 : 7 <= real n) by (apply (IZR_le 7); lia).
    assert ((t + s) * (real n - 1) <= 1 * (real n - 1)) by (apply Rmult_le_compat_r; lra).
    assert (K : real (near n t + near n s) <= real n) by (rewrite real_add; lra).
    unfold real in K. apply le_IZR in K. lia.
  Qed.

  Lemma pack3_exact x y z : 0 < Rabs x + Rabs y + Rabs z ->
    pack3 exact w x y z =
      Some (let (i, j) := fold3 n (near n (share3 x y z)) (near n (share3 y x z)) in stored3 w (neg x) (neg y) (neg z) i j).
  Proof using L.
    intros S. destruct levels3_facts as (E & G & A & X & Y & A2).
    unfold pack3, x_sign_bit, y_sign_bit, z_sign_bit. rewrite !take_sign_exact.
    cbn [div add mul exact]. unfold one. cbn [of_int exact]. change (IZR (Z.of_N 1)) with 1.
    replace (Rabs x * (1 / (Rabs x + Rabs y + Rabs z))) with (share3 x y z) by (unfold share3, Rdiv; ring).
    replace (Rabs y * (1 / (Rabs x + Rabs y + Rabs z))) with (share3 y x z).
    2: { unfold share3, Rdiv. rewrite Rmult_1_l. f_equal. f_equal. ring. }
    destruct (share3_bounds x y z S) as (T1 & T2 & T3).
    pose proof (range3 w xb yb L) as RE. fold n in RE.
    rewrite (quantize_exact w 3 n (share3 x y z) RE); [|lia|now apply lt_pow_Z|lra]. cbn [option_bind].
    rewrite (quantize_exact w 3 n (share3 y x z) RE); [|lia|now apply lt_pow_Z|lra]. cbn [option_bind].
    pose proof (near_le n ltac:(lia) (share3 x y z) ltac:(lra)) as Q1. pose proof (near_le n ltac:(lia) (share3 y x z) ltac:(lra)) as Q2.
    set (i := near n (share3 x y z)) in *. set (j := near n (share3 y x z)) in *. rewrite RE.
    rewrite N.shiftl_1_l, (lay_x3 w xb yb L), (yrange3 w xb yb L). 
    replace (2 ^ xb / 2)%N with (2 ^ yb)%N by (rewrite (xb_yb w xb yb L), N.mul_comm, N.div_mul by lia; reflexivity).
    pose proof (fold3_fits i j ltac:(lia) ltac:(lia)) as FF. unfold fold3 in *.
    replace (2 ^ yb <=? j)%N with (n + 1 <=? 2 * j)%N.
    2: { destruct (N.leb_spec (n + 1) (2 * j)), (N.leb_spec (2 ^ yb) j); trivial; lia. }
    destruct (n + 1 <=? 2 * j)%N eqn:D.
    - cbn [fst snd] in FF. destruct FF as (FI & FJ).
      rewrite (proj2 (N.leb_le (n - i) n)) by lia. rewrite (proj2 (N.leb_le (n - j) _)) by lia. cbn [andb].
      rewrite (stored3_lor w xb yb L) by assumption.
      pose proof (stored3_lt w xb yb L (neg x) (neg y) (neg z) (n - i) (n - j) FI FJ) as B.
      rewrite (proj2 (N.ltb_lt _ _)) by exact B. now rewrite trunc_small by exact B.
    - cbn [fst snd] in FF. destruct FF as (FI & FJ).
      rewrite (proj2 (N.leb_le i n)) by lia. rewrite (proj2 (N.leb_le j _)) by lia. cbn [andb].
      rewrite (stored3_lor w xb yb L) by assumption.
      pose proof (stored3_lt w xb yb L (neg x) (neg y) (neg z) i j FI FJ) as B.
      rewrite (proj2 (N.ltb_lt _ _)) by exact B. now rewrite trunc_small by exact B.
  Qed.

  (** The vector for two levels. *)
  Definition point3 (sx sy sz : bool) (i j : N) : R * R * R :=
    let x := real i / real n in
    let y := real j / real n in
    let k := len3 x y (1 - x - y) in
    (sg sx * x / k, sg sy * y / k, sg sz * (1 - x - y) / k).

  Lemma unpack3_raw sx sy sz i j : (i < 2 ^ xb)%N -> (j < 2 ^ yb)%N ->
    unpack3 exact w (stored3 w sx sy sz i j)
    = let (i, j) := if (n <? i + j)%N then (n - i, n - j)%N else (i, j) in point3 sx sy sz i j.
  Proof using L.
    intros Hi Hj. destruct levels3_facts as (E & G & A & X & Y & A2). unfold unpack3.
    rewrite (stored3_i w xb yb L), (stored3_j w xb yb L), (stored3_x w xb yb L), (stored3_y w xb yb L), (stored3_z w xb yb L) by assumption.
    rewrite (range3 w xb yb L). fold n. rewrite trunc_small by lia.
    destruct (n <? i + j)%N.
    all: cbn -[IZR Z.of_N Z.of_N N.sub];
    change (IZR (Z.of_N n)) with (real n); change (IZR (Z.of_N 1)) with 1;
    unfold normalize3, sign, one; cbn -[IZR Z.of_N N.sub]; change (IZR (Z.of_N 1)) with 1; unfold point3.
    1: change (IZR (Z.of_N (n - i))) with (real (n - i)); change (IZR (Z.of_N (n - j))) with (real (n - j));
       set (x := real (n - i) / real n); set (y := real (n - j) / real n);
       replace (real (n - i) * (1 / real n)) with x by (unfold x, Rdiv; ring);
       replace (real (n - j) * (1 / real n)) with y by (unfold y, Rdiv; ring).
    2: change (IZR (Z.of_N i)) with (real i); change (IZR (Z.of_N j)) with (real j);
       set (x := real i / real n); set (y := real j / real n);
       replace (real i * (1 / real n)) with x by (unfold x, Rdiv; ring);
       replace (real j * (1 / real n)) with y by (unfold y, Rdiv; ring).
    all: replace (if sx then - (1) else 1) with (sg sx) by (destruct sx; reflexivity);
      replace (if sy then - (1) else 1) with (sg sy) by (destruct sy; reflexivity);
      replace (if sz then - (1) else 1) with (sg sz) by (destruct sz; reflexivity);
      replace (sg sx * x * (sg sx * x) + sg sy * y * (sg sy * y) + sg sz * (1 - x - y) * (sg sz * (1 - x - y)))
        with (x * x + y * y + (1 - x - y) * (1 - x - y)) by (destruct sx, sy, sz; unfold sg; ring);
      change (sqrt (x * x + y * y + (1 - x - y) * (1 - x - y))) with (len3 x y (1 - x - y));
      unfold Rdiv; f_equal; [f_equal; ring|ring].
  Qed.

  Lemma unpack3_fold sx sy sz i j : (i <= n)%N -> (j <= n)%N -> (i + j <= n)%N -> ((n + 1 <= 2 * j)%N -> (i + j < n)%N) ->
    unpack3 exact w (let (a, b) := fold3 n i j in stored3 w sx sy sz a b) = point3 sx sy sz i j.
  Proof using L.
    intros Hi Hj S T. pose proof (fold3_fits i j Hi Hj) as FF. unfold fold3 in *.
    destruct (n + 1 <=? 2 * j)%N eqn:D; cbn [fst snd] in FF; destruct FF as (FI & FJ); rewrite unpack3_raw by assumption.
    - apply N.leb_le in D. specialize (T D). rewrite (proj2 (N.ltb_lt _ _)) by lia. f_equal; lia.
    - rewrite (proj2 (N.ltb_ge _ _)) by lia. reflexivity.
  Qed.

  (** If the levels add up to the largest level, they come back in the wrong order. *)
  Lemma unpack3_swap sx sy sz i j : (i + j = n)%N -> (n + 1 <= 2 * j)%N ->
    unpack3 exact w (let (a, b) := fold3 n i j in stored3 w sx sy sz a b) = point3 sx sy sz j i.
  Proof using L.
    intros S T. pose proof (fold3_fits i j ltac:(lia) ltac:(lia)) as FF. unfold fold3 in *.
    rewrite (proj2 (N.leb_le _ _)) in * by exact T. cbn [fst snd] in FF. destruct FF as (FI & FJ).
    rewrite unpack3_raw by assumption. rewrite (proj2 (N.ltb_ge _ _)) by lia. f_equal; lia.
  Qed.
End Three.
