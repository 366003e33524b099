(** The round trip and the repeated round trip. *)
From Coq Require Import Reals Lra Psatz.
From Flocq Require Import Core BinarySingleNaN.
From Verif Require Import Words WordsProofs PuvModel PuvSpec PuvProofs PuvProofs2 PuvProofs3.

Local Open Scope R_scope.

Lemma len2_unit a b k : 0 < k -> k * k = a * a + b * b -> len2 (a / k) (b / k) = 1.
Proof.
  intros K E. unfold len2, Rdiv. replace (a * / k * (a * / k) + b * / k * (b * / k)) with ((a * a + b * b) * / k * / k) by ring.
  rewrite <- E. replace (k * k * / k * / k) with 1 by (field; lra). apply sqrt_1.
Qed.
Lemma len3_unit a b c k : 0 < k -> k * k = a * a + b * b + c * c -> len3 (a / k) (b / k) (c / k) = 1.
Proof.
  intros K E. unfold len3, Rdiv.
  replace (a * / k * (a * / k) + b * / k * (b * / k) + c * / k * (c * / k)) with ((a * a + b * b + c * c) * / k * / k) by ring.
  rewrite <- E. replace (k * k * / k * / k) with 1 by (field; lra). apply sqrt_1.
Qed.

Lemma same_dir x q k : 0 <= q -> 0 < k -> 0 <= sg (neg x) * q / k * x.
Proof.
  intros Q K. pose proof (Rinv_0_lt_compat k K) as PK.
  replace (sg (neg x) * q / k * x) with ((q * / k) * (sg (neg x) * x)) by (unfold Rdiv; ring).
  apply Rmult_le_pos; [apply Rmult_le_pos; lra|].
  replace (sg (neg x) * x) with (sg (neg x) * sg (neg x) * Rabs x) by (rewrite Rmult_assoc, sg_neg; reflexivity).
  rewrite sg_sq. pose proof (Rabs_pos x). lra.
Qed.

Lemma sub_sg x q K k : sg (neg x) * q / K - x / k = sg (neg x) * (q / K - Rabs x / k).
Proof. replace (x / k) with (sg (neg x) * Rabs x / k) by (rewrite sg_neg; reflexivity). unfold Rdiv. ring. Qed.

Lemma len2_sg s t a b : len2 (sg s * a) (sg t * b) = len2 a b.
Proof. unfold len2. f_equal. replace (sg s * a * (sg s * a) + sg t * b * (sg t * b)) with (sg s * sg s * (a * a) + sg t * sg t * (b * b)) by ring.
  rewrite !sg_sq. ring. Qed.
Lemma len3_sg s t r a b c : len3 (sg s * a) (sg t * b) (sg r * c) = len3 a b c.
Proof. unfold len3. f_equal.
  replace (sg s * a * (sg s * a) + sg t * b * (sg t * b) + sg r * c * (sg r * c))
    with (sg s * sg s * (a * a) + sg t * sg t * (b * b) + sg r * sg r * (c * c)) by ring.
  rewrite !sg_sq. ring. Qed.

(** ** Two components *)
Section Two.
  Variable w : N.
  Hypothesis Hw : std_width w.
  Let n := levels2 w.

  Lemma share2_range x y : 0 < Rabs x + Rabs y -> 0 <= share2 x y <= 1.
  Proof using.
    intros S. destruct (share2_dir x y S) as (E & _). cbv zeta in E. unfold share2 in *.
    pose proof (Rinv_0_lt_compat _ S) as PI. pose proof (Rabs_pos x). pose proof (Rabs_pos y).
    assert (0 <= Rabs x / (Rabs x + Rabs y)) by (apply Rmult_le_pos; lra).
    assert (0 <= Rabs y / (Rabs x + Rabs y)) by (apply Rmult_le_pos; lra). lra.
  Qed.

  Lemma round_trip2 x y : 0 < Rabs x + Rabs y ->
    exists b, pack2 exact w x y = Some b /\ (b < 2 ^ w)%N /\ negative x (x_negative w b) /\ negative y (y_negative w b)
    /\ len2 (fst (unpack2 exact w b)) (snd (unpack2 exact w b)) = 1
    /\ off2 (unpack2 exact w b) (x, y) <= 3 / real n
    /\ same_way (fst (unpack2 exact w b)) x /\ not_opposite (snd (unpack2 exact w b)) y.
  Proof using Hw.
    intros S. pose proof (share2_range x y S) as T. destruct (levels2_facts w Hw) as (G & F & A). fold n in G, F, A.
    set (t := share2 x y) in *. pose proof (near_le n ltac:(lia) t T) as Q.
    exists (stored2 w (neg x) (neg y) (near n t)).
    split; [now apply pack2_exact|]. split; [apply stored2_lt; [exact Hw|lia]|].
    rewrite (stored2_x w Hw), (stored2_y w Hw) by lia.
    split; [apply neg_spec|]. split; [apply neg_spec|].
    rewrite (unpack2_exact w Hw) by (fold n; lia). fold n. set (q := real (near n t) / real n).
    pose proof (level_range n ltac:(lia) t T) as LR. fold q in LR.
    pose proof (pos_of_sq _ (/ 2) (len2_pos q (1 - q)) ltac:(lra) (len2_part q (1 - q) ltac:(lra))) as PK.
    destruct (share2_dir x y S) as (E1 & E2 & E3 & E4 & E5). cbv zeta in *. fold t in E1, E2, E3, E4.
    cbn [fst snd]. split; [|split; [|split; [split|]]].
    - apply len2_unit; [exact PK|]. rewrite len2_sq.
      replace (sg (neg x) * q * (sg (neg x) * q)) with (sg (neg x) * sg (neg x) * (q * q)) by ring.
      replace (sg (neg y) * (1 - q) * (sg (neg y) * (1 - q))) with (sg (neg y) * sg (neg y) * ((1 - q) * (1 - q))) by ring.
      rewrite !sg_sq. ring.
    - unfold off2. rewrite !sub_sg, len2_sg. rewrite <- E3, <- E4.
      apply Rle_trans with (2 * (3 / 2 * / real n)); [|unfold Rdiv; lra].
      apply near2; [|apply level_error; [lia|exact T]].
      pose proof (real_n n ltac:(lia)) as RN. pose proof (Rinv_0_lt_compat (real n) ltac:(lra)). lra.
    - apply same_dir; lra.
    - intros X. assert (T0 : t = 0) by (unfold t, share2; rewrite X, Rabs_R0; unfold Rdiv; ring).
      pose proof (level_zero n t T0) as Z. fold q in Z. rewrite Z. unfold Rdiv. ring.
    - apply same_dir; lra.
  Qed.

  Definition repack2 (b : N) : option N := let (x, y) := unpack2 exact w b in pack2 exact w x y.

  Lemma Req_level i : (i <= n)%N -> Req_bool (real i / real n) 0 = (i =? 0)%N.
  Proof using Hw.
    intros Hi. destruct (levels2_facts w Hw) as (G & _). fold n in G. pose proof (real_n n ltac:(lia)) as RN.
    destruct (N.eqb_spec i 0) as [->|D].
    - apply Req_bool_true. change (real 0) with 0. unfold Rdiv. ring.
    - apply Req_bool_false. intros Z. apply (f_equal (fun x => x * real n)) in Z. unfold Rdiv in Z.
      rewrite Rmult_assoc, Rinv_l, Rmult_1_r, Rmult_0_l in Z by lra. apply (eq_IZR _ 0) in Z. lia.
  Qed.

  Lemma repack2_spec sx sy i : (i <= n)%N ->
    repack2 (stored2 w sx sy i)
    = Some (stored2 w (sx && negb (i =? 0)%N) (sy && negb (i =? n)%N) (step n i)).
  Proof using Hw.
    intros Hi. destruct (levels2_facts w Hw) as (G & F & A). fold n in G, F, A.
    pose proof (real_n n ltac:(lia)) as RN. pose proof (real_pos i) as P. pose proof (real_le i n Hi) as U.
    unfold repack2. rewrite (unpack2_exact w Hw) by exact Hi. fold n. set (q := real i / real n).
    assert (LR : 0 <= q <= 1).
    { pose proof (Rinv_0_lt_compat (real n) ltac:(lra)) as PI. unfold q, Rdiv. split; [apply Rmult_le_pos; lra|].
      apply Rmult_le_reg_r with (real n); [lra|]. rewrite Rmult_assoc, Rinv_l by lra. lra. }
    pose proof (pos_of_sq _ (/ 2) (len2_pos q (1 - q)) ltac:(lra) (len2_part q (1 - q) ltac:(lra))) as PK.
    set (k := len2 q (1 - q)) in *. pose proof (Rinv_0_lt_compat k PK) as IK.
    assert (AX : Rabs (sg sx * q / k) = q / k) by (rewrite abs_over by exact PK; rewrite abs_sg by lra; reflexivity).
    assert (AY : Rabs (sg sy * (1 - q) / k) = (1 - q) / k) by (rewrite abs_over by exact PK; rewrite abs_sg by lra; reflexivity).
    rewrite pack2_exact; [|exact Hw|rewrite AX, AY; unfold Rdiv; replace (q * / k + (1 - q) * / k) with (/ k) by ring; exact IK].
    f_equal. fold n.
    assert (SH : share2 (sg sx * q / k) (sg sy * (1 - q) / k) = q) by (unfold share2; rewrite AX, AY; field; lra).
    rewrite SH. unfold q at 3. rewrite near_level by lia.
    rewrite !neg_sg by lra. f_equal.
    - f_equal. f_equal. now apply Req_level.
    - f_equal. f_equal. replace (i =? n)%N with (n - i =? 0)%N.
      2: { destruct (N.eqb_spec (n - i) 0), (N.eqb_spec i n); trivial; lia. }
      replace (1 - q) with (real (n - i) / real n). 2: { rewrite real_sub by exact Hi. unfold q. field. lra. }
      apply Req_level. lia.
  Qed.
End Two.

(** A function repeated. *)
Fixpoint again (f : N -> option N) (m : nat) (b : N) : option N :=
  match m with O => Some b | S m => c <- f b ;; again f m c end.

Lemma drift2 w : std_width w -> forall m i, (i <= levels2 w)%N -> ((levels2 w - 1) / 2 <= i)%N ->
  again (repack2 w) m (stored2 w false false i)
  = Some (stored2 w false false (N.max ((levels2 w - 1) / 2) (i - N.of_nat m))).
Proof.
  intros Hw. destruct (levels2_facts w Hw) as (G & F & A). set (n := levels2 w) in *.
  assert (ODD : exists h, n = (2 * h + 1)%N).
  { exists (2 ^ (w - 3) - 1)%N. unfold n, levels2. pose proof (w_ge w Hw) as GE.
    replace (w - 2)%N with (w - 3 + 1)%N by lia. rewrite N.pow_add_r. pose proof (pow2_pos (w - 3)). lia. }
  destruct ODD as (h & ODD). assert (H2 : ((n - 1) / 2 = h)%N) by (rewrite ODD; replace (2 * h + 1 - 1)%N with (h * 2)%N by lia; now apply N.div_mul).
  rewrite H2. induction m as [|m IH]; intros i Hi Lo.
  - cbn. do 2 f_equal. lia.
  - cbn [again]. rewrite repack2_spec by (try exact Hw; fold n; lia). cbn [option_bind andb]. fold n. unfold step.
    destruct (N.leb_spec (2 * i) n) as [C|C].
    + rewrite IH by lia. do 2 f_equal. lia.
    + rewrite IH by lia. do 2 f_equal. lia.
Qed.

(** ** Three components *)
Section Three.
  Variable w xb yb : N.
  Hypothesis L : lay w xb yb.
  Let n := levels3 w.

  (** Levels that are read back as they were. *)
  Definition readable (i j : N) : Prop := (i + j <= n)%N /\ ((n + 1 <= 2 * j)%N -> (i + j < n)%N).
  Definition kept (sx sy sz : bool) (i j : N) : N := let (a, b) := fold3 n i j in stored3 w sx sy sz a b.

  Lemma point3_unit sx sy sz i j : (i + j <= n)%N ->
    forall a b c, point3 w sx sy sz i j = (a, b, c) -> len3 a b c = 1.
  Proof using L.
    intros H a b c E. unfold point3 in E. fold n in E. inversion E as [[EA EB EC]]; clear E.
    set (x := real i / real n). set (y := real j / real n).
    apply len3_unit; [apply (pos_of_sq _ (/ 3) (len3_pos _ _ _) ltac:(lra)), len3_part; lra|].
    rewrite len3_sq.
    replace (sg sx * x * (sg sx * x)) with (sg sx * sg sx * (x * x)) by ring.
    replace (sg sy * y * (sg sy * y)) with (sg sy * sg sy * (y * y)) by ring.
    replace (sg sz * (1 - x - y) * (sg sz * (1 - x - y))) with (sg sz * sg sz * ((1 - x - y) * (1 - x - y))) by ring.
    rewrite !sg_sq. ring.
  Qed.

  Lemma kept_facts sx sy sz i j : (i <= n)%N -> (j <= n)%N ->
    (kept sx sy sz i j < 2 ^ w)%N /\ x_negative w (kept sx sy sz i j) = sx /\ y_negative w (kept sx sy sz i j) = sy
    /\ z_negative w (kept sx sy sz i j) = sz.
  Proof using L.
    intros Hi Hj. pose proof (fold3_fits w xb yb L i j Hi Hj) as FF. fold n in FF. unfold kept. destruct (fold3 n i j) as (a, b).
    cbn [fst snd] in FF. destruct FF as (FA & FB).
    split; [now apply (stored3_lt w xb yb L)|]. split; [now apply (stored3_x w xb yb L)|].
    split; [now apply (stored3_y w xb yb L)|now apply (stored3_z w xb yb L)].
  Qed.

  Lemma tie_iff t s : 0 <= t -> 0 <= s -> t + s <= 1 ->
    ((near n t + near n s = n)%N /\ (n + 1 <= 2 * near n s)%N) <-> (t + s = 1 /\ tie n t).
  Proof using L.
    intros Ht Hs H. destruct (levels3_facts w xb yb L) as (E & G & A & X & Y & A2). fold n in E, G, A, X, Y, A2.
    assert (R7 : 7 <= real n) by (apply (IZR_le 7); lia).
    pose proof (near_bounds n ltac:(lia) t ltac:(lra)) as B1. pose proof (near_bounds n ltac:(lia) s ltac:(lra)) as B2.
    assert (PT : 0 <= t * (real n - 1)) by (apply Rmult_le_pos; lra).
    split.
    - intros (S1 & S2). pose proof S1 as SN. apply (f_equal real) in S1. rewrite real_add in S1.
      assert (Z : t + s = 1).
      { destruct (Rle_or_lt 1 (t + s)) as [K|K]; [lra|].
        assert ((t + s) * (real n - 1) < 1 * (real n - 1)) by (apply Rmult_lt_compat_r; lra). lra. }
      assert (EM : s * (real n - 1) = real n - 1 - t * (real n - 1)) by (replace s with (1 - t) by lra; ring).
      split; [exact Z|]. exists (near n t - 1)%N.
      assert (P : (1 <= near n t)%N).
      { destruct (N.eq_dec (near n t) 0) as [Z0|Z0]; [|lia]. rewrite Z0 in S1, B1. change (real 0) with 0 in *. lra. }
      split.
      + lia.
      + rewrite real_pred by exact P. lra.
    - intros (Z & k & K1 & K2). replace s with (1 - t) in * by lra.
      assert (N1 : near n t = (k + 1)%N).
      { apply near_unique. rewrite real_add. change (real 1) with 1. lra. }
      assert (N2 : near n (1 - t) = (n - 1 - k)%N).
      { apply near_unique. rewrite real_sub by lia. rewrite real_pred by lia. lra. }
      rewrite N1, N2. lia.
  Qed.

  Lemma levels_of x y z : 0 < Rabs x + Rabs y + Rabs z ->
    let i := near n (share3 x y z) in let j := near n (share3 y x z) in
    (i <= n)%N /\ (j <= n)%N /\ (i + j <= n)%N /\ pack3 exact w x y z = Some (kept (neg x) (neg y) (neg z) i j)
    /\ (~ (z = 0 /\ tie n (share3 x y z)) -> readable i j)
    /\ (z = 0 /\ tie n (share3 x y z) -> (i + j = n)%N /\ (n + 1 <= 2 * j)%N).
  Proof using L.
    intros S i j. destruct (share3_bounds x y z S) as (T1 & T2 & T3).
    destruct (levels3_facts w xb yb L) as (E & G & A & X & Y & A2). fold n in E, G, A, X, Y, A2.
    pose proof (near_le n ltac:(lia) (share3 x y z) ltac:(lra)) as Q1. pose proof (near_le n ltac:(lia) (share3 y x z) ltac:(lra)) as Q2.
    fold i in Q1. fold j in Q2.
    pose proof (near_sum w xb yb L _ _ T1 T2 T3) as NS. fold n i j in NS.
    split; [lia|]. split; [lia|]. split; [exact NS|]. split; [apply (pack3_exact w xb yb L x y z S)|].
    assert (ZZ : z = 0 <-> share3 x y z + share3 y x z = 1).
    { destruct (share3_dir x y z S) as (E1 & _). cbv zeta in E1.
      assert (E2 : share3 z x y = Rabs z / (Rabs x + Rabs y + Rabs z)) by (unfold share3; f_equal; ring).
      split; intros H.
      - rewrite H, Rabs_R0 in E2. unfold Rdiv in E2. rewrite Rmult_0_l in E2. subst z. lra.
      - assert (Z0 : Rabs z / (Rabs x + Rabs y + Rabs z) = 0) by lra.
        apply (f_equal (fun r => r * (Rabs x + Rabs y + Rabs z))) in Z0. unfold Rdiv in Z0. rewrite Rmult_assoc, Rinv_l in Z0 by lra.
        destruct (Req_dec z 0) as [K|K]; [exact K|]. pose proof (Rabs_pos_lt z K). lra. }
    pose proof (tie_iff _ _ T1 T2 T3) as TI. fold i j in TI. rewrite <- ZZ in TI.
    split.
    - intros NT. split; [exact NS|]. intros D. destruct (N.eq_dec (i + j) n) as [Q|Q]; [|lia]. exfalso. apply NT, TI. now split.
    - intros T. now apply TI.
  Qed.

  Lemma round_trip3 x y z : 0 < Rabs x + Rabs y + Rabs z -> ~ (z = 0 /\ tie n (share3 x y z)) ->
    exists b u1 u2 u3, pack3 exact w x y z = Some b /\ unpack3 exact w b = (u1, u2, u3)
    /\ len3 u1 u2 u3 = 1 /\ off3 (u1, u2, u3) (x, y, z) <= 51 / 10 / real n
    /\ same_way u1 x /\ same_way u2 y /\ not_opposite u3 z.
  Proof using L.
    intros S NT. destruct (levels_of x y z S) as (Hi & Hj & Hs & PK & RD & _). specialize (RD NT). destruct RD as (_ & RD).
    destruct (share3_bounds x y z S) as (T1 & T2 & T3).
    destruct (levels3_facts w xb yb L) as (E & G & A & X & Y & A2). fold n in E, G, A, X, Y, A2.
    destruct (share3_dir x y z S) as (D0 & D1 & D2 & D3 & D4). cbv zeta in *.
    set (t := share3 x y z) in *. set (s := share3 y x z) in *. set (i := near n t) in *. set (j := near n s) in *.
    set (q1 := real i / real n). set (q2 := real j / real n).
    pose proof (level_range n ltac:(lia) t ltac:(lra)) as L1. pose proof (level_range n ltac:(lia) s ltac:(lra)) as L2.
    fold i in L1. fold j in L2. fold q1 in L1. fold q2 in L2.
    pose proof (real_n n ltac:(lia)) as RN. pose proof (Rinv_0_lt_compat (real n) ltac:(lra)) as PI.
    assert (L3 : 0 <= 1 - q1 - q2).
    { pose proof (real_le _ _ Hs) as HR. rewrite real_add in HR. unfold q1, q2. apply Rmult_le_reg_r with (real n); [lra|].
      replace ((1 - real i / real n - real j / real n) * real n) with (real n - real i - real j) by (field; lra). lra. }
    pose proof (pos_of_sq _ (/ 3) (len3_pos q1 q2 (1 - q1 - q2)) ltac:(lra) (len3_part q1 q2 (1 - q1 - q2) ltac:(lra))) as PL.
    exists (kept (neg x) (neg y) (neg z) i j). do 3 eexists. split; [exact PK|].
    split; [unfold kept; rewrite (unpack3_fold w xb yb L _ _ _ i j Hi Hj Hs RD); reflexivity|]. fold n q1 q2.
    split; [apply (point3_unit (neg x) (neg y) (neg z) i j Hs); reflexivity|].
    split; [|split; [split|split; [split|]]].
    - unfold off3. rewrite !sub_sg, len3_sg. rewrite <- D1, <- D2, <- D3.
      unfold Rdiv at 7. apply near3; try lra.
      + apply level_error; [lia|lra].
      + apply level_error; [lia|lra].
      + apply level_error2; [lia|lra..].
    - apply same_dir; lra.
    - intros X0. assert (T0 : t = 0) by (unfold t, share3; rewrite X0, Rabs_R0; unfold Rdiv; ring).
      pose proof (level_zero n t T0) as Z. fold i q1 in Z. rewrite Z. unfold Rdiv. ring.
    - apply same_dir; lra.
    - intros X0. assert (T0 : s = 0) by (unfold s, share3; rewrite X0, Rabs_R0; unfold Rdiv; ring).
      pose proof (level_zero n s T0) as Z. fold j q2 in Z. rewrite Z. unfold Rdiv. ring.
    - apply same_dir; lra.
  Qed.

  Lemma swapped3 x y : 0 < Rabs x + Rabs y -> tie n (share3 x y 0) ->
    exists b u1 u2 u3, pack3 exact w x y 0 = Some b /\ unpack3 exact w b = (u1, u2, u3) /\ Rabs x < Rabs y /\ Rabs u2 < Rabs u1.
  Proof using L.
    intros S0 T. assert (S : 0 < Rabs x + Rabs y + Rabs 0) by (rewrite Rabs_R0; lra).
    destruct (levels_of x y 0 S) as (Hi & Hj & Hs & PK & _ & RD). specialize (RD (conj eq_refl T)). destruct RD as (R1 & R2).
    destruct (levels3_facts w xb yb L) as (E & G & A & X & Y & A2). fold n in E, G, A, X, Y, A2.
    set (i := near n (share3 x y 0)) in *. set (j := near n (share3 y x 0)) in *. cbv zeta in *.
    exists (kept (neg x) (neg y) (neg 0) i j). do 3 eexists. split; [exact PK|].
    split; [unfold kept; rewrite (unpack3_swap w xb yb L _ _ _ i j R1 R2); reflexivity|]. fold n.
    pose proof (real_n n ltac:(lia)) as RN. pose proof (Rinv_0_lt_compat (real n) ltac:(lra)) as PI.
    set (a := real j / real n). set (b := real i / real n).
    assert (PL : 0 < len3 a b (1 - a - b)) by (apply (pos_of_sq _ (/ 3) (len3_pos _ _ _) ltac:(lra)), len3_part; lra).
    split.
    - destruct T as (k & K1 & K2). unfold share3 in K2. rewrite Rabs_R0, Rplus_0_r in K2.
      assert (K3 : 2 * real k + 3 <= real n).
      { pose proof (real_le _ _ K1) as Q. rewrite real_add in Q. unfold real in Q at 1 2. rewrite N2Z.inj_mul, mult_IZR in Q.
        change (IZR (Z.of_N 2)) with 2 in Q. change (IZR (Z.of_N 3)) with 3 in Q. exact Q. }
      assert (K4 : Rabs x / (Rabs x + Rabs y) < / 2).
      { apply Rmult_lt_reg_r with (real n - 1); [lra|]. rewrite K2. lra. }
      apply (Rmult_lt_compat_r (Rabs x + Rabs y)) in K4; [|exact S0]. unfold Rdiv in K4. rewrite Rmult_assoc, Rinv_l in K4 by lra. lra.
    - assert (IJ : real i < real j) by (apply real_lt; lia). pose proof (real_pos i) as PP. pose proof (real_pos j) as PJ.
      assert (0 <= a) by (unfold a; apply Rmult_le_pos; lra). assert (0 <= b) by (unfold b; apply Rmult_le_pos; lra).
      rewrite !abs_over by exact PL. rewrite !abs_sg by assumption. pose proof (Rinv_0_lt_compat _ PL) as PIL.
      unfold Rdiv. apply Rmult_lt_compat_r; [exact PIL|]. unfold a, b, Rdiv. apply Rmult_lt_compat_r; assumption.
  Qed.

  Definition repack3 (b : N) : option N := let '(x, y, z) := unpack3 exact w b in pack3 exact w x y z.

  Lemma Req_level3 i : (i <= n)%N -> Req_bool (real i / real n) 0 = (i =? 0)%N.
  Proof using L.
    intros Hi. destruct (levels3_facts w xb yb L) as (E & G & _). fold n in E, G. pose proof (real_n n ltac:(lia)) as RN.
    destruct (N.eqb_spec i 0) as [->|D].
    - apply Req_bool_true. change (real 0) with 0. unfold Rdiv. ring.
    - apply Req_bool_false. intros Z. apply (f_equal (fun x => x * real n)) in Z. unfold Rdiv in Z.
      rewrite Rmult_assoc, Rinv_l, Rmult_1_r, Rmult_0_l in Z by lra. apply (eq_IZR _ 0) in Z. lia.
  Qed.

  Lemma repack3_spec sx sy sz i j : readable i j ->
    repack3 (kept sx sy sz i j)
    = Some (kept (sx && negb (i =? 0)%N) (sy && negb (j =? 0)%N) (sz && negb (i + j =? n)%N) (step n i) (step n j))
    /\ readable (step n i) (step n j).
  Proof using L.
    intros (Hs & RD). destruct (levels3_facts w xb yb L) as (E & G & A & X & Y & A2). fold n in E, G, A, X, Y, A2.
    split.
    2: { unfold readable, step. destruct (N.leb_spec (2 * i) n), (N.leb_spec (2 * j) n); lia. }
    pose proof (real_n n ltac:(lia)) as RN. pose proof (Rinv_0_lt_compat (real n) ltac:(lra)) as PI.
    pose proof (real_pos i) as P1. pose proof (real_pos j) as P2. pose proof (real_le _ _ Hs) as HR. rewrite real_add in HR.
    unfold repack3.
    change (kept sx sy sz i j) with (let (a, b) := fold3 (levels3 w) i j in stored3 w sx sy sz a b).
    rewrite (unpack3_fold w xb yb L sx sy sz i j ltac:(fold n; lia) ltac:(fold n; lia) Hs RD). unfold point3. fold n.
    set (p := real i / real n). set (q := real j / real n).
    assert (LP : 0 <= p) by (apply Rmult_le_pos; lra). assert (LQ : 0 <= q) by (apply Rmult_le_pos; lra).
    assert (EZ : 1 - p - q = real (n - (i + j)) / real n) by (rewrite real_sub by exact Hs; rewrite real_add; unfold p, q; field; lra).
    assert (LZ : 0 <= 1 - p - q) by (rewrite EZ; apply Rmult_le_pos; [apply real_pos|lra]).
    pose proof (pos_of_sq _ (/ 3) (len3_pos p q (1 - p - q)) ltac:(lra) (len3_part p q (1 - p - q) ltac:(lra))) as PL.
    set (k := len3 p q (1 - p - q)) in *. pose proof (Rinv_0_lt_compat k PL) as IK.
    assert (AX : Rabs (sg sx * p / k) = p / k) by (rewrite abs_over by exact PL; rewrite abs_sg by lra; reflexivity).
    assert (AY : Rabs (sg sy * q / k) = q / k) by (rewrite abs_over by exact PL; rewrite abs_sg by lra; reflexivity).
    assert (AZ : Rabs (sg sz * (1 - p - q) / k) = (1 - p - q) / k) by (rewrite abs_over by exact PL; rewrite abs_sg by lra; reflexivity).
    assert (SUM : p / k + q / k + (1 - p - q) / k = / k) by (unfold Rdiv; ring).
    rewrite (pack3_exact w xb yb L); [|rewrite AX, AY, AZ, SUM; exact IK]. f_equal. unfold kept. fold n.
    assert (S1 : share3 (sg sx * p / k) (sg sy * q / k) (sg sz * (1 - p - q) / k) = p)
      by (unfold share3; rewrite AX, AY, AZ, SUM; field; lra).
    assert (S2 : share3 (sg sy * q / k) (sg sx * p / k) (sg sz * (1 - p - q) / k) = q).
    { unfold share3. rewrite AX, AY, AZ. replace (q / k + p / k + (1 - p - q) / k) with (/ k) by (unfold Rdiv; ring). field; lra. }
    rewrite S1, S2. unfold p at 1, q at 1. rewrite !near_level by lia. rewrite !neg_sg by lra.
    unfold p at 1, q at 1. rewrite !Req_level3 by lia. rewrite EZ, Req_level3 by lia.
    replace (n - (i + j) =? 0)%N with (i + j =? n)%N; [reflexivity|].
    destruct (N.eqb_spec (n - (i + j)) 0), (N.eqb_spec (i + j) n); trivial; lia.
  Qed.
End Three.

Lemma drift3 w xb yb : lay w xb yb -> forall m i, (i <= levels3 w)%N -> ((levels3 w - 1) / 2 <= i)%N ->
  again (repack3 w) m (kept w false false false i 0)
  = Some (kept w false false false (N.max ((levels3 w - 1) / 2) (i - N.of_nat m)) 0).
Proof.
  intros L. destruct (levels3_facts w xb yb L) as (E & G & A & X & Y & A2). set (n := levels3 w) in *.
  assert (H2 : ((n - 1) / 2 = 2 ^ yb - 1)%N).
  { replace (n - 1)%N with ((2 ^ yb - 1) * 2)%N by lia. now apply N.div_mul. }
  rewrite H2. induction m as [|m IH]; intros i Hi Lo.
  - cbn. do 2 f_equal. lia.
  - cbn [again].
    destruct (repack3_spec w xb yb L false false false i 0) as (R & _); [unfold readable; fold n; lia|].
    rewrite R. cbn [option_bind andb]. fold n. replace (step n 0) with 0%N by (unfold step; now destruct (2 * 0 <=? n)%N).
    unfold step. destruct (N.leb_spec (2 * i) n) as [C|C].
    + rewrite IH by lia. do 2 f_equal. lia.
    + rewrite IH by lia. do 2 f_equal. lia.
Qed.
