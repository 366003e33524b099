(** Vectors of floating-point scalars with rounding: division by a scalar, dot products and lengths, normalizing. *)
From Coq Require Import ZArith Bool List Reals Lra Lia Psatz.
From Flocq Require Import Core BinarySingleNaN.
From Verif Require Import FpModel FpProofs VfltModel VfltSpec VfltProofs VfltProofs2 VfltProofs3.
Import ListNotations.
Local Open Scope R_scope.

Notation float32 := (binary_float 24 128).
Notation float64 := (binary_float 53 1024).
Definition f32 (m e : Z) : float32 := binary_normalize 24 128 eq_refl eq_refl mode_NE m e false.
Definition f64 (m e : Z) : float64 := binary_normalize 53 1024 eq_refl eq_refl mode_NE m e false.
Notation sf := (map B2SF).
#[local] Instance float_prec : Prec_gt_0 24 := eq_refl.
#[local] Instance float_emax : Prec_lt_emax 24 128 := eq_refl.

Section Props.
  Variable prec emax : Z.
  Context (prec_gt_0_ : Prec_gt_0 prec).
  Context (prec_lt_emax_ : Prec_lt_emax prec emax).
  Notation float := (binary_float prec emax).
  Notation u := (half_ulp_1 prec).
  Notation h := (half_tiny prec emax).
  Notation vals := (map (@B2R prec emax)).

  (* ------------------------------------------------------------------ C144 *)

  Lemma div_nth (v : list float) d i r : nth_error (div_scalar prec emax _ _ v d) i = Some r ->
    exists x, nth_error v i = Some x /\ r = Bmult mode_NE x (Bdiv mode_NE Bone d).
  Proof using.
    unfold div_scalar, scale. rewrite nth_error_map. destruct (nth_error v i) as [x|]; [|discriminate]. intros H. injection H as <-. exists x. split; reflexivity.
  Qed.
  (** Dividing a vector by a finite scalar: every component that comes out finite is the quotient up to two roundings (and half the smallest
      number). The reciprocal of a scalar above 2^(emax - 2) has fewer digits, which makes the first of the two four times as large. *)
  Theorem C144_error (v : list float) d i x r : is_finite d = true -> nth_error v i = Some x ->
    nth_error (div_scalar prec emax _ _ v d) i = Some r -> is_finite r = true ->
    is_finite x = true /\ B2R d <> 0 /\
    Rabs (B2R r - B2R x / B2R d) <= ((1 + 4 * u) * (1 + u) - 1) * Rabs (B2R x / B2R d) + h /\
    (Rabs (B2R d) <= bpow radix2 (emax - 2) ->
     Rabs (B2R r - B2R x / B2R d) <= ((1 + u) * (1 + u) - 1) * Rabs (B2R x / B2R d) + h).
  Proof using.
    intros Fd Hx Hr F. destruct (div_nth v d i r Hr) as (x' & Hx' & E). assert (x' = x) by congruence. subst x' r. clear Hr Hx'.
    pose proof (u_pos prec) as U.
    destruct (recip_error prec emax _ _ x d (4 * u) Fd F ltac:(lra) (recip_any prec emax _ _ d)) as (A & B & C).
    split; [exact A|]. split; [exact B|]. split; [exact C|]. intros H.
    apply (recip_error prec emax _ _ x d u Fd F ltac:(lra)). apply recip_normal; assumption.
  Qed.
  (** It does come out finite if the scalar is not below the normal numbers and the quotient not next to the overflow. *)
  Theorem C144_finite (v : list float) d i x : is_finite d = true -> min_normal emax <= Rabs (B2R d) -> nth_error v i = Some x -> is_finite x = true ->
    (1 + 4 * u) * (1 + u) * Rabs (B2R x / B2R d) + h < bpow radix2 emax ->
    exists r, nth_error (div_scalar prec emax _ _ v d) i = Some r /\ is_finite r = true.
  Proof using.
    intros Fd M Hx Fx H. exists (Bmult mode_NE x (Bdiv mode_NE Bone d)). split.
    - unfold div_scalar, scale. rewrite nth_error_map, Hx. reflexivity.
    - apply recip_finite; assumption.
  Qed.
  (** Dividing by a zero, an infinity or a NaN, and components that are not finite: exactly the quotients of the scalar type, with their signs. *)
  Theorem C144_special (v : list float) d : (3 <= prec)%Z -> is_finite_strict d = false \/ (forall x, In x v -> is_finite x = false) ->
    div_scalar prec emax _ _ v d = map (fun x => Bdiv mode_NE x d) v.
  Proof using.
    intros P H. unfold div_scalar, scale. apply map_ext_in. intros x Hx. apply recip_special; [exact P|].
    destruct H as [-> | H]; [apply andb_false_r | rewrite (H x Hx); reflexivity].
  Qed.
  (** Dividing by a power of two of either sign whose reciprocal is a number: exactly the quotients, also when they overflow or underflow. *)
  Theorem C144_power (v : list float) d e : (forall x, In x v -> is_finite x = true) -> Rabs (B2R d) = bpow radix2 e -> (- emax < e)%Z ->
    (e <= emax + prec - 3)%Z -> div_scalar prec emax _ _ v d = map (fun x => Bdiv mode_NE x d) v.
  Proof using.
    intros F A E1 E2. unfold div_scalar, scale. apply map_ext_in. intros x Hx. apply (recip_power prec emax _ _ x d e (F x Hx) A E1 E2).
  Qed.

  (* ------------------------------------------------------------------ C145 *)

  (** [dot], however the compiler fuses products into sums: if the result is finite, so are all components, and it differs from the sum of
      the products by at most as many roundings as there are components, relative to the sum of the magnitudes. *)
  Theorem C145_dot k (v w : list float) : List.length v = List.length w -> is_finite (dot prec emax _ _ k v w) = true ->
    let n := List.length v in let l := combine (vals v) (vals w) in
    (forall x, In x v \/ In x w -> is_finite x = true) /\
    Rabs (B2R (dot prec emax _ _ k v w) - real_dot l) <= ((1 + u) ^ n - 1) * real_mag l + 2 * INR n * h * (1 + u) ^ n.
  Proof using.
    intros E F n l. destruct (accumulate_close prec emax _ _ k _ F) as [A B]. unfold close in B.
    assert (Ec : map (fun p : float * float => (B2R (fst p), B2R (snd p))) (combine v w) = l).
    { unfold l. clear. revert w. induction v as [|x v IH]; intros [|y w]; try reflexivity. cbn [combine map fst snd]. f_equal. apply IH. }
    rewrite Ec, combine_length, <- E, Nat.min_id in B. split; [|exact B].
    intros x Hx. assert (Hi : exists y, In (x, y) (combine v w) \/ In (y, x) (combine v w)).
    { clear -E Hx. revert w E Hx. induction v as [|a v IH]; intros [|b w] E Hx; try discriminate E; [destruct Hx as [[] | []]|].
      injection E as E. assert (K : (x = a \/ x = b) \/ (In x v \/ In x w)) by (destruct Hx as [[->|H]|[->|H]]; tauto).
      destruct K as [[-> | ->] | K].
      - exists b. left. left. reflexivity.
      - exists a. right. left. reflexivity.
      - destruct (IH w E K) as (y & [H | H]); exists y; [left | right]; right; exact H. }
    destruct Hi as (y & [H | H]); apply (A _ H).
  Qed.
  (** It is finite if that bound stays below the overflow. *)
  Theorem C145_dot_finite k (v w : list float) : List.length v = List.length w -> (forall x, In x v \/ In x w -> is_finite x = true) ->
    let n := List.length v in
    (1 + u) ^ n * (real_mag (combine (vals v) (vals w)) + 2 * INR n * h) < bpow radix2 emax -> is_finite (dot prec emax _ _ k v w) = true.
  Proof using.
    intros E F n H. apply accumulate_ok.
    - intros [x y] Hq. cbn [fst snd]. split; apply F; [left; exact (in_combine_l _ _ _ _ Hq) | right; exact (in_combine_r _ _ _ _ Hq)].
    - assert (Ec : map (fun p : float * float => (B2R (fst p), B2R (snd p))) (combine v w) = combine (vals v) (vals w)).
      { clear. revert w. induction v as [|x v IH]; intros [|y w]; try reflexivity. cbn [combine map fst snd]. f_equal. apply IH. }
      rewrite Ec, combine_length, <- E, Nat.min_id. exact H.
  Qed.
  (** [length_squared], in the same way. *)
  Theorem C145_length_squared k (v : list float) : is_finite (length_squared prec emax _ _ k v) = true ->
    let n := List.length v in let N := real_norm2 (vals v) in
    (forall x, In x v -> is_finite x = true) /\
    Rabs (B2R (length_squared prec emax _ _ k v) - N) <= ((1 + u) ^ n - 1) * N + 2 * INR n * h * (1 + u) ^ n.
  Proof using. intros F n N. exact (lsq_close prec emax _ _ k v F). Qed.
  (** [length] of a vector with at least two components, whose squares neither get lost nor overflow: its square is the square of the
      Euclidean length up to n + 2 roundings and an eighth of one. *)
  Theorem C145_length k (v : list float) : (8 <= emax)%Z -> (forall x, In x v -> is_finite x = true) ->
    let n := List.length v in let N := real_norm2 (vals v) in let L := length prec emax _ _ k v in
    (2 <= n)%nat -> 256 * (INR n * INR n) * u <= 1 -> 1024 * INR n * h <= u * N -> N <= bpow radix2 (emax - 1) ->
    is_finite L = true /\ 0 < B2R L /\
    B2R L * B2R L <= (1 + u) ^ (n + 2) * (1 + u / 8) * N /\ N <= (1 + u) ^ (n + 2) * (1 + u / 8) * (B2R L * B2R L).
  Proof using.
    intros E F n N L N2 H1 H2 H3. assert (A1 : 1 <= INR n) by (change 1 with (INR 1); apply le_INR; lia).
    destruct (len_near prec emax _ _ k v E F N2 (conj A1 (conj H1 H2)) H3) as (FL & L1 & _ & (_ & _ & B & C)). fold n in B, C.
    split; [exact FL|]. split; [pose proof (mn_pos emax); unfold L; lra|].
    assert (Q : (1 + u) ^ n * (1 + u / 8) * ((1 + u) * (1 + u)) = (1 + u) ^ (n + 2) * (1 + u / 8)) by (rewrite pow_add; ring).
    rewrite Q in B, C. split; assumption.
  Qed.
  Lemma differences (p q : list float) : (8 <= emax)%Z -> List.length p = List.length q -> (forall x, In x p \/ In x q -> is_finite x = true) ->
    let n := List.length p in let N := real_norm2 (map (fun x => fst x - snd x) (combine (vals q) (vals p))) in let m := minus prec emax _ _ q p in
    (2 <= n)%nat -> 256 * (INR n * INR n) * u <= 1 -> 2048 * INR n * h <= u * N -> N <= bpow radix2 (emax - 2) ->
    List.length m = n /\ finite_vec prec emax m /\ near ((1 + u) * (1 + u)) (sq prec emax m) N /\ sizes prec emax n (sq prec emax m) /\ sq prec emax m <= bpow radix2 (emax - 1) /\
    (forall x, In x (diffs prec emax q p) -> (1 + u) * Rabs x < bpow radix2 emax).
  Proof using.
    intros E El F n N m N2 H1 H2 H3. assert (A1 : 1 <= INR n) by (change 1 with (INR 1); apply le_INR; lia).
    assert (Ed : diffs prec emax q p = map (fun x => fst x - snd x) (combine (vals q) (vals p))).
    { unfold diffs. clear. revert p. induction q as [|x q IH]; intros [|y p]; try reflexivity. cbn [combine map fst snd]. f_equal. apply IH. }
    pose proof (u_pos prec) as U. pose proof (h_pos prec emax) as Hp.
    assert (U2 : u <= 1 / 256).
    { assert (0 <= (INR n * INR n - 1) * u) by (apply Rmult_le_pos; nra). lra. }
    assert (Bd : forall x, In x (diffs prec emax q p) -> (1 + u) * Rabs x < bpow radix2 emax).
    { intros x Hx. assert (Q : x * x <= N).
      { unfold N. rewrite <- Ed. clear -Hx. induction (diffs prec emax q p) as [|y l IH]; [destruct Hx|]. cbn [real_norm2 fold_right]. fold (real_norm2 l).
        assert (P : 0 <= real_norm2 l) by (clear; induction l as [|z l IH]; cbn [real_norm2 fold_right]; [lra | fold (real_norm2 l); nra]).
        destruct Hx as [<- | Hx]; [lra | assert (I := IH Hx); nra]. }
      assert (B4 : 4 * bpow radix2 (emax - 2) = bpow radix2 emax) by (change 4 with (bpow radix2 2); rewrite <- bpow_plus; f_equal; ring).
      assert (B1 : 64 <= bpow radix2 (emax - 2)) by (change 64 with (bpow radix2 6); apply bpow_le; lia).
      pose proof (Rabs_pos x) as X. assert (Rabs x * Rabs x <= bpow radix2 (emax - 2)) by (rewrite <- Rabs_mult, Rabs_pos_eq by nra; lra).
      assert (Rabs x <= bpow radix2 (emax - 2)) by nra. nra. }
    destruct (minus_near prec emax _ _ p q Bd (fun x Hx => F x (or_introl Hx)) (fun x Hx => F x (or_intror Hx))) as [Fm NM].
    rewrite Ed in NM. fold N in NM. fold m in Fm, NM.
    assert (Lm : List.length m = n) by (unfold m, minus; rewrite map_length, combine_length, <- El; apply Nat.min_id).
    assert (GG : (1 + u) * (1 + u) <= 257 / 256 + 257 / 256 * u) by nra.
    split; [exact Lm|]. split; [exact Fm|]. split; [exact NM|].
    destruct NM as (P1 & P2 & P3 & P4). split; [|split; [|exact Bd]].
    - split; [exact A1|]. split; [exact H1|]. assert (N / 2 <= sq prec emax m) by nra.
      assert (u * (N / 2) <= u * sq prec emax m) by (apply Rmult_le_compat_l; lra). lra.
    - assert (B2 : 2 * bpow radix2 (emax - 2) = bpow radix2 (emax - 1)) by (change 2 with (bpow radix2 1); rewrite <- bpow_plus; f_equal; ring). nra.
  Qed.
  (** [distance]: the same with two more roundings for the differences. *)
  Theorem C145_distance k (p q : list float) : (8 <= emax)%Z -> List.length p = List.length q -> (forall x, In x p \/ In x q -> is_finite x = true) ->
    let n := List.length p in let N := real_norm2 (map (fun x => fst x - snd x) (combine (vals q) (vals p))) in
    let L := distance prec emax _ _ k p q in
    (2 <= n)%nat -> 256 * (INR n * INR n) * u <= 1 -> 2048 * INR n * h <= u * N -> N <= bpow radix2 (emax - 2) ->
    is_finite L = true /\ 0 < B2R L /\
    B2R L * B2R L <= (1 + u) ^ (n + 4) * (1 + u / 8) * N /\ N <= (1 + u) ^ (n + 4) * (1 + u / 8) * (B2R L * B2R L).
  Proof using.
    intros E El F n N L N2 H1 H2 H3. destruct (differences p q E El F N2 H1 H2 H3) as (Lm & Fm & NM & Sz & Su & _). fold n N in Lm, NM, Sz.
    set (m := minus prec emax _ _ q p) in *. pose proof (u_pos prec) as U. rewrite <- Lm in Sz.
    destruct (len_near prec emax _ _ k m E Fm ltac:(rewrite Lm; exact N2) Sz Su) as (FL & L1 & _ & NL).
    assert (EL : length prec emax _ _ k m = L).
    { unfold L, distance, distance_squared. fold m. unfold length. destruct m as [|a [|b m']]; [reflexivity | | reflexivity]. cbn in Lm. lia. }
    rewrite EL, Lm in *.
    split; [exact FL|]. split; [pose proof (mn_pos emax); lra|].
    assert (G1 := G_pow prec n).
    assert (NT : near ((1 + u) ^ n * (1 + u / 8) * ((1 + u) * (1 + u)) * ((1 + u) * (1 + u))) (B2R L * B2R L) N).
    { assert (0 <= (1 + u) ^ n * (1 + u / 8)) by nra. assert (0 <= (1 + u) * (1 + u)) by nra.
      apply near_trans with (3 := NL); [apply Rmult_le_pos; assumption | assumption | exact NM]. }
    destruct NT as (_ & _ & T1 & T2).
    assert (Q : (1 + u) ^ n * (1 + u / 8) * ((1 + u) * (1 + u)) * ((1 + u) * (1 + u)) = (1 + u) ^ (n + 4) * (1 + u / 8)) by (rewrite pow_add; ring).
    rewrite Q in T1, T2. split; assumption.
  Qed.

  (* ------------------------------------------------------------------ C146 *)

  (** [normalize] of such a vector: the stored length is [length], every component of the result is that of the unit vector up to n + 3
      roundings and half the smallest number, the square of the length of the result is one up to n + 6 roundings (and a quarter of one). *)
  Theorem C146_normalize k (v : list float) : (8 <= emax)%Z -> (forall x, In x v -> is_finite x = true) ->
    let n := List.length v in let N := real_norm2 (vals v) in let r := fst (normalize prec emax _ _ k v) in
    (2 <= n)%nat -> 256 * (INR n * INR n) * u <= 1 -> 2048 * INR n * h <= u -> 1024 * INR n * h <= u * N -> N <= bpow radix2 (emax - 1) ->
    snd (normalize prec emax _ _ k v) = length prec emax _ _ k v /\ List.length r = n /\ (forall y, In y r -> is_finite y = true) /\
    (forall i x y, nth_error v i = Some x -> nth_error r i = Some y ->
       Rabs (B2R y - B2R x / sqrt N) <= ((1 + u) ^ (n + 3) - 1) * Rabs (B2R x / sqrt N) + h) /\
    real_norm2 (vals r) <= (1 + u) ^ (n + 6) * ((1 + u / 8) * (1 + u / 8)) /\ 1 <= (1 + u) ^ (n + 6) * ((1 + u / 8) * (1 + u / 8)) * real_norm2 (vals r).
  Proof using.
    intros E F n N r N2 H1 H2 H3 H4. assert (A1 : 1 <= INR n) by (change 1 with (INR 1); apply le_INR; lia).
    assert (Sz : sizes prec emax n (sq prec emax v)) by exact (conj A1 (conj H1 H3)).
    destruct (normalize_near prec emax _ _ k v E F N2 Sz H4 H2) as (Fr & Vm & NR & _ & _ & NC).
    set (c := Bdiv mode_NE Bone (length prec emax _ _ k v)) in *.
    assert (Er : r = scale prec emax _ _ v c /\ snd (normalize prec emax _ _ k v) = length prec emax _ _ k v).
    { unfold r, normalize, c. clear -N2. unfold n in N2. destruct v as [|a [|b v]]; [cbn in N2; lia | cbn in N2; lia | split; reflexivity]. }
    destruct Er as [Er El]. rewrite Er. split; [exact El|]. split; [apply map_length|]. split; [exact Fr|]. split.
    - intros i x y Hx Hy. unfold scale in Hy. rewrite nth_error_map, Hx in Hy. injection Hy as <-. rewrite (Vm x (nth_error_In _ _ Hx)).
      assert (Np : 0 < N) by exact (sizes_pos prec emax n _ Sz). assert (Sp := sqrt_lt_R0 N Np). set (S := sqrt N) in *.
      assert (Cp : 0 < B2R c).
      { destruct (len_near prec emax _ _ k v E F N2 Sz H4) as (FL & L1 & L2 & _). destruct (inv_near prec emax _ _ k v E F N2 Sz H4) as [Fc _]. fold c in Fc.
        pose proof (mn_pos emax) as Mp.
        assert (Vc := div_finite prec emax _ _ Bone (length prec emax _ _ k v) Fc ltac:(lra)). fold c in Vc. rewrite Bone_correct in Vc. unfold Rdiv in Vc. rewrite Rmult_1_l in Vc.
        set (L := B2R (length prec emax _ _ k v)) in *. assert (Lp : 0 < L) by lra.
        destruct (near_rnd prec emax prec_gt_0_ (/ L)) as (_ & _ & _ & Q).
        - apply (Rmult_le_reg_r L); [exact Lp|]. rewrite Rinv_l; nra.
        - rewrite <- Vc in Q. assert (0 < / L) by (apply Rinv_0_lt_compat; exact Lp). pose proof (u_pos prec). nra. }
      rewrite (Rabs_pos_eq (B2R c)) in NC by lra. change (real_norm2 (vals v)) with N in NC. change (sq prec emax v) with N in NC. fold S in NC. fold n in NC.
      pose proof (u_pos prec) as U. pose proof (h_pos prec emax) as Hp. assert (K1 := G_pow prec (n + 1)).
      set (K := (1 + u) ^ (n + 1) * (1 + u / 8)) in *. assert (K2 : 1 <= K) by (unfold K; nra).
      assert (D := near_one_abs K _ K2 NC).
      assert (R := rnd_err prec emax prec_gt_0_ (B2R x * B2R c)).
      set (z := B2R x / S). assert (Ez : B2R x * B2R c = z * (B2R c * S)) by (unfold z; field; lra). rewrite Ez in *. set (t := B2R c * S) in *.
      assert (T : Rabs (round radix2 (FLT_exp (3 - emax - prec) prec) ZnearestE (z * t) - z) <=
                  Rabs (round radix2 (FLT_exp (3 - emax - prec) prec) ZnearestE (z * t) - z * t) + Rabs z * Rabs (t - 1)).
      { rewrite <- Rabs_mult. set (w := round _ _ _ _). replace (w - z) with ((w - z * t) + z * (t - 1)) by ring. apply Rabs_triang. }
      assert (Tt : Rabs t <= K) by (pose proof (Rabs_triang (t - 1) 1) as Y; replace (t - 1 + 1) with t in Y by ring; rewrite Rabs_R1 in Y; lra).
      rewrite Rabs_mult in R. pose proof (Rabs_pos z) as Z.
      assert (M1 : u * (Rabs z * Rabs t) <= u * (Rabs z * K)) by (apply Rmult_le_compat_l; [lra|]; apply Rmult_le_compat_l; assumption).
      assert (M2 : Rabs z * Rabs (t - 1) <= Rabs z * (K - 1)) by (apply Rmult_le_compat_l; assumption).
      assert (M3 : K * (1 + u) <= (1 + u) ^ (n + 3)).
      { unfold K. replace (n + 3)%nat with (n + 1 + 2)%nat by lia. rewrite (pow_add _ (n + 1) 2). set (a := (1 + u) ^ (n + 1)) in *.
        replace (a * (1 + u / 8) * (1 + u)) with (a * ((1 + u / 8) * (1 + u))) by ring. apply Rmult_le_compat_l; [lra|]. replace ((1 + u) ^ 2) with ((1 + u) * (1 + u)) by ring. nra. }
      assert (M4 : (K * (1 + u) - 1) * Rabs z <= ((1 + u) ^ (n + 3) - 1) * Rabs z) by (apply Rmult_le_compat_r; lra).
      replace ((K * (1 + u) - 1) * Rabs z) with (u * (Rabs z * K) + Rabs z * (K - 1)) in M4 by ring. lra.
    - destruct NR as (_ & _ & B & C). rewrite Rmult_1_r in B. split; assumption.
  Qed.

  (** The result passes the test [normalized], however the sums are fused either time, if the tolerance of the test is above 2n + 7 roundings. *)
  Theorem C146_normalized k k' (v : list float) : (8 <= emax)%Z -> (forall x, In x v -> is_finite x = true) ->
    let n := List.length v in let N := real_norm2 (vals v) in let eps := unit_epsilon prec emax _ _ in
    (2 <= n)%nat -> 256 * (INR n * INR n) * u <= 1 -> 2048 * INR n * h <= u -> 1024 * INR n * h <= u * N -> N <= bpow radix2 (emax - 1) ->
    is_finite eps = true -> (1 + u) ^ (2 * n + 7) - 1 < B2R eps -> (1 + u) ^ (2 * n + 7) <= 3 / 2 ->
    normalized prec emax _ _ k' (fst (normalize prec emax _ _ k v)) = true.
  Proof using.
    intros E F n N eps N2 H1 H2 H3 H4 Fe He Hh. assert (A1 : 1 <= INR n) by (change 1 with (INR 1); apply le_INR; lia).
    assert (Sz : sizes prec emax n (sq prec emax v)) by exact (conj A1 (conj H1 H3)).
    destruct (normalize_near prec emax _ _ k v E F N2 Sz H4 H2) as (Fr & _ & NR & Sr & Br & _).
    set (c := Bdiv mode_NE Bone (length prec emax _ _ k v)) in *.
    assert (Er : fst (normalize prec emax _ _ k v) = scale prec emax _ _ v c).
    { unfold normalize, c. clear -N2. unfold n in N2. destruct v as [|a [|b v]]; [cbn in N2; lia | cbn in N2; lia | reflexivity]. }
    rewrite Er. set (r := scale prec emax _ _ v c) in *. assert (Lr : List.length r = n) by apply map_length.
    assert (FL := lsq_finite prec emax _ _ k' r Fr Sr Br). assert (NL := lsq_near prec emax _ _ k' r Sr FL). rewrite Lr in NL. fold n in NR.
    pose proof (u_pos prec) as U. assert (G1 := G_pow prec n). assert (G2 := G_pow prec (n + 6)).
    assert (NT : near ((1 + u) ^ n * (1 + u / 8) * ((1 + u) ^ (n + 6) * ((1 + u / 8) * (1 + u / 8)))) (B2R (length_squared prec emax _ _ k' r)) 1).
    { assert (0 <= (1 + u / 8) * (1 + u / 8)) by nra. apply near_trans with (3 := NL) (4 := NR); apply Rmult_le_pos; lra. }
    assert (W : near ((1 + u) ^ (2 * n + 7)) (B2R (length_squared prec emax _ _ k' r)) 1).
    { apply near_weak with (2 := NT). replace (2 * n + 7)%nat with (n + (n + 6) + 1)%nat by lia. rewrite !pow_add. set (a := (1 + u) ^ n) in *.
      set (b := (1 + u) ^ 6). rewrite pow_add in G2. fold a b in G2.
      replace (a * (1 + u / 8) * (a * b * ((1 + u / 8) * (1 + u / 8)))) with (a * (a * b) * ((1 + u / 8) * ((1 + u / 8) * (1 + u / 8)))) by ring.
      apply Rmult_le_compat_l; [nra|]. rewrite pow_1. destruct (sizes_u prec emax _ _ Sz) as [_ U2]. nra. }
    assert (D := near_one_abs _ _ (G_pow prec (2 * n + 7)) W).
    unfold normalized. apply unit_test_iff; [exact FL | exact Fe | lra | fold eps; lra].
  Qed.
  (** [direction] from one point to another: two roundings more, and the stored length is the distance. *)
  Theorem C146_direction_error k (p q : list float) i x y r : (8 <= emax)%Z -> List.length p = List.length q -> (forall x, In x p \/ In x q -> is_finite x = true) ->
    let n := List.length p in let N := real_norm2 (map (fun x => fst x - snd x) (combine (vals q) (vals p))) in
    (2 <= n)%nat -> 256 * (INR n * INR n) * u <= 1 -> 2048 * INR n * h <= u -> 2048 * INR n * h <= u * N -> N <= bpow radix2 (emax - 2) ->
    nth_error p i = Some x -> nth_error q i = Some y -> nth_error (fst (direction prec emax _ _ k p q)) i = Some r ->
    is_finite r = true /\ Rabs (B2R r - (B2R y - B2R x) / sqrt N) <= ((1 + u) ^ (n + 5) - 1) * Rabs ((B2R y - B2R x) / sqrt N) + h /\
    snd (direction prec emax _ _ k p q) = distance prec emax _ _ k p q.
  Proof using.
    intros E El F n N N2 H1 H2 H3 H4 Hx Hy Hr. destruct (differences p q E El F N2 H1 H3 H4) as (Lm & Fm & NM & (_ & _ & Sz) & Su & Bd). fold n N in Lm, NM, Sz.
    unfold direction in *. set (m := minus prec emax _ _ q p) in *. rewrite <- Lm in Sz.
    assert (HN : 2 <= INR n) by (replace 2 with (INR 2) by (cbn; lra); apply le_INR; exact N2).
    destruct (C146_normalize k m E Fm ltac:(lia) ltac:(rewrite Lm; exact H1) ltac:(rewrite Lm; exact H2) Sz Su) as (S1 & S2 & S3 & S4 & _).
    set (M := real_norm2 (vals m)) in *. change (sq prec emax m) with M in NM, Sz. rewrite Lm in *.
    assert (Hm : nth_error m i = Some (Bminus mode_NE y x)).
    { unfold m, minus. rewrite nth_error_map. assert (Q : nth_error (combine q p) i = Some (y, x)).
      { clear -Hx Hy. revert p q Hx Hy. induction i as [|i IH]; intros [|a p] [|b q] Hx Hy; try discriminate; cbn in Hx, Hy; [cbn; congruence | exact (IH p q Hx Hy)]. }
      rewrite Q. reflexivity. }
    assert (Fx := F x (or_introl (nth_error_In _ _ Hx))). assert (Fy := F y (or_intror (nth_error_In _ _ Hy))).
    assert (Id : In (B2R y - B2R x) (diffs prec emax q p)).
    { unfold diffs. apply in_map_iff. exists (y, x). split; [reflexivity|]. clear -Hx Hy.
      revert p q Hx Hy. induction i as [|i IH]; intros [|a p] [|b q] Hx Hy; try discriminate; cbn in Hx, Hy; [left; congruence | right; exact (IH p q Hx Hy)]. }
    destruct (minus_err prec emax _ _ y x Fy Fx (Bd _ Id)) as (t & Et & Nt). pose proof (u_pos prec) as U. pose proof (h_pos prec emax) as Hp.
    assert (Np : 0 < N) by nra. assert (Mp : 0 < M) by (destruct NM as (_ & _ & _ & Q); nra).
    assert (Ns := near_sym _ _ _ (near_sqrt (1 + u) _ _ ltac:(lra) NM)). assert (Sn := sqrt_lt_R0 N Np). assert (Sm := sqrt_lt_R0 M Mp).
    set (sn := sqrt N) in *. set (sm := sqrt M) in *.
    assert (Nq : near (1 + u) (sn / sm) 1).
    { destruct Ns as (_ & _ & Q1 & Q2). unfold near. assert (I : 0 < / sm) by (apply Rinv_0_lt_compat; exact Sm). unfold Rdiv. repeat split; try nra.
      - apply (Rmult_le_reg_r sm); [exact Sm|]. rewrite Rmult_assoc, Rinv_l by lra. lra.
      - apply (Rmult_le_reg_r sm); [exact Sm|]. rewrite !Rmult_assoc, Rinv_l by lra. lra. }
    assert (G0 : 0 <= 1 + u) by lra. assert (NN := near_mul _ _ _ _ _ _ G0 G0 Nt Nq). rewrite Rmult_1_r in NN.
    assert (D := near_one_abs ((1 + u) * (1 + u)) _ ltac:(nra) NN).
    assert (R := S4 i _ r Hm Hr). rewrite Et in R. set (d := B2R y - B2R x) in *.
    split; [exact (S3 r (nth_error_In _ _ Hr))|]. split.
    - set (e := d / sn) in *. assert (Ee : d * t / sm = e * (t * (sn / sm))) by (unfold e; field; lra). rewrite Ee in R. set (w := t * (sn / sm)) in *.
      assert (Wp : Rabs w <= (1 + u) * (1 + u)) by (pose proof (Rabs_triang (w - 1) 1) as Y; replace (w - 1 + 1) with w in Y by ring; rewrite Rabs_R1 in Y; lra).
      pose proof (Rabs_pos e) as Pe. rewrite Rabs_mult in R.
      assert (T : Rabs (B2R r - e) <= Rabs (B2R r - e * w) + Rabs e * Rabs (w - 1)).
      { rewrite <- Rabs_mult. replace (B2R r - e) with ((B2R r - e * w) + e * (w - 1)) by ring. apply Rabs_triang. }
      assert (T2 : Rabs e * Rabs (w - 1) <= Rabs e * ((1 + u) * (1 + u) - 1)) by (apply Rmult_le_compat_l; assumption).
      assert (G3 := G_pow prec (n + 3)).
      assert (T3 : ((1 + u) ^ (n + 3) - 1) * (Rabs e * Rabs w) <= ((1 + u) ^ (n + 3) - 1) * (Rabs e * ((1 + u) * (1 + u)))).
      { apply Rmult_le_compat_l; [lra|]. apply Rmult_le_compat_l; assumption. }
      replace (n + 5)%nat with (n + 3 + 2)%nat by lia. rewrite (pow_add _ (n + 3) 2). replace ((1 + u) ^ 2) with ((1 + u) * (1 + u)) by ring.
      set (a := (1 + u) ^ (n + 3)) in *. set (b := (1 + u) * (1 + u)) in *. replace ((a * b - 1) * Rabs e) with ((a - 1) * (Rabs e * b) + Rabs e * (b - 1)) by ring. lra.
    - rewrite S1. unfold distance, distance_squared. fold m. unfold length. destruct m as [|c [|c' m']]; [reflexivity | cbn in Lm; lia | reflexivity].
  Qed.
  (** It passes the test as well. *)
  Theorem C146_direction k k' (p q : list float) : (8 <= emax)%Z -> List.length p = List.length q -> (forall x, In x p \/ In x q -> is_finite x = true) ->
    let n := List.length p in let N := real_norm2 (map (fun x => fst x - snd x) (combine (vals q) (vals p))) in let eps := unit_epsilon prec emax _ _ in
    (2 <= n)%nat -> 256 * (INR n * INR n) * u <= 1 -> 2048 * INR n * h <= u -> 2048 * INR n * h <= u * N -> N <= bpow radix2 (emax - 2) ->
    is_finite eps = true -> (1 + u) ^ (2 * n + 7) - 1 < B2R eps -> (1 + u) ^ (2 * n + 7) <= 3 / 2 ->
    normalized prec emax _ _ k' (fst (direction prec emax _ _ k p q)) = true.
  Proof using.
    intros E El F n N eps N2 H1 H2 H3 H4 Fe He Hh. destruct (differences p q E El F N2 H1 H3 H4) as (Lm & Fm & _ & (_ & _ & Sz) & Su & _).
    unfold direction. rewrite <- Lm in Sz. unfold n in *. clear n. rewrite <- Lm in N2, H1, H2, He, Hh. apply C146_normalized; assumption.
  Qed.
  (** What passes the test has nearly unit length. *)
  Theorem C146_sound k (v : list float) : let n := List.length v in let N := real_norm2 (vals v) in let eps := unit_epsilon prec emax _ _ in
    (1 <= n)%nat -> 256 * (INR n * INR n) * u <= 1 -> 2048 * INR n * h <= u -> is_finite eps = true -> B2R eps <= 1 / 4 ->
    normalized prec emax _ _ k v = true ->
    N <= (1 + u) ^ n * (1 + u / 8) * (1 + B2R eps) /\ 1 - B2R eps <= (1 + u) ^ n * (1 + u / 8) * N.
  Proof using.
    intros n N eps N1 H1 H2 Fe He H. unfold normalized in H. destruct (unit_test_sound prec emax _ _ _ _ Fe He H) as [FL D].
    assert (D' := proj1 (unit_test_iff prec emax _ _ _ _ FL Fe D) H). fold eps in D'.
    assert (A1 : 1 <= INR n) by (change 1 with (INR 1); apply le_INR; lia).
    destruct (lsq_close prec emax _ _ k v FL) as [_ C]. unfold close in C. fold n in C. set (L := B2R (length_squared prec emax _ _ k v)) in *.
    pose proof (u_pos prec) as U. pose proof (h_pos prec emax) as Hp.
    assert (Np : 0 <= N) by exact (sq_pos prec emax v).
    assert (SzG : sizes prec emax n 1) by (split; [exact A1|]; split; [exact H1 | lra]).
    destruct (sizes_g prec emax n 1 SzG) as (_ & G2 & _). assert (G1 := G_pow prec n). destruct (sizes_u prec emax n 1 SzG) as [_ U2].
    change (sq prec emax v) with N in C. set (g := (1 + u) ^ n) in *. apply Rabs_le_inv in C as [C1 C2]. apply Rabs_le_inv in D as [D1 D2].
    assert (Hs : 2 * INR n * h * g <= 1 / 100).
    { assert (2 * INR n * h <= 1 / 200) by nra. assert (0 <= 2 * INR n * h) by nra. nra. }
    apply Rabs_lt_inv in D' as [D3 D4].
    assert (Nl : 1 / 2 <= N) by nra.
    assert (Sz : sizes prec emax n (sq prec emax v)).
    { split; [exact A1|]. split; [exact H1|]. change (sq prec emax v) with N. assert (u * (1 / 2) <= u * N) by (apply Rmult_le_compat_l; lra). lra. }
    destruct (lsq_near prec emax _ _ k v Sz FL) as (_ & _ & Q1 & Q2). fold L n in Q1, Q2. change (sq prec emax v) with N in Q1, Q2. fold g in Q1, Q2 |- *.
    assert (P : 0 <= g * (1 + u / 8)) by nra. split; [|lra].
    apply Rle_trans with (1 := Q2). apply Rmult_le_compat_l; [exact P | lra].
  Qed.
End Props.

(** The three floating-point types: vectors of two to four floats, and of two to a thousand doubles. *)
Lemma eps32 : is_finite (unit_epsilon 24 128 eq_refl eq_refl) = true /\ 9.99e-7 <= B2R (unit_epsilon 24 128 eq_refl eq_refl) <= 1.001e-6.
Proof.
  split; [vm_compute; reflexivity|]. rewrite <- SF2R_B2SF. 
  replace (B2SF (unit_epsilon 24 128 eq_refl eq_refl)) with (SpecFloat.S754_finite false 8796093 (-43)) by (vm_compute; reflexivity).
  cbn [SF2R]. unfold F2R. cbn [Fnum Fexp cond_Zopp]. change (bpow radix2 (-43)) with (/ IZR (2 ^ 43)). lra.
Qed.
Lemma eps64 : is_finite (unit_epsilon 53 1024 eq_refl eq_refl) = true /\ 9.99e-11 <= B2R (unit_epsilon 53 1024 eq_refl eq_refl) <= 1.001e-10.
Proof.
  split; [vm_compute; reflexivity|]. rewrite <- SF2R_B2SF.
  replace (B2SF (unit_epsilon 53 1024 eq_refl eq_refl)) with (SpecFloat.S754_finite false 7737125245533627 (-86)) by (vm_compute; reflexivity).
  cbn [SF2R]. unfold F2R. cbn [Fnum Fexp cond_Zopp]. change (bpow radix2 (-86)) with (/ IZR (2 ^ 86)). lra.
Qed.
Lemma eps80 : is_finite (unit_epsilon 64 16384 eq_refl eq_refl) = true /\ 9.99e-11 <= B2R (unit_epsilon 64 16384 eq_refl eq_refl) <= 1.001e-10.
Proof.
  split; [vm_compute; reflexivity|]. rewrite <- SF2R_B2SF.
  replace (B2SF (unit_epsilon 64 16384 eq_refl eq_refl)) with (SpecFloat.S754_finite false 15845632502852867519 (-97)) by (vm_compute; reflexivity).
  cbn [SF2R]. unfold F2R. cbn [Fnum Fexp cond_Zopp]. change (bpow radix2 (-97)) with (/ IZR (2 ^ 97)). lra.
Qed.
Lemma bpow_prod a b c : (a + b <= c)%Z -> bpow radix2 a * bpow radix2 b <= bpow radix2 c.
Proof. intros H. rewrite <- bpow_plus. apply bpow_le. exact H. Qed.
Lemma small_sizes prec emax n d (N : R) : (1 <= n)%nat -> INR n <= bpow radix2 d -> (8 + 2 * d <= prec)%Z -> (13 + d <= emax)%Z -> bpow radix2 (12 + d - emax) <= N ->
  256 * (INR n * INR n) * half_ulp_1 prec <= 1 /\ 2048 * INR n * half_tiny prec emax <= half_ulp_1 prec /\ 1024 * INR n * half_tiny prec emax <= half_ulp_1 prec * N.
Proof.
  intros N1 Hn P E HN. unfold half_ulp_1, half_tiny. assert (A1 : 1 <= INR n) by (change 1 with (INR 1); apply le_INR; lia).
  assert (Q : INR n * INR n <= bpow radix2 d * bpow radix2 d) by (apply Rmult_le_compat; lra).
  assert (Q' := bpow_prod d d (2 * d) ltac:(lia)). repeat split.
  - apply Rle_trans with (bpow radix2 8 * bpow radix2 (2 * d) * bpow radix2 (- prec)).
    + apply Rmult_le_compat_r; [apply bpow_ge_0|]. change (bpow radix2 8) with 256. lra.
    + rewrite <- !bpow_plus. change 1 with (bpow radix2 0). apply bpow_le. lia.
  - apply Rle_trans with (bpow radix2 11 * bpow radix2 d * bpow radix2 (2 - emax - prec)).
    + apply Rmult_le_compat_r; [apply bpow_ge_0|]. change (bpow radix2 11) with 2048. lra.
    + rewrite <- !bpow_plus. apply bpow_le. lia.
  - apply Rle_trans with (bpow radix2 10 * bpow radix2 d * bpow radix2 (2 - emax - prec)).
    + apply Rmult_le_compat_r; [apply bpow_ge_0|]. change (bpow radix2 10) with 1024. lra.
    + apply Rle_trans with (bpow radix2 (- prec) * bpow radix2 (12 + d - emax)); [rewrite <- !bpow_plus; apply bpow_le; lia|].
      apply Rmult_le_compat_l; [apply bpow_ge_0 | exact HN].
Qed.
Lemma small_roundings prec n c : (1 <= n <= c)%nat -> INR (2 * c + 7) * half_ulp_1 prec <= 1 / 4 ->
  (1 + half_ulp_1 prec) ^ (2 * n + 7) <= 1 + INR (2 * c + 7) * half_ulp_1 prec + 2 * (INR (2 * c + 7) * half_ulp_1 prec) * (INR (2 * c + 7) * half_ulp_1 prec).
Proof.
  intros Hn H. apply Rle_trans with (2 := G_pow_bound prec (2 * c + 7) H). apply Rle_pow; [pose proof (u_pos prec); lra | lia].
Qed.

Theorem C146_float k k' (v : list float32) : (forall x, In x v -> is_finite x = true) -> (2 <= List.length v <= 4)%nat ->
  bpow radix2 (-114) <= real_norm2 (map B2R v) <= bpow radix2 127 ->
  normalized 24 128 eq_refl eq_refl k' (fst (normalize 24 128 eq_refl eq_refl k v)) = true.
Proof.
  intros F Hn [H1 H2]. destruct eps32 as [Fe He].
  destruct (small_sizes 24 128 (List.length v) 2 (real_norm2 (map B2R v))) as (A & B & C); [lia | change (bpow radix2 2) with 4; replace 4 with (INR 4) by (cbn; lra); apply le_INR; lia | lia | lia | exact H1 |].
  assert (U : half_ulp_1 24 = / IZR (2 ^ 24)) by reflexivity. assert (I : INR (2 * 4 + 7) = 15) by (rewrite INR_IZR_INZ; reflexivity).
  assert (R := small_roundings 24 (List.length v) 4 ltac:(lia) ltac:(rewrite I, U; lra)). rewrite I, U in R. rewrite <- U in R at 1.
  apply C146_normalized; try assumption; [lia | lia | |]; lra.
Qed.
Theorem C146_double k k' (v : list float64) : (forall x, In x v -> is_finite x = true) -> (2 <= List.length v <= 1000)%nat ->
  bpow radix2 (-1002) <= real_norm2 (map B2R v) <= bpow radix2 1023 ->
  normalized 53 1024 eq_refl eq_refl k' (fst (normalize 53 1024 eq_refl eq_refl k v)) = true.
Proof.
  intros F Hn [H1 H2]. destruct eps64 as [Fe He].
  destruct (small_sizes 53 1024 (List.length v) 10 (real_norm2 (map B2R v))) as (A & B & C);
    [lia | change (bpow radix2 10) with 1024; rewrite INR_IZR_INZ; apply IZR_le; lia | lia | lia | exact H1 |].
  assert (U : half_ulp_1 53 = / IZR (2 ^ 53)) by reflexivity. assert (I : INR (2 * 1000 + 7) = 2007) by (rewrite INR_IZR_INZ; f_equal; lia).
  assert (R := small_roundings 53 (List.length v) 1000 ltac:(lia) ltac:(rewrite I, U; lra)). rewrite I, U in R. rewrite <- U in R at 1.
  apply C146_normalized; try assumption; [lia | lia | |]; lra.
Qed.
Theorem C146_long_double k k' (v : list (binary_float 64 16384)) : (forall x, In x v -> is_finite x = true) -> (2 <= List.length v <= 1000)%nat ->
  bpow radix2 (-16362) <= real_norm2 (map B2R v) <= bpow radix2 16383 ->
  normalized 64 16384 eq_refl eq_refl k' (fst (normalize 64 16384 eq_refl eq_refl k v)) = true.
Proof.
  intros F Hn [H1 H2]. destruct eps80 as [Fe He].
  destruct (small_sizes 64 16384 (List.length v) 10 (real_norm2 (map B2R v))) as (A & B & C);
    [lia | change (bpow radix2 10) with 1024; rewrite INR_IZR_INZ; apply IZR_le; lia | lia | lia | exact H1 |].
  assert (U : half_ulp_1 64 = / IZR (2 ^ 64)) by reflexivity. assert (I : INR (2 * 1000 + 7) = 2007) by (rewrite INR_IZR_INZ; f_equal; lia).
  assert (R := small_roundings 64 (List.length v) 1000 ltac:(lia) ltac:(rewrite I, U; lra)). rewrite I, U in R. rewrite <- U in R at 1.
  apply C146_normalized; try assumption; [lia | lia | |]; lra.
Qed.

(* ------------------------------------------------------------------ what does not hold *)
Definition never (i : nat) : fuse := NoFma.
Definition left (i : nat) : fuse := FmaLeft.

(** "Every component of [v / s] is the quotient of the scalar type" fails: 41 / 41 is not one; a number divided by itself is infinite and zero
    divided by it NaN if its reciprocal overflows; dividing the largest number by itself does not give one either. *)
Theorem C144_refuted : ~ (forall (v : list float32) d, (forall x, In x v -> is_finite x = true) -> is_finite_strict d = true ->
    div_scalar 24 128 eq_refl eq_refl v d = map (fun x => Bdiv mode_NE x d) v) /\
  B2R (f32 41 0) = 41 /\ sf (div_scalar 24 128 eq_refl eq_refl [f32 41 0] (f32 41 0)) = [SpecFloat.S754_finite false 16777215 (-24)] /\
  sf (map (fun x => Bdiv mode_NE x (f32 41 0)) [f32 41 0]) = [SpecFloat.S754_finite false 8388608 (-23)] /\
  sf (div_scalar 24 128 eq_refl eq_refl [f32 1 (-130); f32 0 0] (f32 1 (-130))) = [SpecFloat.S754_infinity false; SpecFloat.S754_nan] /\
  sf (map (fun x => Bdiv mode_NE x (f32 1 (-130))) [f32 1 (-130); f32 0 0]) = [SpecFloat.S754_finite false 8388608 (-23); SpecFloat.S754_zero false] /\
  sf (div_scalar 24 128 eq_refl eq_refl [f32 16777215 104] (f32 16777215 104)) = [SpecFloat.S754_finite false 16777215 (-24)].
Proof.
  split; [|split; [|repeat split; vm_compute; reflexivity]].
  - intros H. assert (A := H [f32 41 0] (f32 41 0) ltac:(intros x [<- | []]; vm_compute; reflexivity) ltac:(vm_compute; reflexivity)).
    apply (f_equal sf) in A. vm_compute in A. discriminate A.
  - rewrite <- SF2R_B2SF. replace (B2SF (f32 41 0)) with (SpecFloat.S754_finite false 10747904 (-18)) by (vm_compute; reflexivity).
    cbn [SF2R]. unfold F2R. cbn [Fnum Fexp cond_Zopp]. change (bpow radix2 (-18)) with (/ IZR (2 ^ 18)). lra.
Qed.
(** [length] overflows for (2^64, 0) and is zero for (2^-75, 0); of a vector with one component it is that component with its sign; and with
    a fused product the dot product of the orthogonal vectors (4097, 4097) and (4097, -4097) is one. *)
Theorem C145_refuted :
  B2SF (length 24 128 eq_refl eq_refl never [f32 1 64; f32 0 0]) = SpecFloat.S754_infinity false /\
  B2SF (length 24 128 eq_refl eq_refl never [f32 1 (-75); f32 0 0]) = SpecFloat.S754_zero false /\
  (forall k x, length 24 128 eq_refl eq_refl k [x] = x) /\
  B2SF (dot 24 128 eq_refl eq_refl never [f32 4097 0; f32 4097 0] [f32 4097 0; f32 (-4097) 0]) = SpecFloat.S754_zero false /\
  B2SF (dot 24 128 eq_refl eq_refl left [f32 4097 0; f32 4097 0] [f32 4097 0; f32 (-4097) 0]) = SpecFloat.S754_finite false 8388608 (-23) /\
  B2SF (dot 24 128 eq_refl eq_refl never [f32 1 64; f32 1 64] [f32 1 64; f32 (-1) 64]) = SpecFloat.S754_nan.
Proof. split; [vm_compute; reflexivity|]. split; [vm_compute; reflexivity|]. split; [reflexivity|]. repeat split; vm_compute; reflexivity. Qed.
(** [normalize] gives the zero vector for (2^64, 0), (infinity, NaN) for (2^-75, 0), NaN for the zero vector, and one for every vector with one
    component, be it negative, zero or NaN; none of the first three passes the test. *)
Theorem C146_refuted :
  (sf (fst (normalize 24 128 eq_refl eq_refl never [f32 1 64; f32 0 0])) = [SpecFloat.S754_zero false; SpecFloat.S754_zero false]) /\
  (sf (fst (normalize 24 128 eq_refl eq_refl never [f32 1 (-75); f32 0 0])) = [SpecFloat.S754_infinity false; SpecFloat.S754_nan]) /\
  (sf (fst (normalize 24 128 eq_refl eq_refl never [f32 0 0; f32 0 0])) = [SpecFloat.S754_nan; SpecFloat.S754_nan]) /\
  (forall k x, normalize 24 128 eq_refl eq_refl k [x] = ([Bone], x)) /\
  (forall v, In v [[f32 1 64; f32 0 0]; [f32 1 (-75); f32 0 0]; [f32 0 0; f32 0 0]] ->
     normalized 24 128 eq_refl eq_refl never (fst (normalize 24 128 eq_refl eq_refl never v)) = false).
Proof.
  split; [vm_compute; reflexivity|]. split; [vm_compute; reflexivity|]. split; [vm_compute; reflexivity|]. split; [reflexivity|].
  intros v [<- | [<- | [<- | []]]]; vm_compute; reflexivity.
Qed.

(* ------------------------------------------------------------------ examples *)
Lemma val_3 : B2R (f32 3 0) = 3.
Proof.
  rewrite <- SF2R_B2SF. replace (B2SF (f32 3 0)) with (SpecFloat.S754_finite false 12582912 (-22)) by (vm_compute; reflexivity).
  cbn [SF2R]. unfold F2R. cbn [Fnum Fexp cond_Zopp]. change (bpow radix2 (-22)) with (/ IZR (2 ^ 22)). lra.
Qed.
Lemma val_m4 : B2R (f32 (-4) 0) = -4.
Proof.
  rewrite <- SF2R_B2SF. replace (B2SF (f32 (-4) 0)) with (SpecFloat.S754_finite true 8388608 (-21)) by (vm_compute; reflexivity).
  cbn [SF2R]. unfold F2R. cbn [Fnum Fexp cond_Zopp]. change (- (8388608))%Z with (-8388608)%Z. change (bpow radix2 (-21)) with (/ IZR (2 ^ 21)). lra.
Qed.
(** (3, -4) divided by -5, by 8, by zero; its length and the unit vector. *)
Example C144_ex : sf (div_scalar 24 128 eq_refl eq_refl [f32 3 0; f32 (-4) 0] (f32 (-5) 0)) =
    [SpecFloat.S754_finite true 10066330 (-24); SpecFloat.S754_finite false 13421773 (-24)] /\
  sf (div_scalar 24 128 eq_refl eq_refl [f32 3 0; f32 (-4) 0] (f32 1 3)) = [SpecFloat.S754_finite false 12582912 (-25); SpecFloat.S754_finite true 8388608 (-24)] /\
  sf (div_scalar 24 128 eq_refl eq_refl [f32 3 0; f32 (-4) 0; f32 0 0] (f32 0 0)) = [SpecFloat.S754_infinity false; SpecFloat.S754_infinity true; SpecFloat.S754_nan].
Proof. repeat split; vm_compute; reflexivity. Qed.
Example C144_ex_finite : min_normal 128 <= Rabs (B2R (f32 3 0)) <= bpow radix2 (128 - 2) /\
  (1 + 4 * half_ulp_1 24) * (1 + half_ulp_1 24) * Rabs (B2R (f32 (-4) 0) / B2R (f32 3 0)) + half_tiny 24 128 < bpow radix2 128.
Proof.
  rewrite val_3, val_m4. rewrite (Rabs_pos_eq 3) by lra. rewrite (Rabs_left (-4 / 3)) by lra. unfold min_normal, half_ulp_1, half_tiny.
  change (bpow radix2 (2 - 128)) with (/ IZR (2 ^ 126)). change (bpow radix2 (128 - 2)) with (IZR (2 ^ 126)). change (bpow radix2 (- (24))) with (/ IZR (2 ^ 24)).
  change (bpow radix2 (2 - 128 - 24)) with (/ IZR (2 ^ 150)). change (bpow radix2 128) with (IZR (2 ^ 128)). lra.
Qed.
Example C145_ex : B2SF (length 24 128 eq_refl eq_refl left [f32 3 0; f32 (-4) 0]) = B2SF (f32 5 0) /\
  B2SF (distance 24 128 eq_refl eq_refl left [f32 1 0; f32 1 0] [f32 4 0; f32 (-3) 0]) = B2SF (f32 5 0) /\
  B2SF (dot 24 128 eq_refl eq_refl left [f32 3 0; f32 (-4) 0] [f32 1 0; f32 2 0]) = B2SF (f32 (-5) 0) /\
  real_norm2 (map B2R [f32 3 0; f32 (-4) 0]) = 25.
Proof. split; [vm_compute; reflexivity|]. split; [vm_compute; reflexivity|]. split; [vm_compute; reflexivity|]. cbn [map real_norm2 fold_right]. rewrite val_3, val_m4. lra. Qed.
Example C145_ex_sizes : let N := 25 in
  256 * (INR 2 * INR 2) * half_ulp_1 24 <= 1 /\ 2048 * INR 2 * half_tiny 24 128 <= half_ulp_1 24 /\ 1024 * INR 2 * half_tiny 24 128 <= half_ulp_1 24 * N /\
  2048 * INR 2 * half_tiny 24 128 <= half_ulp_1 24 * N /\ N <= bpow radix2 (128 - 2) /\
  (1 + half_ulp_1 24) ^ 2 * (N + 2 * INR 2 * half_tiny 24 128) < bpow radix2 128.
Proof.
  cbn zeta. change (INR 2) with (1 + 1). unfold half_ulp_1, half_tiny. change (bpow radix2 (128 - 2)) with (IZR (2 ^ 126)). change (bpow radix2 (- (24))) with (/ IZR (2 ^ 24)).
  change (bpow radix2 (2 - 128 - 24)) with (/ IZR (2 ^ 150)). change (bpow radix2 128) with (IZR (2 ^ 128)). repeat split; lra.
Qed.
Example C146_ex : normalized 24 128 eq_refl eq_refl left (fst (normalize 24 128 eq_refl eq_refl never [f32 3 0; f32 (-4) 0])) = true /\
  sf (fst (normalize 24 128 eq_refl eq_refl never [f32 3 0; f32 (-4) 0])) = [SpecFloat.S754_finite false 10066330 (-24); SpecFloat.S754_finite true 13421773 (-24)].
Proof.
  split; [|vm_compute; reflexivity]. apply C146_float.
  - intros x [<- | [<- | []]]; vm_compute; reflexivity.
  - cbn. lia.
  - destruct C145_ex as (_ & _ & _ & ->). change (bpow radix2 (-114)) with (/ IZR (2 ^ 114)). change (bpow radix2 127) with (IZR (2 ^ 127)). lra.
Qed.
Example C146_ex_sound : normalized 24 128 eq_refl eq_refl left [f32 10066330 (-24); f32 13421773 (-24)] = true /\
  normalized 24 128 eq_refl eq_refl left [f32 10066320 (-24); f32 13421760 (-24)] = false.
Proof. split; vm_compute; reflexivity. Qed.

Print Assumptions C144_error.
Print Assumptions C144_finite.
Print Assumptions C144_special.
Print Assumptions C144_power.
Print Assumptions C144_refuted.
Print Assumptions C145_dot.
Print Assumptions C145_dot_finite.
Print Assumptions C145_length_squared.
Print Assumptions C145_length.
Print Assumptions C145_distance.
Print Assumptions C145_refuted.
Print Assumptions C146_normalize.
Print Assumptions C146_normalized.
Print Assumptions C146_direction_error.
Print Assumptions C146_direction.
Print Assumptions C146_sound.
Print Assumptions C146_float.
Print Assumptions C146_double.
Print Assumptions C146_long_double.
Print Assumptions C146_refuted.
