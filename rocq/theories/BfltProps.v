(** Bounding boxes of floats: the tests, and boxes fitted to points. *)
From Coq Require Import ZArith Bool List Reals Lra Lia.
From Flocq Require Import Core BinarySingleNaN.
From Verif Require Import FpModel FpProofs VfltModel VfltSpec VfltProofs VfltProofs3 XfltModel BfltModel BfltSpec BfltProofs BfltProofs2 BfltProofs3.
Import ListNotations.
Local Open Scope R_scope.

#[local] Instance float_prec : Prec_gt_0 24 := eq_refl.
#[local] Instance float_emax : Prec_lt_emax 24 128 := eq_refl.

Section Props.
  Variable prec emax : Z.
  Context (prec_gt_0_ : Prec_gt_0 prec).
  Context (prec_lt_emax_ : Prec_lt_emax prec emax).
  Notation float := (binary_float prec emax).
  Notation vec := (vec float).
  Notation box := (box prec emax).
  Notation u := (half_ulp_1 prec).
  Notation h := (half_tiny prec emax).
  Notation emin := (3 - emax - prec)%Z.
  Notation contains := (contains prec emax _ _).
  Notation intersects := (intersects prec emax _ _).
  Notation contains_box := (contains_box prec emax _ _).
  Notation append := (append prec emax _ _).
  Notation append_box := (append_box prec emax _ _).
  Notation from_range := (from_range prec emax _ _).
  Notation min_corner := (min_corner prec emax _ _).
  Notation max_corner := (max_corner prec emax _ _).
  Notation coords := (coords prec emax).
  Notation fitted := (fitted prec emax _ _).
  Notation appended := (appended prec emax _ _).

  Definition finite_vec (v : vec) : Prop := forall i, is_finite (axis v i) = true.
  Definition finite_box (b : box) : Prop := finite_vec (center b) /\ finite_vec (extents b).
  Definition C (b : box) i : R := B2R (axis (center b) i).
  Definition E (b : box) i : R := B2R (axis (extents b) i).
  Definition V (v : vec) i : R := B2R (axis v i).

  (* ---------------------------------------------------------------- C154 *)

  (** Whatever is inside is found to be. *)
  Theorem C154_inside_contains (b : box) (p : vec) : finite_box b -> finite_vec p -> (forall i, in_range (C b i) (E b i) (V p i)) -> contains b p = true.
  Proof using. intros [Fc Fe] Fp H. apply contains_axes. intros i. apply inside_contains; [apply Fp | apply Fc | apply Fe | apply H]. Qed.
  (** Whatever is found to be inside is, but for one unit of rounding of the extents. *)
  Theorem C154_contains_near (b : box) (p : vec) : finite_vec (extents b) -> contains b p = true ->
    finite_vec p /\ finite_vec (center b) /\ forall i, in_range (C b i) ((1 + u) * E b i) (V p i).
  Proof using.
    intros Fe H. rewrite contains_axes in H. split; [|split]; intros i; specialize (H i).
    - exact (proj1 (contains_finite _ _ _ _ _ _ _ (Fe i) H)).
    - exact (proj1 (proj2 (contains_finite _ _ _ _ _ _ _ (Fe i) H))).
    - exact (contains_near _ _ _ _ _ _ _ (Fe i) H).
  Qed.
  (** A NaN anywhere: nothing is inside. *)
  Theorem C154_contains_nan (b : box) (p : vec) i : is_nan (axis p i) = true \/ is_nan (axis (center b) i) = true \/ is_nan (axis (extents b) i) = true -> contains b p = false.
  Proof using.
    intros N. destruct (contains b p) eqn:H; [exfalso|reflexivity]. rewrite contains_axes in H. destruct (nan_not _ _ _ _ _ _ _ (H i)) as (A & B & D).
    destruct N as [N|[N|N]]; congruence.
  Qed.
  (** Boxes that meet are found to, even when their corners overflow. *)
  Theorem C154_meet_intersects (b1 b2 : box) : finite_box b1 -> finite_box b2 -> (forall i, ranges_meet (C b1 i) (E b1 i) (C b2 i) (E b2 i)) -> intersects b1 b2 = true.
  Proof using.
    intros [Fc1 Fe1] [Fc2 Fe2] H. apply intersects_axes. intros i. rewrite !axis_min_corner, !axis_max_corner. destruct (H i) as [H1 H2]. unfold C, E in *.
    split; (apply plus_le; [apply Fc2 || apply Fc1 | rewrite is_finite_Bopp; (apply Fe2 || apply Fe1) | apply Fc1 || apply Fc2 | apply Fe1 || apply Fe2 | rewrite B2R_Bopp; lra]).
  Qed.
  Theorem C154_intersects_near (b1 b2 : box) : finite_vec (min_corner b1) -> finite_vec (max_corner b1) -> finite_vec (min_corner b2) -> finite_vec (max_corner b2) ->
    intersects b1 b2 = true ->
    forall i, let slack := u * (Rabs (C b1 i) + Rabs (E b1 i) + Rabs (C b2 i) + Rabs (E b2 i)) in ranges_meet (C b1 i) (E b1 i + slack) (C b2 i) (E b2 i).
  Proof using.
    intros F1 F2 F3 F4 H i slack. rewrite intersects_axes in H. destruct (H i) as [A B]. specialize (F1 i). specialize (F2 i). specialize (F3 i). specialize (F4 i).
    rewrite axis_min_corner, axis_max_corner in *. apply le_plus in A; [|assumption|assumption]. apply le_plus in B; [|assumption|assumption]. rewrite B2R_Bopp in *.
    unfold slack, ranges_meet, C, E in *. set (c1 := B2R (axis (center b1) i)) in *. set (c2 := B2R (axis (center b2) i)) in *. set (e1 := B2R (axis (extents b1) i)) in *. set (e2 := B2R (axis (extents b2) i)) in *.
    pose proof (Rabs_triang c1 e1) as T1. pose proof (Rabs_triang c2 e2) as T2. pose proof (Rabs_triang c1 (- e1)) as T3. pose proof (Rabs_triang c2 (- e2)) as T4. rewrite Rabs_Ropp in T3, T4.
    pose proof (u_pos prec) as U.
    assert (K1 : u * (Rabs (c2 + - e2) + Rabs (c1 + e1)) <= u * (Rabs c1 + Rabs e1 + Rabs c2 + Rabs e2)) by (apply Rmult_le_compat_l; lra).
    assert (K2 : u * (Rabs (c1 + - e1) + Rabs (c2 + e2)) <= u * (Rabs c1 + Rabs e1 + Rabs c2 + Rabs e2)) by (apply Rmult_le_compat_l; lra). lra.
  Qed.
  Theorem C154_intersects_symmetric (b1 b2 : box) : intersects b1 b2 = intersects b2 b1.
  Proof using.
    apply eq_true_iff_eq. rewrite !intersects_axes. split; intros H i; destruct (H i); split; assumption.
  Qed.
  Theorem C154_within_contains_box (outer inner : box) : finite_box outer -> finite_box inner -> (forall i, range_within (C outer i) (E outer i) (C inner i) (E inner i)) -> contains_box outer inner = true.
  Proof using.
    intros [Fc1 Fe1] [Fc2 Fe2] H. apply contains_box_axes. intros i. rewrite !axis_min_corner, !axis_max_corner. destruct (H i) as [H1 H2]. unfold C, E in *. split.
    - apply plus_le; [apply Fc1 | rewrite is_finite_Bopp; apply Fe1 | apply Fc2 | rewrite is_finite_Bopp; apply Fe2 | rewrite !B2R_Bopp; lra].
    - apply plus_le; [apply Fc2 | apply Fe2 | apply Fc1 | apply Fe1 | lra].
  Qed.
  Theorem C154_contains_box_near (outer inner : box) : finite_vec (min_corner outer) -> finite_vec (max_corner outer) -> finite_vec (min_corner inner) -> finite_vec (max_corner inner) ->
    contains_box outer inner = true ->
    forall i, let slack := u * (Rabs (C outer i) + Rabs (E outer i) + Rabs (C inner i) + Rabs (E inner i)) in range_within (C outer i) (E outer i + slack) (C inner i) (E inner i).
  Proof using.
    intros F1 F2 F3 F4 H i slack. rewrite contains_box_axes in H. destruct (H i) as [A B]. specialize (F1 i). specialize (F2 i). specialize (F3 i). specialize (F4 i).
    rewrite !axis_min_corner, !axis_max_corner in *. apply le_plus in A; [|assumption|assumption]. apply le_plus in B; [|assumption|assumption]. rewrite !B2R_Bopp in *.
    unfold slack, range_within, C, E in *. set (c1 := B2R (axis (center outer) i)) in *. set (c2 := B2R (axis (center inner) i)) in *. set (e1 := B2R (axis (extents outer) i)) in *. set (e2 := B2R (axis (extents inner) i)) in *.
    pose proof (Rabs_triang c1 e1) as T1. pose proof (Rabs_triang c2 e2) as T2. pose proof (Rabs_triang c1 (- e1)) as T3. pose proof (Rabs_triang c2 (- e2)) as T4. rewrite Rabs_Ropp in T3, T4.
    pose proof (u_pos prec) as U.
    assert (K1 : u * (Rabs (c1 + - e1) + Rabs (c2 + - e2)) <= u * (Rabs c1 + Rabs e1 + Rabs c2 + Rabs e2)) by (apply Rmult_le_compat_l; lra).
    assert (K2 : u * (Rabs (c2 + e2) + Rabs (c1 + e1)) <= u * (Rabs c1 + Rabs e1 + Rabs c2 + Rabs e2)) by (apply Rmult_le_compat_l; lra). lra.
  Qed.
  (** For any floats at all, NaNs and infinities included. *)
  Theorem C154_contains_box_transitive (b1 b2 b3 : box) : contains_box b1 b2 = true -> contains_box b2 b3 = true -> contains_box b1 b3 = true.
  Proof using.
    rewrite !contains_box_axes. intros A B i. destruct (A i) as [A1 A2], (B i) as [B1 B2]. split; eapply Bleb_trans; eassumption.
  Qed.

  (* ---------------------------------------------------------------- C155 *)
  Hypothesis prec11 : (11 <= prec)%Z.
  Lemma all_axis (ps : list vec) i : (forall p, In p ps -> finite_vec p) -> Forall (fun p : vec => fin prec emax (axis p i)) ps.
  Proof using. intros H. apply Forall_forall. intros p I. exact (H p I i). Qed.

  (** The faces of a box fitted to points are within one rounding of the least and the greatest coordinate. *)
  Theorem C155_fitted_faces (b : box) (ps : list vec) i (M lo hi : R) : fitted b ps -> (forall p, In p ps -> finite_vec p) ->
    (forall p, In p ps -> Rabs (V p i) <= M) -> M <= bpow radix2 (emax - 2) -> lowest (coords ps i) lo -> highest (coords ps i) hi ->
    is_finite (axis (center b) i) = true /\ is_finite (axis (extents b) i) = true
    /\ Rabs (C b i - E b i - lo) <= u * M + 2 * h /\ Rabs (C b i + E b i - hi) <= u * M + 2 * h.
  Proof using prec11.
    intros Ft Fp LM HM Hlo Hhi. destruct (fitted_axis _ _ _ _ b ps i Ft (all_axis ps i Fp)) as (l & g & Il & Ig & Ll & Lg & Ec & Ee).
    rewrite <- (lowest_unique _ _ _ Ll Hlo), <- (highest_unique _ _ _ Lg Hhi). unfold C, E. rewrite Ec, Ee.
    apply in_map_iff in Il as (p & <- & Ip). apply in_map_iff in Ig as (q & <- & Iq).
    destruct (middle prec emax _ _ prec11 (axis p i) (axis q i) M (Fp p Ip i) (Fp q Iq i) (LM p Ip) (LM q Iq) HM) as (F1 & F2 & _ & _).
    split; [exact F1|]. split; [exact F2|]. exact (faces prec emax _ _ prec11 (axis p i) (axis q i) M (Fp p Ip i) (Fp q Iq i) (LM p Ip) (LM q Iq) HM).
  Qed.
  (** So every point is inside, or outside by that much. *)
  Theorem C155_fitted_near (b : box) (ps : list vec) i (M : R) p : fitted b ps -> (forall q, In q ps -> finite_vec q) ->
    (forall q, In q ps -> Rabs (V q i) <= M) -> M <= bpow radix2 (emax - 2) -> In p ps -> in_range (C b i) (E b i + (u * M + 2 * h)) (V p i).
  Proof using prec11.
    intros Ft Fp LM HM Ip. destruct (fitted_axis _ _ _ _ b ps i Ft (all_axis ps i Fp)) as (l & g & _ & _ & Ll & Lg & _ & _).
    destruct (C155_fitted_faces b ps i M _ _ Ft Fp LM HM Ll Lg) as (_ & _ & A & B). apply Rabs_le_inv in A, B.
    assert (I : In (V p i) (coords ps i)) by (apply in_map_iff; exists p; split; [reflexivity | exact Ip]). pose proof (proj2 Ll _ I). pose proof (proj2 Lg _ I). unfold in_range. lra.
  Qed.
  (** No points: a single point at the origin. *)
  Theorem C155_no_points (p : vec) : contains (from_range []) p = true <-> forall i, is_finite (axis p i) = true /\ V p i = 0.
  Proof using.
    rewrite contains_axes. assert (Z : forall i, axis (center (from_range [])) i = B754_zero false /\ axis (extents (from_range [])) i = B754_zero false) by (intros [|[|i]]; split; reflexivity).
    split; intros H i; destruct (Z i) as [Zc Ze]; specialize (H i).
    - rewrite Zc, Ze in H. destruct (contains_finite _ _ _ _ (axis p i) (B754_zero false) (B754_zero false) eq_refl H) as (F & _ & _). split; [exact F|].
      pose proof (contains_near _ _ _ _ (axis p i) (B754_zero false) (B754_zero false) eq_refl H) as [A B]. cbn [B2R] in A, B. unfold V. lra.
    - rewrite Zc, Ze. destruct H as [F H]. apply inside_contains; [exact F | reflexivity | reflexivity|]. unfold V in H. rewrite H. cbn [B2R]. unfold in_range. lra.
  Qed.
  (** Coordinates too great: nothing is inside, not even the points. *)
  Theorem C155_fitted_overflow (b : box) (ps : list vec) i lo hi p : fitted b ps -> (forall q, In q ps -> finite_vec q) -> lowest (coords ps i) lo -> highest (coords ps i) hi ->
    bpow radix2 emax <= Rabs (lo + hi) -> finite_vec p -> contains b p = false.
  Proof using prec11.
    intros Ft Fp Hlo Hhi L F. destruct (fitted_axis _ _ _ _ b ps i Ft (all_axis ps i Fp)) as (l & g & Il & Ig & Ll & Lg & Ec & Ee).
    rewrite <- (lowest_unique _ _ _ Ll Hlo), <- (highest_unique _ _ _ Lg Hhi) in L. apply in_map_iff in Il as (p' & <- & Ip). apply in_map_iff in Ig as (q & <- & Iq).
    destruct (contains b p) eqn:H; [exfalso|reflexivity]. rewrite contains_axes in H. specialize (H i). rewrite Ec, Ee in H.
    rewrite (overflow_none prec emax _ _ prec11 (axis p' i) (axis q i) (axis p i) (Fp p' Ip i) (Fp q Iq i) L (F i)) in H. discriminate H.
  Qed.

  (** Adding points to a box: each face moves to the outermost of the old face and the points, within two roundings. *)
  Theorem C155_append_faces (b : box) (ps : list vec) (b' : box) i (M lo hi : R) : appended b ps b' -> finite_box b -> (forall p, In p ps -> finite_vec p) ->
    Rabs (C b i) + Rabs (E b i) <= M -> (forall p, In p ps -> Rabs (V p i) <= M) -> M <= bpow radix2 (emax - 3) ->
    lowest ((C b i - E b i) :: coords ps i) lo -> highest ((C b i + E b i) :: coords ps i) hi ->
    is_finite (axis (center b') i) = true /\ is_finite (axis (extents b') i) = true
    /\ Rabs (C b' i - E b' i - lo) <= u * (2 + u) * M + 2 * h /\ Rabs (C b' i + E b' i - hi) <= u * (2 + u) * M + 2 * h.
  Proof using prec11.
    intros Ap [Fc Fe] Fp Lb Lp HM Hlo Hhi. destruct (appended_axis _ _ _ _ b ps b' i Ap) as [Ec Ee]. change (C b' i) with (B2R (axis (center b') i)). change (E b' i) with (B2R (axis (extents b') i)). rewrite Ec, Ee.
    destruct (corner_near prec emax _ _ prec11 b i M (Fc i) (Fe i) Lb HM) as (F1 & F2 & N1 & N2).
    refine (append_faces prec emax _ _ prec11 _ _ _ (C b i) (E b i) M (coords ps i) F1 F2 _ HM N1 N2 Lb _ _ lo hi Hlo Hhi).
    - apply Forall_map. exact (all_axis ps i Fp).
    - apply Forall_forall. intros r I. apply in_map_iff in I as (p & <- & I). exact (Lp p I).
    - rewrite <- coords_map. pose proof (u_pos prec) as U. pose proof (Rabs_pos (C b i)). pose proof (Rabs_pos (E b i)). assert (0 <= u * M) by (apply Rmult_le_pos; lra).
      clear -H1. induction (coords ps i) as [|r rs IH]; constructor; [|exact IH]. rewrite Rminus_diag_eq, Rabs_R0 by reflexivity. exact H1.
  Qed.
  (** The same for adding a box. *)
  Theorem C155_append_box_faces (b other : box) i (M lo hi : R) : finite_box b -> finite_box other ->
    Rabs (C b i) + Rabs (E b i) <= M -> Rabs (C other i) + Rabs (E other i) <= M -> M <= bpow radix2 (emax - 3) ->
    lowest [C b i - E b i; C other i - E other i; C other i + E other i] lo -> highest [C b i + E b i; C other i - E other i; C other i + E other i] hi ->
    is_finite (axis (center (append_box b other)) i) = true /\ is_finite (axis (extents (append_box b other)) i) = true
    /\ Rabs (C (append_box b other) i - E (append_box b other) i - lo) <= u * (2 + u) * M + 2 * h
    /\ Rabs (C (append_box b other) i + E (append_box b other) i - hi) <= u * (2 + u) * M + 2 * h.
  Proof using prec11.
    intros [Fc Fe] [Fc' Fe'] Lb Lo HM Hlo Hhi.
    destruct (appended_axis _ _ _ _ b [min_corner other; max_corner other] (append_box b other) i) as [Ec Ee]; [right; exists (min_corner other), (max_corner other), []; split; reflexivity|].
    change (C (append_box b other) i) with (B2R (axis (center (append_box b other)) i)). change (E (append_box b other) i) with (B2R (axis (extents (append_box b other)) i)). rewrite Ec, Ee.
    destruct (corner_near prec emax _ _ prec11 b i M (Fc i) (Fe i) Lb HM) as (F1 & F2 & N1 & N2). destruct (corner_near prec emax _ _ prec11 other i M (Fc' i) (Fe' i) Lo HM) as (F3 & F4 & N3 & N4).
    refine (append_faces prec emax _ _ prec11 _ _ _ (C b i) (E b i) M [C other i - E other i; C other i + E other i] F1 F2 _ HM N1 N2 Lb _ _ lo hi Hlo Hhi).
    - repeat constructor; assumption.
    - pose proof (Rabs_triang (C other i) (E other i)). pose proof (Rabs_triang (C other i) (- E other i)) as T. rewrite Rabs_Ropp in T. apply Forall_cons; [unfold Rminus; lra|]. apply Forall_cons; [lra | apply Forall_nil].
    - cbn [map]. apply Forall2_cons; [exact N3|]. apply Forall2_cons; [exact N4 | apply Forall2_nil].
  Qed.

  (** Multiples of a power of two of few enough bits: no rounding at all. *)
  Definition on_grid k (p : vec) : Prop := forall i, is_finite (axis p i) = true /\ exists m, (Z.abs m <= 2 ^ (prec - 2))%Z /\ V p i = IZR m * bpow radix2 k.
  Definition exact_box (b : box) (ps : list vec) : Prop := forall i lo hi, lowest (coords ps i) lo -> highest (coords ps i) hi ->
    is_finite (axis (center b) i) = true /\ is_finite (axis (extents b) i) = true /\ C b i = (lo + hi) / 2 /\ E b i = (hi - lo) / 2.
  Section Grid.
    Variable k : Z.
    Hypothesis k_low : (emin < k)%Z.
    Hypothesis k_high : (k + prec <= emax)%Z.
    Lemma grid_in ps i x : (forall p, In p ps -> on_grid k p) -> In x (map (fun p : vec => axis p i) ps) -> grid_float prec emax k x.
    Proof using. intros H I. apply in_map_iff in I as (p & <- & I). exact (H p I i). Qed.
    Theorem C155_grid_fitted (b : box) (ps : list vec) : fitted b ps -> (forall p, In p ps -> on_grid k p) -> exact_box b ps.
    Proof using prec11 k_low k_high.
      intros Ft G i lo hi Hlo Hhi. destruct (fitted_axis _ _ _ _ b ps i Ft) as (l & g & Il & Ig & Ll & Lg & Ec & Ee); [apply all_axis; intros p I j; exact (proj1 (G p I j))|].
      rewrite <- (lowest_unique _ _ _ Ll Hlo), <- (highest_unique _ _ _ Lg Hhi). unfold C, E. rewrite Ec, Ee.
      exact (grid_exact prec emax _ _ prec11 k l g k_low k_high (grid_in ps i l G Il) (grid_in ps i g G Ig)).
    Qed.
    (** The ends of a box known to be exact. *)
    Lemma ends (ps : list vec) i : ps <> [] -> (forall p, In p ps -> on_grid k p) ->
      exists l g, grid_float prec emax k l /\ grid_float prec emax k g /\ lowest (coords ps i) (B2R l) /\ highest (coords ps i) (B2R g).
    Proof using.
      intros N G. destruct ps as [|p r]; [congruence|]. rewrite coords_map. assert (F : Forall (fin prec emax) (map (fun p : vec => axis p i) (p :: r))) by (apply Forall_map, all_axis; intros q I j; exact (proj1 (G q I j))).
      destruct (smin_all_ok prec emax _ _ F) as [I1 L1]. destruct (smax_all_ok prec emax _ _ F) as [I2 L2].
      do 2 eexists. split; [exact (grid_in (p :: r) i _ G I1)|]. split; [exact (grid_in (p :: r) i _ G I2)|]. split; [exact L1 | exact L2].
    Qed.
    Theorem C155_grid_corners (b : box) (ps : list vec) i lo hi : ps <> [] -> (forall p, In p ps -> on_grid k p) -> exact_box b ps -> lowest (coords ps i) lo -> highest (coords ps i) hi ->
      V (min_corner b) i = lo /\ V (max_corner b) i = hi.
    Proof using prec11 k_low k_high.
      intros N G X Hlo Hhi. destruct (ends ps i N G) as (l & g & Gl & Gg & Ll & Lg). rewrite <- (lowest_unique _ _ _ Ll Hlo), <- (highest_unique _ _ _ Lg Hhi).
      unfold V. rewrite axis_min_corner, axis_max_corner. exact (proj2 (proj2 (exact_corners prec emax _ _ prec11 k _ _ l g k_low k_high Gl Gg (X i _ _ Ll Lg)))).
    Qed.
    Lemma corners_grid (b : box) (ps : list vec) i : ps <> [] -> (forall p, In p ps -> on_grid k p) -> exact_box b ps ->
      grid_float prec emax k (axis (min_corner b) i) /\ grid_float prec emax k (axis (max_corner b) i) /\ lowest (coords ps i) (V (min_corner b) i) /\ highest (coords ps i) (V (max_corner b) i).
    Proof using prec11 k_low k_high.
      intros N G X. destruct (ends ps i N G) as (l & g & Gl & Gg & Ll & Lg). destruct (C155_grid_corners b ps i _ _ N G X Ll Lg) as [-> ->].
      rewrite axis_min_corner, axis_max_corner. destruct (exact_corners prec emax _ _ prec11 k _ _ l g k_low k_high Gl Gg (X i _ _ Ll Lg)) as (A & B & _). repeat split; try (apply A || apply B || apply Ll || apply Lg).
    Qed.
    (** The test agrees with the coordinates. *)
    Theorem C155_grid_contains (b : box) (ps : list vec) (p : vec) : ps <> [] -> (forall q, In q ps -> on_grid k q) -> exact_box b ps -> on_grid k p ->
      contains b p = true <-> forall i lo hi, lowest (coords ps i) lo -> highest (coords ps i) hi -> lo <= V p i <= hi.
    Proof using prec11 k_low k_high.
      intros N G X Gp. rewrite contains_axes. split.
      - intros H i lo hi Hlo Hhi. specialize (H i). destruct (ends ps i N G) as (l & g & Gl & Gg & Ll & Lg). rewrite <- (lowest_unique _ _ _ Ll Hlo), <- (highest_unique _ _ _ Lg Hhi). clear Hlo Hhi.
        pose proof (X i _ _ Ll Lg) as Ex. destruct (grid_float_value prec emax k l Gl) as (m & Lm & Vm & Em), (grid_float_value prec emax k g Gg) as (n & Ln & Vn & En), (grid_float_value prec emax k (axis p i) (Gp i)) as (q & Lq & Vq & Eq).
        rewrite Em, En in Ex. destruct (exact_grid prec emax k _ _ m n Ex) as [Gc Ge].
        pose proof (grid_test prec emax _ _ prec11 k k_low k_high (axis p i) _ _ m n q Gc Ge Vq Lm Ln Lq H) as [A B]. unfold V. rewrite Em, En, Eq.
        split; (apply Rmult_le_compat_r; [apply bpow_ge_0 | apply IZR_le; assumption]).
      - intros H i. destruct (ends ps i N G) as (l & g & Gl & Gg & Ll & Lg). pose proof (H i _ _ Ll Lg) as R. destruct (X i _ _ Ll Lg) as (Fc & Fe & Vc & Ve).
        apply inside_contains; [exact (proj1 (Gp i)) | exact Fc | exact Fe|]. unfold C, E, V in *. rewrite Vc, Ve. unfold in_range. lra.
    Qed.
    Theorem C155_grid_append (b : box) (ps qs : list vec) (b' : box) : ps <> [] -> (forall q, In q (ps ++ qs) -> on_grid k q) -> exact_box b ps -> appended b qs b' -> exact_box b' (ps ++ qs).
    Proof using prec11 k_low k_high.
      intros N G X Ap i lo hi Hlo Hhi. assert (Gs : forall q, In q ps -> on_grid k q) by (intros q I; apply G, in_or_app; left; exact I). assert (Gq : forall q, In q qs -> on_grid k q) by (intros q I; apply G, in_or_app; right; exact I).
      destruct (appended_axis _ _ _ _ b qs b' i Ap) as [Ec Ee]. unfold C, E. rewrite Ec, Ee. destruct (corners_grid b ps i N Gs X) as (Gm & GM & Lm & LM).
      assert (Fq : Forall (fin prec emax) (map (fun p : vec => axis p i) qs)) by (apply Forall_map, all_axis; intros q I j; exact (proj1 (Gq q I j))).
      destruct (smin_all_ok prec emax _ _ (Forall_cons _ (proj1 Gm) Fq)) as [I1 L1]. destruct (smax_all_ok prec emax _ _ (Forall_cons _ (proj1 GM) Fq)) as [I2 L2].
      cbn [map] in L1, L2. rewrite <- coords_map in L1, L2. apply (lowest_join _ _ _ _ Lm) in L1. apply (highest_join _ _ _ _ LM) in L2. unfold BfltProofs3.coords in L1, L2. rewrite <- map_app in L1, L2.
      rewrite <- (lowest_unique _ _ _ L1 Hlo), <- (highest_unique _ _ _ L2 Hhi). apply (grid_exact prec emax _ _ prec11 k); [exact k_low | exact k_high | |].
      - destruct I1 as [<-|I1]; [exact Gm | exact (grid_in qs i _ Gq I1)].
      - destruct I2 as [<-|I2]; [exact GM | exact (grid_in qs i _ Gq I2)].
    Qed.
    Theorem C155_grid_append_box (b other : box) (ps qs : list vec) : ps <> [] -> qs <> [] -> (forall q, In q (ps ++ qs) -> on_grid k q) -> exact_box b ps -> exact_box other qs ->
      exact_box (append_box b other) (ps ++ qs).
    Proof using prec11 k_low k_high.
      intros N N' G X X' i lo hi Hlo Hhi. assert (Gs : forall q, In q ps -> on_grid k q) by (intros q I; apply G, in_or_app; left; exact I). assert (Gq : forall q, In q qs -> on_grid k q) by (intros q I; apply G, in_or_app; right; exact I).
      destruct (appended_axis _ _ _ _ b [min_corner other; max_corner other] (append_box b other) i) as [Ec Ee]; [right; exists (min_corner other), (max_corner other), []; split; reflexivity|].
      unfold C, E. rewrite Ec, Ee. destruct (corners_grid b ps i N Gs X) as (Gm & GM & Lm & LM). destruct (corners_grid other qs i N' Gq X') as (Gm' & GM' & Lm' & LM').
      assert (Fq : Forall (fin prec emax) [axis (min_corner other) i; axis (max_corner other) i]) by (repeat constructor; [exact (proj1 Gm') | exact (proj1 GM')]).
      destruct (smin_all_ok prec emax _ _ (Forall_cons _ (proj1 Gm) Fq)) as [I1 L1]. destruct (smax_all_ok prec emax _ _ (Forall_cons _ (proj1 GM) Fq)) as [I2 L2].
      apply (lowest_ends _ _ _ _ _ _ Lm Lm' LM') in L1. apply (highest_ends _ _ _ _ _ _ LM Lm' LM') in L2. unfold BfltProofs3.coords in L1, L2. rewrite <- map_app in L1, L2.
      cbn [map]. rewrite <- (lowest_unique _ _ _ L1 Hlo), <- (highest_unique _ _ _ L2 Hhi). apply (grid_exact prec emax _ _ prec11 k); [exact k_low | exact k_high | |].
      - destruct I1 as [<-|[<-|[<-|[]]]]; [exact Gm | exact Gm' | exact GM'].
      - destruct I2 as [<-|[<-|[<-|[]]]]; [exact GM | exact Gm' | exact GM'].
    Qed.
    (** Any number of points, one after the other, in any order: the same box. *)
    Theorem C155_grid_growing (b : box) (ps qs : list vec) : ps <> [] -> (forall q, In q (ps ++ qs) -> on_grid k q) -> fitted b ps -> exact_box (fold_left append qs b) (ps ++ qs).
    Proof using prec11 k_low k_high.
      intros N G Ft. assert (X : exact_box b ps) by (apply C155_grid_fitted; [exact Ft | intros p I; apply G, in_or_app; left; exact I]). clear Ft.
      revert b ps N G X. induction qs as [|q r IH]; intros b ps N G X; [rewrite app_nil_r; exact X|]. cbn [fold_left].
      replace (ps ++ q :: r) with ((ps ++ [q]) ++ r) in * by (rewrite <- app_assoc; reflexivity). apply IH; [destruct ps; discriminate | exact G|].
      apply (C155_grid_append b); [exact N | intros p I; apply G, in_or_app; left; exact I | exact X | left; exists q; split; reflexivity].
    Qed.
  End Grid.
End Props.

(* ---------------------------------------------------------------- witnesses *)
Notation float32 := (binary_float 24 128).
Definition b32 (m e : Z) : float32 := binary_normalize 24 128 eq_refl eq_refl mode_NE m e false.
Definition cube (x : float32) : vec float32 := (x, x, x).
Lemma b32_val m e : (Z.abs m < 2 ^ 24)%Z -> (-149 <= e)%Z -> (e <= 104)%Z -> is_finite (b32 m e) = true /\ B2R (b32 m e) = IZR m * bpow radix2 e.
Proof.
  intros H L U. pose proof (binary_normalize_correct 24 128 eq_refl eq_refl mode_NE m e false) as C. cbv zeta in C.
  assert (V : F2R (Float radix2 m e) = IZR m * bpow radix2 e) by reflexivity. rewrite V in C.
  rewrite (round_generic radix2 (SpecFloat.fexp 24 128) (round_mode mode_NE) (IZR m * bpow radix2 e)) in C.
  - rewrite Rlt_bool_true in C; [split; [exact (proj1 (proj2 C)) | exact (proj1 C)]|]. rewrite Rabs_mult, <- abs_IZR, (Rabs_pos_eq (bpow _ _)) by apply bpow_ge_0.
    apply Rlt_le_trans with (bpow radix2 (24 + e)); [rewrite bpow_plus; apply Rmult_lt_compat_r; [apply bpow_gt_0 | exact (IZR_lt _ (2 ^ 24) H)] | apply bpow_le; lia].
  - apply generic_format_FLT. exists (Float radix2 m e); [reflexivity | exact H | exact L].
Qed.
Lemma cube_axis x i : axis (cube x) i = x.
Proof. destruct i as [|[|i]]; reflexivity. Qed.
Notation contains32 := (contains 24 128 _ _).

(** The box from 0 to 2 is found to contain a point below zero. *)
Theorem C154_contains_outside_refuted : exists (b : box 24 128) (p : vec float32), finite_box _ _ b /\ finite_vec _ _ p /\ contains32 b p = true
  /\ ~ in_range (C _ _ b 0) (E _ _ b 0) (V _ _ p 0).
Proof.
  exists (Box (cube (b32 1 0)) (cube (b32 1 0))), (cube (b32 (-1) (-30))). destruct (b32_val 1 0 ltac:(lia) ltac:(lia) ltac:(lia)) as [F1 V1]. destruct (b32_val (-1) (-30) ltac:(lia) ltac:(lia) ltac:(lia)) as [F2 V2].
  split; [split; intros i; cbn [center extents]; rewrite cube_axis; exact F1|]. split; [intros i; rewrite cube_axis; exact F2|]. split; [vm_compute; reflexivity|].
  unfold C, E, V. cbn [center extents]. rewrite !cube_axis, V1, V2. pose proof (bpow_gt_0 radix2 (-30)) as P. change (bpow radix2 0) with 1. unfold in_range. lra.
Qed.
(** Two boxes with a gap between them that are found to meet. *)
Theorem C154_intersects_apart_refuted : exists b1 b2 : box 24 128, finite_box _ _ b1 /\ finite_box _ _ b2 /\ intersects 24 128 _ _ b1 b2 = true
  /\ ~ ranges_meet (C _ _ b1 0) (E _ _ b1 0) (C _ _ b2 0) (E _ _ b2 0).
Proof.
  exists (Box (cube (b32 1 0)) (cube (b32 1 (-30)))), (Box (cube (b32 8388609 (-23))) (cube (b32 1 (-24)))).
  destruct (b32_val 1 0 ltac:(lia) ltac:(lia) ltac:(lia)) as [F1 V1]. destruct (b32_val 1 (-30) ltac:(lia) ltac:(lia) ltac:(lia)) as [F2 V2].
  destruct (b32_val 8388609 (-23) ltac:(lia) ltac:(lia) ltac:(lia)) as [F3 V3]. destruct (b32_val 1 (-24) ltac:(lia) ltac:(lia) ltac:(lia)) as [F4 V4].
  split; [split; intros i; cbn [center extents]; rewrite cube_axis; assumption|]. split; [split; intros i; cbn [center extents]; rewrite cube_axis; assumption|]. split; [vm_compute; reflexivity|].
  unfold C, E. cbn [center extents]. rewrite !cube_axis, V1, V2, V3, V4. unfold ranges_meet. cbn. lra.
Qed.
(** A box fitted to two points that does not contain the first. *)
Theorem C155_fitted_contains_refuted : exists p0 p1 : vec float32, finite_vec _ _ p0 /\ finite_vec _ _ p1 /\ contains32 (from_points 24 128 _ _ p0 p1 []) p0 = false.
Proof.
  exists (cube (b32 1 0)), (cube (b32 8388611 (-23))). destruct (b32_val 1 0 ltac:(lia) ltac:(lia) ltac:(lia)) as [F1 _]. destruct (b32_val 8388611 (-23) ltac:(lia) ltac:(lia) ltac:(lia)) as [F2 _].
  split; [intros i; rewrite cube_axis; exact F1|]. split; [intros i; rewrite cube_axis; exact F2|]. vm_compute. reflexivity.
Qed.
(** A box that, after a point was added, contains neither that point nor what it contained before. *)
Theorem C155_append_contains_refuted : exists (b : box 24 128) (p : vec float32), finite_box _ _ b /\ finite_vec _ _ p /\ contains32 b (center b) = true
  /\ contains32 (append 24 128 _ _ b p) (center b) = false.
Proof.
  exists (Box (cube (b32 1 0)) (cube (b32 0 0))), (cube (b32 8388611 (-23))). destruct (b32_val 1 0 ltac:(lia) ltac:(lia) ltac:(lia)) as [F1 _]. destruct (b32_val 8388611 (-23) ltac:(lia) ltac:(lia) ltac:(lia)) as [F2 _].
  destruct (b32_val 0 0 ltac:(lia) ltac:(lia) ltac:(lia)) as [F0 _].
  split; [split; intros i; cbn [center extents]; rewrite cube_axis; assumption|]. split; [intros i; rewrite cube_axis; exact F2|]. split; vm_compute; reflexivity.
Qed.
Theorem C155_append_point_refuted : exists (b : box 24 128) (p : vec float32), finite_box _ _ b /\ finite_vec _ _ p /\ contains32 (append 24 128 _ _ b p) p = false.
Proof.
  exists (Box (cube (b32 8388611 (-23))) (cube (b32 0 0))), (cube (b32 1 0)). destruct (b32_val 1 0 ltac:(lia) ltac:(lia) ltac:(lia)) as [F1 _]. destruct (b32_val 8388611 (-23) ltac:(lia) ltac:(lia) ltac:(lia)) as [F2 _].
  destruct (b32_val 0 0 ltac:(lia) ltac:(lia) ltac:(lia)) as [F0 _].
  split; [split; intros i; cbn [center extents]; rewrite cube_axis; assumption|]. split; [intros i; rewrite cube_axis; exact F1|]. vm_compute. reflexivity.
Qed.
(** Two points near the greatest float: their box contains nothing. *)
Example C155_overflow_witness : let p := cube (b32 3 126) in contains32 (from_points 24 128 _ _ p p []) p = false /\ contains32 (from_range 24 128 _ _ [p]) p = false.
Proof. split; vm_compute; reflexivity. Qed.
Example C154_witness : let b := Box (cube (b32 1 0)) (b32 1 0, b32 2 0, b32 3 0) in let p : vec float32 := (b32 2 0, b32 (-1) 0, b32 7 (-1)) in
  contains32 b p = true /\ contains32 b (b32 5 (-1), b32 0 0, b32 0 0) = false /\ intersects 24 128 _ _ b (Box p (cube (b32 1 (-3)))) = true
  /\ contains_box 24 128 _ _ b (Box (cube (b32 1 0)) (cube (b32 1 (-1)))) = true /\ contains_box 24 128 _ _ b (Box p (cube (b32 1 (-1)))) = false
  /\ contains32 b (b32 1 0, B754_nan, b32 1 0) = false.
Proof. repeat split; vm_compute; reflexivity. Qed.
(** Three points whose coordinates are quarters. *)
Definition quarters : list (vec float32) := [(b32 5 (-2), b32 (-3) 0, b32 0 0); (b32 1 0, b32 7 (-2), b32 1 (-2)); (b32 3 (-1), b32 2 0, b32 (-9) (-2))].
Example C155_witness : contains32 (from_range 24 128 _ _ quarters) (b32 5 (-2), b32 0 0, b32 0 0) = true /\ contains32 (from_range 24 128 _ _ quarters) (b32 7 (-2), b32 0 0, b32 0 0) = false
  /\ map (contains32 (from_range 24 128 _ _ quarters)) quarters = [true; true; true].
Proof. repeat split; vm_compute; reflexivity. Qed.
Example C155_grid_witness : forall p, In p quarters -> on_grid 24 128 (-2) p.
Proof.
  assert (K : forall m e n, (Z.abs m < 2 ^ 24)%Z -> (-149 <= e <= 104)%Z -> IZR m * bpow radix2 e = IZR n * bpow radix2 (-2) -> (Z.abs n <= 2 ^ 22)%Z ->
    is_finite (b32 m e) = true /\ exists n, (Z.abs n <= 2 ^ (24 - 2))%Z /\ B2R (b32 m e) = IZR n * bpow radix2 (-2)).
  { intros m e n A B D G. destruct (b32_val m e A ltac:(lia) ltac:(lia)) as [F V]. split; [exact F|]. exists n. split; [exact G | rewrite V; exact D]. }
  intros p [<-|[<-|[<-|[]]]] [|[|i]]; unfold V; cbn [axis].
  1: apply (K 5 (-2) 5)%Z. 5: apply (K (-3) 0 (-12))%Z. 9: apply (K 0 0 0)%Z. 13: apply (K 1 0 4)%Z. 17: apply (K 7 (-2) 7)%Z. 21: apply (K 1 (-2) 1)%Z. 25: apply (K 3 (-1) 6)%Z. 29: apply (K 2 0 8)%Z. 33: apply (K (-9) (-2) (-9))%Z.
  all: try lia; cbn; lra.
Qed.

Print Assumptions C154_inside_contains.
Print Assumptions C154_contains_near.
Print Assumptions C154_contains_nan.
Print Assumptions C154_meet_intersects.
Print Assumptions C154_intersects_near.
Print Assumptions C154_contains_box_near.
Print Assumptions C154_contains_box_transitive.
Print Assumptions C154_contains_outside_refuted.
Print Assumptions C155_fitted_faces.
Print Assumptions C155_fitted_overflow.
Print Assumptions C155_append_faces.
Print Assumptions C155_append_box_faces.
Print Assumptions C155_grid_contains.
Print Assumptions C155_grid_append_box.
Print Assumptions C155_grid_growing.
Print Assumptions C155_append_contains_refuted.
