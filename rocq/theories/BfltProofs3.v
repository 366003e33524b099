(** From the axes to the boxes. *)
From Coq Require Import ZArith Bool List Reals Lra Lia.
From Flocq Require Import Core BinarySingleNaN.
From Verif Require Import FpModel FpProofs VfltModel VfltSpec VfltProofs VfltProofs3 XfltModel BfltModel BfltSpec BfltProofs BfltProofs2.
Import ListNotations.
Local Open Scope R_scope.

Lemma lowest_join A B a x : lowest A a -> lowest (a :: B) x -> lowest (A ++ B) x.
Proof.
  intros [I L] [J K]. assert (La : x <= a) by (apply K; left; reflexivity). split.
  - apply in_or_app. destruct J as [<-|J]; [left; exact I | right; exact J].
  - intros y H. apply in_app_or in H as [H|H]; [specialize (L y H); lra | apply K; right; exact H].
Qed.
Lemma highest_join A B a x : highest A a -> highest (a :: B) x -> highest (A ++ B) x.
Proof.
  intros [I L] [J K]. assert (La : a <= x) by (apply K; left; reflexivity). split.
  - apply in_or_app. destruct J as [<-|J]; [left; exact I | right; exact J].
  - intros y H. apply in_app_or in H as [H|H]; [specialize (L y H); lra | apply K; right; exact H].
Qed.
Lemma lowest_ends A B a l g x : lowest A a -> lowest B l -> highest B g -> lowest [a; l; g] x -> lowest (A ++ B) x.
Proof.
  intros [I L] [J K] [J' K'] [E M]. assert (x <= a) by (apply M; left; reflexivity). assert (x <= l) by (apply M; right; left; reflexivity). split.
  - apply in_or_app. destruct E as [<-|[<-|[<-|[]]]]; [left; exact I | right; exact J | right; exact J'].
  - intros y H'. apply in_app_or in H' as [H'|H']; [specialize (L y H') | specialize (K y H')]; lra.
Qed.
Lemma highest_ends A B a l g x : highest A a -> lowest B l -> highest B g -> highest [a; l; g] x -> highest (A ++ B) x.
Proof.
  intros [I L] [J K] [J' K'] [E M]. assert (a <= x) by (apply M; left; reflexivity). assert (g <= x) by (apply M; right; right; left; reflexivity). split.
  - apply in_or_app. destruct E as [<-|[<-|[<-|[]]]]; [left; exact I | right; exact J | right; exact J'].
  - intros y H'. apply in_app_or in H' as [H'|H']; [specialize (L y H') | specialize (K' y H')]; lra.
Qed.

Section BfltProofs3.
  Variable prec emax : Z.
  Context (prec_gt_0_ : Prec_gt_0 prec).
  Context (prec_lt_emax_ : Prec_lt_emax prec emax).
  Hypothesis prec11 : (11 <= prec)%Z.
  Notation float := (binary_float prec emax).
  Notation vec := (vec float).
  Notation box := (box prec emax).
  Notation u := (half_ulp_1 prec).
  Notation h := (half_tiny prec emax).
  Notation emin := (3 - emax - prec)%Z.
  Notation fin := (fin prec emax).
  Notation sc := (sc prec emax _ _).
  Notation se := (se prec emax _ _).
  Notation smin_all := (smin_all prec emax).
  Notation smax_all := (smax_all prec emax).
  Notation min_corner := (min_corner prec emax _ _).
  Notation max_corner := (max_corner prec emax _ _).
  Notation from_min_max := (from_min_max prec emax _ _).

  Lemma axis_map2 f (v w : vec) i : axis (map2 prec emax f v w) i = f (axis v i) (axis w i).
  Proof using. destruct v as [[x y] z], w as [[x' y'] z'], i as [|[|i]]; reflexivity. Qed.
  Lemma axis_map1 f (v : vec) i : axis (map1 prec emax f v) i = f (axis v i).
  Proof using. destruct v as [[x y] z], i as [|[|i]]; reflexivity. Qed.
  Lemma all2_axes f (v w : vec) : all2 prec emax f v w = true <-> forall i, f (axis v i) (axis w i) = true.
  Proof using.
    destruct v as [[x y] z], w as [[x' y'] z']. cbn [all2]. rewrite !andb_true_iff. split.
    - intros [[A B] C] [|[|i]]; assumption.
    - intros H. split; [split; [exact (H 0%nat) | exact (H 1%nat)] | exact (H 2%nat)].
  Qed.
  Lemma axis_min_all (v : vec) vs i : axis (vmin_all prec emax v vs) i = smin_all (axis v i) (map (fun p : vec => axis p i) vs).
  Proof using. revert v. induction vs as [|w r IH]; intros v; [reflexivity|]. cbn [vmin_all map BfltProofs2.smin_all]. unfold vmin. rewrite axis_map2, IH. reflexivity. Qed.
  Lemma axis_max_all (v : vec) vs i : axis (vmax_all prec emax v vs) i = smax_all (axis v i) (map (fun p : vec => axis p i) vs).
  Proof using. revert v. induction vs as [|w r IH]; intros v; [reflexivity|]. cbn [vmax_all map BfltProofs2.smax_all]. unfold vmax. rewrite axis_map2, IH. reflexivity. Qed.
  Lemma axis_min_range vs (v : vec) i : axis (vmin_range prec emax v vs) i = fold_left (min2 prec emax) (map (fun p : vec => axis p i) vs) (axis v i).
  Proof using. revert v. induction vs as [|w r IH]; intros v; [reflexivity|]. unfold vmin_range in *. cbn [fold_left map]. rewrite IH. unfold vmin. rewrite axis_map2. reflexivity. Qed.
  Lemma axis_max_range vs (v : vec) i : axis (vmax_range prec emax v vs) i = fold_left (max2 prec emax) (map (fun p : vec => axis p i) vs) (axis v i).
  Proof using. revert v. induction vs as [|w r IH]; intros v; [reflexivity|]. unfold vmax_range in *. cbn [fold_left map]. rewrite IH. unfold vmax. rewrite axis_map2. reflexivity. Qed.
  Lemma axis_center (lo hi : vec) i : axis (center (from_min_max lo hi)) i = sc (axis lo i) (axis hi i).
  Proof using. cbn [BfltModel.from_min_max center]. unfold center_of. rewrite axis_map1, axis_map2. reflexivity. Qed.
  Lemma axis_extents (lo hi : vec) i : axis (extents (from_min_max lo hi)) i = se (axis lo i) (axis hi i).
  Proof using. cbn [BfltModel.from_min_max extents]. unfold extents_of. rewrite axis_map1, axis_map2. reflexivity. Qed.
  Lemma axis_min_corner (b : box) i : axis (min_corner b) i = Bplus mode_NE (axis (center b) i) (Bopp (axis (extents b) i)).
  Proof using. unfold BfltModel.min_corner. rewrite axis_map2, axis_map1. reflexivity. Qed.
  Lemma axis_max_corner (b : box) i : axis (max_corner b) i = Bplus mode_NE (axis (center b) i) (axis (extents b) i).
  Proof using. unfold BfltModel.max_corner. rewrite axis_map2. reflexivity. Qed.
  Lemma contains_axes (b : box) (p : vec) : contains prec emax _ _ b p = true <-> forall i, Bleb (abs prec emax (Bminus mode_NE (axis p i) (axis (center b) i))) (axis (extents b) i) = true.
  Proof using. unfold contains. rewrite all2_axes. split; intros H i; specialize (H i); rewrite axis_map1, axis_map2 in *; exact H. Qed.
  Lemma intersects_axes (b1 b2 : box) : intersects prec emax _ _ b1 b2 = true <->
    forall i, Bleb (axis (min_corner b2) i) (axis (max_corner b1) i) = true /\ Bleb (axis (min_corner b1) i) (axis (max_corner b2) i) = true.
  Proof using.
    unfold intersects. destruct (min_corner b1) as [[x1 y1] z1], (max_corner b1) as [[X1 Y1] Z1], (min_corner b2) as [[x2 y2] z2], (max_corner b2) as [[X2 Y2] Z2].
    rewrite !andb_true_iff. split.
    - intros (((((A & B) & C) & D) & E) & F) [|[|i]]; split; assumption.
    - intros H. destruct (H 0%nat), (H 1%nat), (H 2%nat). repeat split; assumption.
  Qed.
  Lemma contains_box_axes (b1 b2 : box) : contains_box prec emax _ _ b1 b2 = true <->
    forall i, Bleb (axis (min_corner b1) i) (axis (min_corner b2) i) = true /\ Bleb (axis (max_corner b2) i) (axis (max_corner b1) i) = true.
  Proof using.
    unfold contains_box. destruct (min_corner b1) as [[x1 y1] z1], (max_corner b1) as [[X1 Y1] Z1], (min_corner b2) as [[x2 y2] z2], (max_corner b2) as [[X2 Y2] Z2].
    rewrite !andb_true_iff. split.
    - intros (((((A & B) & C) & D) & E) & F) [|[|i]]; split; assumption.
    - intros H. destruct (H 0%nat), (H 1%nat), (H 2%nat). repeat split; assumption.
  Qed.
  Lemma Bleb_trans (x y z : float) : Bleb x y = true -> Bleb y z = true -> Bleb x z = true.
  Proof using.
    intros A B. destruct (is_finite x && is_finite y && is_finite z) eqn:F.
    - apply andb_prop in F as [F Fz]. apply andb_prop in F as [Fx Fy]. rewrite Bleb_correct in * by assumption.
      destruct (Rle_bool_spec (B2R x) (B2R y)); [|discriminate A]. destruct (Rle_bool_spec (B2R y) (B2R z)); [|discriminate B]. apply Rle_bool_true. lra.
    - destruct x as [s|[]| |[] m k X], y as [s'|[]| |[] m' k' Y], z as [s''|[]| |[] m'' k'' Z]; try discriminate F; try discriminate A; try discriminate B; reflexivity.
  Qed.

  (* ---------------------------------------------------------------- the least and the greatest coordinates *)
  Definition coords (ps : list vec) i : list R := map (fun p : vec => B2R (axis p i)) ps.
  Lemma coords_map (ps : list vec) i : coords ps i = map B2R (map (fun p : vec => axis p i) ps).
  Proof using. unfold coords. rewrite map_map. reflexivity. Qed.
  (** Both ways of fitting a box. *)
  Definition fitted (b : box) (ps : list vec) : Prop :=
    (ps <> [] /\ b = from_range prec emax _ _ ps) \/ (exists p0 p1 r, ps = p0 :: p1 :: r /\ b = from_points prec emax _ _ p0 p1 r).
  Lemma fitted_axis (b : box) (ps : list vec) i : fitted b ps -> Forall (fun p : vec => fin (axis p i)) ps ->
    exists lo hi, In lo (map (fun p : vec => axis p i) ps) /\ In hi (map (fun p : vec => axis p i) ps) /\ lowest (coords ps i) (B2R lo) /\ highest (coords ps i) (B2R hi)
      /\ axis (center b) i = sc lo hi /\ axis (extents b) i = se lo hi.
  Proof using.
    intros H F. rewrite coords_map. assert (F' : Forall fin (map (fun p : vec => axis p i) ps)) by (apply Forall_map; exact F).
    destruct H as [[N ->]|(p0 & p1 & r & -> & ->)].
    - destruct ps as [|p r]; [congruence|]. cbn [from_range map] in *. rewrite axis_center, axis_extents, axis_min_range, axis_max_range.
      destruct (smin_fold_ok prec emax _ _ F') as [I1 L1]. destruct (smax_fold_ok prec emax _ _ F') as [I2 L2]. do 2 eexists. split; [exact I1|]. split; [exact I2|]. split; [exact L1|]. split; [exact L2|]. split; reflexivity.
    - unfold from_points. rewrite axis_center, axis_extents, axis_min_all, axis_max_all. cbn [map] in *.
      destruct (smin_all_ok prec emax _ _ F') as [I1 L1]. destruct (smax_all_ok prec emax _ _ F') as [I2 L2].
      do 2 eexists. split; [exact I1|]. split; [exact I2|]. split; [exact L1|]. split; [exact L2|]. split; reflexivity.
  Qed.
  Definition appended (b : box) (ps : list vec) (b' : box) : Prop :=
    (exists p, ps = [p] /\ b' = append prec emax _ _ b p) \/ (exists p1 p2 r, ps = p1 :: p2 :: r /\ b' = append_all prec emax _ _ b p1 p2 r).
  Lemma appended_axis (b : box) (ps : list vec) (b' : box) i : appended b ps b' ->
    axis (center b') i = sc (smin_all (axis (min_corner b) i) (map (fun p : vec => axis p i) ps)) (smax_all (axis (max_corner b) i) (map (fun p : vec => axis p i) ps))
    /\ axis (extents b') i = se (smin_all (axis (min_corner b) i) (map (fun p : vec => axis p i) ps)) (smax_all (axis (max_corner b) i) (map (fun p : vec => axis p i) ps)).
  Proof using.
    intros [(p & -> & ->)|(p1 & p2 & r & -> & ->)]; unfold append, append_all; rewrite axis_center, axis_extents.
    - unfold vmin, vmax. rewrite !axis_map2. split; reflexivity.
    - rewrite axis_min_all, axis_max_all. split; reflexivity.
  Qed.

  (* ---------------------------------------------------------------- errors of appending *)
  Lemma append_faces (mc Mc : float) (l : list float) (c e M : R) (rs : list R) : fin mc -> fin Mc -> Forall fin l -> M <= bpow radix2 (emax - 3) ->
    Rabs (B2R mc - (c - e)) <= u * M -> Rabs (B2R Mc - (c + e)) <= u * M -> Rabs c + Rabs e <= M -> Forall (fun r => Rabs r <= M) rs ->
    Forall2 (fun a r => Rabs (a - r) <= u * M) (map B2R l) rs ->
    forall lo hi, lowest ((c - e) :: rs) lo -> highest ((c + e) :: rs) hi ->
    let a := smin_all mc l in let z := smax_all Mc l in
    fin (sc a z) /\ fin (se a z) /\ Rabs (B2R (sc a z) - B2R (se a z) - lo) <= u * (2 + u) * M + 2 * h /\ Rabs (B2R (sc a z) + B2R (se a z) - hi) <= u * (2 + u) * M + 2 * h.
  Proof using prec11.
    intros Fm FM Fl HM Em EM LM Lr F2 lo hi Hlo Hhi a z. pose proof (u_pos prec) as U. pose proof (u_le prec _) as U2.
    destruct (smin_all_ok prec emax mc l (Forall_cons _ Fm Fl)) as [Ia La]. destruct (smax_all_ok prec emax Mc l (Forall_cons _ FM Fl)) as [Iz Lz]. fold a in Ia, La. fold z in Iz, Lz.
    assert (Fa : fin a) by (exact (proj1 (Forall_forall _ _) (Forall_cons _ Fm Fl) _ Ia)). assert (Fz : fin z) by (exact (proj1 (Forall_forall _ _) (Forall_cons _ FM Fl) _ Iz)).
    assert (Na : Rabs (B2R a - lo) <= u * M) by (refine (lowest_near _ _ _ _ _ _ La Hlo); constructor; [exact Em | exact F2]).
    assert (Nz : Rabs (B2R z - hi) <= u * M) by (refine (highest_near _ _ _ _ _ _ Lz Hhi); constructor; [exact EM | exact F2]).
    assert (Ml : Rabs lo <= M).
    { destruct (proj1 Hlo) as [<-|I]; [|exact (proj1 (Forall_forall _ _) Lr _ I)]. unfold Rminus. pose proof (Rabs_triang c (- e)) as T. rewrite Rabs_Ropp in T. lra. }
    assert (Mh : Rabs hi <= M).
    { destruct (proj1 Hhi) as [<-|I]; [|exact (proj1 (Forall_forall _ _) Lr _ I)]. pose proof (Rabs_triang c e) as T. lra. }
    assert (M0 : 0 <= M) by (pose proof (Rabs_pos lo); lra).
    assert (Ba : Rabs (B2R a) <= (1 + u) * M) by (pose proof (Rabs_triang (B2R a - lo) lo) as T; replace (B2R a - lo + lo) with (B2R a) in T by ring; lra).
    assert (Bz : Rabs (B2R z) <= (1 + u) * M) by (pose proof (Rabs_triang (B2R z - hi) hi) as T; replace (B2R z - hi + hi) with (B2R z) in T by ring; lra).
    assert (K : (1 + u) * M <= bpow radix2 (emax - 2)).
    { replace (emax - 2)%Z with (1 + (emax - 3))%Z by ring. rewrite bpow_plus. change (bpow radix2 1) with 2. nra. }
    destruct (middle prec emax _ _ prec11 a z _ Fa Fz Ba Bz K) as (F1 & F3 & _ & _). destruct (faces prec emax _ _ prec11 a z _ Fa Fz Ba Bz K) as [A B].
    split; [exact F1|]. split; [exact F3|]. apply Rabs_le_inv in A, B, Na, Nz. split; apply Rabs_le; lra.
  Qed.
  Lemma corner_near (b : box) i (M : R) : fin (axis (center b) i) -> fin (axis (extents b) i) -> Rabs (B2R (axis (center b) i)) + Rabs (B2R (axis (extents b) i)) <= M -> M <= bpow radix2 (emax - 3) ->
    fin (axis (min_corner b) i) /\ fin (axis (max_corner b) i)
    /\ Rabs (B2R (axis (min_corner b) i) - (B2R (axis (center b) i) - B2R (axis (extents b) i))) <= u * M
    /\ Rabs (B2R (axis (max_corner b) i) - (B2R (axis (center b) i) + B2R (axis (extents b) i))) <= u * M.
  Proof using prec11.
    intros Fc Fe L HM. rewrite axis_min_corner, axis_max_corner. set (c := axis (center b) i) in *. set (e := axis (extents b) i) in *.
    assert (Bo : fin (Bopp e)) by (unfold BfltProofs2.fin; rewrite is_finite_Bopp; exact Fe). pose proof (u_pos prec) as U.
    assert (K : M <= bpow radix2 (emax - 1)) by (apply Rle_trans with (1 := HM), bpow_le; lia).
    pose proof (Rabs_triang (B2R c) (B2R e)) as T1. pose proof (Rabs_triang (B2R c) (- B2R e)) as T2. rewrite Rabs_Ropp in T2.
    destruct (sum_ok prec emax _ _ prec11 c (Bopp e) Fc Bo) as [F1 V1]; [rewrite B2R_Bopp; lra|]. destruct (sum_ok prec emax _ _ prec11 c e Fc Fe) as [F2 V2]; [lra|].
    split; [exact F1|]. split; [exact F2|]. rewrite V1, V2.
    pose proof (proj1 (rel_le prec _ _ (rnd_plus prec emax _ c (Bopp e)))) as E1. pose proof (proj1 (rel_le prec _ _ (rnd_plus prec emax _ c e))) as E2. rewrite B2R_Bopp in *.
    split; [apply Rle_trans with (1 := E1) | apply Rle_trans with (1 := E2)]; apply Rmult_le_compat_l; lra.
  Qed.

  (* ---------------------------------------------------------------- grids *)
  Definition grid_float k (x : float) : Prop := fin x /\ exists m, (Z.abs m <= 2 ^ (prec - 2))%Z /\ B2R x = IZR m * bpow radix2 k.
  Lemma grid_float_value k x : grid_float k x -> exists m, (Z.abs m <= 2 ^ (prec - 2))%Z /\ grid_value prec emax k x (2 * m) /\ B2R x = IZR m * bpow radix2 k.
  Proof using.
    intros (F & m & L & V). exists m. split; [exact L|]. split; [|exact V]. split; [exact F|]. rewrite V, mult_IZR. replace k with (1 + (k - 1))%Z at 1 by ring. rewrite bpow_plus. change (bpow radix2 1) with 2. ring.
  Qed.
  Lemma double_grid k m : IZR (2 * m) * bpow radix2 (k - 1) = IZR m * bpow radix2 k.
  Proof using. rewrite mult_IZR. replace k with (1 + (k - 1))%Z at 2 by ring. rewrite bpow_plus. change (bpow radix2 1) with 2. ring. Qed.
  Lemma half_sum k m n : IZR (m + n) * bpow radix2 (k - 1) = (IZR m * bpow radix2 k + IZR n * bpow radix2 k) / 2.
  Proof using. rewrite <- (double_grid k m), <- (double_grid k n), !mult_IZR, plus_IZR. field. Qed.
  Lemma half_diff k m n : IZR (n - m) * bpow radix2 (k - 1) = (IZR n * bpow radix2 k - IZR m * bpow radix2 k) / 2.
  Proof using. rewrite <- (double_grid k m), <- (double_grid k n), !mult_IZR, minus_IZR. field. Qed.
  (** The exact box of two ends. *)
  Definition exact_axis (c e : float) (lo hi : R) : Prop := fin c /\ fin e /\ B2R c = (lo + hi) / 2 /\ B2R e = (hi - lo) / 2.
  Lemma exact_grid k c e (m n : Z) : exact_axis c e (IZR m * bpow radix2 k) (IZR n * bpow radix2 k) -> grid_value prec emax k c (m + n) /\ grid_value prec emax k e (n - m).
  Proof using. intros (F1 & F2 & V1 & V2). split; split; try assumption; [rewrite half_sum | rewrite half_diff]; assumption. Qed.
  Lemma grid_exact k lo hi : (emin < k)%Z -> (k + prec <= emax)%Z -> grid_float k lo -> grid_float k hi -> exact_axis (sc lo hi) (se lo hi) (B2R lo) (B2R hi).
  Proof using prec11.
    intros K1 K2 Gl Gh. destruct (grid_float_value k lo Gl) as (m & Lm & Vm & ->), (grid_float_value k hi Gh) as (n & Ln & Vn & ->).
    destruct (grid_box prec emax _ _ prec11 k K1 K2 lo hi m n Vm Vn Lm Ln) as [[F1 E1] [F2 E2]]. split; [exact F1|]. split; [exact F2|]. rewrite E1, E2, half_sum, half_diff. split; reflexivity.
  Qed.
  Lemma exact_corners k c e lo hi : (emin < k)%Z -> (k + prec <= emax)%Z -> grid_float k lo -> grid_float k hi -> exact_axis c e (B2R lo) (B2R hi) ->
    grid_float k (Bplus mode_NE c (Bopp e)) /\ grid_float k (Bplus mode_NE c e) /\ B2R (Bplus mode_NE c (Bopp e)) = B2R lo /\ B2R (Bplus mode_NE c e) = B2R hi.
  Proof using prec11.
    intros K1 K2 Gl Gh E. destruct (grid_float_value k lo Gl) as (m & Lm & Vm & Em), (grid_float_value k hi Gh) as (n & Ln & Vn & En). rewrite Em, En in *.
    destruct (exact_grid k c e m n E) as [Gc Ge]. destruct (grid_corners prec emax _ _ prec11 k K1 K2 c e m n Gc Ge Lm Ln) as [[F1 V1] [F2 V2]]. rewrite double_grid in V1, V2.
    repeat split; try assumption; [exists m | exists n]; split; assumption.
  Qed.
End BfltProofs3.
