(** Property C175. *)
From Coq Require Import Reals Lra Bool.
From Verif Require Import MatModel VecModel VecSpec QuatModel GeomModel GeomSpec GeomProofs SegModel.
Local Open Scope R_scope.

Definition len (p q : v3) : R := sqrt (dist2 p q).
Lemma dist2_nonneg p q : 0 <= dist2 p q.
Proof. unfold dist2. pose proof (Rle_0_sqr (vx p - vx q)). pose proof (Rle_0_sqr (vy p - vy q)). pose proof (Rle_0_sqr (vz p - vz q)). unfold Rsqr in *. lra. Qed.
Lemma len_sqr p q : len p q * len p q = dist2 p q.
Proof. apply sqrt_sqrt, dist2_nonneg. Qed.
Lemma len_length p q : length3 (sub3 q p) = len p q.
Proof. unfold length3, len, length_squared3, dist2, sub3. cbn [vx vy vz]. f_equal. ring. Qed.
Lemma len_pos p q : p <> q -> 0 < len p q.
Proof.
  intros N. destruct (Rle_lt_or_eq_dec 0 (len p q) (sqrt_pos _)) as [H|H]; [exact H|]. exfalso. apply N. symmetry in H. rewrite <- len_length in H. apply length_zero in H. destruct p as [p1 p2 p3], q as [q1 q2 q3]. unfold sub3, origin in H. cbn [vx vy vz] in H. injection H as A B C. f_equal; lra.
Qed.
Lemma dist2_along a b s t : dist2 (along a b s) (along a b t) = (s - t) * (s - t) * dist2 a b.
Proof. unfold dist2, along. cbn [vx vy vz]. ring. Qed.
Lemma along_0 a b : along a b 0 = a. Proof. destruct a as [a1 a2 a3], b as [b1 b2 b3]. unfold along. cbn [vx vy vz]. f_equal; ring. Qed.
Lemma along_1 a b : along a b 1 = b. Proof. destruct a as [a1 a2 a3], b as [b1 b2 b3]. unfold along. cbn [vx vy vz]. f_equal; ring. Qed.
Lemma along_along a b s t : along a (along a b s) t = along a b (t * s).
Proof. unfold along. cbn [vx vy vz]. f_equal; ring. Qed.
Lemma along_back a b s t : along b (along a b s) t = along a b (1 - t + t * s).
Proof. unfold along. cbn [vx vy vz]. f_equal; ring. Qed.
Lemma extend_eq p0 p1 k : p0 <> p1 -> extend p0 p1 k = Some (p0, along p0 p1 (1 + k / len p0 p1)).
Proof.
  intros N. pose proof (len_pos _ _ N) as P. unfold extend. destruct (normalize_opt_spec (sub3 p1 p0)) as [(E & _)|(_ & ->)].
  - exfalso. apply length_zero in E. rewrite len_length in E. lra.
  - unfold normalize3. rewrite len_length. do 2 f_equal. unfold add3, scale3, sub3, along. cbn [vx vy vz]. f_equal; field; lra.
Qed.

(** Extending: the start stays, the end moves along the line and the length grows by the amount asked for; no point of the segment is lost, and what is added beyond the old end has that length. *)
Theorem C175_extend : forall p0 p1 k, p0 <> p1 -> 0 <= k ->
  exists q, extend p0 p1 k = Some (p0, q) /\ len p0 q = len p0 p1 + k /\ len p1 q = k /\ in_segment p0 q p1 /\ forall x, in_segment p0 p1 x -> in_segment p0 q x.
Proof.
  intros p0 p1 k N K. pose proof (len_pos _ _ N) as P. set (L := len p0 p1) in *. set (s := 1 + k / L). exists (along p0 p1 s). split; [apply extend_eq, N|].
  assert (KL : 0 <= k / L) by (apply Rmult_le_pos; [exact K|left; apply Rinv_0_lt_compat, P]). assert (S : 1 <= s) by (unfold s; lra).
  assert (SL : s * L = L + k) by (unfold s; field; lra).
  assert (D : dist2 p0 p1 = L * L) by (symmetry; apply len_sqr).
  split; [|split; [|split]].
  - unfold len. rewrite <- (along_0 p0 p1) at 1. rewrite dist2_along, D. replace ((0 - s) * (0 - s) * (L * L)) with ((s * L) * (s * L)) by ring. rewrite SL. apply sqrt_square. lra.
  - unfold len. rewrite <- (along_1 p0 p1) at 1. rewrite dist2_along, D. replace ((1 - s) * (1 - s) * (L * L)) with ((s * L - L) * (s * L - L)) by ring. rewrite SL. replace (L + k - L) with k by ring. apply sqrt_square, K.
  - exists (/ s). split; [split; [left; apply Rinv_0_lt_compat; lra|rewrite <- Rinv_1; apply Rinv_le_contravar; lra]|]. rewrite along_along, Rinv_l by lra. rewrite along_1. reflexivity.
  - intros x (t & T & ->). exists (t / s). split; [|rewrite along_along; f_equal; field; lra]. split.
    + apply Rmult_le_pos; [lra|left; apply Rinv_0_lt_compat; lra].
    + apply Rmult_le_reg_r with s; [lra|]. unfold Rdiv. rewrite Rmult_assoc, Rinv_l by lra. lra.
Qed.
Print Assumptions C175_extend.
(** A negative amount shortens it, down to the start; beyond that it comes out on the other side of the start. *)
Theorem C175_shorten : forall p0 p1 k, p0 <> p1 ->
  exists q, extend p0 p1 (- k) = Some (p0, q) /\ len p0 q = Rabs (len p0 p1 - k) /\
    (0 <= k <= len p0 p1 -> in_segment p0 p1 q) /\ (k = len p0 p1 -> q = p0) /\ (len p0 p1 < k -> in_segment p1 q p0 /\ ~ in_segment p0 p1 q).
Proof.
  intros p0 p1 k N. pose proof (len_pos _ _ N) as P. set (L := len p0 p1) in *. set (s := 1 + - k / L). exists (along p0 p1 s). split; [apply extend_eq, N|].
  assert (SL : s * L = L - k) by (unfold s; field; lra). assert (D : dist2 p0 p1 = L * L) by (symmetry; apply len_sqr).
  split; [|split; [|split]].
  - unfold len. rewrite <- (along_0 p0 p1) at 1. rewrite dist2_along, D. replace ((0 - s) * (0 - s) * (L * L)) with (Rsqr (s * L)) by (unfold Rsqr; ring). rewrite SL. apply sqrt_Rsqr_abs.
  - intros K. exists s. split; [|reflexivity]. split; apply Rmult_le_reg_r with L; lra.
  - intros ->. assert (s = 0) as -> by (unfold s; field; lra). apply along_0.
  - intros K. assert (S : s < 0) by (apply Rmult_lt_reg_r with L; lra). split.
    + exists (/ (1 - s)). split; [split; [left; apply Rinv_0_lt_compat; lra|rewrite <- Rinv_1 at 2; apply Rinv_le_contravar; lra]|]. rewrite along_back. replace (1 - / (1 - s) + / (1 - s) * s) with 0 by (field; lra). symmetry. apply along_0.
    + intros (t & T & E). assert (Z : dist2 (along p0 p1 s) (along p0 p1 t) = 0) by (rewrite <- E; unfold dist2; ring). rewrite dist2_along, D in Z.
      apply Rmult_integral in Z. destruct Z as [Z|Z]; apply Rmult_integral in Z; lra.
Qed.
Print Assumptions C175_shorten.
(** Extending by two amounts one after the other is extending by their sum, as long as the first leaves some of it in the same direction. *)
Theorem C175_twice : forall p0 p1 j k, p0 <> p1 -> - len p0 p1 < j ->
  exists q, extend p0 p1 j = Some (p0, q) /\ extend p0 q k = extend p0 p1 (j + k).
Proof.
  intros p0 p1 j k N J. pose proof (len_pos _ _ N) as P. set (L := len p0 p1) in *. set (s := 1 + j / L). exists (along p0 p1 s). split; [apply extend_eq, N|].
  assert (SL : s * L = L + j) by (unfold s; field; lra). assert (S : 0 < s) by (apply Rmult_lt_reg_r with L; lra). assert (D : dist2 p0 p1 = L * L) by (symmetry; apply len_sqr).
  assert (Q : len p0 (along p0 p1 s) = L + j).
  { unfold len. rewrite <- (along_0 p0 p1) at 1. rewrite dist2_along, D. replace ((0 - s) * (0 - s) * (L * L)) with ((s * L) * (s * L)) by ring. rewrite SL. apply sqrt_square. lra. }
  assert (N' : p0 <> along p0 p1 s).
  { intros E. rewrite <- E in Q. unfold len, dist2 in Q. replace (_ + _) with 0 in Q by ring. rewrite sqrt_0 in Q. lra. }
  rewrite (extend_eq p0 _ k N'), (extend_eq p0 p1 (j + k) N), along_along, Q. fold L. do 2 f_equal. f_equal. unfold s. field. lra.
Qed.
Print Assumptions C175_twice.
(** A segment has no direction exactly if it is degenerate. *)
Theorem C175_degenerate : forall p0 p1 k, (seg_degenerate p0 p1 = true <-> p0 = p1) /\ (seg_degenerate p0 p1 = true <-> extend p0 p1 k = None).
Proof.
  intros p0 p1 k. assert (E : seg_degenerate p0 p1 = true <-> p0 = p1).
  { unfold seg_degenerate, eq3. destruct p0 as [a b c], p1 as [x y z]. cbn [vx vy vz]. destruct (Req_EM_T a x) as [A|A], (Req_EM_T b y) as [B|B], (Req_EM_T c z) as [C|C]; split; intros H; try discriminate; try (injection H as ? ? ?; contradiction); [subst; reflexivity|reflexivity]. }
  split; [exact E|]. rewrite E. split; intros H.
  - subst p1. unfold extend. destruct (normalize_opt_spec (sub3 p0 p0)) as [(_ & ->)|(B & _)]; [reflexivity|]. exfalso. apply B. unfold sub3, origin. f_equal; ring.
  - destruct (normalize_opt_spec (sub3 p1 p0)) as [(B & _)|(_ & B)]; [|unfold extend in H; rewrite B in H; discriminate]. destruct p0 as [a1 a2 a3], p1 as [b1 b2 b3]. unfold sub3, origin in B. cbn [vx vy vz] in B. injection B as ? ? ?. f_equal; lra.
Qed.
Print Assumptions C175_degenerate.
(** Reversing keeps the points and swaps the ends; extending a reversed segment moves what was its start. *)
Theorem C175_reverse : forall p0 p1, let r := reverse p0 p1 in reverse (fst r) (snd r) = (p0, p1) /\ (forall x, in_segment (fst r) (snd r) x <-> in_segment p0 p1 x) /\
  forall k, p0 <> p1 -> 0 <= k -> exists q, extend (fst r) (snd r) k = Some (p1, q) /\ len p0 q = k /\ len q p1 = len p0 p1 + k.
Proof.
  intros p0 p1 r. unfold r, reverse. cbn [fst snd]. split; [reflexivity|].
  assert (S : forall a b x, in_segment a b x -> in_segment b a x). { intros a b x (t & T & ->). exists (1 - t). split; [lra|]. unfold along. f_equal; ring. }
  split; [intros x; split; apply S|]. intros k N K. destruct (C175_extend p1 p0 k (fun E => N (eq_sym E)) K) as (q & E & L1 & L2 & _). exists q. split; [exact E|]. split; [exact L2|].
  assert (C : forall a b, len a b = len b a) by (intros a b; unfold len, dist2; f_equal; ring). rewrite (C q p1), L1, (C p1 p0). reflexivity.
Qed.
Print Assumptions C175_reverse.
(** A ray that bounces off starts at the point at the given distance along the first one. *)
Theorem C175_bounce : forall o d t dir, is_unit d -> let r := bounce o d t dir in fst r = reach o d t /\ len o (fst r) = Rabs t /\ snd r = dir /\ (forall s, at_ (fst r) (snd r) s = reach (reach o d t) dir s).
Proof.
  intros o d t dir U r. assert (F : fst r = reach o d t) by (unfold r, bounce, at_, add3, scale3, reach; cbn [fst vx vy vz]; f_equal; ring). split; [exact F|]. split; [|split; [reflexivity|]].
  - rewrite F. unfold is_unit in U. rewrite inner_eq in U. unfold len, dist2, reach. cbn [vx vy vz]. rewrite <- sqrt_Rsqr_abs. f_equal. unfold Rsqr.
    transitivity (t * t * (vx d * vx d + vy d * vy d + vz d * vz d)); [ring|rewrite U; ring].
  - intros s. rewrite F. unfold r, bounce, at_, add3, scale3, reach. cbn [snd vx vy vz]. f_equal; ring.
Qed.
Print Assumptions C175_bounce.
Example C175_witness : let p0 := V3 1 2 3 in let p1 := V3 1 2 8 in p0 <> p1 /\ len p0 p1 = 5 /\ extend p0 p1 5 = Some (p0, V3 1 2 13).
Proof.
  cbv zeta. assert (N : V3 1 2 3 <> V3 1 2 8) by (intros E; injection E as E; lra). assert (L : len (V3 1 2 3) (V3 1 2 8) = 5). { unfold len, dist2. cbn [vx vy vz]. replace (_ + _) with (5 * 5) by ring. apply sqrt_square. lra. }
  split; [exact N|]. split; [exact L|]. rewrite (extend_eq _ _ _ N), L. do 2 f_equal. unfold along. cbn [vx vy vz]. f_equal; field.
Qed.
