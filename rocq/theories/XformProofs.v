From Coq Require Import Reals List Lra Psatz Lia.
From Verif Require Import Words MatModel MatSpec MatProofs MatProofs2 MatProps VecModel VecSpec VecProofs QuatModel QuatSpec QuatProofs QuatProofs2 XformModel XformSpec.
Import ListNotations.
Local Open Scope R_scope.

Lemma R_field : exact_field R_ops.
Proof.
  constructor; [exact (RTheory)|intro H; cbn in H; lra|intros x y; cbn; unfold Rdiv; ring|intros x H; cbn in *; field; exact H].
Qed.
Lemma R_ring : exact_ring R_ops.
Proof. exact RTheory. Qed.

Definition weight (m : list (list R)) (p : v3) : R := row_times m 3 p.
Lemma row_times_eq m i p : row_times m i p = rget m i 0 * vx p + rget m i 1 * vy p + rget m i 2 * vz p + rget m i 3.
Proof. unfold row_times, rget. cbn [sum R_ops add mul zero comp]. ring. Qed.
Lemma tp4_eq j m p : transform_position j 4 4 m p = V3 (1 / weight m p * row_times m 0 p) (1 / weight m p * row_times m 1 p) (1 / weight m p * row_times m 2 p).
Proof. unfold weight. rewrite !row_times_eq. reflexivity. Qed.
Lemma tp4_comp j m p i : (i < 3)%nat -> comp (transform_position j 4 4 m p) i = 1 / weight m p * row_times m i p.
Proof. intros H. rewrite tp4_eq. destruct i as [|[|[|i]]]; [reflexivity|reflexivity|reflexivity|lia]. Qed.

Lemma row_mul j A B p i : (i < 4)%nat -> row_times (mat_mul R_ops j 4 4 4 A B) i p =
  rget A i 0 * row_times B 0 p + rget A i 1 * row_times B 1 p + rget A i 2 * row_times B 2 p + rget A i 3 * row_times B 3 p.
Proof.
  intros H. rewrite !row_times_eq. unfold rget.
  destruct i as [|[|[|[|i]]]]; [| | | |lia];
    match goal with |- context [get R_ops (mat_mul _ _ _ _ _ _ _) ?i _] =>
      change (mat_mul R_ops j 4 4 4 A B) with (mul_4x4 R_ops A B); unfold mul_4x4;
      set (G := get R_ops); unfold get, MatModel.at_; subst G end;
    set (a := get R_ops A); set (b := get R_ops B); unfold get, MatModel.at_; cbn [nth R_ops add mul]; ring.
Qed.
Lemma row_mul_scaled j A B p i : (i < 4)%nat -> weight B p <> 0 ->
  row_times (mat_mul R_ops j 4 4 4 A B) i p = weight B p * row_times A i (transform_position j 4 4 B p).
Proof.
  intros H N. rewrite (row_mul j A B p i H), (row_times_eq A), tp4_eq. cbn [vx vy vz]. unfold weight in *. field. exact N.
Qed.
Lemma tp4_mul j A B p : weight B p <> 0 -> weight A (transform_position j 4 4 B p) <> 0 ->
  transform_position j 4 4 (mat_mul R_ops j 4 4 4 A B) p = transform_position j 4 4 A (transform_position j 4 4 B p).
Proof.
  intros N N'. rewrite (tp4_eq j (mat_mul _ _ _ _ _ _ _)), (tp4_eq j A). set (q := transform_position j 4 4 B p) in *.
  unfold weight at 1 2 3. rewrite !row_mul_scaled by (lia || exact N). fold q. unfold weight in *. f_equal; field; split; assumption.
Qed.
Lemma row_identity i p : (i < 4)%nat -> row_times (identity R_ops 4 4) i p = comp p i.
Proof. intros H. rewrite row_times_eq. destruct i as [|[|[|[|i]]]]; [| | | |lia]; cbv [rget get MatModel.at_ identity]; cbn; ring. Qed.
Lemma tp_identity j rows cols p : shape rows cols -> transform_position j rows cols (identity R_ops rows cols) p = p.
Proof.
  intros [[-> ->]|[[-> ->]|[-> ->]]].
  - unfold transform_position. cbn. destruct p. f_equal; cbn; unfold R_ops; cbn; ring.
  - unfold transform_position. cbn. destruct p. f_equal; cbn; unfold R_ops; cbn; ring.
  - rewrite tp4_eq. unfold weight. rewrite !row_identity by lia. destruct p. cbn. f_equal; field.
Qed.
Lemma weight_affine m p : affine m -> weight m p = 1.
Proof. intros (A & B & C & D). unfold weight. rewrite row_times_eq. unfold rget. rewrite A, B, C, D. ring. Qed.
Lemma affine_mul j A B : affine A -> affine B -> affine (mat_mul R_ops j 4 4 4 A B).
Proof.
  intros (A0 & A1 & A2 & A3) (B0 & B1 & B2 & B3). unfold affine. change (mat_mul R_ops j 4 4 4 A B) with (mul_4x4 R_ops A B).
  unfold mul_4x4. set (a := get R_ops A) in *. set (b := get R_ops B) in *. unfold get, MatModel.at_. cbn [nth R_ops add mul].
  rewrite A0, A1, A2, A3, B0, B1, B2, B3. repeat split; ring.
Qed.

(** Gram and Schmidt *)
Lemma inner3_sym v w : inner3 v w = inner3 w v.
Proof. rewrite !inner3_eq. ring. Qed.
Lemma unit_nonzero v : inner3 v v = 1 -> v <> origin.
Proof. intros U ->. rewrite inner3_eq in U. cbn in U. lra. Qed.
Lemma nonzero_length v : v <> origin -> 0 < length3 v.
Proof.
  intros N. destruct (length3_sqr v) as [A B]. destruct (Req_dec (length3 v) 0) as [Z|Z]; [|lra]. exfalso. apply N.
  rewrite Z, inner3_eq in A. apply QuatProofs.v3_eq; cbn; nra.
Qed.
Lemma normalize3_scale v : v <> origin -> exists l, 0 < l /\ v = scale3 (normalize3 v) l /\ normalize3 v = scale3 v (1 / l) /\ inner3 (normalize3 v) (normalize3 v) = 1.
Proof.
  intros N. exists (length3 v). pose proof (nonzero_length v N) as P. split; [exact P|]. split; [|split; [reflexivity|apply normalize3_facts, N]].
  apply QuatProofs.v3_eq; cbn; field; lra.
Qed.
Lemma triple_cross x y z : triple x y z = inner3 (cross x y) z.
Proof. rewrite inner3_eq. unfold triple. cbn. ring. Qed.

Lemma set_column3_dims rows cols m c v : dims rows cols m -> dims rows cols (set_column3 m c v).
Proof. intros D. unfold set_column3. repeat apply set_dims. exact D. Qed.
Lemma rget_set_column3 rows cols m c v r c' : dims rows cols m -> (3 <= rows)%nat -> (c < cols)%nat ->
  rget (set_column3 m c v) r c' = if ((c' =? c) && (r <? 3))%nat%bool then comp v r else rget m r c'.
Proof.
  intros D R C. unfold rget, set_column3.
  rewrite (get_set R_ops rows cols) by (repeat apply set_dims; assumption || lia). rewrite (get_set R_ops rows cols) by (repeat apply set_dims; assumption || lia).
  rewrite (get_set R_ops rows cols) by (assumption || lia).
  destruct (Nat.eqb_spec c' c) as [->|N]; rewrite ?andb_true_r, ?andb_false_r; cbn [andb]; [|reflexivity].
  destruct r as [|[|[|r]]]; reflexivity.
Qed.
Lemma column3_set rows cols m c v c' : dims rows cols m -> (3 <= rows)%nat -> (c < cols)%nat ->
  column3 (set_column3 m c v) c' = if (c' =? c)%nat then v else column3 m c'.
Proof.
  intros D R C. unfold column3. rewrite !(rget_set_column3 rows cols) by assumption.
  destruct (c' =? c)%nat; cbn [andb Nat.ltb Nat.leb comp]; [destruct v|]; reflexivity.
Qed.
Lemma column_dot_eq m c m' c' : column_dot m c m' c' = inner3 (column3 m c) (column3 m' c').
Proof. rewrite inner3_eq. reflexivity. Qed.
Lemma column_normalize_eq rows m c : column_normalize rows m c = set_column3 m c (normalize3 (column3 m c)).
Proof.
  unfold column_normalize. destruct (rows =? 3)%nat; [reflexivity|]. rewrite column_dot_eq. f_equal. unfold normalize3, length3. f_equal. f_equal. f_equal.
  rewrite inner3_eq. reflexivity.
Qed.

Definition without (v w : v3) : v3 := sub3 v (scale3 w (inner3 v w)).
Lemma orthonormalize_columns rows cols m : dims rows cols m -> (3 <= rows)%nat -> (3 <= cols)%nat ->
  let out := orthonormalize rows m in
  dims rows cols out /\ (forall r c, (3 <= r)%nat \/ (3 <= c)%nat -> rget out r c = rget m r c) /\
  let X := normalize3 (column3 m 0) in let Y := normalize3 (without (column3 m 1) X) in let Z := normalize3 (without (without (column3 m 2) X) Y) in
  column3 out 0 = X /\ column3 out 1 = Y /\ column3 out 2 = Z.
Proof.
  intros D R C out. unfold out, orthonormalize. rewrite !column_normalize_eq. unfold subtract_dot_mult. rewrite !column_dot_eq.
  set (m0 := set_column3 m 0 _). assert (D0 : dims rows cols m0) by (apply set_column3_dims; exact D).
  set (m1 := set_column3 m0 1 _). assert (D1 : dims rows cols m1) by (apply set_column3_dims; exact D0).
  set (m2 := set_column3 m1 1 _). assert (D2 : dims rows cols m2) by (apply set_column3_dims; exact D1).
  set (m3 := set_column3 m2 2 _). assert (D3 : dims rows cols m3) by (apply set_column3_dims; exact D2).
  set (m4 := set_column3 m3 2 _). assert (D4 : dims rows cols m4) by (apply set_column3_dims; exact D3).
  split; [apply set_column3_dims; exact D4|]. split.
  - intros r c H.
    assert (G : forall n k v, dims rows cols n -> (k < 3)%nat -> rget (set_column3 n k v) r c = rget n r c).
    { intros n k v Dn K. rewrite (rget_set_column3 rows cols) by (assumption || lia). destruct (Nat.eqb_spec c k) as [E|E]; [|reflexivity]. destruct (Nat.ltb_spec r 3); [lia|reflexivity]. }
    unfold m4, m3, m2, m1, m0. rewrite !G; (reflexivity || lia || assumption || (repeat apply set_column3_dims; assumption)).
  - assert (C0 : forall k, column3 m0 k = if (k =? 0)%nat then normalize3 (column3 m 0) else column3 m k) by (intros k; apply (column3_set rows cols); assumption || lia).
    assert (C1 : forall k, column3 m1 k = if (k =? 1)%nat then without (column3 m 1) (normalize3 (column3 m 0)) else column3 m0 k).
    { intros k. unfold m1. rewrite (column3_set rows cols) by (assumption || lia). rewrite !C0. reflexivity. }
    assert (C2 : forall k, column3 m2 k = if (k =? 1)%nat then normalize3 (column3 m1 1) else column3 m1 k) by (intros k; apply (column3_set rows cols); assumption || lia).
    assert (C3 : forall k, column3 m3 k = if (k =? 2)%nat then without (column3 m 2) (normalize3 (column3 m 0)) else column3 m2 k).
    { intros k. unfold m3. rewrite (column3_set rows cols) by (assumption || lia). rewrite !C2, !C1, !C0. reflexivity. }
    assert (C4 : forall k, column3 m4 k = if (k =? 2)%nat then without (column3 m3 2) (column3 m3 1) else column3 m3 k).
    { intros k. unfold m4. rewrite (column3_set rows cols) by (assumption || lia). reflexivity. }
    rewrite !(column3_set rows cols) by (assumption || lia). cbn [Nat.eqb]. rewrite !C4. cbn [Nat.eqb]. rewrite !C3. cbn [Nat.eqb]. rewrite !C2. cbn [Nat.eqb]. rewrite !C1. cbn [Nat.eqb]. rewrite !C0. cbn [Nat.eqb].
    repeat split.
Qed.

Lemma gram_schmidt x y z : triple x y z <> 0 ->
  let X := normalize3 x in let Y := normalize3 (without y X) in let Z := normalize3 (without (without z X) Y) in
  orthonormal X Y Z /\ exists a b c, 0 < a /\ 0 < b /\ 0 < c /\ x = scale3 X a /\ y = add3 (scale3 X (inner3 y X)) (scale3 Y b) /\
    z = add3 (add3 (scale3 X (inner3 z X)) (scale3 Y (inner3 z Y))) (scale3 Z c) /\ triple x y z = a * b * c * triple X Y Z.
Proof.
  intros T X Y Z.
  assert (N1 : x <> origin) by (intros E; apply T; rewrite E; unfold triple; cbn; ring).
  destruct (normalize3_scale x N1) as [a [Pa [Ea [_ UX]]]]. fold X in Ea, UX.
  assert (N2 : without y X <> origin).
  { intros E. apply T. assert (Ey : y = scale3 X (inner3 y X)) by (apply QuatProofs.v3_eq; [apply (f_equal vx) in E|apply (f_equal vy) in E|apply (f_equal vz) in E]; unfold without in E; cbn [sub3 vx vy vz origin scale3] in E |- *; lra).
    rewrite Ey, Ea. unfold triple. cbn. ring. }
  destruct (normalize3_scale _ N2) as [b [Pb [Eb [Fb UY]]]]. fold Y in Eb, Fb, UY.
  assert (XY : inner3 X Y = 0).
  { rewrite inner3_sym. apply normalize3_facts; [exact N2|]. unfold without. transitivity (inner3 y X * (1 - inner3 X X)); [rewrite !inner3_eq; cbn; ring|rewrite UX; ring]. }
  assert (Ey : y = add3 (scale3 X (inner3 y X)) (scale3 Y b)) by (rewrite <- Eb; unfold without; apply QuatProofs.v3_eq; cbn; ring).
  set (z1 := without z X).
  assert (z1Y : inner3 z1 Y = inner3 z Y).
  { unfold z1, without. transitivity (inner3 z Y - inner3 z X * inner3 X Y); [rewrite !inner3_eq; cbn; ring|rewrite XY; ring]. }
  assert (Ez1 : without z1 Y = sub3 (sub3 z (scale3 X (inner3 z X))) (scale3 Y (inner3 z Y))) by (unfold without at 1; rewrite z1Y; reflexivity).
  assert (N3 : without z1 Y <> origin).
  { intros E. apply T. rewrite Ez1 in E.
    assert (Ez : z = add3 (scale3 X (inner3 z X)) (scale3 Y (inner3 z Y))) by (apply QuatProofs.v3_eq; [apply (f_equal vx) in E|apply (f_equal vy) in E|apply (f_equal vz) in E]; cbn [sub3 add3 vx vy vz origin scale3] in E |- *; lra).
    rewrite Ez, Ea, Ey. set (u := inner3 z X). set (v := inner3 z Y). set (w := inner3 y X). clearbody u v w. unfold triple. cbn. ring. }
  destruct (normalize3_scale _ N3) as [c [Pc [Ec [Fc UZ]]]]. fold z1 in Z. fold Z in Ec, Fc, UZ.
  assert (ZX : inner3 Z X = 0).
  { apply normalize3_facts; [exact N3|]. rewrite Ez1. transitivity (inner3 z X * (1 - inner3 X X) - inner3 z Y * inner3 X Y); [rewrite !inner3_eq; cbn; ring|rewrite UX, XY; ring]. }
  assert (ZY : inner3 Z Y = 0).
  { apply normalize3_facts; [exact N3|]. rewrite Ez1. transitivity (inner3 z Y * (1 - inner3 Y Y) - inner3 z X * inner3 X Y); [rewrite !inner3_eq; cbn; ring|rewrite UY, XY; ring]. }
  assert (Ez : z = add3 (add3 (scale3 X (inner3 z X)) (scale3 Y (inner3 z Y))) (scale3 Z c)) by (rewrite <- Ec, Ez1; apply QuatProofs.v3_eq; cbn; ring).
  split; [unfold orthonormal; rewrite (inner3_sym X Z), (inner3_sym Y Z); repeat split; assumption|].
  exists a, b, c. repeat (split; [assumption|]). rewrite Ez, Ea, Ey. set (u := inner3 z X). set (v := inner3 z Y). set (w := inner3 y X). clearbody u v w. unfold triple. cbn. ring.
Qed.
Lemma orthonormal_triple x y z : orthonormal x y z -> triple x y z = 1 \/ triple x y z = -1.
Proof.
  intros (XX & YY & ZZ & XY & XZ & YZ).
  assert (E : triple x y z * triple x y z = inner3 x x * (inner3 y y * inner3 z z - inner3 y z * inner3 y z) - inner3 x y * (inner3 x y * inner3 z z - inner3 y z * inner3 x z) + inner3 x z * (inner3 x y * inner3 y z - inner3 y y * inner3 x z)).
  { rewrite !inner3_eq. unfold triple. ring. }
  rewrite XX, YY, ZZ, XY, XZ, YZ in E. assert (F : (triple x y z - 1) * (triple x y z + 1) = 0) by lra. apply Rmult_integral in F. lra.
Qed.
