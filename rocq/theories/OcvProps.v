(** Property C178. *)
From Coq Require Import ZArith Reals Lra Lia Bool List.
From Flocq Require Import Core BinarySingleNaN.
From Verif Require Import FpModel FpProofs SqrtModel SqrtProofs4 OeqModel OeqProps AeqProps OcvModel.
Import ListNotations.
Local Open Scope R_scope.

(** What of a float there is in the doubles: the number a double stands for is also that of a float. *)
Definition representable (v : number) : Prop := exists x : float32, value x = v.
(** The numbers that the nearest float is there for: those below the largest float and half the gap above it. *)
Definition in_float_range (y : R) : Prop := Rabs y < bpow radix2 128 - bpow radix2 103.

Lemma scalars_convert A B (cast : A -> B) i : scalars (convert cast i) = map cast (scalars i).
Proof. destruct i; cbn [convert scalars map]; rewrite ?map_app, ?concat_map; reflexivity. Qed.
Lemma shape_convert A B (cast : A -> B) i : shape (convert cast i) = shape i.
Proof.
  assert (L : forall m, map (@length B) (map (map cast) m) = map (@length A) m) by (intros m; rewrite map_map; apply map_ext; intros v; apply map_length).
  destruct i; cbn [convert shape]; rewrite ?map_length, ?L; reflexivity.
Qed.
Lemma narrow_exact (y : float64) (x : float32) : value x = value y -> value (to_float y) = value x.
Proof.
  intros V. destruct (is_finite y) eqn:F.
  - rewrite (finite_value _ _ y F) in V. rewrite V. apply real_value in V. destruct V as [Fx E].
    assert (G : round radix2 (FLT_exp (3 - 128 - 24) 24) ZnearestE (B2R y) = B2R y). { rewrite <- E. apply round_generic; [apply valid_rnd_N|]. exact (generic_format_B2R 24 128 x). }
    destruct (fp_cast_ok 53 1024 24 128 p24 e128 y F) as [A B]; [rewrite G, <- E; apply abs_B2R_lt_emax|]. apply real_value. split; [exact A|]. unfold to_float. rewrite B. exact G.
  - rewrite V. destruct y; try discriminate F; reflexivity.
Qed.
Lemma narrow_wide (x : float32) : to_float (to_double x) = x.
Proof.
  destruct (is_finite x) eqn:F; [|destruct x; try discriminate F; reflexivity].
  destruct x as [s| | |s m ex H]; try discriminate F; [destruct s; reflexivity|]. set (x := B754_finite s m ex H) in *.
  assert (N : B2R x <> 0) by (unfold x; cbn; apply F2R_neq_0; destruct s; discriminate).
  assert (V : value (to_float (to_double x)) = value x) by (apply narrow_exact; symmetry; apply cast_value).
  rewrite (finite_value _ _ x F) in V. apply real_value in V. destruct V as [Fn E].
  apply B2R_inj; [|reflexivity|exact E]. destruct (to_float (to_double x)); try discriminate Fn; [exfalso; apply N; rewrite <- E; reflexivity|reflexivity].
Qed.

(** An object of floats converted to doubles stands for the same numbers, and equals the original unless there is a NaN. *)
Theorem C178_widen : forall i, shape (convert to_double i) = shape i /\ map value (scalars (convert to_double i)) = map value (scalars i) /\
  (eq_object eq64_32 (convert to_double i) i = true <-> Forall (fun x => value x <> Not_a_number) (scalars i)).
Proof.
  intros i. split; [apply shape_convert|]. split; [rewrite scalars_convert, map_map; apply map_ext; intros x; apply cast_value|].
  rewrite (C176_equal _ _ _ _ _ _ _ Double_float (shape_convert _ _ to_double i)), scalars_convert. induction (scalars i) as [|x l IH]; cbn [map]; [split; constructor|].
  rewrite cons_each, Forall_cons_iff, IH. unfold equal. change (value (to_double x)) with (value (fp_cast 24 128 53 1024 p53 e1024 x)). rewrite cast_value. tauto.
Qed.
Print Assumptions C178_widen.
(** Converted back it is the same object, with the signs of its zeros. *)
Theorem C178_round_trip : forall i, convert to_float (convert to_double i) = i.
Proof.
  assert (V : forall v, map to_float (map to_double v) = v) by (intros v; rewrite map_map; rewrite <- (map_id v) at 2; apply map_ext, narrow_wide).
  assert (M : forall m, map (map to_float) (map (map to_double) m) = m) by (intros m; rewrite map_map; rewrite <- (map_id m) at 2; apply map_ext, V).
  intros i. destruct i; cbn [convert]; rewrite ?V, ?M, ?narrow_wide; reflexivity.
Qed.
Print Assumptions C178_round_trip.
(** An object of doubles converted to floats equals the original exactly if all its scalars are those of floats. *)
Theorem C178_narrow : forall i, shape (convert to_float i) = shape i /\ (eq_object eq32_64 (convert to_float i) i = true <-> Forall (fun y => representable (value y) /\ value y <> Not_a_number) (scalars i)).
Proof.
  intros i. split; [apply shape_convert|]. rewrite (C176_equal _ _ _ _ _ _ _ Float_double (shape_convert _ _ to_float i)), scalars_convert. induction (scalars i) as [|y l IH]; cbn [map]; [split; constructor|].
  rewrite cons_each, Forall_cons_iff, IH. unfold equal. split; intros [H K]; split; try exact K.
  - destruct H as [E N]. split; [exists (to_float y); exact E|congruence].
  - destruct H as [(x & E) N]. rewrite (narrow_exact y x E). split; congruence.
Qed.
Print Assumptions C178_narrow.
(** Otherwise each scalar in the range of floats becomes the float nearest to it. *)
Theorem C178_nearest : forall i, Forall (fun y => exists r, value y = Real r /\ in_float_range r) (scalars i) ->
  Forall2 (fun y z => exists r s, value y = Real r /\ value z = Real s /\ forall (x : float32) t, value x = Real t -> Rabs (s - r) <= Rabs (t - r)) (scalars i) (scalars (convert to_float i)).
Proof.
  intros i H. rewrite scalars_convert. induction H as [|y l (r & V & G) _ IH]; cbn [map]; constructor; [|exact IH]. apply real_value in V. destruct V as [F E].
  set (fe := FLT_exp (3 - 128 - 24) 24). assert (VE : Valid_exp fe) by (apply FLT_exp_valid; reflexivity). pose proof (round_N_pt radix2 fe (fun x => negb (Z.even x)) r) as P. destruct P as [_ P].
  assert (L : Rabs (round radix2 fe ZnearestE r) < bpow radix2 128).
  { unfold in_float_range in G. set (M := bpow radix2 128 - bpow radix2 104).
    assert (T : bpow radix2 104 = 2 * bpow radix2 103) by (change 104%Z with (1 + 103)%Z; rewrite bpow_plus; reflexivity).
    assert (B : 0 < bpow radix2 103) by apply bpow_gt_0. assert (B2 : bpow radix2 104 < bpow radix2 128) by (apply bpow_lt; lia).
    assert (FM : generic_format radix2 fe M).
    { apply generic_format_FLT. exists (Float radix2 (2 ^ 24 - 1) 104); cbn [Fnum Fexp]; [|change (radix2 ^ 24)%Z with (2 ^ 24)%Z; lia|lia]. unfold F2R, M. cbn [Fnum Fexp]. change 128%Z with (24 + 104)%Z. rewrite bpow_plus, minus_IZR. change (IZR (2 ^ 24)) with (bpow radix2 24). ring. }
    destruct (Rle_lt_dec (Rabs r) M) as [K|K].
    - apply Rle_lt_trans with M; [|unfold M; lra]. apply abs_round_le_generic; [exact VE|apply valid_rnd_N|exact FM|exact K].
    - destruct (Rle_lt_dec 0 r) as [S|S].
      + rewrite Rabs_pos_eq in K, G by exact S. specialize (P M FM).
        rewrite (Rabs_left1 (M - r)) in P by lra. apply Rabs_le_inv in P. apply Rabs_def1; unfold M in *; lra.
      + rewrite Rabs_left in K, G by exact S. specialize (P (- M) (generic_format_opp _ _ _ FM)). rewrite (Rabs_pos_eq (- M - r)) in P by lra. apply Rabs_le_inv in P. apply Rabs_def1; unfold M in *; lra. }
  destruct (fp_cast_ok 53 1024 24 128 p24 e128 y F) as [A B]; [rewrite E; exact L|]. exists r, (B2R (to_float y)).
  split; [apply real_value; split; assumption|]. split; [apply finite_value, A|]. intros x t Vx. apply real_value in Vx. destruct Vx as [Fx <-]. unfold to_float. rewrite B, E. apply P. exact (generic_format_B2R 24 128 x).
Qed.
Print Assumptions C178_nearest.
Example C178_witness :
  convert to_float (Plane [d_of 1; d_of 2; d_of 3] (d_of 16777217)) = Plane [f_of 1; f_of 2; f_of 3] (f_of 16777216) /\
  eq_object eq32_64 (convert to_float (Plane [d_of 1; d_of 2; d_of 3] (d_of 16777217))) (Plane [d_of 1; d_of 2; d_of 3] (d_of 16777217)) = false /\
  eq_object eq32_64 (convert to_float (Plane [d_of 1; d_of 2; d_of 3] (d_of 16777218))) (Plane [d_of 1; d_of 2; d_of 3] (d_of 16777218)) = true.
Proof.
  split; [|split; vm_compute; reflexivity].
  assert (E : forall a b, B2SF (to_float (d_of a)) = B2SF (f_of b) -> to_float (d_of a) = f_of b) by (intros a b; apply B2SF_inj). cbn [convert map]. repeat (apply f_equal2 || apply E); vm_compute; reflexivity.
Qed.
