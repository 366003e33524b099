(** C104, C105: the named floating-point constants. [rnd prec emax x] is the number of a type nearest to the real number [x]. *)
From Coq Require Import ZArith Reals Lra Lia Bool List String.
From Flocq Require Import Core.
From Verif Require Import ConstTables ConstModel ConstSpec ConstProofs ConstProofs2 HalfSpec.
Import ListNotations.
Local Open Scope R_scope.
Local Open Scope string_scope.

(** C104. The three tables hold the same names, and each name has a formula. *)
Theorem C104_names : map fst literals = map fst formulas /\ map fst literals128 = map fst formulas /\ map fst half_bits = map fst formulas
  /\ NoDup (map fst formulas).
Proof.
  split; [reflexivity|]. split; [reflexivity|]. split; [reflexivity|].
  apply (NoDup_map_inv (fun s => s)). rewrite map_id.
  assert (D : (fix nodup l := match l with [] => true | x :: r => negb (existsb (String.eqb x) r) && nodup r end) (map fst formulas) = true)
    by (vm_compute; reflexivity).
  revert D. generalize (map fst formulas). induction l as [|x l IH]; [constructor|]. intros D. apply andb_true_iff in D. destruct D as [D1 D2].
  constructor; [|now apply IH]. intros I. apply negb_true_iff in D1. rewrite <- not_true_iff_false in D1. apply D1. apply existsb_exists.
  exists x. split; [exact I|apply String.eqb_refl].
Qed.
Print Assumptions C104_names.

(** In float every constant is the number nearest to its formula. *)
Theorem C104_float name lit : In (name, lit) literals -> exists x, formula name = Some x /\ constant 24 128 lit = rnd 24 128 (meaning x).
Proof.
  intros I. destruct (all_ok _ _ sweep_float _ _ I) as (x & F & S). exists x. split; [exact F|].
  apply (same_true 24 128 lit name); [lia|exact F|]. now apply is_some in S.
Qed.
Print Assumptions C104_float.

(** In double, long double and float128_t this holds for the formulas without e; but not for degrees_to_radians in float128_t. *)
Theorem C104_double_partial name lit : In (name, lit) literals ->
  exists x, formula name = Some x /\ (mentions_e x = false -> constant 53 1024 lit = rnd 53 1024 (meaning x)).
Proof.
  intros I. destruct (all_ok _ _ sweep_double _ _ I) as (x & F & S). exists x. split; [exact F|]. intros E. rewrite E in S.
  apply (same_true 53 1024 lit name); [lia|exact F|]. now apply is_some in S.
Qed.
Print Assumptions C104_double_partial.

Theorem C104_long_double_partial name lit : In (name, lit) literals ->
  exists x, formula name = Some x /\ (mentions_e x = false -> constant 64 16384 lit = rnd 64 16384 (meaning x)).
Proof.
  intros I. destruct (all_ok _ _ sweep_long_double _ _ I) as (x & F & S). exists x. split; [exact F|]. intros E. rewrite E in S.
  apply (same_true 64 16384 lit name); [lia|exact F|]. now apply is_some in S.
Qed.
Print Assumptions C104_long_double_partial.

Theorem C104_float128_partial name lit : In (name, lit) literals128 -> name <> "degrees_to_radians" ->
  exists x, formula name = Some x /\ (mentions_e x = false -> constant128 lit = rnd 113 16384 (meaning x)).
Proof.
  intros I N. destruct (all_ok _ _ sweep_float128 _ _ I) as (x & F & S). exists x. split; [exact F|]. intros E. rewrite E in S.
  apply String.eqb_neq in N. rewrite N in S. apply (same128_true lit name); [exact F|]. now apply is_some in S.
Qed.
Print Assumptions C104_float128_partial.

(** The written digits are the formula's, to half a unit of the last digit. *)
Theorem C104_digits_partial name lit : In (name, lit) literals ->
  exists x, formula name = Some x /\ (mentions_e x = false -> Rabs (IZR lit / IZR (10 ^ 21) - meaning x) <= / 2 / IZR (10 ^ 21)).
Proof.
  intros I. destruct (all_ok _ _ sweep_digits _ _ I) as (x & F & S). exists x. split; [exact F|]. intros E. rewrite E in S. cbn [orb] in S.
  destruct (interval name) as [[l h]|] eqn:V; [|discriminate]. apply (digits_sound 21 lit _ l h); [lia|now apply (interval_ok name)|exact S].
Qed.
Print Assumptions C104_digits_partial.

Theorem C104_digits128_partial name lit : In (name, lit) literals128 ->
  exists x, formula name = Some x /\ (mentions_e x = false -> Rabs (IZR lit / IZR (10 ^ 36) - meaning x) <= / 2 / IZR (10 ^ 36)).
Proof.
  intros I. destruct (all_ok _ _ sweep_digits128 _ _ I) as (x & F & S). exists x. split; [exact F|]. intros E. rewrite E in S. cbn [orb] in S.
  destruct (interval name) as [[l h]|] eqn:V; [|discriminate]. apply (digits_sound 36 lit _ l h); [lia|now apply (interval_ok name)|exact S].
Qed.
Print Assumptions C104_digits128_partial.

(** Every constant made from e is wrong in long double, and all but three are wrong in double ... *)
Theorem C104_e_refuted name lit : In (name, lit) literals ->
  exists x, formula name = Some x /\
    (mentions_e x = true ->
     constant 64 16384 lit <> rnd 64 16384 (meaning x) /\
     (~ In name ["sqrt_e"; "one_over_sqrt_e"; "e_over_five"] -> constant 53 1024 lit <> rnd 53 1024 (meaning x))).
Proof.
  intros I. destruct (all_ok _ _ sweep_long_double _ _ I) as (x & F & S). exists x. split; [exact F|]. intros E. rewrite E in S. split.
  - apply (same_false 64 16384 lit name); [lia|exact F|]. now apply is_some in S.
  - intros N. destruct (all_ok _ _ sweep_double _ _ I) as (y & G & T). rewrite F in G. injection G as <-. rewrite E in T.
    assert (B : e_good_double name = false).
    { unfold e_good_double. apply not_true_iff_false. intros H. apply existsb_exists in H. destruct H as (z & Z1 & Z2). apply String.eqb_eq in Z2. subst z. now apply N. }
    rewrite B in T. apply (same_false 53 1024 lit name); [lia|exact F|]. now apply is_some in T.
Qed.
Print Assumptions C104_e_refuted.

(** ... and all of them, with degrees_to_radians, in float128_t. *)
Theorem C104_float128_refuted name lit : In (name, lit) literals128 ->
  exists x, formula name = Some x /\
    (mentions_e x = true \/ name = "degrees_to_radians" -> constant128 lit <> rnd 113 16384 (meaning x)).
Proof.
  intros I. destruct (all_ok _ _ sweep_float128 _ _ I) as (x & F & S). exists x. split; [exact F|]. intros E.
  assert (Q : (negb (mentions_e x) && negb (String.eqb name "degrees_to_radians"))%bool = false).
  { destruct E as [-> | ->]; [reflexivity|]. apply andb_false_r. }
  rewrite Q in S. apply (same128_false lit name); [exact F|]. now apply is_some in S.
Qed.
Print Assumptions C104_float128_refuted.

(** The cause: the formulas were evaluated with [wrong_e], a double that is not even the nearest to e. *)
Theorem C104_e_cause name lit lit128 : In (name, lit) literals -> In (name, lit128) literals128 ->
  exists x, formula name = Some x /\
    (mentions_e x = true ->
     Rabs (IZR lit / IZR (10 ^ 21) - ev wrong_e x) <= / 2 / IZR (10 ^ 21) /\
     Rabs (IZR lit128 / IZR (10 ^ 36) - ev wrong_e x) <= / 2 / IZR (10 ^ 36)).
Proof.
  intros I J. destruct (all_ok _ _ sweep_wrong_e _ _ I) as (x & F & S). exists x. split; [exact F|]. intros E. rewrite E in S. cbn [negb orb] in S.
  destruct (all_ok _ _ sweep_wrong_e128 _ _ J) as (y & G & T). rewrite F in G. injection G as <-. rewrite E in T. cbn [negb orb] in T.
  destruct (ival_wrong x) as [[l h]|] eqn:V; [|discriminate]. apply ival_wrong_ok in V.
  split; [apply (digits_sound 21 lit _ l h)|apply (digits_sound 36 lit128 _ l h)]; try assumption; lia.
Qed.
Print Assumptions C104_e_cause.
Theorem C104_wrong_e : wrong_e - exp 1 > 2 / IZR (10 ^ 16).
Proof.
  pose proof e_within as [_ H]. assert (sp : 0 < IZR scale) by (now apply IZR_lt).
  assert (C : (2 * (scale / 10 ^ 16) + e_h < wrong_e_scaled)%Z) by (apply Z.ltb_lt; vm_compute; reflexivity).
  assert (D : scale = (scale / 10 ^ 16 * 10 ^ 16)%Z) by (vm_compute; reflexivity).
  pose proof wrong_e_within as [W _]. apply IZR_lt in C. rewrite plus_IZR, mult_IZR in C. apply (f_equal IZR) in D. rewrite mult_IZR in D.
  set (q := IZR (scale / 10 ^ 16)) in *. set (t := IZR (10 ^ 16)) in *. assert (tp : 0 < t) by (apply IZR_lt; reflexivity).
  set (S := IZR scale) in *. set (w := wrong_e) in *. clearbody w. apply Rlt_gt. apply Rmult_lt_reg_r with S; [exact sp|].
  replace (2 / t * S) with (2 * q) by (rewrite D; field; lra). clearbody q t S. lra.
Qed.
Print Assumptions C104_wrong_e.

Example C104_wit_pi : In ("pi", 3141592653589793238463%Z) literals /\ formula "pi" = Some Pi /\ mentions_e Pi = false.
Proof. split; [|split; reflexivity]. vm_compute. repeat ((left; reflexivity) || right). Qed.
Example C104_wit_e : In ("e", 2718281828459045534885%Z) literals /\ formula "e" = Some E /\ mentions_e E = true.
Proof. split; [|split; reflexivity]. vm_compute. repeat ((left; reflexivity) || right). Qed.

(** C105. The emulated half: 67 constants are the nearest number to their formula, the other 39 are the next number above it. *)
Theorem C105_half_partial name bits : In (name, bits) half_bits -> ~ In name half_above ->
  exists x, formula name = Some x /\ constant16 bits = rnd 11 16 (meaning x).
Proof.
  intros I N. destruct (all_ok _ _ sweep_half _ _ I) as (x & F & S). exists x. split; [exact F|].
  destruct (is_above name) eqn:A; [exfalso; apply N; now apply is_above_in|]. apply (same16_true bits name); [exact F|]. now apply is_some in S.
Qed.
Print Assumptions C105_half_partial.

Theorem C105_half_refuted name bits : In (name, bits) half_bits -> In name half_above ->
  exists x, formula name = Some x /\
    constant16 bits = succ radix2 (FLT_exp (3 - 16 - 11) 11) (rnd 11 16 (meaning x)) /\ constant16 bits <> rnd 11 16 (meaning x).
Proof.
  intros I N. destruct (all_ok _ _ sweep_half _ _ I) as (x & F & S). exists x. split; [exact F|].
  apply is_above_in in N. rewrite N in S. now apply (above16 bits name).
Qed.
Print Assumptions C105_half_refuted.
Example C105_wit : In ("pi", 0x4249%Z) half_bits /\ In "pi" half_above /\ List.length half_above = 39%nat /\ List.length half_bits = 106%nat.
Proof. repeat split; vm_compute; try reflexivity; repeat ((left; reflexivity) || right). Qed.
