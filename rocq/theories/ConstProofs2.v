(** The constants of the tables, checked one by one against intervals around the numbers they stand for. *)
From Coq Require Import ZArith Reals Lra Lia Bool List String.
From Flocq Require Import Core.
From Verif Require Import ConstTables ConstModel ConstSpec ConstProofs HalfSpec.
Import ListNotations.
Local Open Scope R_scope.

Definition ival (x : expr) : option (Z * Z) := ieval scale pi_l pi_h e_l e_h x.
Lemma ival_ok x l h : ival x = Some (l, h) -> within scale (meaning x) l h.
Proof.
  intros H. pose proof (ieval_inside scale eq_refl pi_l pi_h e_l e_h (exp 1) pi_within e_within x) as I.
  change (ieval scale pi_l pi_h e_l e_h x) with (ival x) in I. rewrite H in I. apply I.
Qed.

(** The intervals of all formulas. *)
Definition intervals : list (string * option (Z * Z)) := Eval vm_compute in map (fun p => (fst p, ival (snd p))) formulas.
Lemma intervals_eq : intervals = map (fun p => (fst p, ival (snd p))) formulas.
Proof. vm_compute. reflexivity. Qed.
Definition interval (name : string) : option (Z * Z) := match lookup name intervals with Some (Some r) => Some r | _ => None end.
Lemma lookup_map {A B} (f : A -> B) name (l : list (string * A)) : lookup name (map (fun p => (fst p, f (snd p))) l) = option_map f (lookup name l).
Proof. induction l as [|[n a] l IH]; [reflexivity|]. cbn. destruct (String.eqb n name); [reflexivity|exact IH]. Qed.
Lemma interval_ok name x l h : formula name = Some x -> interval name = Some (l, h) -> within scale (meaning x) l h.
Proof.
  intros F I. unfold interval in I. rewrite intervals_eq, lookup_map in I. fold (formula name) in I. rewrite F in I. cbn [option_map] in I.
  destruct (ival x) as [r|] eqn:V; [|discriminate]. injection I as ->. now apply ival_ok.
Qed.

(** Results of roundings, as significand and exponent. *)
Definition fits (p emax : Z) (r : option (Z * Z)) : option (Z * Z) :=
  match r with Some (m, k) => if ((0 <=? k) && (k <=? emax + p - 3))%Z then Some (m, k) else None | None => None end.
Definition true_value (p emax : Z) (name : string) : option (Z * Z) :=
  match interval name with Some (l, h) => fits p emax (near p scale l h) | None => None end.
Definition literal_value (p emax s lit : Z) : option (Z * Z) := fits p emax (near p s lit lit).
Definition const_value (p emax lit : Z) : option (Z * Z) :=
  match literal_value 64 16384 (10 ^ 21) lit with Some (m, k) => literal_value p emax (2 ^ k) m | None => None end.

Lemma fits_ok p emax s l h m k x : (1 < p)%Z -> (0 < s)%Z -> within s x l h -> fits p emax (near p s l h) = Some (m, k) ->
  rnd p emax x = dyadic m k /\ (0 <= k)%Z.
Proof.
  intros Hp Hs W F. unfold fits in F. destruct (near p s l h) as [[m' k']|] eqn:N; [|discriminate].
  destruct (_ && _) eqn:C; [|discriminate]. injection F as -> ->. apply andb_true_iff in C. destruct C as [C1 C2].
  apply Z.leb_le in C1, C2. split; [|exact C1]. now apply (near_round p emax s l h m k x).
Qed.
Lemma true_value_ok p emax name x m k : (1 < p)%Z -> formula name = Some x -> true_value p emax name = Some (m, k) -> rnd p emax (meaning x) = dyadic m k /\ (0 <= k)%Z.
Proof.
  intros Hp F T. unfold true_value in T. destruct (interval name) as [[l h]|] eqn:V; [|discriminate].
  apply (fits_ok p emax scale l h); try assumption; [reflexivity|]. now apply (interval_ok name).
Qed.
Lemma const_value_ok p emax lit m k : (1 < p)%Z -> const_value p emax lit = Some (m, k) -> constant p emax lit = dyadic m k /\ (0 <= k)%Z.
Proof.
  intros Hp C. unfold const_value in C. destruct (literal_value 64 16384 (10 ^ 21) lit) as [[m' k']|] eqn:L; [|discriminate].
  assert (A : rnd 64 16384 (IZR lit / IZR (10 ^ 21)) = dyadic m' k' /\ (0 <= k')%Z).
  { apply (fits_ok 64 16384 (10 ^ 21) lit lit); [reflexivity|reflexivity| |exact L]. now apply within_ratio. }
  destruct A as [A K]. unfold constant. rewrite A.
  apply (fits_ok p emax (2 ^ k') m' m'); [exact Hp|apply Z.pow_pos_nonneg; lia|now apply within_dyadic|exact C].
Qed.
Lemma const128_value_ok lit m k : literal_value 113 16384 (10 ^ 36) lit = Some (m, k) -> constant128 lit = dyadic m k /\ (0 <= k)%Z.
Proof.
  intros L. apply (fits_ok 113 16384 (10 ^ 36) lit lit); [reflexivity|reflexivity| |exact L]. now apply within_ratio.
Qed.

Definition same (a b : option (Z * Z)) : option bool :=
  match a, b with Some (m, k), Some (n, j) => Some (m * 2 ^ j =? n * 2 ^ k)%Z | _, _ => None end.
Lemma same_true p emax lit name x : (1 < p)%Z -> formula name = Some x -> same (const_value p emax lit) (true_value p emax name) = Some true ->
  constant p emax lit = rnd p emax (meaning x).
Proof.
  intros Hp Fo. destruct (const_value p emax lit) as [[m k]|] eqn:A; [|discriminate]. destruct (true_value p emax name) as [[n j]|] eqn:B; [|discriminate].
  cbn. intros [= E]. apply Z.eqb_eq in E. apply const_value_ok in A; [|exact Hp]. apply (true_value_ok _ _ _ _ _ _ Hp Fo) in B.
  destruct A as [-> ?], B as [-> ?]. now apply dyadic_eq.
Qed.
Lemma same_false p emax lit name x : (1 < p)%Z -> formula name = Some x -> same (const_value p emax lit) (true_value p emax name) = Some false ->
  constant p emax lit <> rnd p emax (meaning x).
Proof.
  intros Hp Fo. destruct (const_value p emax lit) as [[m k]|] eqn:A; [|discriminate]. destruct (true_value p emax name) as [[n j]|] eqn:B; [|discriminate].
  cbn. intros [= E]. apply Z.eqb_neq in E. apply const_value_ok in A; [|exact Hp]. apply (true_value_ok _ _ _ _ _ _ Hp Fo) in B.
  destruct A as [-> ?], B as [-> ?]. now apply dyadic_neq.
Qed.
Lemma same128_true lit name x : formula name = Some x -> same (literal_value 113 16384 (10 ^ 36) lit) (true_value 113 16384 name) = Some true ->
  constant128 lit = rnd 113 16384 (meaning x).
Proof.
  intros Fo. destruct (literal_value _ _ _ lit) as [[m k]|] eqn:A; [|discriminate]. destruct (true_value 113 16384 name) as [[n j]|] eqn:B; [|discriminate].
  cbn [same]. intros [= E]. apply Z.eqb_eq in E. apply const128_value_ok in A. apply (true_value_ok _ _ name x n j) in B; [|reflexivity|exact Fo].
  destruct A as [-> ?], B as [-> ?]. now apply dyadic_eq.
Qed.
Lemma same128_false lit name x : formula name = Some x -> same (literal_value 113 16384 (10 ^ 36) lit) (true_value 113 16384 name) = Some false ->
  constant128 lit <> rnd 113 16384 (meaning x).
Proof.
  intros Fo. destruct (literal_value _ _ _ lit) as [[m k]|] eqn:A; [|discriminate]. destruct (true_value 113 16384 name) as [[n j]|] eqn:B; [|discriminate].
  cbn [same]. intros [= E]. apply Z.eqb_neq in E. apply const128_value_ok in A. apply (true_value_ok _ _ name x n j) in B; [|reflexivity|exact Fo].
  destruct A as [-> ?], B as [-> ?]. now apply dyadic_neq.
Qed.

(** Half precision: the value of the bit pattern as significand and exponent. *)
Definition half_dyadic (bits : Z) : option (Z * Z) :=
  match f16_value (Z.to_N bits) with Fin false m => Some (Z.of_N m, 149%Z) | _ => None end.
Lemma half_dyadic_ok bits m k : half_dyadic bits = Some (m, k) -> constant16 bits = dyadic m k /\ (0 <= k)%Z.
Proof.
  unfold half_dyadic, constant16. destruct (f16_value (Z.to_N bits)) as [|s|s v]; try discriminate. destruct s; [discriminate|].
  intros H. injection H as <- <-. split; [|lia]. unfold dyadic. rewrite bpow_opp, <- (IZR_Zpower radix2) by lia. reflexivity.
Qed.
Lemma same16_true bits name x : formula name = Some x -> same (half_dyadic bits) (true_value 11 16 name) = Some true -> constant16 bits = rnd 11 16 (meaning x).
Proof.
  intros Fo. destruct (half_dyadic bits) as [[m k]|] eqn:A; [|discriminate]. destruct (true_value 11 16 name) as [[n j]|] eqn:B; [|discriminate].
  cbn [same]. intros [= E]. apply Z.eqb_eq in E. apply half_dyadic_ok in A. apply (true_value_ok _ _ name x n j) in B; [|reflexivity|exact Fo].
  destruct A as [-> ?], B as [-> ?]. now apply dyadic_eq.
Qed.
(** One unit in the last place above the nearest. *)
Definition above (a b : option (Z * Z)) : bool :=
  match a, b with
  | Some (m, k), Some (n, j) => ((m * 2 ^ j =? (n + 1) * 2 ^ k) && (2 ^ 10 <=? n) && (n <? 2 ^ 11) && (j <=? 24))%Z
  | _, _ => false
  end.
Lemma succ16 n k : (2 ^ 10 <= n < 2 ^ 11)%Z -> (k <= 24)%Z -> succ radix2 (FLT_exp (3 - 16 - 11) 11) (dyadic n k) = dyadic (n + 1) k.
Proof.
  intros N K. assert (P : 0 <= IZR n) by (apply (IZR_le 0); lia). assert (B := bpow_gt_0 radix2 (- k)).
  assert (D : 0 <= dyadic n k) by (apply Rmult_le_pos; lra).
  rewrite succ_eq_pos by exact D. rewrite ulp_neq_0.
  - unfold cexp. rewrite (mag_unique radix2 (dyadic n k) (11 - k)).
    + unfold FLT_exp. rewrite Z.max_l by lia. replace (11 - k - 11)%Z with (- k)%Z by ring. unfold dyadic. rewrite plus_IZR. ring.
    + rewrite Rabs_pos_eq by exact D. unfold dyadic. replace (11 - k - 1)%Z with (10 + - k)%Z by ring. replace (11 - k)%Z with (11 + - k)%Z by ring.
      rewrite (bpow_plus radix2 10), (bpow_plus radix2 11). split.
      * apply Rmult_le_compat_r; [lra|]. apply (IZR_le (2 ^ 10)). lia.
      * apply Rmult_lt_compat_r; [lra|]. apply (IZR_lt _ (2 ^ 11)). lia.
  - unfold dyadic. apply Rmult_integral_contrapositive. split; [apply (IZR_neq _ 0); lia|lra].
Qed.
Lemma above16 bits name x : formula name = Some x -> above (half_dyadic bits) (true_value 11 16 name) = true ->
  constant16 bits = succ radix2 (FLT_exp (3 - 16 - 11) 11) (rnd 11 16 (meaning x)) /\ constant16 bits <> rnd 11 16 (meaning x).
Proof.
  intros Fo. destruct (half_dyadic bits) as [[m k]|] eqn:A; [|discriminate]. destruct (true_value 11 16 name) as [[n j]|] eqn:B; [|discriminate].
  cbn [above]. intros C. repeat (rewrite andb_true_iff in C). destruct C as [[[C1 C2] C3] C4].
  apply Z.eqb_eq in C1. apply Z.leb_le in C2, C4. apply Z.ltb_lt in C3.
  apply half_dyadic_ok in A. apply (true_value_ok _ _ name x n j) in B; [|reflexivity|exact Fo].
  destruct A as [-> K], B as [-> J]. split.
  - rewrite succ16 by lia. now apply dyadic_eq.
  - apply dyadic_neq; [|exact K|exact J]. assert (0 < 2 ^ k)%Z by (apply Z.pow_pos_nonneg; lia). nia.
Qed.

(** The decimal digits. *)
Definition digits_ok (d lit : Z) (r : option (Z * Z)) : bool :=
  match r with
  | Some (l, h) => let q := (scale / 10 ^ d)%Z in ((2 * (lit * q - l) <=? q) && (2 * (h - lit * q) <=? q))%Z
  | None => false
  end.
Lemma digits_sound d lit x l h : (0 <= d <= 60)%Z -> within scale x l h -> digits_ok d lit (Some (l, h)) = true ->
  Rabs (IZR lit / IZR (10 ^ d) - x) <= / 2 / IZR (10 ^ d).
Proof.
  intros D [W1 W2] C. unfold digits_ok in C. set (q := (scale / 10 ^ d)%Z) in C. apply andb_true_iff in C. destruct C as [C1 C2].
  apply Z.leb_le in C1, C2. assert (Q : scale = (q * 10 ^ d)%Z).
  { unfold q, scale. replace 60%Z with ((60 - d) + d)%Z at 1 2 by ring. rewrite Z.pow_add_r by lia. rewrite Z.div_mul; [reflexivity|]. apply Z.pow_nonzero; lia. }
  clearbody q. assert (P : 0 < IZR (10 ^ d)) by (apply IZR_lt, Z.pow_pos_nonneg; lia).
  assert (Q0 : (0 < q)%Z). { assert (0 < scale)%Z by reflexivity. assert (0 < 10 ^ d)%Z by (apply Z.pow_pos_nonneg; lia). nia. }
  assert (Q1 : 0 < IZR q) by (now apply IZR_lt).
  rewrite Q, mult_IZR in W1, W2. apply IZR_le in C1, C2. rewrite !mult_IZR, minus_IZR, !mult_IZR in C1, C2.
  set (t := IZR (10 ^ d)) in *. clearbody t. set (y := IZR lit / t).
  assert (Y : IZR lit = y * t) by (unfold y; field; lra). rewrite Y in C1, C2. clearbody y.
  assert (H1 : (y - x) * t <= / 2) by (apply Rmult_le_reg_r with (IZR q); [lra|]; lra).
  assert (H2 : (x - y) * t <= / 2) by (apply Rmult_le_reg_r with (IZR q); [lra|]; lra).
  apply Rabs_le. split; apply Rmult_le_reg_r with t; try lra; unfold Rdiv.
  - replace (- (/ 2 * / t) * t) with (- / 2) by (field; lra). lra.
  - replace (/ 2 * / t * t) with (/ 2) by (field; lra). lra.
Qed.

(** Going through the tables. *)
Definition all {A} (table : list (string * A)) (f : string -> A -> expr -> bool) : bool :=
  forallb (fun p => match formula (fst p) with Some x => f (fst p) (snd p) x | None => false end) table.
Lemma all_ok {A} (table : list (string * A)) f : all table f = true -> forall name v, In (name, v) table ->
  exists x, formula name = Some x /\ f name v x = true.
Proof.
  intros H name v I. unfold all in H. rewrite forallb_forall in H. specialize (H _ I). cbn [fst snd] in H.
  destruct (formula name) as [x|]; [|discriminate]. now exists x.
Qed.

Definition is (b : bool) (r : option bool) : bool := match r with Some c => Bool.eqb b c | None => false end.
Lemma is_some b r : is b r = true -> r = Some b.
Proof. destruct r as [[]|], b; cbn; congruence. Qed.

(* ------------------------------------------------------------------ the sweeps *)
Definition e_good_double (name : string) : bool :=
  existsb (String.eqb name) ["sqrt_e"; "one_over_sqrt_e"; "e_over_five"]%string.
Lemma sweep_float : all literals (fun name lit _ => is true (same (const_value 24 128 lit) (true_value 24 128 name))) = true.
Proof. vm_compute. reflexivity. Qed.
Lemma sweep_double :
  all literals (fun name lit x => is (negb (mentions_e x) || e_good_double name) (same (const_value 53 1024 lit) (true_value 53 1024 name))) = true.
Proof. vm_compute. reflexivity. Qed.
Lemma sweep_long_double :
  all literals (fun name lit x => is (negb (mentions_e x)) (same (const_value 64 16384 lit) (true_value 64 16384 name))) = true.
Proof. vm_compute. reflexivity. Qed.
Lemma sweep_float128 :
  all literals128 (fun name lit x => is (negb (mentions_e x) && negb (String.eqb name "degrees_to_radians"))
    (same (literal_value 113 16384 (10 ^ 36) lit) (true_value 113 16384 name))) = true.
Proof. vm_compute. reflexivity. Qed.
Lemma sweep_digits : all literals (fun name lit x => mentions_e x || digits_ok 21 lit (interval name)) = true.
Proof. vm_compute. reflexivity. Qed.
Lemma sweep_digits128 : all literals128 (fun name lit x => mentions_e x || digits_ok 36 lit (interval name)) = true.
Proof. vm_compute. reflexivity. Qed.

(** The number the literals were computed with in place of e: the double that follows the one nearest to e. *)
Definition wrong_e : R := IZR 6121026514868074 / IZR (2 ^ 51).
Definition wrong_e_scaled : Z := (6121026514868074 * (scale / 2 ^ 51))%Z.
Lemma wrong_e_within : within scale wrong_e wrong_e_scaled wrong_e_scaled.
Proof.
  assert (E : scale = (scale / 2 ^ 51 * 2 ^ 51)%Z) by (vm_compute; reflexivity).
  unfold within, wrong_e, wrong_e_scaled. set (q := (scale / 2 ^ 51)%Z) in *. clearbody q. rewrite E, !mult_IZR.
  assert (0 < IZR (2 ^ 51)) by (now apply IZR_lt).
  replace (IZR 6121026514868074 / IZR (2 ^ 51) * (IZR q * IZR (2 ^ 51))) with (IZR 6121026514868074 * IZR q) by (field; lra). lra.
Qed.
Definition ival_wrong (x : expr) : option (Z * Z) := ieval scale pi_l pi_h wrong_e_scaled wrong_e_scaled x.
Lemma ival_wrong_ok x l h : ival_wrong x = Some (l, h) -> within scale (ev wrong_e x) l h.
Proof.
  intros H. pose proof (ieval_inside scale eq_refl pi_l pi_h wrong_e_scaled wrong_e_scaled wrong_e pi_within wrong_e_within x) as I.
  change (ieval scale pi_l pi_h wrong_e_scaled wrong_e_scaled x) with (ival_wrong x) in I. rewrite H in I. apply I.
Qed.
Lemma sweep_wrong_e : all literals (fun name lit x => negb (mentions_e x) || digits_ok 21 lit (ival_wrong x)) = true.
Proof. vm_compute. reflexivity. Qed.
Lemma sweep_wrong_e128 : all literals128 (fun name lit x => negb (mentions_e x) || digits_ok 36 lit (ival_wrong x)) = true.
Proof. vm_compute. reflexivity. Qed.

(** The half constants that are not the nearest. *)
Definition half_above : list string :=
  ["one_over_three"; "one_over_five"; "one_over_six"; "one_over_seven"; "two_over_three"; "two_over_five"; "two_over_seven";
   "one_over_sqrt_three"; "three_over_seven"; "four_over_three"; "four_over_five"; "four_over_seven"; "pi"; "one_over_sqrt_pi";
   "pi_over_two"; "pi_over_three"; "pi_over_four"; "pi_over_six"; "pi_over_seven"; "pi_over_eight"; "two_pi"; "sqrt_two_pi";
   "two_pi_over_three"; "two_pi_over_seven"; "three_pi"; "one_over_three_pi"; "three_pi_over_two"; "three_pi_over_four";
   "three_pi_over_eight"; "two_over_three_pi"; "four_over_three_pi"; "five_over_three_pi"; "eight_over_three_pi"; "sqrt_e";
   "e_over_five"; "seven_over_e"; "phi_over_five"; "one_over_ten"; "radians_to_degrees"]%string.
Definition is_above (name : string) : bool := existsb (String.eqb name) half_above.
Lemma is_above_in name : is_above name = true <-> In name half_above.
Proof.
  unfold is_above. rewrite existsb_exists. split.
  - intros (y & I & E). apply String.eqb_eq in E. now subst.
  - intros I. exists name. split; [exact I|apply String.eqb_refl].
Qed.
Lemma sweep_half :
  all half_bits (fun name bits x => if is_above name then above (half_dyadic bits) (true_value 11 16 name)
                                    else is true (same (half_dyadic bits) (true_value 11 16 name))) = true.
Proof. vm_compute. reflexivity. Qed.
