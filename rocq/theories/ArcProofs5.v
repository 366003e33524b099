(** The compile-time arc tangent in the formats that occur, and in the types narrower than long double. *)
From Coq Require Import ZArith Bool List Reals Lra Lia String.
From Flocq Require Import Core BinarySingleNaN Relative.
From Verif Require Import FpModel FpProofs FpProofs2 SqrtModel SqrtProps SqrtProofs4 ConstModel ConstTables ConstSpec ConstProofs ConstProofs2 ConstProps TrigSpec TrigProofs2 TrigProofs3 TrigProofs4 TrigProofs5 TrigProofs7 TrigProofs8 ArcModel ArcSpec ArcProofs ArcProofs2 ArcProofs3 ArcProofs4.
Local Open Scope R_scope.

(* ------------------------------------------------------------------ the constants *)
Lemma arc_names_known : known "pi" PI /\ known "pi_over_two" (PI / 2) /\ known "pi_over_four" (PI / 4) /\ known "pi_over_six" (PI / 6)
  /\ known "sqrt_three" (sqrt 3) /\ known "one_over_sqrt_two" (1 / sqrt 2).
Proof. repeat apply conj; (eexists; split; [vm_compute; reflexivity|split; reflexivity]). Qed.
Lemma arc_table_right prec emax (value : string -> R -> Prop) (c : arc_constants prec emax) :
  (forall name v x, value name v -> name <> "degrees_to_radians"%string -> formula name = Some x -> mentions_e x = false -> v = ConstModel.rnd prec emax (meaning x)) ->
  arc_taken_from prec emax value c -> right_arc_constants prec emax c.
Proof.
  intros H T. pose proof arc_names_known as (K1 & K2 & K3 & K4 & K5 & K6).
  assert (Go : forall name x v, name <> "degrees_to_radians"%string -> known name v -> taken prec emax value name x -> right prec emax x v).
  { intros name x v N (f & F & M & <-) [Fx Vx]. split; [exact Fx|]. exact (H name (B2R x) f Vx N F M). }
  destruct T. constructor; (eapply Go; [|eassumption|eassumption]; discriminate).
Qed.
Lemma arc_right64 (c : arc_constants 64 16384) : arc_taken_from 64 16384 (in_table 64 16384) c -> right_arc_constants 64 16384 c.
Proof.
  apply arc_table_right. intros name v x (lit & I & ->) _ F M. destruct (C104_long_double_partial name lit I) as (y & G & H). rewrite F in G. injection G as <-. now apply H.
Qed.
Lemma arc_right53 (c : arc_constants 53 1024) : arc_taken_from 53 1024 (in_table 53 1024) c -> right_arc_constants 53 1024 c.
Proof.
  apply arc_table_right. intros name v x (lit & I & ->) _ F M. destruct (C104_double_partial name lit I) as (y & G & H). rewrite F in G. injection G as <-. now apply H.
Qed.
Lemma arc_right113 (c : arc_constants 113 16384) : arc_taken_from 113 16384 in_table128 c -> right_arc_constants 113 16384 c.
Proof.
  apply arc_table_right. intros name v x (lit & I & ->) N F M. destruct (C104_float128_partial name lit I N) as (y & G & H). rewrite F in G. injection G as <-. now apply H.
Qed.

(** Numbers of the tables, found by computation *)
Lemma lookup_in {A} name (l : list (string * A)) v : lookup name l = Some v -> In (name, v) l.
Proof. induction l as [|[n w] l IH]; intros L; [discriminate|]. cbn [lookup] in L. destruct (String.eqb n name) eqn:Q; [apply String.eqb_eq in Q; subst n; injection L as <-; now left|right; now apply IH]. Qed.
Definition is_value (v : option (Z * Z)) (m : positive) (k : Z) : bool := match v with Some (m', k') => Z.eqb m' (Zpos m) && Z.eqb k' (- k) | None => false end.
Lemma taken_by p e name m k H lit : (1 < p)%Z -> lookup name literals = Some lit -> is_value (const_value p e lit) m k = true -> taken p e (in_table p e) name (B754_finite false m k H).
Proof.
  intros P L Q. unfold is_value in Q. destruct (const_value p e lit) as [[m' k']|] eqn:C; [|discriminate]. apply andb_true_iff in Q. destruct Q as [Q1 Q2]. apply Z.eqb_eq in Q1, Q2. subst m' k'.
  split; [reflexivity|]. exists lit. split; [now apply lookup_in|]. destruct (const_value_ok p e lit _ _ P C) as [-> _]. unfold dyadic. now rewrite Z.opp_involutive.
Qed.
Lemma taken_by128 name m k H lit : lookup name literals128 = Some lit -> is_value (literal_value 113 16384 (10 ^ 36) lit) m k = true -> taken 113 16384 in_table128 name (B754_finite false m k H).
Proof.
  intros L Q. unfold is_value in Q. destruct (literal_value 113 16384 (10 ^ 36) lit) as [[m' k']|] eqn:C; [|discriminate]. apply andb_true_iff in Q. destruct Q as [Q1 Q2]. apply Z.eqb_eq in Q1, Q2. subst m' k'.
  split; [reflexivity|]. exists lit. split; [now apply lookup_in|]. destruct (const128_value_ok lit _ _ C) as [-> _]. unfold dyadic. now rewrite Z.opp_involutive.
Qed.
Definition num {p e : Z} (m : positive) (k : Z) (H : SpecFloat.bounded p e m k = true) : binary_float p e := B754_finite false m k H.
Definition arc53 : arc_constants 53 1024 := ArcConstants 53 1024
  (@num 53 1024 7074237752028440 (-51) eq_refl) (@num 53 1024 7074237752028440 (-52) eq_refl) (@num 53 1024 7074237752028440 (-53) eq_refl) (@num 53 1024 4716158501352294 (-53) eq_refl)
  (@num 53 1024 7800463371553962 (-52) eq_refl) (@num 53 1024 6369051672525773 (-53) eq_refl).
Definition arc64 : arc_constants 64 16384 := ArcConstants 64 16384
  (@num 64 16384 14488038916154245685 (-62) eq_refl) (@num 64 16384 14488038916154245685 (-63) eq_refl) (@num 64 16384 14488038916154245685 (-64) eq_refl) (@num 64 16384 9658692610769497123 (-64) eq_refl)
  (@num 64 16384 15975348984942515102 (-63) eq_refl) (@num 64 16384 13043817825332782212 (-64) eq_refl).
Definition arc113 : arc_constants 113 16384 := ArcConstants 113 16384
  (@num 113 16384 8156040833015188200833743081374136 (-111) eq_refl) (@num 113 16384 8156040833015188200833743081374136 (-112) eq_refl) (@num 113 16384 8156040833015188200833743081374136 (-113) eq_refl)
  (@num 113 16384 5437360555343458800555828720916091 (-113) eq_refl) (@num 113 16384 8993321966962592815676497060722872 (-112) eq_refl) (@num 113 16384 7343016637207168931428032607349397 (-113) eq_refl).
Lemma arc53_taken : arc_taken_from 53 1024 (in_table 53 1024) arc53.
Proof. constructor; (eapply taken_by; [lia|vm_compute; reflexivity|vm_compute; reflexivity]). Qed.
Lemma arc64_taken : arc_taken_from 64 16384 (in_table 64 16384) arc64.
Proof. constructor; (eapply taken_by; [lia|vm_compute; reflexivity|vm_compute; reflexivity]). Qed.
Lemma arc113_taken : arc_taken_from 113 16384 in_table128 arc113.
Proof. constructor; (eapply taken_by128; [vm_compute; reflexivity|vm_compute; reflexivity]). Qed.

(** Right constants are determined. *)
Lemma right_unique p e (x y : binary_float p e) v : right p e x v -> right p e y v -> B2R y <> 0 -> x = y.
Proof. intros [Fx Ex] [Fy Ey] N. symmetry. apply strict_inj; [exact Fy|exact Fx|exact N|now rewrite Ex, Ey]. Qed.
Lemma sqrt_three_unique p e (c c' : arc_constants p e) : right_arc_constants p e c -> right_arc_constants p e c' -> B2R (arc_sqrt_three c') <> 0 -> arc_sqrt_three c = arc_sqrt_three c'.
Proof. intros A B. exact (right_unique p e _ _ _ (arc_sqrt_three_right _ _ _ A) (arc_sqrt_three_right _ _ _ B)). Qed.
Lemma num_pos {p e} m k H : 0 < B2R (@num p e m k H).
Proof. unfold num. cbn [B2R]. apply F2R_gt_0. cbn. lia. Qed.
Lemma num_value {p e} m k H : B2R (@num p e m k H) = IZR (Zpos m) * bpow radix2 k.
Proof. reflexivity. Qed.

Definition p113 : Prec_gt_0 113 := eq_refl.
Definition e113 : Prec_lt_emax 113 16384 := eq_refl.
Lemma check_same p e Hp He (c c' : arc_constants p e) l h : arc_sqrt_three c = arc_sqrt_three c' -> check p e Hp He c l h = check p e Hp He c' l h.
Proof. intros E. unfold check, within, low, atan_shift, atan_bound. rewrite E. reflexivity. Qed.
Definition upto (a : Z) (n : nat) : list Z := map (fun i => a + Z.of_nat i)%Z (seq 0 n).
Lemma in_upto a n k : (a <= k < a + Z.of_nat n)%Z -> In k (upto a n).
Proof. intros H. unfold upto. apply in_map_iff. exists (Z.to_nat (k - a)). split; [lia|]. apply in_seq. lia. Qed.
Lemma check53 : check 53 1024 p53 e1024 arc53 (upto 1 19) (upto 1 9) = true.
Proof. vm_compute. reflexivity. Qed.
Lemma check113 : check 113 16384 p113 e113 arc113 (upto 1 19) (upto 1 9) = true.
Proof. vm_compute. reflexivity. Qed.
Lemma check64 : check 64 16384 p64 e16384 arc64 (upto 3 17) (upto 2 8) = true.
Proof. vm_compute. reflexivity. Qed.
Definition never {p e} {Hp : Prec_gt_0 p} {He : Prec_lt_emax p e} (c : arc_constants p e) (x : binary_float p e) : Prop := forall fuel, atan_naive p e Hp He c fuel x = None.
Lemma settled53 (c : arc_constants 53 1024) x : right_arc_constants 53 1024 c -> is_finite x = true -> settled 53 1024 p53 e1024 c x.
Proof.
  intros C F B. destruct (staged_ok 53 1024 p53 e1024 ltac:(lia) ltac:(lia) x F) as [Fs _]. pose proof (sqrt_three_unique 53 1024 c arc53 C (arc_right53 _ arc53_taken) (Rgt_not_eq _ _ (num_pos _ _ _))) as E.
  apply (settles 53 1024 p53 e1024 ltac:(lia) ltac:(lia) c C (upto 1 19) (upto 1 9)); [rewrite (check_same _ _ _ _ c arc53 _ _ E); exact check53| | |exact Fs|exact B]; intros k K; left; apply in_upto; lia.
Qed.
Lemma settled113 (c : arc_constants 113 16384) x : right_arc_constants 113 16384 c -> is_finite x = true -> settled 113 16384 p113 e113 c x.
Proof.
  intros C F B. destruct (staged_ok 113 16384 p113 e113 ltac:(lia) ltac:(lia) x F) as [Fs _]. pose proof (sqrt_three_unique 113 16384 c arc113 C (arc_right113 _ arc113_taken) (Rgt_not_eq _ _ (num_pos _ _ _))) as E.
  apply (settles 113 16384 p113 e113 ltac:(lia) ltac:(lia) c C (upto 1 19) (upto 1 9)); [rewrite (check_same _ _ _ _ c arc113 _ _ E); exact check113| | |exact Fs|exact B]; intros k K; left; apply in_upto; lia.
Qed.

(* ------------------------------------------------------------------ x87 long double *)
Notation low64 := (low 64 16384 p64 e16384 arc64).
Notation high64 := (high 64 16384 p64 e16384).
Definition l1 : binary_float 64 16384 := @num 64 16384 9885580355068146057 (-65) eq_refl.
Definition l2 : binary_float 64 16384 := @num 64 16384 9885580355068146058 (-65) eq_refl.
Definition h1 : binary_float 64 16384 := @num 64 16384 18446744073709551615 (-64) eq_refl.
Definition r1 : binary_float 64 16384 := @num 64 16384 17211046529326033358 (-62) eq_refl.
Definition r2 : binary_float 64 16384 := @num 64 16384 17211046529326033359 (-62) eq_refl.
Definition r3 : binary_float 64 16384 := @num 64 16384 17211046529326033360 (-62) eq_refl.
Lemma same_SF (x y : binary_float 64 16384) : B2SF x = B2SF y -> x = y.
Proof. exact (B2SF_inj 64 16384 x y). Qed.
Lemma low64_1 : low64 1 = l1. Proof. apply same_SF. vm_compute. reflexivity. Qed.
Lemma low64_2 : low64 2 = l2. Proof. apply same_SF. vm_compute. reflexivity. Qed.
Lemma high64_1 : high64 1 = h1. Proof. apply same_SF. vm_compute. reflexivity. Qed.
Notation shift64 := (atan_shift 64 16384 p64 e16384 arc64).
Lemma turn1 : shift64 l1 = Bopp l2. Proof. apply same_SF. vm_compute. reflexivity. Qed.
Lemma turn2 : shift64 l2 = Bopp l1. Proof. apply same_SF. vm_compute. reflexivity. Qed.
Lemma turn3 : shift64 h1 = l1. Proof. apply same_SF. vm_compute. reflexivity. Qed.
Notation inv64 x := (@Bdiv 64 16384 p64 e16384 mode_NE (@Bone 64 16384 p64 e16384) x).
Lemma inv1 : inv64 r1 = l2. Proof. apply same_SF. vm_compute. reflexivity. Qed.
Lemma inv2 : inv64 r2 = l2. Proof. apply same_SF. vm_compute. reflexivity. Qed.
Lemma inv3 : inv64 r3 = l1. Proof. apply same_SF. vm_compute. reflexivity. Qed.

Lemma ok64 : (53 <= 64 <= 113)%Z. Proof. lia. Qed.
Lemma okE : (1024 <= 16384)%Z. Proof. lia. Qed.
Section LongDouble.
  Variable c : arc_constants 64 16384.
  Hypothesis C : right_arc_constants 64 16384 c.
  Lemma three64 : arc_sqrt_three c = arc_sqrt_three arc64.
  Proof using C. exact (sqrt_three_unique 64 16384 c arc64 C (arc_right64 _ arc64_taken) (Rgt_not_eq _ _ (num_pos _ _ _))). Qed.
  Lemma shift_same x : atan_shift 64 16384 p64 e16384 c x = shift64 x.
  Proof using C. unfold atan_shift. rewrite three64. reflexivity. Qed.
  Lemma low_same k : low 64 16384 p64 e16384 c k = low64 k.
  Proof using C. unfold low, atan_bound. rewrite three64. reflexivity. Qed.
  Notation atan_ := (atan_naive 64 16384 p64 e16384 c).
  Notation step := (atan_step 64 16384 p64 e16384 ok64 okE c C).
  Lemma bound64 : B2R (atan_bound 64 16384 p64 e16384 c) = IZR 9885580355068146056 * bpow radix2 (-65).
  Proof using C.
    unfold atan_bound. rewrite three64. rewrite <- SF2R_B2SF. replace (B2SF _) with (SpecFloat.S754_finite false 9885580355068146056 (-65)) by (vm_compute; reflexivity). reflexivity.
  Qed.
  Lemma neg_never (x : binary_float 64 16384) : is_finite x = true -> 0 < B2R x -> (forall fuel, atan_ fuel x = None) -> forall fuel, atan_ fuel (Bopp x) = None.
  Proof using C.
    intros F H N [|fuel]; [reflexivity|]. rewrite step by (now rewrite is_finite_Bopp). rewrite B2R_Bopp, !Req_bool_false, Rlt_bool_true by lra. now rewrite Bopp_involutive, N.
  Qed.
  Lemma middle fuel (w : binary_float 64 16384) : is_finite w = true -> B2R (atan_bound 64 16384 p64 e16384 c) < B2R w < 1 -> atan_ (S fuel) w = option_map (fun r => @Bplus 64 16384 p64 e16384 mode_NE (arc_pi_over_six c) r) (atan_ fuel (shift64 w)).
  Proof using C.
    intros F H. pose proof bound64 as B. assert (0 < IZR 9885580355068146056 * bpow radix2 (-65)) by (cbn; lra). rewrite step by exact F. rewrite !Req_bool_false, !Rlt_bool_false, Rlt_bool_true by lra. now rewrite shift_same.
  Qed.
  Lemma vals : 0 < bpow radix2 (-65) /\ bpow radix2 (-64) = 2 * bpow radix2 (-65) /\ bpow radix2 (-62) = 8 * bpow radix2 (-65) /\ IZR 36893488147419103232 * bpow radix2 (-65) = 1.
  Proof using. cbn. lra. Qed.
  Lemma l_never fuel : atan_ fuel l1 = None /\ atan_ fuel l2 = None.
  Proof using C.
    pose proof bound64 as B. pose proof vals as (V0 & _ & _ & V1). set (q := bpow radix2 (-65)) in *.
    assert (R1 : 0.25 < B2R l1 < 1 /\ B2R (atan_bound 64 16384 p64 e16384 c) < B2R l1). { rewrite B. unfold l1. rewrite num_value. fold q. lra. }
    assert (R2 : 0.25 < B2R l2 < 1 /\ B2R (atan_bound 64 16384 p64 e16384 c) < B2R l2). { rewrite B. unfold l2. rewrite num_value. fold q. lra. }
    induction fuel as [fuel IH] using (well_founded_induction lt_wf). destruct fuel as [|[|fuel]]; [now split|split; rewrite middle by (reflexivity || lra); reflexivity|].
    destruct (IH fuel ltac:(lia)) as [I1 I2].
    split; rewrite middle by (reflexivity || lra).
    - rewrite turn1, step by reflexivity. rewrite B2R_Bopp, !Req_bool_false, Rlt_bool_true by lra. now rewrite Bopp_involutive, I2.
    - rewrite turn2, step by reflexivity. rewrite B2R_Bopp, !Req_bool_false, Rlt_bool_true by lra. now rewrite Bopp_involutive, I1.
  Qed.
  Lemma h_never fuel : atan_ fuel h1 = None.
  Proof using C.
    destruct fuel as [|fuel]; [reflexivity|]. pose proof vals as (V0 & V2 & _ & V1). rewrite middle; [rewrite turn3, (proj1 (l_never fuel)); reflexivity|reflexivity|].
    rewrite bound64. unfold h1. rewrite num_value, V2. set (q := bpow radix2 (-65)) in *. lra.
  Qed.
  Lemma above fuel (x : binary_float 64 16384) : is_finite x = true -> 1 < B2R x -> atan_ (S fuel) x = option_map (fun r => @Bminus 64 16384 p64 e16384 mode_NE (arc_pi_over_two c) r) (atan_ fuel (inv64 x)).
  Proof using C. intros F H. rewrite step by exact F. rewrite !Req_bool_false, Rlt_bool_false, Rlt_bool_true by lra. reflexivity. Qed.
  Lemma r_never fuel : atan_ fuel r1 = None /\ atan_ fuel r2 = None /\ atan_ fuel r3 = None.
  Proof using C.
    destruct fuel as [|fuel]; [repeat split; reflexivity|]. pose proof vals as (V0 & _ & V3 & V1). destruct (l_never fuel) as [I1 I2].
    assert (R1 : 1 < B2R r1 /\ 1 < B2R r2 /\ 1 < B2R r3). { unfold r1, r2, r3. rewrite !num_value, V3. set (q := bpow radix2 (-65)) in *. lra. }
    repeat split; rewrite above by (reflexivity || lra); [rewrite inv1, I2|rewrite inv2, I2|rewrite inv3, I1]; reflexivity.
  Qed.
  Definition lost (y : binary_float 64 16384) : Prop := y = h1 \/ y = l1 \/ y = l2 \/ y = r1 \/ y = r2 \/ y = r3.
  Lemma lost_never (x : binary_float 64 16384) : lost (Babs x) -> forall fuel, atan_ fuel x = None.
  Proof using C.
    assert (G : forall y, lost y -> forall fuel, atan_ fuel y = None).
    { intros y H fuel. destruct H as [->|[->|[->|[->|[->| ->]]]]]; [apply h_never|apply l_never|apply l_never|apply r_never|apply r_never|apply r_never]. }
    assert (P : forall y, lost y -> is_finite y = true /\ 0 < B2R y) by (intros y H; destruct H as [->|[->|[->|[->|[->| ->]]]]]; (split; [reflexivity|apply num_pos])).
    intros H. destruct (P _ H) as [F Q].
    assert (S : x = Babs x \/ x = Bopp (Babs x)) by (destruct x as [[]|[]| |[]]; cbn in *; (now left) || (now right)). destruct S as [-> | ->]; [now apply G|]. apply neg_never; [exact F|exact Q|now apply G].
  Qed.
  Lemma reach (x : binary_float 64 16384) : is_finite x = true -> staged 64 16384 p64 e16384 x = h1 \/ staged 64 16384 p64 e16384 x = l1 \/ staged 64 16384 p64 e16384 x = l2 -> lost (Babs x).
  Proof using.
    intros F H. unfold staged in H. cbv zeta in H. set (a := Babs x) in *. assert (Fa : is_finite a = true) by (unfold a; now rewrite is_finite_Babs).
    destruct (Rlt_bool_spec 1 (B2R a)) as [L|L]; [|unfold lost; tauto].
    assert (I : 0 < / B2R a < 1). { split; [apply Rinv_0_lt_compat; lra|]. rewrite <- Rinv_1. apply Rinv_lt_contravar; lra. }
    destruct (one_ok 64 16384 p64 e16384) as [Fo Vo].
    destruct (div_ok 64 16384 p64 e16384 ltac:(lia) ltac:(lia) (@Bone 64 16384 p64 e16384) a Fo) as [Fd Vd]; [lra|rewrite Vo; unfold Rdiv; rewrite Rmult_1_l, Rabs_pos_eq by lra; apply Rle_trans with (bpow radix2 0); [cbn; lra|apply bpow_le; lia]|].
    rewrite Vo in Vd. unfold Rdiv in Vd. rewrite Rmult_1_l in Vd.
    pose proof vals as (V0 & V2 & V3 & V1). destruct (rnd_any 64 16384 p64 (/ B2R a)) as (d & e & Hd & He & Q). rewrite Q in Vd. pose proof (eta_u3 64 16384 p64 e16384 ltac:(lia) ltac:(lia)) as Eu. change (Z.opp 64) with (-64)%Z in *. rewrite V2 in Hd, Eu.
    set (v := / B2R a) in *. set (W := B2R (inv64 a)) in *. assert (Av : v * B2R a = 1) by (unfold v; apply Rinv_l; lra).
    assert (Dv : Rabs (W - v) <= 2 * bpow radix2 (-65) * (v + 0.000001)).
    { rewrite Vd. replace (v * (1 + d) + e - v) with (v * d + e) by ring. apply Rle_trans with (1 := Rabs_triang _ _). rewrite Rabs_mult, (Rabs_pos_eq v) by lra. assert (v * Rabs d <= v * (2 * bpow radix2 (-65))) by (apply Rmult_le_compat_l; lra). lra. }
    assert (Dv2 : 2 * bpow radix2 (-65) * (v + 0.000001) <= 2 * bpow radix2 (-65) * 1.000001) by (apply Rmult_le_compat_l; lra).
    assert (Sq : bpow radix2 (-65) <= 0.00000000001) by (cbn; lra).
    set (q := bpow radix2 (-65)) in *. apply Rabs_le_inv in Dv.
    destruct H as [H|H].
    - assert (HW : W = IZR 18446744073709551615 * (2 * q)) by (unfold W; rewrite H; unfold h1; rewrite num_value, V2; reflexivity).
      assert (A2 : 1 < B2R a < 2). { split; [exact L|]. apply Rnot_le_lt. intros G. assert (v * 2 <= v * B2R a) by (apply Rmult_le_compat_l; lra). lra. }
      destruct (grid 64 16384 ltac:(lia) ltac:(lia) 1 (B2R a) ltac:(lia) (generic_format_B2R _ _ _) ltac:(cbn; lra)) as (m & Em). change (1 - 64)%Z with (-63)%Z in Em.
      assert (V63 : bpow radix2 (-63) = 4 * q) by (unfold q; cbn; lra). rewrite V63 in Em.
      assert (M1 : (m <= 9223372036854775809)%Z).
      { destruct (Z_le_gt_dec m 9223372036854775809) as [?|G]; [assumption|]. exfalso. assert (G' : IZR 9223372036854775810 <= IZR m) by (apply IZR_le; lia).
        assert (B2R a >= IZR 9223372036854775810 * (4 * q)) by (rewrite Em; apply Rle_ge, Rmult_le_compat_r; lra).
        assert (v * (1 + 8 * q) <= v * B2R a) by (apply Rmult_le_compat_l; lra).
        assert (L2 : 1 - 4.000004 * q <= v) by lra. assert (X : (1 - 4.000004 * q) * (1 + 8 * q) <= v * (1 + 8 * q)) by (apply Rmult_le_compat_r; lra).
        assert (Y : q * q <= 0.00000000001 * q) by (apply Rmult_le_compat_r; lra). lra. }
      assert (M2 : (9223372036854775808 < m)%Z). { apply lt_IZR. apply Rmult_lt_reg_r with (4 * q); [lra|]. rewrite <- Em. lra. }
      assert (Em' : m = 9223372036854775809%Z) by lia. exfalso.
      set (y := @num 64 16384 9223372036854775809 (-63) eq_refl). assert (Ey : y = a). { apply strict_inj; [reflexivity|exact Fa|apply Rgt_not_eq, num_pos|]. unfold y. rewrite num_value, Em, Em', V63. reflexivity. }
      rewrite <- Ey in H. assert (K : B2SF (inv64 y) = B2SF h1) by (now rewrite H). vm_compute in K. discriminate K.
    - assert (HW : IZR 9885580355068146057 * q <= W <= IZR 9885580355068146058 * q) by (unfold W; destruct H as [-> | ->]; unfold l1, l2; rewrite num_value; fold q; lra).
      assert (Bv : IZR 9885580355068146057 * q - 0.54 * q <= v <= IZR 9885580355068146058 * q + 0.54 * q).
      { assert (v <= 0.2681) by lra. assert (2 * q * (v + 0.000001) <= 2 * q * 0.269) by (apply Rmult_le_compat_l; lra). lra. }
      assert (A2 : 2 < B2R a < 4). { split; apply Rnot_le_lt; intros G; [assert (v * B2R a <= v * 2) by (apply Rmult_le_compat_l; lra); lra|assert (v * 4 <= v * B2R a) by (apply Rmult_le_compat_l; lra); lra]. }
      destruct (grid 64 16384 ltac:(lia) ltac:(lia) 2 (B2R a) ltac:(lia) (generic_format_B2R _ _ _) ltac:(cbn; lra)) as (m & Em). change (2 - 64)%Z with (-62)%Z in Em. rewrite V3 in Em.
      assert (M0 : (0 < m)%Z). { apply lt_IZR. apply Rmult_lt_reg_r with (8 * q); [lra|]. rewrite <- Em. lra. } apply IZR_lt in M0 as M0'.
      assert (P1 : (IZR 9885580355068146057 - 0.54) * IZR m <= IZR (2 ^ 127)).
      { apply Rmult_le_reg_r with (8 * q * q); [apply Rmult_lt_0_compat; lra|]. replace ((IZR 9885580355068146057 - 0.54) * IZR m * (8 * q * q)) with ((IZR 9885580355068146057 * q - 0.54 * q) * B2R a) by (rewrite Em; ring).
        apply Rle_trans with (v * B2R a); [apply Rmult_le_compat_r; lra|]. rewrite Av. right. replace (IZR (2 ^ 127) * (8 * q * q)) with ((IZR 36893488147419103232 * q) * (IZR 36893488147419103232 * q)) by (cbn; ring). rewrite V1. ring. }
      assert (P2 : IZR (2 ^ 127) <= (IZR 9885580355068146058 + 0.54) * IZR m).
      { apply Rmult_le_reg_r with (8 * q * q); [apply Rmult_lt_0_compat; lra|]. replace ((IZR 9885580355068146058 + 0.54) * IZR m * (8 * q * q)) with ((IZR 9885580355068146058 * q + 0.54 * q) * B2R a) by (rewrite Em; ring).
        apply Rle_trans with (v * B2R a); [|apply Rmult_le_compat_r; lra]. rewrite Av. right. replace (IZR (2 ^ 127) * (8 * q * q)) with ((IZR 36893488147419103232 * q) * (IZR 36893488147419103232 * q)) by (cbn; ring). rewrite V1. ring. }
      assert (P1' : (988558035506814605646 * m <= 100 * 2 ^ 127)%Z) by (apply le_IZR; rewrite !mult_IZR; lra). assert (P2' : (100 * 2 ^ 127 <= 988558035506814605854 * m)%Z) by (apply le_IZR; rewrite !mult_IZR; lra).
      change (2 ^ 127)%Z with 170141183460469231731687303715884105728%Z in *.
      assert (Cases : (m = 17211046529326033358 \/ m = 17211046529326033359 \/ m = 17211046529326033360)%Z) by lia.
      unfold lost. destruct Cases as [->|[->| ->]]; [do 3 right; left|do 4 right; left|do 5 right]; apply (strict_inj 64 16384); try assumption; try reflexivity; try lra; rewrite Em; unfold r1, r2, r3; rewrite num_value, V3; reflexivity.
  Qed.
  Lemma found (x : binary_float 64 16384) : is_finite x = true -> ~ lost (Babs x) -> settled 64 16384 p64 e16384 c x.
  Proof using C.
    intros F N B. destruct (staged_ok 64 16384 p64 e16384 ltac:(lia) ltac:(lia) x F) as [Fs _].
    apply (settles 64 16384 p64 e16384 ltac:(lia) ltac:(lia) c C (upto 3 17) (upto 2 8)); [rewrite (check_same _ _ _ _ c arc64 _ _ three64); exact check64| | |exact Fs|exact B]; intros k K.
    - destruct (Z_le_gt_dec 3 k); [left; apply in_upto; lia|]. right. rewrite low_same. intros E. apply N, reach; [exact F|]. assert (k = 1 \/ k = 2)%Z as [->| ->] by lia; [rewrite low64_1 in E|rewrite low64_2 in E]; auto.
    - destruct (Z_le_gt_dec 2 k); [left; apply in_upto; lia|]. right. intros E. apply N, reach; [exact F|]. replace k with 1%Z in E by lia. rewrite high64_1 in E. auto.
  Qed.
End LongDouble.
