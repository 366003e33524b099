(** Proofs about the integer functions of math.h. *)
From Coq Require Import Znumtheory.
From Verif Require Import Words WordsProofs CoreModel CoreSpec CoreProofs MathModel MathSpec.
Local Open Scope Z_scope.

(* ------------------------------------------------------------------ common types *)
Definition types : list ity := flat_map (fun b => [{| isigned := true; ibits := b |}; {| isigned := false; ibits := b |}]) [8; 16; 32; 64; 128].
Lemma std_types t : std_ity t <-> In t types.
Proof.
  destruct t as [s b]. unfold std_ity, types. cbn [In ibits flat_map app]. split.
  - intros H. destruct s; repeat (destruct H as [H|H]; [subst; auto 20|]); contradiction.
  - intros H. repeat (destruct H as [H|H]; [injection H as <- <-; auto 20|]). contradiction.
Qed.
Definition big (t : ity) (m : Z) : bool := m <=? ity_max t.
Lemma common_table : forallb (fun a => forallb (fun b =>
  existsb (ity_eqb (common a b)) types && big (common a b) (ity_max a) && big (common a b) (ity_max b)) types) types = true.
Proof. vm_compute. reflexivity. Qed.
Lemma ity_eqb_ok a b : ity_eqb a b = true -> a = b.
Proof.
  destruct a, b. unfold ity_eqb. cbn. intros H. apply andb_true_iff in H. destruct H as [H1 H2].
  apply Bool.eqb_prop in H1. apply Z.eqb_eq in H2. subst. reflexivity.
Qed.
Lemma ity_eqb_refl a : ity_eqb a a = true.
Proof. destruct a. unfold ity_eqb. cbn. rewrite Bool.eqb_reflx, Z.eqb_refl. reflexivity. Qed.
Lemma common_std a b : std_ity a -> std_ity b -> std_ity (common a b) /\ ity_max a <= ity_max (common a b) /\ ity_max b <= ity_max (common a b).
Proof.
  rewrite !std_types. intros Ha Hb. pose proof (proj1 (forallb_forall _ _) common_table a Ha) as H. cbv beta in H.
  pose proof (proj1 (forallb_forall _ _) H b Hb) as K. cbv beta in K. clear H.
  apply andb_true_iff in K. destruct K as [K K3]. apply andb_true_iff in K. destruct K as [K1 K2].
  apply Z.leb_le in K2, K3. apply existsb_exists in K1. destruct K1 as (t & Ht & E). apply ity_eqb_ok in E. rewrite E in *. auto.
Qed.
Lemma assoc_table : forallb (fun a => forallb (fun b => forallb (fun c =>
  ity_eqb (common (common a b) c) (common a (common b c))) types) types) types = true.
Proof. vm_compute. reflexivity. Qed.
Lemma common_assoc a b c : std_ity a -> std_ity b -> std_ity c -> common (common a b) c = common a (common b c).
Proof.
  rewrite !std_types. intros Ha Hb Hc. pose proof (proj1 (forallb_forall _ _) assoc_table a Ha) as H. cbv beta in H.
  pose proof (proj1 (forallb_forall _ _) H b Hb) as K. cbv beta in K. pose proof (proj1 (forallb_forall _ _) K c Hc) as J.
  apply ity_eqb_ok in J. exact J.
Qed.
Lemma common_fold l : forall a b, std_ity a -> std_ity b -> (forall t, In t l -> std_ity t) -> common_all a b l = fold_left common l (common a b).
Proof. reflexivity. Qed.
Lemma fold_std l : forall a, std_ity a -> (forall t, In t l -> std_ity t) ->
  std_ity (fold_left common l a) /\ ity_max a <= ity_max (fold_left common l a).
Proof.
  induction l as [|t l IH]; intros a Ha Hl; cbn [fold_left].
  - split; [exact Ha|lia].
  - destruct (common_std a t) as (H1 & H2 & _); [exact Ha|apply Hl; left; reflexivity|].
    destruct (IH (common a t)) as [H3 H4]; [exact H1|intros u Hu; apply Hl; right; exact Hu|]. split; [exact H3|lia].
Qed.

(* ------------------------------------------------------------------ gcd and lcm *)
Lemma std_pos t : std_ity t -> 0 < ibits t /\ 0 <= ity_max t /\ ity_min t <= 0.
Proof.
  intros H. pose proof (std_bits t H). unfold ity_max, ity_min.
  assert (0 < 2 ^ (ibits t - 1)) by (apply Z.pow_pos_nonneg; lia). assert (0 < 2 ^ ibits t) by (apply Z.pow_pos_nonneg; lia).
  destruct (isigned t); lia.
Qed.
Lemma fits_pos t x : std_ity t -> 0 <= x -> x <= ity_max t -> fits t x = true.
Proof. intros H H1 H2. destruct (std_pos t H) as (_ & _ & H3). unfold fits. apply andb_true_iff. split; apply Z.leb_le; lia. Qed.
Lemma cast_id t x : std_ity t -> 0 <= val x -> val x <= ity_max t -> cast t x = TV t (val x).
Proof. intros H H1 H2. destruct (std_pos t H) as (Hb & _ & H3). unfold cast. rewrite conv_id; [reflexivity|exact Hb|split; lia]. Qed.

Section Variadic.
  Variable f : tv -> tv -> option tv.
  Variable op : Z -> Z -> Z.
  Variable inv : tv -> Prop.   (* holds of the arguments and of all intermediate results *)
  Hypothesis op_assoc : forall a b c, op (op a b) c = op a (op b c).
  Hypothesis inv_std : forall a, inv a -> std_ity (ty a).
  Hypothesis step : forall a b, inv a -> inv b ->
    exists r, f a b = Some r /\ ty r = common (ty a) (ty b) /\ val r = op (val a) (val b) /\ 0 <= val r <= ity_max (ty r) /\ inv r.

  Lemma fold_op l : forall a b, fold_left op l (op a b) = op a (fold_left op l b).
  Proof using op_assoc. induction l as [|x l IH]; intros a b; cbn [fold_left]; [reflexivity|]. rewrite op_assoc. apply IH. Qed.

  Lemma variadic_ok vals : forall v1 v2, inv v1 -> inv v2 -> Forall inv vals ->
    exists r, variadic f v1 v2 vals = Some r /\ ty r = common_all (ty v1) (ty v2) (map ty vals)
      /\ val r = fold_left op (map val vals) (op (val v1) (val v2)) /\ 0 <= val r <= ity_max (ty r) /\ inv r.
  Proof using op_assoc inv_std step.
    induction vals as [|a rest IH]; intros v1 v2 H1 H2 Hl.
    - destruct (step v1 v2 H1 H2) as (r & E & Et & Ev & B & I). exists r. cbn [variadic map]. rewrite E. cbn [option_bind].
      change (common_all (ty v1) (ty v2) []) with (common (ty v1) (ty v2)).
      rewrite cast_id; [|rewrite <- Et; apply inv_std; exact I|lia|rewrite <- Et; lia].
      rewrite <- Et. destruct r as [tr vr]. cbn [ty val] in *. auto.
    - inversion Hl as [|x y Ha Hrest]; subst x y. destruct (step v1 v2 H1 H2) as (x & E & Et & Ev & B & I).
      assert (Hstd : forall t, In t (map ty (a :: rest)) -> std_ity t).
      { intros t Ht. apply in_map_iff in Ht. destruct Ht as (u & <- & Hu). apply inv_std. rewrite Forall_forall in Hl. apply Hl. exact Hu. }
      destruct (fold_std (map ty (a :: rest)) (common (ty v1) (ty v2))) as [Fs Fm]; [rewrite <- Et; apply inv_std; exact I|exact Hstd|].
      assert (Tail : exists r, (x0 <- f v1 v2 ;; r <- variadic f x0 a rest ;; Some (cast (common_all (ty v1) (ty v2) (map ty (a :: rest))) r)) = Some r
        /\ ty r = common_all (ty v1) (ty v2) (map ty (a :: rest)) /\ val r = fold_left op (map val (a :: rest)) (op (val v1) (val v2)) /\ 0 <= val r <= ity_max (ty r) /\ inv r).
      { destruct (IH x a I Ha Hrest) as (r & Er & Ert & Erv & Br & Ir). exists r. rewrite E. cbn [option_bind]. rewrite Er. cbn [option_bind].
        assert (Ety : ty r = common_all (ty v1) (ty v2) (map ty (a :: rest))) by (rewrite Ert; unfold common_all; cbn [map fold_left]; rewrite Et; reflexivity).
        rewrite cast_id; [|rewrite <- Ety; apply inv_std; exact Ir|lia|rewrite <- Ety; lia].
        rewrite <- Ety. rewrite Ev in Erv. cbn [map fold_left]. destruct r as [tr vr]. cbn [ty val] in *. auto. }
      destruct rest as [|b rest']; [exact Tail|]. destruct rest' as [|c rest'']; [|exact Tail]. clear Tail IH.
      inversion Hrest as [|u w Hb Hn]; subst u w.
      destruct (step a b Ha Hb) as (y & E2 & Et2 & Ev2 & B2 & I2). destruct (step x y I I2) as (r & E3 & Et3 & Ev3 & B3 & I3).
      exists r. cbn [variadic]. rewrite E. cbn [option_bind]. rewrite E2. cbn [option_bind]. rewrite E3. cbn [option_bind].
      assert (Ety : ty r = common_all (ty v1) (ty v2) [ty a; ty b]).
      { rewrite Et3, Et, Et2. unfold common_all. cbn [fold_left]. rewrite (common_assoc (common (ty v1) (ty v2)) (ty a) (ty b)); [reflexivity|rewrite <- Et| |]; apply inv_std; assumption. }
      rewrite cast_id; [|rewrite <- Ety; apply inv_std; exact I3|lia|rewrite <- Ety; lia].
      rewrite <- Ety. cbn [map fold_left]. split; [destruct r; reflexivity|]. split; [exact Ety|]. split; [|auto].
      rewrite Ev3, Ev, Ev2. rewrite !op_assoc. reflexivity.
  Qed.
End Variadic.

Lemma gcd_step a b : good a -> good b ->
  exists r, std_gcd a b = Some r /\ ty r = common (ty a) (ty b) /\ val r = Z.gcd (val a) (val b) /\ 0 <= val r <= ity_max (ty r) /\ good r.
Proof.
  intros (Sa & Ra & Aa) (Sb & Rb & Ab). destruct (common_std (ty a) (ty b) Sa Sb) as (Sc & Ma & Mb).
  unfold std_gcd. rewrite !fits_pos; try assumption; try apply Z.abs_nonneg; try (destruct Aa, Ab; lia). cbn [andb].
  eexists. split; [reflexivity|]. cbn [ty val]. split; [reflexivity|]. split; [reflexivity|].
  pose proof (Z.gcd_nonneg (val a) (val b)) as G.
  assert (Hle : Z.gcd (val a) (val b) <= ity_max (common (ty a) (ty b))).
  { destruct (Z.eq_dec (val a) 0) as [Z|Z].
    - rewrite Z, Z.gcd_0_l. destruct Ab; lia.
    - assert (Z.gcd (val a) (val b) <= Z.abs (val a)); [|destruct Aa; lia].
      apply Z.divide_pos_le; [lia|]. apply Z.divide_abs_r. apply Z.gcd_divide_l. }
  split; [lia|]. destruct (std_pos _ Sc) as (_ & _ & Hm). unfold good, in_ity. cbn [ty val]. rewrite Z.abs_eq by lia. split; [exact Sc|]. split; split; lia.
Qed.
Lemma good_std a : good a -> std_ity (ty a). Proof. intros (H & _). exact H. Qed.
Lemma gcd_assoc a b c : Z.gcd (Z.gcd a b) c = Z.gcd a (Z.gcd b c). Proof. symmetry. apply Z.gcd_assoc. Qed.

Lemma fold_gcd_spec l : forall g, 0 <= g -> is_gcd (g :: l) (fold_left Z.gcd l g).
Proof.
  induction l as [|x l IH]; intros g Hg; cbn [fold_left].
  - split; [exact Hg|]. intros d. split; [intros H; repeat constructor; exact H|intros H; inversion H; assumption].
  - destruct (IH (Z.gcd g x) (Z.gcd_nonneg _ _)) as [N S]. split; [exact N|]. intros d. rewrite S. split; intros H.
    + inversion H as [|? ? H1 H2]; subst. constructor; [|constructor]; [| |exact H2].
      * eapply Z.divide_trans; [exact H1|apply Z.gcd_divide_l].
      * eapply Z.divide_trans; [exact H1|apply Z.gcd_divide_r].
    + inversion H as [|? ? H1 H2]; subst. inversion H2 as [|? ? H3 H4]; subst. constructor; [|exact H4]. apply Z.gcd_greatest; assumption.
Qed.

Lemma gcd_ok v1 v2 vals : good v1 -> good v2 -> Forall good vals ->
  exists r, gcd v1 v2 vals = Some r /\ ty r = common_all (ty v1) (ty v2) (map ty vals) /\ in_ity (ty r) (val r) /\ is_gcd (val v1 :: val v2 :: map val vals) (val r).
Proof.
  intros H1 H2 Hl. destruct (variadic_ok std_gcd Z.gcd good gcd_assoc good_std gcd_step vals v1 v2 H1 H2 Hl) as (r & E & Et & Ev & B & G).
  exists r. split; [exact E|]. split; [exact Et|]. split; [apply G|].
  rewrite Ev. destruct (fold_gcd_spec (map val vals) (Z.gcd (val v1) (val v2)) (Z.gcd_nonneg _ _)) as [N S]. split; [exact N|].
  intros d. rewrite S. split; intros H.
  - inversion H as [|? ? K1 K2]; subst. constructor; [|constructor]; [| |exact K2]; (eapply Z.divide_trans; [exact K1|]); [apply Z.gcd_divide_l|apply Z.gcd_divide_r].
  - inversion H as [|? ? K1 K2]; subst. inversion K2 as [|? ? K3 K4]; subst. constructor; [|exact K4]. apply Z.gcd_greatest; assumption.
Qed.

Section Lcm.
  Variable M : Z.
  Hypothesis M_pos : 0 < M.
  Definition linv (v : tv) : Prop := good v /\ M <= ity_max (ty v) /\ (val v = 0 \/ (val v | M)).
  Lemma lcm_step a b : linv a -> linv b ->
    exists r, std_lcm a b = Some r /\ ty r = common (ty a) (ty b) /\ val r = Z.lcm (val a) (val b) /\ 0 <= val r <= ity_max (ty r) /\ linv r.
  Proof using M_pos.
    intros (Ga & La & Da) (Gb & Lb & Db). destruct Ga as (Sa & Ra & Aa), Gb as (Sb & Rb & Ab). destruct (common_std (ty a) (ty b) Sa Sb) as (Sc & Ma & Mb).
    pose proof (Z.lcm_nonneg (val a) (val b)) as G.
    assert (D : Z.lcm (val a) (val b) = 0 \/ (Z.lcm (val a) (val b) | M)).
    { destruct Da as [Z|Da]; [left; apply Z.lcm_eq_0; auto|]. destruct Db as [Z|Db]; [left; apply Z.lcm_eq_0; auto|]. right. apply Z.lcm_least; assumption. }
    assert (Hle : Z.lcm (val a) (val b) <= ity_max (common (ty a) (ty b))).
    { destruct D as [Z|D]; [destruct (std_pos _ Sc); lia|]. apply Z.divide_pos_le in D; lia. }
    unfold std_lcm. rewrite !fits_pos; try assumption; try apply Z.abs_nonneg; try (destruct Aa, Ab; lia). cbn [andb].
    eexists. split; [reflexivity|]. cbn [ty val]. split; [reflexivity|]. split; [reflexivity|]. split; [lia|].
    destruct (std_pos _ Sc) as (_ & _ & Hm). unfold linv, good, in_ity. cbn [ty val]. rewrite Z.abs_eq by lia. split; [|split; [lia|exact D]]. split; [exact Sc|]. split; split; lia.
  Qed.
  Lemma linv_std a : linv a -> std_ity (ty a). Proof using. intros ((H & _) & _). exact H. Qed.
End Lcm.
Lemma lcm_assoc a b c : Z.lcm (Z.lcm a b) c = Z.lcm a (Z.lcm b c). Proof. symmetry. apply Z.lcm_assoc. Qed.

Lemma fold_lcm_spec l : forall g, 0 <= g -> is_lcm (g :: l) (fold_left Z.lcm l g).
Proof.
  induction l as [|x l IH]; intros g Hg; cbn [fold_left].
  - split; [exact Hg|]. intros d. split; [intros H; repeat constructor; exact H|intros H; inversion H; assumption].
  - destruct (IH (Z.lcm g x) (Z.lcm_nonneg _ _)) as [N S]. split; [exact N|]. intros d. rewrite S. split; intros H.
    + inversion H as [|? ? H1 H2]; subst. constructor; [|constructor]; [| |exact H2].
      * eapply Z.divide_trans; [apply Z.divide_lcm_l|exact H1].
      * eapply Z.divide_trans; [apply Z.divide_lcm_r|exact H1].
    + inversion H as [|? ? H1 H2]; subst. inversion H2 as [|? ? H3 H4]; subst. constructor; [|exact H4]. apply Z.lcm_least; assumption.
Qed.

Lemma lcm_ok M v1 v2 vals : 0 < M -> linv M v1 -> linv M v2 -> Forall (linv M) vals ->
  exists r, lcm v1 v2 vals = Some r /\ ty r = common_all (ty v1) (ty v2) (map ty vals) /\ in_ity (ty r) (val r) /\ is_lcm (val v1 :: val v2 :: map val vals) (val r).
Proof.
  intros HM H1 H2 Hl.
  destruct (variadic_ok std_lcm Z.lcm (linv M) lcm_assoc (linv_std M) (lcm_step M HM) vals v1 v2 H1 H2 Hl) as (r & E & Et & Ev & B & G).
  exists r. split; [exact E|]. split; [exact Et|]. split; [apply G|].
  rewrite Ev. destruct (fold_lcm_spec (map val vals) (Z.lcm (val v1) (val v2)) (Z.lcm_nonneg _ _)) as [N S]. split; [exact N|].
  intros d. rewrite S. split; intros H.
  - inversion H as [|? ? K1 K2]; subst. constructor; [|constructor]; [| |exact K2]; (eapply Z.divide_trans; [|exact K1]); [apply Z.divide_lcm_l|apply Z.divide_lcm_r].
  - inversion H as [|? ? K1 K2]; subst. inversion K2 as [|? ? K3 K4]; subst. constructor; [|exact K4]. apply Z.lcm_least; assumption.
Qed.

(* ------------------------------------------------------------------ evenly_distribute *)
Local Open Scope N_scope.
Lemma distribute_val w total n i : 0 < n -> total < 2 ^ w ->
  evenly_distribute w total n i = Some (total / n + (if i <? total mod n then 1 else 0)).
Proof.
  intros Hn Hw. unfold evenly_distribute. destruct (N.eqb_spec n 0) as [E|E]; [lia|]. f_equal.
  destruct (N.ltb_spec i (total mod n)) as [H|H]; [|lia]. rewrite trunc_small; [reflexivity|].
  pose proof (N.div_mod total n E). assert (total / n + 1 <= total) by nia. lia.
Qed.
Lemma sum_app a b : sum (a ++ b) = sum a + sum b.
Proof. induction a as [|x a IH]; cbn; [reflexivity|]. unfold sum in *. rewrite IH. lia. Qed.
Lemma below_succ n : below (N.of_nat (S n)) = below (N.of_nat n) ++ [N.of_nat n].
Proof. unfold below. rewrite !Nat2N.id, seq_S, map_app. reflexivity. Qed.
Lemma sum_distribute q r n : sum (map (fun i => q + (if i <? r then 1 else 0)) (below (N.of_nat n))) = q * N.of_nat n + N.min r (N.of_nat n).
Proof.
  induction n as [|n IH]; [unfold below; cbn; lia|]. rewrite below_succ, map_app, sum_app, IH. cbn [map sum fold_right].
  destruct (N.ltb_spec (N.of_nat n) r); lia.
Qed.

(* ------------------------------------------------------------------ mixed comparisons *)
Local Close Scope N_scope.
Lemma unsafe_mix_common T U : std_ity T -> std_ity U -> unsafe_mix T U = true ->
  common_type T U = T /\ isigned T = false /\ isigned U = true /\ common_type U T = T.
Proof.
  destruct T as [sT bT], U as [sU bU]. unfold std_ity, unsafe_mix. cbn [isigned ibits In]. intros HT HU H.
  destruct sT; [discriminate|]. destruct sU; [|discriminate]. cbn [negb andb] in H.
  repeat (destruct HT as [HT|HT]; [subst bT; repeat (destruct HU as [HU|HU]; [subst bU; try discriminate; repeat split|]); try contradiction|]). contradiction.
Qed.
Lemma unsafe_range T U x : std_ity T -> std_ity U -> unsafe_mix T U = true -> in_ity U x ->
  (0 <= x -> in_ity T x) /\ - 2 ^ ibits T <= x.
Proof.
  destruct T as [sT bT], U as [sU bU]. unfold std_ity, unsafe_mix, in_ity, ity_min, ity_max. cbn [isigned ibits In]. intros HT HU H.
  destruct sT; [discriminate|]. destruct sU; [|discriminate]. cbn [negb andb] in H. apply andb_true_iff in H. destruct H as [H1 H2].
  apply Z.leb_le in H1, H2. assert (2 ^ (bU - 1) <= 2 ^ bT) by (apply Z.pow_le_mono_r; lia). lia.
Qed.
Lemma safe_common T U a b : std_ity T -> std_ity U -> in_ity T a -> in_ity U b -> unsafe_mix T U = false -> unsafe_mix U T = false ->
  conv (common_type T U) a = a /\ conv (common_type T U) b = b.
Proof.
  intros ST SU Ha Hb M1 M2. destruct (common_type_cases T U ST SU) as (Hp & [(CT & CU)|(Cs & Hd & _)]).
  - rewrite !conv_id by auto. split; reflexivity.
  - exfalso. rewrite unsafe_mix_eq in M1, M2 by assumption.
    assert (Ec : common_type U T = common_type T U).
    { clear - ST SU. apply std_types in ST, SU. unfold types in *. cbn [flat_map app In] in *.
      repeat (destruct ST as [ST|ST]; [subst T; repeat (destruct SU as [SU|SU]; [subst U; reflexivity|]); contradiction|]). contradiction. }
    rewrite Ec in M2. rewrite Cs in *. destruct (isigned T), (isigned U); try discriminate. congruence. congruence.
Qed.
