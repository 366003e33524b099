(** Properties of the integer functions of math.h. *)
From Coq Require Import Znumtheory.
From Verif Require Import Words WordsProofs CoreModel CoreSpec CoreProofs MathModel MathSpec MathProofs.
Local Open Scope Z_scope.

(** The types of the examples. *)
Definition i8 : ity := {| isigned := true; ibits := 8 |}.
Definition i32 : ity := {| isigned := true; ibits := 32 |}.
Definition u32 : ity := {| isigned := false; ibits := 32 |}.
Definition i64 : ity := {| isigned := true; ibits := 64 |}.

(* ------------------------------------------------------------------ C91: evenly_distribute *)
Local Open Scope N_scope.
(** Whatever the total and the (non-zero) number of buckets: the buckets together hold exactly the total ... *)
Theorem C91_total w total n : 0 < n -> total < 2 ^ w ->
  exists f, (forall i, evenly_distribute w total n i = Some (f i)) /\ sum (map f (below n)) = total.
Proof.
  intros Hn Hw. exists (fun i => total / n + (if i <? total mod n then 1 else 0)). split; [intros i; apply distribute_val; assumption|].
  pose proof (sum_distribute (total / n) (total mod n) (N.to_nat n)) as SD. rewrite N2Nat.id in SD. rewrite SD. pose proof (N.div_mod total n ltac:(lia)). pose proof (N.mod_lt total n ltac:(lia)). lia.
Qed.
Print Assumptions C91_total.
(** ... no two differ by more than one, and earlier buckets are not smaller than later ones. *)
Theorem C91_even w total n i j a b : 0 < n -> total < 2 ^ w -> i <= j ->
  evenly_distribute w total n i = Some a -> evenly_distribute w total n j = Some b -> b <= a <= b + 1.
Proof.
  intros Hn Hw Hij. rewrite !distribute_val by assumption. intros Ea Eb. injection Ea as <-. injection Eb as <-.
  destruct (N.ltb_spec i (total mod n)), (N.ltb_spec j (total mod n)); lia.
Qed.
Print Assumptions C91_even.
(** No buckets: division by zero. *)
Theorem C91_no_buckets w total i : evenly_distribute w total 0 i = None.
Proof. reflexivity. Qed.
Print Assumptions C91_no_buckets.
Example C91_example : map (evenly_distribute 32 14 4) (below 4) = [Some 4; Some 4; Some 3; Some 3]. Proof. reflexivity. Qed.
Local Close Scope N_scope.

(* ------------------------------------------------------------------ C92: gcd *)
(** For any number (two or more) of arguments of any mix of built-in integer types, none of which is the lowest value of a signed type, the
    result is their greatest common divisor, and it is in the range of the common type. *)
Theorem C92_gcd v1 v2 vals : good v1 -> good v2 -> Forall good vals ->
  exists r, gcd v1 v2 vals = Some r /\ ty r = common_all (ty v1) (ty v2) (map ty vals) /\ in_ity (ty r) (val r) /\ is_gcd (val v1 :: val v2 :: map val vals) (val r).
Proof. exact (gcd_ok v1 v2 vals). Qed.
Print Assumptions C92_gcd.
(** With the lowest value the standard's precondition fails. *)
Theorem C92_lowest : gcd (TV i32 (-2147483648)) (TV i32 6) [] = None.
Proof. reflexivity. Qed.
Print Assumptions C92_lowest.
Example C92_example : exists r, gcd (TV i32 (-84)) (TV u32 36) [TV i64 120; TV i8 (-60); TV i8 18] = Some r /\ val r = 6 /\ ty r = i64.
Proof. eexists. split; [vm_compute; reflexivity|split; reflexivity]. Qed.
Example C92_example_hyp : good (TV i32 (-84)) /\ good (TV i8 (-60)).
Proof. unfold good, std_ity, in_ity. cbn [ty val ibits i32 i8]. split; (split; [vm_compute; auto 10|split; split; vm_compute; discriminate]). Qed.

(* ------------------------------------------------------------------ C93: lcm *)
(** The result is the least common multiple whenever some common multiple of the non-zero arguments is in the range of every argument's
    type. (For arguments of one type, none of them zero, this says that the least common multiple is in the range of the type.) *)
Theorem C93_lcm_partial M v1 v2 vals : 0 < M ->
  (forall v, In v (v1 :: v2 :: vals) -> good v /\ M <= ity_max (ty v) /\ (val v = 0 \/ (val v | M))) ->
  exists r, lcm v1 v2 vals = Some r /\ ty r = common_all (ty v1) (ty v2) (map ty vals) /\ in_ity (ty r) (val r) /\ is_lcm (val v1 :: val v2 :: map val vals) (val r).
Proof.
  intros HM H. apply (lcm_ok M); [exact HM| | |]; [apply H; left; reflexivity|apply H; right; left; reflexivity|].
  apply Forall_forall. intros v Hv. apply H. right; right; exact Hv.
Qed.
Print Assumptions C93_lcm_partial.
(** For non-zero arguments of a single type: defined exactly when the least common multiple fits. *)
Theorem C93_same_type t x y zs : std_ity t -> (forall v, In v (x :: y :: zs) -> in_ity t v /\ v <> 0) ->
  forall L, is_lcm (x :: y :: zs) L ->
  lcm (TV t x) (TV t y) (map (TV t) zs) = (if L <=? ity_max t then Some (TV t L) else None).
Proof.
  intros St Hv L HL. destruct (std_pos t St) as (Hb & Hmx & Hmn).
  assert (Hdiv : forall v, In v (x :: y :: zs) -> (v | L)).
  { intros v Hin. destruct HL as [_ HL]. pose proof (proj1 (HL L) (Z.divide_refl L)) as F. rewrite Forall_forall in F. apply F. exact Hin. }
  assert (Hty : forall l, common_all t t (map ty (map (TV t) l)) = t).
  { intros l. unfold common_all, common at 2. rewrite ity_eqb_refl. induction l as [|a l IH]; [reflexivity|]. cbn [map ty fold_left].
    unfold common at 2. rewrite ity_eqb_refl. exact IH. }
  assert (Hvals : map val (map (TV t) zs) = zs) by (rewrite map_map; apply map_id).
  assert (Lpos : 0 < L).
  { destruct HL as [N HL]. destruct (Z.eq_dec L 0) as [Z|Z]; [|lia]. exfalso.
    set (P := fold_left Z.mul zs (x * y)).
    assert (PP : forall l g, Forall (fun v => v <> 0) l -> g <> 0 -> fold_left Z.mul l g <> 0 /\ (g | fold_left Z.mul l g) /\ Forall (fun v => (v | fold_left Z.mul l g)) l).
    { induction l as [|a l IH]; intros g Hl Hg; cbn [fold_left]; [split; [exact Hg|split; [apply Z.divide_refl|constructor]]|].
      inversion Hl as [|? ? Ha Hl']; subst. destruct (IH (g * a) Hl' ltac:(nia)) as (A & B & C). split; [exact A|]. split.
      - eapply Z.divide_trans; [apply Z.divide_factor_l|exact B].
      - constructor; [eapply Z.divide_trans; [apply Z.divide_factor_r|exact B]|exact C]. }
    destruct (Hv x (or_introl eq_refl)) as [_ Hx]. destruct (Hv y (or_intror (or_introl eq_refl))) as [_ Hy].
    destruct (PP zs (x * y)) as (A & B & C); [apply Forall_forall; intros v Hin; apply Hv; right; right; exact Hin|nia|].
    assert (D : (L | P)).
    { apply HL. constructor; [eapply Z.divide_trans; [apply Z.divide_factor_l|exact B]|]. constructor; [eapply Z.divide_trans; [apply Z.divide_factor_r|exact B]|exact C]. }
    rewrite Z in D. apply Z.divide_0_l in D. exact (A D). }
  destruct (Z.leb_spec L (ity_max t)) as [Hfit|Hbig].
  - destruct (C93_lcm_partial L (TV t x) (TV t y) (map (TV t) zs) Lpos) as (r & E & Et & _ & Hr).
    { intros v Hin. assert (Hin2 : exists u, v = TV t u /\ In u (x :: y :: zs)).
      { destruct Hin as [<-|[<-|Hin]]; [exists x; cbn; auto|exists y; cbn; auto|]. apply in_map_iff in Hin. destruct Hin as (u & <- & Hu). exists u. cbn. auto. }
      destruct Hin2 as (u & -> & Hu). cbn [ty val]. destruct (Hv u Hu) as [Hr Hn]. split; [|split; [exact Hfit|right; apply Hdiv; exact Hu]].
      assert (Z.abs u <= L) by (apply Z.divide_pos_le; [exact Lpos|apply Z.divide_abs_l, Hdiv; exact Hu]).
      split; [exact St|]. split; [exact Hr|]. unfold in_ity. cbn [ty val]. split; lia. }
    rewrite E. f_equal. cbn [ty val] in Et, Hr. rewrite Hty in Et. rewrite Hvals in Hr. destruct r as [tr vr]. cbn [ty val] in *. subst tr. f_equal.
    destruct Hr as [N1 S1], HL as [N2 S2]. apply Z.divide_antisym_nonneg; [exact N1|exact N2| |].
    + apply S1. apply S2. apply Z.divide_refl.
    + apply S2. apply S1. apply Z.divide_refl.
  - (* some intermediate result, at the latest the last one, does not fit *)
    destruct (lcm (TV t x) (TV t y) (map (TV t) zs)) as [r|] eqn:E; [exfalso|reflexivity].
    assert (Key : forall n l a b r, (length l <= n)%nat -> ty a = t -> ty b = t -> (forall v, In v l -> ty v = t) -> variadic std_lcm a b l = Some r ->
      ty r = t /\ 0 <= val r <= ity_max t /\ is_lcm (val a :: val b :: map val l) (val r)).
    { clear - St Hb Hmx Hmn Hty.
      assert (Step : forall a b r, ty a = t -> ty b = t -> std_lcm a b = Some r -> ty r = t /\ 0 <= val r <= ity_max t /\ val r = Z.lcm (val a) (val b) /\ cast t r = r).
      { intros a b r Ha Hb' H. unfold std_lcm in H. rewrite Ha, Hb' in H. unfold common in H. rewrite ity_eqb_refl in H.
        destruct (fits t (Z.abs (val a)) && fits t (Z.abs (val b)) && fits t (Z.lcm (val a) (val b))) eqn:F; [|discriminate]. injection H as <-. cbn [ty val].
        apply andb_true_iff in F. destruct F as [_ F]. unfold fits in F. apply andb_true_iff in F. destruct F as [_ F]. apply Z.leb_le in F.
        pose proof (Z.lcm_nonneg (val a) (val b)). repeat split; try lia. rewrite cast_id; cbn [val]; auto. }
      assert (Tys : forall l, (forall v, In v l -> ty v = t) -> common_all t t (map ty l) = t).
      { intros l Hl. etransitivity; [|apply (Hty (map val l))]. f_equal. rewrite !map_map. apply map_ext_in. intros v Hin. cbn. apply Hl. exact Hin. }
      assert (Cons : forall a b x l r, val x = Z.lcm a b -> is_lcm (val x :: l) r -> is_lcm (a :: b :: l) r).
      { intros a b x l r Hx [N S]. split; [exact N|]. intros k. rewrite S. split; intros H.
        - inversion H as [|? ? H1 H2]; subst. rewrite Hx in H1. constructor; [|constructor]; [| |exact H2]; (eapply Z.divide_trans; [|exact H1]); [apply Z.divide_lcm_l|apply Z.divide_lcm_r].
        - inversion H as [|? ? H1 H2]; subst. inversion H2 as [|? ? H3 H4]; subst. constructor; [|exact H4]. rewrite Hx. apply Z.lcm_least; assumption. }
      assert (One : forall x, 0 <= x -> is_lcm [x] x).
      { intros x Hx. split; [exact Hx|]. intros k. split; [intros H; repeat constructor; exact H|intros H; inversion H; assumption]. }
      induction n as [|n IH]; intros l a b r Hn Ha Hb' Hl E.
      - destruct l; [|cbn in Hn; lia]. cbn [variadic map] in E. rewrite Ha, Hb' in E. destruct (std_lcm a b) as [x|] eqn:E1; [|discriminate]. cbn [option_bind] in E.
        destruct (Step a b x Ha Hb' E1) as (T1 & B1 & V1 & C1). change (common_all t t []) with (common_all t t (map ty [])) in E. rewrite Tys in E by (intros v []). rewrite C1 in E. injection E as <-.
        split; [exact T1|]. split; [exact B1|]. apply (Cons _ _ x); [exact V1|]. apply One. lia.
      - destruct l as [|c l]; [apply (IH [] a b r); auto; cbn; lia|].
        assert (Tail : (x0 <- std_lcm a b ;; r <- variadic std_lcm x0 c l ;; Some (cast (common_all (ty a) (ty b) (map ty (c :: l))) r)) = Some r ->
          ty r = t /\ 0 <= val r <= ity_max t /\ is_lcm (val a :: val b :: map val (c :: l)) (val r)).
        { clear E. intros E. destruct (std_lcm a b) as [x|] eqn:E1; [|discriminate]. cbn [option_bind] in E.
          destruct (variadic std_lcm x c l) as [y|] eqn:E2; [|discriminate]. cbn [option_bind] in E. rewrite Ha, Hb', Tys in E by exact Hl.
          destruct (Step a b x Ha Hb' E1) as (T1 & B1 & V1 & C1).
          destruct (IH l x c y) as (T2 & B2 & L2); [cbn in Hn; lia|exact T1|apply Hl; left; reflexivity|intros v Hin; apply Hl; right; exact Hin|exact E2|].
          rewrite cast_id in E by (auto; lia). injection E as <-. cbn [ty val map]. split; [reflexivity|]. split; [exact B2|]. apply (Cons _ _ x); assumption. }
        destruct l as [|d l]; [exact (Tail E)|]. destruct l as [|e l]; [|exact (Tail E)]. clear Tail.
        cbn [variadic] in E. destruct (std_lcm a b) as [x|] eqn:E1; [|discriminate]. cbn [option_bind] in E. destruct (std_lcm c d) as [y|] eqn:E2; [|discriminate]. cbn [option_bind] in E.
        destruct (std_lcm x y) as [z|] eqn:E3; [|discriminate]. cbn [option_bind] in E.
        assert (Hc : ty c = t) by (apply Hl; left; reflexivity). assert (Hd : ty d = t) by (apply Hl; right; left; reflexivity).
        destruct (Step a b x Ha Hb' E1) as (T1 & B1 & V1 & C1). destruct (Step c d y Hc Hd E2) as (T2 & B2 & V2 & C2). destruct (Step x y z T1 T2 E3) as (T3 & B3 & V3 & C3).
        pose proof (Tys [c; d] Hl) as Tcd. cbn [map] in Tcd. rewrite Ha, Hb', Tcd, C3 in E. injection E as <-. split; [exact T3|]. split; [exact B3|].
        apply (Cons _ _ x); [exact V1|]. cbn [map]. rewrite V3, V2.
        assert (K1 : is_lcm [Z.lcm (val x) (Z.lcm (val c) (val d))] (Z.lcm (val x) (Z.lcm (val c) (val d)))) by (apply One, Z.lcm_nonneg).
        destruct K1 as [N S]. split; [exact N|]. intros k. rewrite S. split; intros H.
        + inversion H as [|? ? H1 _]; subst. repeat constructor; (eapply Z.divide_trans; [|exact H1]).
          * apply Z.divide_lcm_l.
          * eapply Z.divide_trans; [|apply Z.divide_lcm_r]. apply Z.divide_lcm_l.
          * eapply Z.divide_trans; [|apply Z.divide_lcm_r]. apply Z.divide_lcm_r.
        + inversion H as [|? ? H1 H2]; subst. inversion H2 as [|? ? H3 H4]; subst. inversion H4 as [|? ? H5 _]; subst. repeat constructor. repeat apply Z.lcm_least; assumption. }
    destruct (Key (length zs) (map (TV t) zs) (TV t x) (TV t y) r) as (_ & B & Hr); [rewrite map_length; lia|reflexivity|reflexivity| |exact E|].
    { intros v Hin. apply in_map_iff in Hin. destruct Hin as (u & <- & _). reflexivity. }
    cbn [val] in Hr. rewrite Hvals in Hr. destruct Hr as [N1 S1], HL as [N2 S2].
    assert (D : (L | val r)) by (apply S2, S1, Z.divide_refl). assert (D2 : (val r | L)) by (apply S1, S2, Z.divide_refl).
    apply Z.divide_pos_le in D2; [|lia]. assert (val r <> 0) by (intros Z; rewrite Z in *; destruct D2; lia || (assert (0 | L) by (apply S1, S2, Z.divide_refl); apply Z.divide_0_l in H; lia)).
    apply Z.divide_pos_le in D; lia.
Qed.
Print Assumptions C93_same_type.
(** What is missing: the intermediate results are of the common type of the first arguments only, so a result that fits the return type
    may be lost on the way; and arguments whose least common multiple is too large are undefined even when a zero argument makes the
    final result zero. *)
Theorem C93_refuted :
  (exists a b c, good a /\ good b /\ good c /\ is_lcm [val a; val b; val c] 4295032832 /\ in_ity (common_all (ty a) (ty b) [ty c]) 4295032832 /\ lcm a b [c] = None)
  /\ (exists a b c, good a /\ good b /\ good c /\ is_lcm [val a; val b; val c] 0 /\ lcm a b [c] = None).
Proof.
  assert (D : forall a b c, is_lcm [a; b; c] (Z.lcm (Z.lcm a b) c)).
  { intros a b c. pose proof (fold_lcm_spec [c] (Z.lcm a b) (Z.lcm_nonneg _ _)) as [N S]. split; [exact N|]. intros k. cbn [fold_left] in S. rewrite S. split; intros H.
    - inversion H as [|? ? H1 H2]; subst. constructor; [|constructor]; [| |exact H2]; (eapply Z.divide_trans; [|exact H1]); [apply Z.divide_lcm_l|apply Z.divide_lcm_r].
    - inversion H as [|? ? H1 H2]; subst. inversion H2 as [|? ? H3 H4]; subst. constructor; [|exact H4]. apply Z.lcm_least; assumption. }
  assert (G : forall t v, std_ity t -> (0 <= v <= ity_max t) -> good (TV t v)).
  { intros t v St Hv. destruct (std_pos t St) as (_ & _ & Hm). unfold good, in_ity. cbn [ty val]. rewrite Z.abs_eq by lia. split; [exact St|]. split; split; lia. }
  assert (S32 : std_ity i32) by (cbn; auto). assert (S64 : std_ity i64) by (cbn; auto 10).
  split.
  - exists (TV i32 65536), (TV i32 65537), (TV i64 1). repeat (split; [apply G; [assumption|vm_compute; split; discriminate]|]).
    split; [exact (D 65536 65537 1)|]. split; [vm_compute; split; discriminate|reflexivity].
  - exists (TV i32 65536), (TV i32 65537), (TV i32 0). repeat (split; [apply G; [assumption|vm_compute; split; discriminate]|]).
    split; [exact (D 65536 65537 0)|reflexivity].
Qed.
Print Assumptions C93_refuted.
Example C93_example : exists r, lcm (TV i32 4) (TV u32 6) [TV i64 10; TV i8 (-15); TV i8 7] = Some r /\ val r = 420.
Proof. eexists. split; [vm_compute; reflexivity|reflexivity]. Qed.

(* ------------------------------------------------------------------ C94: abs of integers *)
(** The absolute value, for every type and every value but the lowest of a signed type. *)
Theorem C94_abs t x : std_ity t -> in_ity t x -> (isigned t = true -> x <> ity_min t) -> int_abs t x = Some (Z.abs x).
Proof.
  intros St Hx Hl. pose proof (std_bits t St) as Hb. unfold int_abs. destruct t as [s b]. cbn [ibits isigned] in *. destruct s; cbn [negb].
  - specialize (Hl eq_refl). pose proof (in_promote _ _ (St : std_ity {| isigned := true; ibits := b |}) Hx) as Hp.
    assert (E : (if x <? 0 then - x else x) = Z.abs x) by (destruct (Z.ltb_spec x 0); lia). rewrite E.
    assert (Ha : in_ity {| isigned := true; ibits := b |} (Z.abs x)).
    { unfold in_ity, ity_min, ity_max in *. cbn [isigned ibits] in *. lia. }
    pose proof (in_promote _ _ (St : std_ity {| isigned := true; ibits := b |}) Ha) as Hpa.
    assert (F : fits (promote {| isigned := true; ibits := b |}) (Z.abs x) = true) by (unfold fits; apply andb_true_iff; split; apply Z.leb_le; apply Hpa).
    rewrite F. rewrite conv_id; [reflexivity|cbn; lia|exact Ha].
  - unfold in_ity, ity_min in Hx. cbn [isigned] in Hx. rewrite Z.abs_eq by lia. reflexivity.
Qed.
Print Assumptions C94_abs.
(** The lowest value: unchanged (and so negative) for types narrower than int, undefined for int and wider. *)
Theorem C94_lowest b : std_ity {| isigned := true; ibits := b |} ->
  int_abs {| isigned := true; ibits := b |} (- 2 ^ (b - 1)) = (if b <? 32 then Some (- 2 ^ (b - 1)) else None).
Proof. intros H. unfold std_ity in H. cbn [ibits In] in H. repeat (destruct H as [<-|H]; [reflexivity|]). contradiction. Qed.
Print Assumptions C94_lowest.
Example C94_example : int_abs i8 (-127) = Some 127 /\ int_abs i8 (-128) = Some (-128) /\ int_abs i32 (-2147483648) = None. Proof. repeat split. Qed.

(* ------------------------------------------------------------------ C95: approx_equal and approx_zero of integers *)
(** approx_equal is equality of the numbers, except that a negative number is taken modulo [2^w] when it meets an unsigned type of width
    [w] at least as wide as itself and as int. *)
Theorem C95_partial T U a b : std_ity T -> std_ity U -> in_ity T a -> in_ity U b ->
  int_approx_equal T U a b = true <->
  a = (if unsafe_mix T U && (b <? 0) then b + 2 ^ ibits T else b) \/ (unsafe_mix U T = true /\ a < 0 /\ a + 2 ^ ibits U = b).
Proof.
  intros ST SU Ha Hb. unfold int_approx_equal. rewrite Z.eqb_eq.
  destruct (unsafe_mix T U) eqn:M1; [|destruct (unsafe_mix U T) eqn:M2].
  - pose proof (unsafe_mix_common T U ST SU M1) as (Ec & Es & Eu & _). rewrite Ec.
    assert (M2 : unsafe_mix U T = false) by (unfold unsafe_mix; rewrite Es, Eu; reflexivity). rewrite M2.
    destruct (unsafe_range T U b ST SU M1 Hb) as [Hp Hn]. pose proof (std_bits T ST) as HbT. rewrite (conv_id T a) by (auto; lia).
    cbn [andb]. destruct (Z.ltb_spec b 0) as [H|H].
    + destruct T as [s w]. cbn [isigned ibits] in *. subst s. rewrite conv_neg_unsigned by (auto; lia). intuition lia.
    + rewrite conv_id by (auto; lia). intuition lia.
  - pose proof (unsafe_mix_common U T SU ST M2) as (Ec & Es & Eu & Ec2). rewrite Ec2.
    destruct (unsafe_range U T a SU ST M2 Ha) as [Hp Hn]. pose proof (std_bits U SU) as HbU. rewrite (conv_id U b) by (auto; lia).
    cbn [andb]. destruct (Z.ltb_spec a 0) as [H|H].
    + assert (0 <= b) by (unfold in_ity, ity_min in Hb; rewrite Es in Hb; lia).
      destruct U as [s w]. cbn [isigned ibits] in *. subst s. rewrite conv_neg_unsigned by (auto; lia). intuition lia.
    + rewrite conv_id by (auto; lia). intuition lia.
  - cbn [andb]. destruct (safe_common T U a b ST SU Ha Hb M1 M2) as [-> ->]. intuition (discriminate || lia).
Qed.
Print Assumptions C95_partial.
(** Not in general: a negative number and an unsigned type of at least its (promoted) width. *)
Theorem C95_refuted : int_approx_equal i32 u32 (-1) 4294967295 = true.
Proof. reflexivity. Qed.
Print Assumptions C95_refuted.
Example C95_example : unsafe_mix u32 i8 = true /\ int_approx_equal i8 u32 (-1) 255 = false /\ int_approx_equal i8 u32 100 100 = true /\ int_approx_equal i64 u32 (-1) 4294967295 = false. Proof. repeat split. Qed.
