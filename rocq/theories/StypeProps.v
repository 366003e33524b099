(** Properties of strong typedefs (C126, C127). *)
From Coq Require Import Lia.
From Verif Require Import Words StypeModel StypeSpec StypeProofs StypeProofs2.
Import ListNotations.
Local Open Scope Z_scope.

(* ------------------------------------------------------- a program to try things on *)

(** Class 0 has [==] and [<] but no [!=], and converts to bool; class 1 behaves like a floating-point type. *)
Definition cls0 : cls :=
  Cls (fun _ => None) (fun o => match o with Eq => Some Z.eqb | Lt => Some Z.ltb | _ => None end)
      None None None (Some (fun z => negb (z =? 0))) (fun _ => None) (fun _ => None).
Definition cls1 : cls :=
  Cls (fun o => Some (match o with Add => Z.add | Sub => Z.sub end)) (fun o => Some (cmp_fun o))
      (Some (fun z => z)) (Some Z.opp) None (Some (fun z => negb (z =? 0)))
      (fun d => Some (fun z => z + delta d)) (fun d => Some (fun z => (z + delta d, z))).
Definition lang0 (cpp20 strict : bool) : lang :=
  Lang cpp20 strict (fun i => match i with O => cls0 | _ => cls1 end) (fun _ => 10).

Definition all_traits : traits := Traits true true true true true true true.
Definition no_traits : traits := Traits false false false false false false false.
Definition meters : stype := Stype (SInt true 32) ByValue 0 all_traits.
Definition seconds : stype := Stype (SInt true 32) ByValue 1 all_traits.
Definition handle : stype := Stype (SCls 0) ByValue 2 all_traits.
Definition short_id : stype := Stype (SInt true 16) ByValue 3 all_traits.
Definition view : stype := Stype (SInt true 32) CRef 4 all_traits.
Definition alias : stype := Stype (SInt true 32) LRef 5 all_traits.
Definition flag : stype := Stype SBool ByValue 6 all_traits.
Definition opaque : stype := Stype (SInt true 32) ByValue 7 no_traits.

(** 0, 1: meters; 2, 3: seconds; 4: an int that 5 refers to; 6: a handle; 7: a pointer; 8: a bool. *)
Definition env0 : env :=
  [Var (inr meters) false 0; Var (inr meters) true 1; Var (inr seconds) false 2; Var (inr seconds) false 3;
   Var (inl (SInt true 32)) false 4; Var (inr alias) false 4; Var (inr handle) false 6; Var (inl (SPtr 3 true)) false 7;
   Var (inl SBool) false 8].
Definition mem0 : mem :=
  fun l => match l with 0%nat => VI 5 | 1%nat => VI 7 | 2%nat => VI 1 | 3%nat => VI 60 | 4%nat => VI 100 | 6%nat => VI 9 | 7%nat => VP 0 2
                      | _ => VI 0 end.
Definition prog0 : list stmt :=
  [SSet 0 (EArith Sub (EArith Add (EVar 0) (EVar 1)) (EUn Neg (EVar 0)));         (* a = a + b - -a *)
   SPost Inc 3 2; SPre Dec 2; SPre Inc 5; SPre Inc 5;                            (* s = t++; --t; ++r; ++r *)
   SSet 7 (EArith Add (EVar 2) (EVar 7));                                        (* p = t + p *)
   SSet 8 (ECmp Ge (EVar 0) (EVar 1)); SSet 8 (EUn Not (EVar 6)); SSet 8 (ECmp Ne (EVar 6) (EVar 6))].

(* ------------------------------------------------------- C126 *)

(** Replace all strong typedefs of a program by plain ones: if it compiled, it still compiles and does the same. *)
Theorem C126_plain : forall (L : lang) (G : env) (p : list stmt) (m : mem),
  strict L = true -> has_unequal L -> check_prog L G p = true ->
  check_prog L (plain G) p = true /\
  (forall m', run L G p m = Some m' -> run L (plain G) p m = Some m') /\
  (no_refs G -> run L G p m = run L (plain G) p m).
Proof. exact prog_plain. Qed.
Print Assumptions C126_plain.

(** The same for the value and the type of any expression. *)
Theorem C126_expression : forall (L : lang) (G : env) (m : mem) (e : expr) (t : ety),
  strict L = true -> has_unequal L -> check L G e = Some t ->
  check L (plain G) e = Some (Raw (plain_ty t)) /\
  (forall v, eval L G m e = Some v -> eval L (plain G) m e = Some v) /\
  (no_refs G -> eval L G m e = eval L (plain G) m e).
Proof. exact expr_plain. Qed.
Print Assumptions C126_expression.

Example C126_plain_case :
  check_prog (lang0 true true) env0 prog0 = true /\ has_unequal (lang0 true true) /\
  exists m', run (lang0 true true) env0 prog0 mem0 = Some m' /\
    map m' [0; 1; 2; 3; 4; 6; 7; 8]%nat = [VI 17; VI 7; VI 1; VI 1; VI 102; VI 9; VP 0 3; VI 0].
Proof.
  split; [vm_compute; reflexivity|]. split; [left; reflexivity|].
  eexists. split; [cbv [run prog0]; vm_compute; reflexivity | vm_compute; reflexivity].
Qed.

(** Without C++20 a strong [!=] can exist where the plain one does not; it is then the negation of [==]. *)
Theorem C126_unequal : forall (L : lang) (G : env) (m : mem) (a b : expr) (t : stype) (c c' : bool) (x y q : val),
  check L G a = Some (Strong t c) -> check L G b = Some (Strong t c') -> eval L G m a = Some x -> eval L G m b = Some y ->
  t_cmp (tr t) = true -> cmp_ty L Ne (base t) (base t) = None -> cmp_ty L Eq (base t) (base t) <> None ->
  cmp_val L Eq (base t) (base t) x y = Some q ->
  check L G (ECmp Ne a b) = Some (Raw SBool) /\ eval L G m (ECmp Ne a b) = Some (v_not q).
Proof.
  intros L G m a b t c c' x y q Ca Cb Va Vb T N Q V. cbn [check eval]. rewrite Ca, Cb, Va, Vb. cbn [cmp_check cmp_eval].
  rewrite (proj2 (stype_eqb_spec t t) eq_refl). unfold s_cmp_ty, s_cmp_val, has_cmp. rewrite N, T, V. cbn [andb orb].
  destruct (cmp_ty L Eq (base t) (base t)); [split; reflexivity | congruence].
Qed.
Print Assumptions C126_unequal.

Example C126_unequal_case :
  let L := lang0 false true in
  cmp_ty L Ne (SCls 0) (SCls 0) = None /\ check L env0 (ECmp Ne (EVar 6) (EVar 6)) = Some (Raw SBool) /\
  eval L env0 mem0 (ECmp Ne (EVar 6) (EVar 6)) = Some (VI 0) /\ check L (plain env0) (ECmp Ne (EVar 6) (EVar 6)) = None.
Proof. repeat split. Qed.

(** Which sums and differences compile, where narrowing is an error: those of integers at least as wide as int, and of classes. *)
Theorem C126_arithmetic : forall (L : lang) (G : env) (o : arith) (a b : expr) (t : stype) (c c' : bool),
  strict L = true -> check L G a = Some (Strong t c) -> check L G b = Some (Strong t c') ->
  check L G (EArith o a b) <> None <-> grants (tr t) o /\ ref t <> LRef /\ closed_arith L o (base t).
Proof.
  intros L G o a b t c c' S Ca Cb. cbn [check]. rewrite Ca, Cb. cbn [arith_check].
  rewrite <- trait_of_ok, (proj2 (stype_eqb_spec t t) eq_refl). exact (arith_strict_iff L o t S).
Qed.
Print Assumptions C126_arithmetic.

(** Where narrowing is only a warning, all integers and bools are added; the result is brought back into the value type. *)
Theorem C126_arithmetic_lenient : forall (L : lang) (G : env) (o : arith) (a b : expr) (t : stype) (c c' : bool),
  strict L = false -> check L G a = Some (Strong t c) -> check L G b = Some (Strong t c') ->
  (check L G (EArith o a b) <> None <->
   grants (tr t) o /\ ref t <> LRef /\
   (closed_arith L o (base t) \/ base t = SBool \/ exists sg w, base t = SInt sg w)) /\
  (forall m x y v, ref t = ByValue -> eval L G m a = Some x -> eval L G m b = Some y -> eval L G m (EArith o a b) = Some v ->
   exists s z, arith_ty L o (base t) (base t) = Some s /\ arith_val L o (base t) (base t) x y = Some z /\
               v = (if sty_eqb s (base t) then z else convert (base t) z)).
Proof.
  intros L G o a b t c c' S Ca Cb. split.
  - cbn [check]. rewrite Ca, Cb. cbn [arith_check]. rewrite <- trait_of_ok, (proj2 (stype_eqb_spec t t) eq_refl). exact (arith_lenient_iff L o t S).
  - intros m x y v R Va Vb H. cbn [eval] in H. rewrite Ca, Cb, Va, Vb in H. cbn [arith_eval] in H.
    exact (arith_lenient_val L o t x y v R H).
Qed.
Print Assumptions C126_arithmetic_lenient.

(** Which increments and decrements compile: the trait's own direction, where the plain type has them, and not for constants. *)
Theorem C126_counting : forall (L : lang) (G : env) (d : dir) (x : nat) (v : vdecl) (t : stype),
  nth_error G x = Some v -> v_ty v = inr t ->
  (check_stmt L G (SPre d x) = true <-> v_const v = false /\ counts (tr t) d /\ has_pre L d (base t) = true /\ ref t <> CRef) /\
  (forall y, check_stmt L G (SPost d y x) = true ->
     v_const v = false /\ counts (tr t) d /\ has_post L d (base t) = true /\ ref t <> CRef /\ ref t <> LRef).
Proof.
  intros L G d x v t E V. cbn [check_stmt]. rewrite E, V. unfold s_pre_ok, s_post_ok. split.
  - rewrite !andb_true_iff, !negb_true_iff, step_trait_ok. split.
    + intros (A & (B & C) & D). repeat split; try assumption. intros R. rewrite R in D. discriminate D.
    + intros (A & B & C & D). repeat split; try assumption. destruct (ref t); try reflexivity. congruence.
  - intros y H. destruct (nth_error G y) as [u|]; [|discriminate H]. apply andb_true_iff in H as [A H]. apply andb_true_iff in H as [H _].
    rewrite !andb_true_iff, step_trait_ok in H. destruct H as (((B & C) & D) & F). apply negb_true_iff in A.
    repeat split; try assumption; intros R; [rewrite R in D; discriminate D|]. rewrite (braces_lref L t _ R) in F. discriminate F.
Qed.
Print Assumptions C126_counting.

Definition env1 : env := [Var (inr short_id) false 0; Var (inr short_id) false 1; Var (inr short_id) false 2].
Definition mem1 : mem := fun l => match l with 0%nat => VI 30000 | 1%nat => VI 30000 | _ => VI 100 end.

(** The documentation makes the trait available whenever the value type has the operator. Shorts can be added, and the operator is
    declared, but it does not compile; with GCC it compiles, and comparing sums gives other answers than for plain shorts. *)
Theorem C126_narrow_refuted :
  has_arith (lang0 true true) Add (SInt true 16) /\
  check (lang0 true true) env1 (EArith Add (EVar 0) (EVar 1)) = None /\
  check (lang0 true true) env1 (EUn Pos (EVar 0)) = None /\
  eval (lang0 true false) env1 mem1 (ECmp Gt (EArith Add (EVar 0) (EVar 1)) (EVar 2)) = Some (VI 0) /\
  eval (lang0 true false) (plain env1) mem1 (ECmp Gt (EArith Add (EVar 0) (EVar 1)) (EVar 2)) = Some (VI 1).
Proof. split; [vm_compute; discriminate|]. repeat split. Qed.
Print Assumptions C126_narrow_refuted.

(** A strong typedef of a const reference: sums compile, but every read of the result is undefined, although the plain sum is not. *)
Theorem C126_dangling_refuted :
  let G := [Var (inr view) false 0; Var (inr view) false 1] in
  let e := EArith Add (EVar 0) (EVar 1) in
  forall L m x y, strict L = true -> m 0%nat = VI x -> m 1%nat = VI y -> -1000 <= x <= 1000 -> -1000 <= y <= 1000 ->
  check L G e = Some (Strong view false) /\ eval L G m e = None /\ eval L (plain G) m e = Some (VI (x + y)).
Proof.
  intros G e L m x y S Mx My Hx Hy. split; [|split].
  - unfold e, G. cbn [check nth_error v_ty v_const arith_check].
    rewrite (proj2 (stype_eqb_spec view view) eq_refl). transitivity (if braces L view (base view) then Some (Strong view false) else None); [reflexivity|].
    rewrite (braces_same L view) by discriminate. reflexivity.
  - unfold e, G. cbn [eval check nth_error v_ty v_const v_loc]. rewrite Mx, My. cbn [arith_eval]. unfold s_arith_val.
    destruct (arith_ty L Add (base view) (base view)); [|reflexivity].
    destruct (arith_val L Add (base view) (base view) (VI x) (VI y)); reflexivity.
  - unfold e, G. cbn [plain map plain_var v_ty v_const v_loc eval check nth_error arith_eval base view]. rewrite Mx, My.
    assert (W : forall z, -1000 <= z <= 1000 -> wrap true 32 z = z).
    { intros z Hz. unfold wrap. change (2 ^ 32) with 4294967296. change (2 ^ (32 - 1)) with 2147483648. cbn [andb].
      destruct (Z_lt_le_dec z 0) as [K|K].
      - assert (E : z mod 4294967296 = z + 4294967296) by (symmetry; apply Z.mod_unique_pos with (q := -1); lia).
        rewrite E. destruct (Z.leb_spec 2147483648 (z + 4294967296)); lia.
      - rewrite Z.mod_small by lia. destruct (Z.leb_spec 2147483648 z); lia. }
    cbn [arith_val promote promote_int Z.ltb Z.compare Pos.compare Pos.compare_cont]. rewrite common_same.
    rewrite (W x Hx), (W y Hy). unfold arith_in, fits. cbn [lo hi]. change (2 ^ (32 - 1)) with 2147483648.
    destruct (Z.leb_spec (- (2147483648)) (x + y)); [|lia]. destruct (Z.leb_spec (x + y) (2147483648 - 1)); [|lia]. reflexivity.
Qed.
Print Assumptions C126_dangling_refuted.

(** The [boolean] trait on a bool: a const object cannot be tested, since two conversions are equally good. *)
Theorem C126_const_bool_refuted : forall L, 
  check L [Var (inr flag) false 0] (EUn ToBool (EVar 0)) = Some (Raw SBool) /\
  check L [Var (inr flag) true 0] (EUn ToBool (EVar 0)) = None /\
  check L (plain [Var (inr flag) true 0]) (EUn ToBool (EVar 0)) = Some (Raw SBool).
Proof. intros L. repeat split. Qed.
Print Assumptions C126_const_bool_refuted.

(* ------------------------------------------------------- C127 *)

(** An expression of a strong type is made of variables of just that type, and of nothing else. *)
Theorem C127_origin : forall (L : lang) (G : env) (e : expr) (t : stype) (c : bool),
  check L G e = Some (Strong t c) -> vars e <> [] /\ forall x, In x (vars e) -> strong_var G t x.
Proof. exact origin. Qed.
Print Assumptions C127_origin.

(** Operators take two strong operands only if their types are equal; with one strong operand there is only pointer arithmetic. *)
Theorem C127_operands : forall (L : lang) (G : env) (a b : expr) (t u : ety),
  check L G a = Some t -> check L G b = Some u ->
  (forall o, check L G (ECmp o a b) <> None ->
     (exists s s', t = Raw s /\ u = Raw s') \/ exists w c c', t = Strong w c /\ u = Strong w c' /\ t_cmp (tr w) = true) /\
  (forall o, check L G (EArith o a b) <> None ->
     (exists s s', t = Raw s /\ u = Raw s') \/
     (exists w c c', t = Strong w c /\ u = Strong w c' /\ grants (tr w) o) \/
     (exists w c i, t_pointer (tr w) = true /\ ((t = Raw (SPtr i true) /\ u = Strong w c) \/
                                               (o = Add /\ t = Strong w c /\ u = Raw (SPtr i true))))).
Proof.
  intros L G a b t u Ca Cb. split; intros o H; cbn [check] in H; rewrite Ca, Cb in H.
  - destruct t as [s|t k], u as [s'|u k']; cbn [cmp_check] in H; try congruence.
    + left. exists s, s'. split; reflexivity.
    + right. destruct (stype_eqb t u) eqn:E; [|congruence]. apply stype_eqb_spec in E. subst u. exists t, k, k'.
      split; [reflexivity|]. split; [reflexivity|]. unfold s_cmp_ty in H. destruct (t_cmp (tr t)); [reflexivity | cbn in H; congruence].
  - destruct t as [s|t k], u as [s'|u k']; cbn [arith_check] in H.
    + left. exists s, s'. split; reflexivity.
    + right. right. unfold s_ptr_left_ty in H. destruct s as [| | |i [|]|]; try congruence.
      * destruct (t_pointer (tr u)) eqn:T; [|cbn in H; congruence]. exists u, k', i. split; [exact T|]. left. split; reflexivity.
      * exfalso. destruct (t_pointer (tr u) && _) eqn:T; [|congruence]. apply andb_true_iff in T. destruct T as [_ T].
        destruct (base u) as [|sg w|j [|] sg w|j q|j]; cbn in H, T; try congruence; try discriminate T; destruct o; cbn in H, T;
          try congruence; try discriminate T; rewrite ?andb_false_r in H; try congruence;
          destruct (Nat.eqb j 0 && true); cbn in T; try discriminate T; destruct j; cbn in T; try discriminate T;
          destruct q; discriminate T.
    + right. right. unfold s_ptr_right_ty in H. destruct s' as [| | |i [|]|]; try congruence; destruct o; try congruence.
      * destruct (t_pointer (tr t)) eqn:T; [|cbn in H; congruence]. exists t, k, i. split; [exact T|]. right.
        split; [reflexivity|]. split; reflexivity.
      * exfalso. destruct (t_pointer (tr t) && _) eqn:T; [|congruence].
        destruct (base t) as [|sg w|j [|] sg w|j q|j]; cbn in H; congruence.
    + right. left. destruct (stype_eqb t u) eqn:E; [|congruence]. apply stype_eqb_spec in E. subst u. exists t, k, k'.
      split; [reflexivity|]. split; [reflexivity|]. unfold s_arith_ty in H. apply trait_of_ok. destruct (trait_of o (tr t)); [reflexivity | congruence].
Qed.
Print Assumptions C127_operands.

(** What a program leaves in the variables of one strong type depends only on what was in the variables of that type. *)
Theorem C127_isolated : forall (L : lang) (G : env) (t : stype) (p : list stmt) (m m' n n' : mem),
  unshared G t -> check_prog L G p = true -> same_for G t m m' ->
  run L G p m = Some n -> run L G p m' = Some n' -> same_for G t n n'.
Proof. exact run_isolated. Qed.
Print Assumptions C127_isolated.

Example C127_isolated_case :
  unshared env0 meters /\ unshared env0 seconds /\ check_prog (lang0 true true) env0 prog0 = true /\
  ~ check_prog (lang0 true true) env0 [SSet 0 (EVar 2)] = true /\
  ~ check_prog (lang0 true true) env0 [SSet 8 (ECmp Lt (EVar 0) (EVar 2))] = true /\
  ~ check_prog (lang0 true true) env0 [SSet 0 (ELit (SInt true 32) (VI 3))] = true.
Proof.
  assert (U : forall t, t = meters \/ t = seconds -> unshared env0 t).
  { intros t T x y d d' Ex Ey V V'.
    do 9 (destruct x as [|x]; [do 9 (destruct y as [|y]; [cbn in Ex, Ey; injection Ex as <-; injection Ey as <-; cbn in V, V' |- *;
      first [discriminate | (exfalso; apply V'; exact V) | (destruct T; subst t; discriminate)] |]);
      cbn in Ey; destruct y; discriminate Ey |]).
    cbn in Ex. destruct x; discriminate Ex. }
  split; [apply U; left; reflexivity|]. split; [apply U; right; reflexivity|].
  repeat split; vm_compute; congruence.
Qed.

(** Without traits there are no operators at all, except that a strong bool can be tested and negated. *)
Theorem C127_default : forall (L : lang) (G : env) (e f : expr) (t : stype) (c : bool) (u : ety),
  tr t = no_traits -> check L G e = Some (Strong t c) -> check L G f = Some u ->
  (forall o, check L G (EArith o e f) = None /\ check L G (EArith o f e) = None) /\
  (forall o, check L G (ECmp o e f) = None /\ check L G (ECmp o f e) = None) /\
  (forall o, check L G (EUn o e) <> None <-> base t = SBool /\ (o = Not \/ o = ToBool)) /\
  (forall x d, strong_var G t x -> check_stmt L G (SPre d x) = false /\ forall y, check_stmt L G (SPost d y x) = false).
Proof.
  intros L G e f t c u N Ce Cf. cbn [check]. rewrite Ce, Cf. split; [|split; [|split]].
  - intros o. destruct u as [s|w k]; cbn [arith_check].
    + unfold s_ptr_right_ty, s_ptr_left_ty. rewrite N. cbn [t_pointer no_traits andb].
      split; destruct s; try reflexivity. destruct o; reflexivity.
    + destruct (stype_eqb t w) eqn:E.
      * apply stype_eqb_spec in E. subst w. rewrite (proj2 (stype_eqb_spec t t) eq_refl). unfold s_arith_ty.
        rewrite N. destruct o; split; reflexivity.
      * destruct (stype_eqb w t) eqn:E'; [|split; reflexivity]. apply stype_eqb_spec in E'. subst w.
        rewrite (proj2 (stype_eqb_spec t t) eq_refl) in E. discriminate E.
  - intros o. destruct u as [s|w k]; cbn [cmp_check]; [split; reflexivity|].
    destruct (stype_eqb t w) eqn:E.
    + apply stype_eqb_spec in E. subst w. rewrite (proj2 (stype_eqb_spec t t) eq_refl). unfold s_cmp_ty. rewrite N. split; reflexivity.
    + destruct (stype_eqb w t) eqn:E'; [|split; reflexivity]. apply stype_eqb_spec in E'. subst w.
      rewrite (proj2 (stype_eqb_spec t t) eq_refl) in E. discriminate E.
  - intros o. cbn [un_check]. unfold s_sign_ty, s_not_ty, s_tobool_ty. rewrite N. cbn [t_add t_sub t_bool no_traits andb].
    destruct o; (split; [intros H | intros [B [O|O]]; try discriminate O; rewrite B; cbn [is_bool];
                         destruct (negb c && negb (refk_eqb (ref t) CRef)); discriminate]); try congruence;
      destruct (base t); cbn [is_bool] in H; try congruence; (split; [reflexivity|]); auto.
  - intros x d [v [E V]]. cbn [check_stmt]. rewrite E, V. unfold s_pre_ok, s_post_ok, step_trait. rewrite N. split.
    + destruct d; cbn; apply andb_false_r.
    + intros y. destruct (nth_error G y) as [w|]; [|reflexivity]. destruct d; cbn; apply andb_false_r.
Qed.
Print Assumptions C127_default.

Example C127_default_case :
  let G := [Var (inr opaque) false 0; Var (inr (Stype SBool ByValue 8 no_traits)) true 1] in
  let L := lang0 true true in
  check L G (EArith Add (EVar 0) (EVar 0)) = None /\ check L G (ECmp Eq (EVar 0) (EVar 0)) = None /\
  check L G (EUn ToBool (EVar 0)) = None /\ check L G (EUn Not (EVar 1)) = Some (Raw SBool) /\
  check_prog L G [SSet 0 (EVar 0)] = true.
Proof. repeat split. Qed.
