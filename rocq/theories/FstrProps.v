(** Property C46: fixed_string. *)
From Coq Require Import Lia.
From Verif Require Import Words WordsProofs CoreModel SpanSpec FstrModel FstrSpec FstrProofs.
Local Open Scope nat_scope.

(** Every constructor makes the expected, null-terminated string, reading only its argument: cut or filled up with zeros. *)
Theorem C46_construct L l : 
  (exists s, f_from_array L l = Some s /\ holds s (fit L l)) /\
  (exists s, f_from_view L l = Some s /\ holds s (fit L l)) /\
  (forall c, exists s, f_fill L c = Some s /\ holds s (repeat c L)) /\
  (forall n, n <= length l -> exists s, f_from_ptr L l n = Some s /\ holds s (fit L (firstn n l))) /\
  (forall s, holds s l -> exists s', f_from_fstr L s = Some s' /\ holds s' (fit L l)).
Proof.
  split; [apply from_array_ok|]. split; [apply from_view_ok|]. split; [intros c; apply fill_ok|]. split; [intros n; apply from_ptr_ok|].
  intros s. apply from_fstr_ok.
Qed.
Print Assumptions C46_construct.

(** Reading: size, elements, views, and [c_str()] as C code sees it. *)
Theorem C46_elements s l : holds s l ->
  f_size s = length l /\ (f_empty s = true <-> l = []) /\ f_view s = l /\
  (forall i, f_get s i = nth_error l i) /\
  (forall x r, l = x :: r -> f_front s = Some x) /\ (forall x r, l = r ++ [x] -> f_back s = Some x) /\
  (Forall (fun c => c <> 0%Z) l -> cstr (f_chars s) = Some l).
Proof.
  intros V. pose proof V as [H1 H2]. split; [exact H1|]. split.
  { unfold f_empty. rewrite H1, Nat.eqb_eq. destruct l; [tauto|split; discriminate]. }
  split; [apply view_ok, V|]. split; [intros i; apply holds_get, V|]. split; [|split].
  - intros x r E. unfold f_front. rewrite H1, H2, E. reflexivity.
  - intros x r E. unfold f_back. rewrite H1, H2, E, app_length. cbn [length]. rewrite Nat.add_1_r. cbn [Nat.eqb].
    rewrite Nat.sub_1_r. cbn [Nat.pred]. rewrite <- app_assoc, nth_error_app2, Nat.sub_diag by lia. reflexivity.
  - intros N. rewrite H2. apply cstr_ok, N.
Qed.
Print Assumptions C46_elements.

Theorem C46_concatenate a b la lb c : holds a la -> holds b lb ->
  (exists s, f_concat a b = Some s /\ holds s (la ++ lb)) /\
  (exists s, f_snoc a c = Some s /\ holds s (la ++ [c])) /\
  (exists s, f_cons c a = Some s /\ holds s (c :: la)).
Proof. intros A B. split; [apply concat_ok; assumption|]. split; [apply snoc_ok, A|apply cons_ok, A]. Qed.
Print Assumptions C46_concatenate.

(** [substr] and [slice] with indices of any type whose magnitude fits [size_t], other than the lowest value of a signed type
    that is too narrow for the string. *)
Definition good_index (sw : Z) (T : ity) (L : nat) (i : Z) : Prop :=
  in_ity T i /\ (Z.abs i < 2 ^ sw)%Z /\ (isigned T = true -> i = ity_min T -> (Z.of_nat L <= - i)%Z).
Lemma good_clamp sw T L i : good_index sw T L i -> f_clamp sw T L i = py_index L i.
Proof.
  intros (H1 & H2 & H3). apply clamp_ok; [exact H2|exact H1|]. intros E. destruct (isigned T) eqn:S; [left; apply H3; [reflexivity|exact E]|].
  right. rewrite E. unfold ity_min. rewrite S. lia.
Qed.
Theorem C46_substr_partial sw T s l i n : holds s l -> good_index sw T (length l) i ->
  (exists r, f_substr sw T s i (Some n) = Some r /\ holds r (firstn n (skipn (py_index (length l) i) l))) /\
  (exists r, f_substr sw T s i None = Some r /\ holds r (skipn (py_index (length l) i) l)).
Proof.
  intros V G. pose proof V as [H1 _]. unfold f_substr. rewrite H1, (good_clamp _ _ _ _ G). split; [apply substr_impl_ok, V|].
  destruct (substr_impl_ok s l (py_index (length l) i) (length l) V) as (r & R & W). exists r. split; [exact R|].
  rewrite firstn_all2 in W by (rewrite skipn_length; lia). exact W.
Qed.
Print Assumptions C46_substr_partial.
Theorem C46_slice_partial sw T1 T2 s l i j : holds s l -> good_index sw T1 (length l) i -> good_index sw T2 (length l) j ->
  exists r, f_slice sw T1 T2 s i j = Some r /\ holds r (py_slice l i j).
Proof.
  intros V G1 G2. pose proof V as [H1 _]. unfold f_slice, py_slice. rewrite H1, (good_clamp _ _ _ _ G1), (good_clamp _ _ _ _ G2).
  apply slice_impl_ok, V.
Qed.
Print Assumptions C46_slice_partial.
Theorem C46_slice_to_end_partial sw T s l i : (0 < sw)%Z -> (Z.of_nat (length l) < 2 ^ sw)%Z -> holds s l -> good_index sw T (length l) i ->
  exists r, f_slice_to_end sw T s i = Some r /\ holds r (skipn (py_index (length l) i) l).
Proof.
  intros S B V G. assert (P : (2 <= 2 ^ sw)%Z) by (change 2%Z with (2 ^ 1)%Z at 1; apply Z.pow_le_mono_r; lia).
  destruct (C46_slice_partial sw T {| isigned := false; ibits := sw |} s l i (2 ^ sw - 1) V G) as (r & R & W).
  - split; [|split].
    + unfold in_ity, ity_min, ity_max. cbn. lia.
    + lia.
    + discriminate.
  - exists r. split; [exact R|]. unfold py_slice in W. rewrite firstn_all2 in W; [exact W|].
    rewrite skipn_length. unfold py_index at 2. destruct (2 ^ sw - 1 <? 0)%Z eqn:E; [apply Z.ltb_lt in E; lia|]. lia.
Qed.
Print Assumptions C46_slice_to_end_partial.

(** The lowest value of a signed index type means the beginning of the string, however long it is: with [int8_t] and 200
    characters, -128 should mean position 72. *)
Theorem C46_lowest_index_refuted sw : exists T s l i, holds s l /\ in_ity T i /\ (Z.abs i < 2 ^ 8)%Z /\
  exists r, f_substr sw T s i None = Some r /\ holds r l /\ skipn (py_index (length l) i) l <> l.
Proof.
  exists {| isigned := true; ibits := 8 |}, {| f_len := 200; f_chars := repeat 97%Z 200 ++ [0%Z] |}, (repeat 97%Z 200), (-128)%Z.
  split; [split; reflexivity|]. split; [unfold in_ity; cbn; lia|]. split; [reflexivity|].
  eexists. split; [vm_compute; reflexivity|]. split; [split; vm_compute; reflexivity|]. vm_compute. discriminate.
Qed.
Print Assumptions C46_lowest_index_refuted.
(** An index wider than [size_t] is cut to its low bits: -(2^64+1) is taken for -1. *)
Theorem C46_wide_index_refuted : exists T s l i, holds s l /\ in_ity T i /\
  exists r, f_substr 64 T s i None = Some r /\ holds r [99%Z] /\ skipn (py_index (length l) i) l = l /\ length l = 3.
Proof.
  exists {| isigned := true; ibits := 128 |}, {| f_len := 3; f_chars := [97; 98; 99; 0]%Z |}, [97; 98; 99]%Z, (- (2 ^ 64 + 1))%Z.
  split; [split; reflexivity|]. split; [split; vm_compute; discriminate|].
  eexists. split; [vm_compute; reflexivity|]. split; [split; reflexivity|]. split; vm_compute; reflexivity.
Qed.
Print Assumptions C46_wide_index_refuted.

(** Equality. *)
Theorem C46_equality a b la lb same : holds a la -> holds b lb -> (same = true -> a = b) ->
  (exists r, f_eq same a b = Some r /\ (r = true <-> la = lb)) /\ (exists r, f_ne same a b = Some r /\ (r = true <-> la <> lb)).
Proof.
  intros A B S. destruct (eq_ok a b la lb same A B S) as (r & R & P). split; [exists r; split; assumption|].
  unfold f_ne. rewrite R. cbn. exists (negb r). split; [reflexivity|]. destruct r; cbn; [|split; [intros _ E; apply P in E; discriminate|reflexivity]].
  split; [discriminate|]. intros N. exfalso. apply N, P. reflexivity.
Qed.
Print Assumptions C46_equality.

(** [compare] of two different objects is the lexicographic order of their characters, and the operators follow it. *)
Theorem C46_compare_partial key a b la lb : (forall x y, In x la -> In y lb -> key x = key y -> x = y) -> holds a la -> holds b lb ->
  let before l m := lex Z.lt (map key l) (map key m) in
  (exists r, f_compare key false a b = Some r /\ ((r < 0)%Z <-> before la lb) /\ ((0 < r)%Z <-> before lb la) /\ (r = 0%Z <-> la = lb)) /\
  (exists r, f_lt key false a b = Some r /\ (r = true <-> before la lb)) /\
  (exists r, f_le key false a b = Some r /\ (r = true <-> before la lb \/ la = lb)) /\
  (exists r, f_gt key false a b = Some r /\ (r = true <-> before lb la)) /\
  (exists r, f_ge key false a b = Some r /\ (r = true <-> before lb la \/ la = lb)).
Proof.
  intros I A B before. destruct (compare_ok key a b la lb A B) as (r & R & P1 & P2 & P3).
  assert (M : map key la = map key lb <-> la = lb).
  { split; [|intros ->; reflexivity]. clear - I. revert lb I. induction la as [|x la IH]; intros [|y lb] I E; try discriminate; [reflexivity|].
    cbn in E. injection E as E1 E2. f_equal; [apply I; [left; reflexivity|left; reflexivity|exact E1]|].
    apply IH; [|exact E2]. intros u v U V. apply I; right; assumption. }
  rewrite M in P3. unfold f_lt, f_le, f_gt, f_ge. rewrite R. cbn [option_bind].
  split; [exists r; split; [reflexivity|]; split; [exact P1|split; [exact P2|exact P3]]|].
  split; [eexists; split; [reflexivity|]; rewrite Z.ltb_lt; exact P1|].
  split; [eexists; split; [reflexivity|]; unfold before; rewrite Z.leb_le, <- P1, <- P3; lia|].
  split; [eexists; split; [reflexivity|]; rewrite Z.ltb_lt; exact P2|].
  eexists; split; [reflexivity|]; unfold before; rewrite Z.leb_le, <- P2, <- P3; lia.
Qed.
Print Assumptions C46_compare_partial.

(** That order is total. *)
Theorem C46_order_total (k : list Z) : ~ lex Z.lt k k /\
  (forall l m, lex Z.lt k l -> lex Z.lt l m -> lex Z.lt k m) /\ (forall l, lex Z.lt k l \/ k = l \/ lex Z.lt l k).
Proof. split; [apply lex_irr|]. split; [intros l m A; exact (lex_trans k l A m)|intros l; apply lex_total]. Qed.
Print Assumptions C46_order_total.

(** Comparing a string with itself says that it comes after itself. *)
Theorem C46_compare_self_refuted key s l : holds s l -> l <> [] ->
  f_compare key true s s = Some 1%Z /\ f_gt key true s s = Some true /\ f_le key true s s = Some false /\
  f_compare key false s s = Some 0%Z.
Proof.
  intros V N. destruct (compare_ok key s s l l V V) as (r & R & _ & _ & P). pose proof V as [H1 _].
  assert (E : f_compare key true s s = Some 1%Z).
  { unfold f_compare. rewrite Nat.eqb_refl, H1. destruct l; [congruence|]. reflexivity. }
  unfold f_gt, f_le. rewrite E. split; [reflexivity|]. split; [reflexivity|]. split; [reflexivity|]. rewrite R. f_equal. apply P. reflexivity.
Qed.
Print Assumptions C46_compare_self_refuted.

(** In C++20 the operators on strings of one length use the built-in order of the characters instead, which is lexicographic, *)
Theorem C46_three_way_partial a b la lb : holds a la -> holds b lb -> length la = length lb ->
  exists r, f_three_way a b = Some r /\ ((r < 0)%Z <-> lex Z.lt la lb) /\ ((0 < r)%Z <-> lex Z.lt lb la) /\ (r = 0%Z <-> la = lb).
Proof. exact (three_way_ok a b la lb). Qed.
Print Assumptions C46_three_way_partial.
(** but for signed [char] is not the order of [compare]: "\xE9" comes before "z" here and after it there. *)
Theorem C46_three_way_agrees_refuted : exists a b la lb, holds a la /\ holds b lb /\ length la = length lb /\
  f_three_way a b = Some (-1)%Z /\ f_compare key_char false a b = Some 1%Z.
Proof.
  exists {| f_len := 1; f_chars := [-23; 0]%Z |}, {| f_len := 1; f_chars := [122; 0]%Z |}, [-23]%Z, [122]%Z.
  repeat split; vm_compute; reflexivity.
Qed.
Print Assumptions C46_three_way_agrees_refuted.

Definition C46_hello : fstr := {| f_len := 5; f_chars := [104; 101; 108; 108; 111; 0]%Z |}.
Definition C46_help : fstr := {| f_len := 4; f_chars := [104; 101; 108; 112; 0]%Z |}.
Example C46_witness : holds C46_hello [104; 101; 108; 108; 111]%Z /\ holds C46_help [104; 101; 108; 112]%Z /\
  good_index 64 {| isigned := true; ibits := 32 |} 5 (-3) /\ good_index 64 {| isigned := true; ibits := 32 |} 5 (-1) /\
  f_slice 64 {| isigned := true; ibits := 32 |} {| isigned := true; ibits := 32 |} C46_hello (-3) (-1) = Some {| f_len := 2; f_chars := [108; 108; 0]%Z |} /\
  f_compare key_char false C46_hello C46_help = Some (-1)%Z /\
  (forall x y, In x [104; 101; 108; 108; 111]%Z -> In y [104; 101; 108; 112]%Z -> key_char x = key_char y -> x = y) /\
  f_concat C46_help C46_hello = Some {| f_len := 9; f_chars := [104; 101; 108; 112; 104; 101; 108; 108; 111; 0]%Z |}.
Proof.
  repeat (split; [first [split; reflexivity|split; [unfold in_ity; cbn; lia|split; [reflexivity|intros _; vm_compute; discriminate]]|vm_compute; reflexivity|
    cbn; intros x y X Y; decompose [or] X; decompose [or] Y; subst; vm_compute; intros; try reflexivity; try discriminate; contradiction]|]).
  vm_compute. reflexivity.
Qed.
