(** Properties C11-C15 and C69: clamp/min/max/between, hexadecimal digits, integral_range. *)
From Verif Require Import Words CoreModel CoreSpec CoreProofs.
From Coq Require Import Sorted.
Local Open Scope Z_scope.

(** C11. For any strict total order: in the interval, the identity inside it, and between [v] and every other
    member of the interval (so no member is nearer in any metric compatible with the order). *)
Theorem C11_clamp : forall (A : Type) (lt : A -> A -> bool), strict_total lt -> forall v lo hi, lt hi lo = false ->
  let c := clamp lt v lo hi in
  lt c lo = false /\ lt hi c = false /\
  (lt v lo = false -> lt hi v = false -> c = v) /\
  (forall m, lt m lo = false -> lt hi m = false ->
     (lt c v = false /\ lt m c = false) \/ (lt c m = false /\ lt v c = false)).
Proof. intros A lt H v lo hi Hlh. exact (clamp_spec lt H v lo hi Hlh). Qed.
Print Assumptions C11_clamp.

Theorem C11_clamp_nearest : forall v lo hi, lo <= hi ->
  lo <= clamp Z.ltb v lo hi <= hi /\
  forall c, lo <= c <= hi ->
    Z.abs (v - clamp Z.ltb v lo hi) <= Z.abs (v - c) /\
    (c <> clamp Z.ltb v lo hi -> Z.abs (v - clamp Z.ltb v lo hi) < Z.abs (v - c)).
Proof. exact clamp_nearest. Qed.
Print Assumptions C11_clamp_nearest.

Theorem C11_clamp_idempotent : forall (A : Type) (lt : A -> A -> bool), strict_total lt ->
  forall v lo hi, lt hi lo = false -> clamp lt (clamp lt v lo hi) lo hi = clamp lt v lo hi.
Proof. intros A lt H. exact (clamp_idem lt H). Qed.
Print Assumptions C11_clamp_idempotent.

Theorem C11_clamp_monotone : forall (A : Type) (lt : A -> A -> bool), strict_total lt ->
  forall v v' lo hi, lt hi lo = false -> lt v' v = false -> lt (clamp lt v' lo hi) (clamp lt v lo hi) = false.
Proof. intros A lt H. exact (clamp_mono lt H). Qed.
Print Assumptions C11_clamp_monotone.

Example C11_witness : strict_total Z.ltb /\ (10 <? -3) = false /\
  clamp Z.ltb (-7) (-3) 10 = -3 /\ clamp Z.ltb 12 (-3) 10 = 10 /\ clamp Z.ltb 4 (-3) 10 = 4.
Proof. split; [exact Zltb_strict_total|]. vm_compute. tauto. Qed.

(** C12. *)
Theorem C12_min : forall (A : Type) (lt : A -> A -> bool), strict_total lt -> forall v1 v2 vals,
  In (vmin lt v1 v2 vals) (v1 :: v2 :: vals) /\
  forall x, In x (v1 :: v2 :: vals) -> lt x (vmin lt v1 v2 vals) = false.
Proof. intros A lt H v1 v2 vals. exact (vmin_spec lt H vals v1 v2). Qed.
Print Assumptions C12_min.

Theorem C12_max : forall (A : Type) (lt : A -> A -> bool), strict_total lt -> forall v1 v2 vals,
  In (vmax lt v1 v2 vals) (v1 :: v2 :: vals) /\
  forall x, In x (v1 :: v2 :: vals) -> lt (vmax lt v1 v2 vals) x = false.
Proof. intros A lt H v1 v2 vals. exact (vmax_spec lt H vals v1 v2). Qed.
Print Assumptions C12_max.

Example C12_witness : vmin Z.ltb 3 1 [4; -1; 5; 9; 2] = -1 /\ vmax Z.ltb 3 1 [4; -1; 5; 9; 2] = 9 /\
  vmin Z.ltb 3 1 [0; 2] = 0.
Proof. vm_compute. tauto. Qed.

(** C13. Full statement: [between T U v lo hi = (lo <=? v) && (v <=? hi)] for all types and values. It fails
    (see [C13_between_refuted]); the exact behaviour is [C13_between_partial], and the full statement holds
    whenever the mix is not "unsigned value, signed bounds no wider than it" or the lower bound is not
    negative. *)
Theorem C13_between_partial : forall T U v lo hi,
  std_ity T -> std_ity U -> in_ity T v -> in_ity U lo -> in_ity U hi ->
  between T U v lo hi = ((lo <=? v) && (v <=? hi)) && negb (unsafe_mix T U && (lo <? 0)).
Proof. exact between_ok. Qed.
Print Assumptions C13_between_partial.

Theorem C13_between_exact_partial : forall T U v lo hi,
  std_ity T -> std_ity U -> in_ity T v -> in_ity U lo -> in_ity U hi ->
  unsafe_mix T U = false \/ 0 <= lo ->
  between T U v lo hi = true <-> lo <= v <= hi.
Proof.
  intros T U v lo hi HT HU Hv Hlo Hhi Hs. rewrite between_ok by assumption.
  rewrite andb_true_iff, negb_true_iff, !andb_true_iff, andb_false_iff, Z.leb_le, Z.leb_le, Z.ltb_ge. tauto.
Qed.
Print Assumptions C13_between_exact_partial.

(** The values of a type, which these theorems quantify over, are exactly those that a conversion to it keeps; and the types are those
    of 8 to 128 bits. *)
Theorem C13_values : forall t x, std_ity t -> in_ity t x <-> conv t x = x.
Proof.
  intros t x Ht. pose proof (std_bits t Ht) as Hb. split; [apply conv_id; lia|]. intros H. unfold in_ity, ity_min, ity_max. unfold conv in H.
  assert (Hp : 2 ^ ibits t = 2 * 2 ^ (ibits t - 1)) by (rewrite <- Z.pow_succ_r by lia; f_equal; lia).
  assert (Hpos : 0 < 2 ^ (ibits t - 1)) by (apply Z.pow_pos_nonneg; lia).
  pose proof (Z.mod_pos_bound x (2 ^ ibits t) ltac:(lia)) as Hm. destruct (isigned t); cbn [andb] in H; [destruct (Z.leb_spec (2 ^ (ibits t - 1)) (x mod 2 ^ ibits t))|]; lia.
Qed.
Print Assumptions C13_values.
Theorem C13_types : forall n s, In n [3; 4; 5; 6; 7] <-> std_ity {| isigned := s; ibits := 2 ^ n |} /\ 0 <= n.
Proof.
  intros n s. unfold std_ity. cbn [ibits]. split.
  - cbn [In]. intros [<-|[<-|[<-|[<-|[<-|[]]]]]]; cbn; split; try lia; tauto.
  - change [8; 16; 32; 64; 128] with (map (Z.pow 2) [3; 4; 5; 6; 7]). intros [H Hn]. apply in_map_iff in H as (m & E & H). assert (0 <= m) by (cbn in H; lia). apply Z.pow_inj_r in E; [subst; exact H|lia|lia|lia].
Qed.
Print Assumptions C13_types.

Definition u32t := {| isigned := false; ibits := 32 |}.
Definition i32t := {| isigned := true; ibits := 32 |}.
Definition i8t := {| isigned := true; ibits := 8 |}.
Definition u8t := {| isigned := false; ibits := 8 |}.
Definition i64t := {| isigned := true; ibits := 64 |}.
Definition u64t := {| isigned := false; ibits := 64 |}.

(** [between(5u, -1, 10)] is false. *)
Theorem C13_between_refuted : exists T U v lo hi,
  std_ity T /\ std_ity U /\ in_ity T v /\ in_ity U lo /\ in_ity U hi /\
  lo <= v <= hi /\ between T U v lo hi = false.
Proof.
  exists u32t, i32t, 5, (-1), 10. unfold std_ity, in_ity. cbn [In u32t i32t ibits ity_min ity_max isigned].
  repeat split; try lia; reflexivity.
Qed.
Print Assumptions C13_between_refuted.

Example C13_witness : std_ity u8t /\ std_ity i32t /\ in_ity u8t 200 /\ unsafe_mix u8t i32t = false /\
  between u8t i32t 200 (-5) 255 = true /\ between i32t u32t (-1) 0 4294967295 = false.
Proof. unfold std_ity, in_ity. cbn. repeat split; try lia; tauto. Qed.

(** C14. *)
Theorem C14_hex_to_dec : forall c v, hex_digit_value c = Some v -> hex_to_dec c = v.
Proof. exact hex_to_dec_ok. Qed.
Print Assumptions C14_hex_to_dec.

Theorem C14_dec_to_hex : forall cw n a, (8 <= cw)%N -> (n < 16)%N -> a = 97%N \/ a = 65%N ->
  hex_digit_value (dec_to_hex cw n a) = Some n /\ hex_to_dec (dec_to_hex cw n a) = n /\
  (dec_to_hex cw n a = if 10 <=? n then a + (n - 10) else 48 + n)%N.
Proof.
  intros cw n a Hcw Hn Ha. pose proof (dec_to_hex_ok cw n a Hcw Hn Ha) as H.
  split; [exact H|]. split; [exact (hex_to_dec_ok _ _ H)|]. exact (dec_to_hex_char cw n a Hcw Hn Ha).
Qed.
Print Assumptions C14_dec_to_hex.

Theorem C14_byte_to_hex : forall cw b a hi lo, (8 <= cw)%N -> (b < 256)%N -> a = 97%N \/ a = 65%N ->
  byte_to_hex cw b a = (hi, lo) ->
  exists h l, hex_digit_value hi = Some h /\ hex_digit_value lo = Some l /\ (b = 16 * h + l)%N /\
              (b = 16 * hex_to_dec hi + hex_to_dec lo)%N.
Proof. exact byte_to_hex_ok. Qed.
Print Assumptions C14_byte_to_hex.

Example C14_witness : byte_to_hex 8 0xA7 97 = (97, 55)%N /\ hex_digit_value 70 = Some 15%N /\
  hex_digit_value 71 = None.
Proof. vm_compute. tauto. Qed.

(** C15. *)
(** The two-value constructor accepts exactly the ordered bounds, the range it makes has exactly the values
    from the first bound up to the second, and [empty()] and the conversion to bool tell, each on its own,
    whether there is any. *)
Theorem C15_make : forall s e,
  (s <= e -> exists r, irange_make s e = Some r /\ (forall x, iset r x <-> s <= x < e) /\
     (ir_bool r = true <-> exists x, iset r x) /\ (ir_empty r = true <-> forall x, ~ iset r x)) /\
  (e < s -> irange_make s e = None).
Proof.
  intros s e. unfold irange_make. split; intros H.
  - rewrite (proj2 (Z.leb_le s e) H). eexists. split; [reflexivity|].
    unfold iset, ir_bool, ir_empty; cbn [rs re]. split; [tauto|]. split.
    + rewrite Z.ltb_lt. split; [intros Q; exists s; lia | intros (x & Q); lia].
    + rewrite Z.eqb_eq. split; [intros Q x; lia | intros Q; specialize (Q s); lia].
  - rewrite (proj2 (Z.leb_gt s e) H). reflexivity.
Qed.
Print Assumptions C15_make.
Example C15_make_example :
  irange_make (-3) 4 = Some {| rs := -3; re := 4 |} /\ ir_bool {| rs := -3; re := 4 |} = true /\
  irange_make 4 4 = Some {| rs := 4; re := 4 |} /\ ir_empty {| rs := 4; re := 4 |} = true /\
  irange_make 4 (-3) = None.
Proof. vm_compute. repeat split. Qed.

Theorem C15_contains : forall r v, ir_contains r v = true <-> iset r v.
Proof. exact ir_contains_ok. Qed.
Print Assumptions C15_contains.

Theorem C15_contains_range : forall r o, nonempty o ->
  ir_contains_range r o = true <-> (forall x, iset o x -> iset r x).
Proof. exact ir_contains_range_ok. Qed.
Print Assumptions C15_contains_range.

Theorem C15_intersects : forall r o, nonempty r -> nonempty o ->
  ir_intersects r o = true <-> (exists x, iset r x /\ iset o x).
Proof. exact ir_intersects_ok. Qed.
Print Assumptions C15_intersects.

Theorem C15_adjacent : forall r o, nonempty r -> nonempty o ->
  ir_adjacent r o = true <-> (meets r o \/ meets o r).
Proof. exact ir_adjacent_ok. Qed.
Print Assumptions C15_adjacent.

Theorem C15_intersects_or_adjacent : forall r o, nonempty r -> nonempty o ->
  ir_intersects_or_adjacent r o = true <-> ((exists x, iset r x /\ iset o x) \/ meets r o \/ meets o r).
Proof.
  intros r o Hr Ho. rewrite ir_intersects_or_adjacent_ok, orb_true_iff by assumption.
  rewrite ir_intersects_ok, ir_adjacent_ok by assumption. tauto.
Qed.
Print Assumptions C15_intersects_or_adjacent.

(** [union_with] is the least range containing both, and is exactly the union iff they touch. *)
Theorem C15_union_hull : forall r o,
  (forall x, iset r x \/ iset o x -> iset (ir_union r o) x) /\
  (nonempty r -> nonempty o -> forall h, (forall x, iset r x \/ iset o x -> iset h x) ->
     forall x, iset (ir_union r o) x -> iset h x).
Proof. exact ir_union_hull. Qed.
Print Assumptions C15_union_hull.

Theorem C15_union_exact : forall r o, nonempty r -> nonempty o ->
  ir_intersects_or_adjacent r o = true <-> (forall x, iset (ir_union r o) x <-> iset r x \/ iset o x).
Proof. exact ir_union_exact. Qed.
Print Assumptions C15_union_exact.

(** The restriction to non-empty ranges is needed: an empty range strictly inside another "intersects" it. *)
Theorem C15_intersects_empty_refuted : exists r o,
  rs o <= re o /\ ir_empty o = true /\ ir_intersects r o = true /\ ~ (exists x, iset r x /\ iset o x).
Proof.
  exists {| rs := 0; re := 10 |}, {| rs := 5; re := 5 |}. cbn. repeat split; try lia; try reflexivity.
  intros (x & _ & H). unfold iset in H. cbn in H. lia.
Qed.
Print Assumptions C15_intersects_empty_refuted.

Example C15_witness : nonempty {| rs := -3; re := 4 |} /\ nonempty {| rs := 4; re := 6 |} /\
  ir_intersects {| rs := -3; re := 4 |} {| rs := 4; re := 6 |} = false /\
  ir_adjacent {| rs := -3; re := 4 |} {| rs := 4; re := 6 |} = true /\
  ir_union {| rs := -3; re := 4 |} {| rs := 4; re := 6 |} = {| rs := -3; re := 6 |}.
Proof. unfold nonempty. cbn. repeat split; lia. Qed.

(** C69. Iterating visits each member once, in increasing order; [size()] is the number of members whenever it is
    defined, and it is undefined (signed overflow) exactly when a signed range has 2^(n-1) members or more. *)
Theorem C69_iteration : forall t r, std_ity t -> in_range_of t r ->
  exists l, ir_iterate (Z.to_nat (re r - rs r)) t (rs r) (re r) = Some l /\
            (forall x, In x l <-> iset r x) /\ StronglySorted Z.lt l /\ Z.of_nat (length l) = re r - rs r.
Proof. exact ir_iterate_ok. Qed.
Print Assumptions C69_iteration.

Theorem C69_size_partial : forall sw t r, std_ity t -> in_range_of t r ->
  ir_size sw t r = if isigned t && (2 ^ (diff_bits sw t - 1) <=? re r - rs r) then None else Some (re r - rs r).
Proof. exact ir_size_ok. Qed.
Print Assumptions C69_size_partial.

Theorem C69_size_refuted : exists t r, std_ity t /\ in_range_of t r /\ ir_size 64 t r = None.
Proof.
  exists i64t, {| rs := - 2 ^ 63; re := 1 |}. unfold std_ity, in_range_of, in_ity. cbn. repeat split; lia || tauto.
Qed.
Print Assumptions C69_size_refuted.

Theorem C69_first_last : forall t r, std_ity t -> in_range_of t r -> nonempty r ->
  iset r (ir_first r) /\ (forall x, iset r x -> ir_first r <= x) /\
  exists l, ir_last t r = Some l /\ iset r l /\ (forall x, iset r x -> x <= l).
Proof.
  intros t r Ht Hr Hn. split; [unfold iset, ir_first, nonempty in *; lia|].
  split; [unfold iset, ir_first; lia|]. exact (ir_last_ok t r Ht Hr Hn).
Qed.
Print Assumptions C69_first_last.

(** Advancing an iterator to a representable position is exact integer addition. *)
Theorem C69_iterator_add : forall sw t v off, std_ity t -> in_ity t v -> in_ity t (v + off) ->
  ir_iter_add sw t v off = v + off.
Proof. exact ir_iter_add_ok. Qed.
Print Assumptions C69_iterator_add.

(** Iterator subtraction, exactly: for signed types it is the difference or undefined when that is not
    representable; for unsigned types it is undefined also for representable differences. *)
Theorem C69_iterator_diff_signed : forall sw t l r, std_ity t -> isigned t = true -> in_ity t l -> in_ity t r ->
  ir_iter_diff sw t l r =
    if (- 2 ^ (diff_bits sw t - 1) <=? l - r) && (l - r <? 2 ^ (diff_bits sw t - 1)) then Some (l - r) else None.
Proof. exact ir_iter_diff_signed. Qed.
Print Assumptions C69_iterator_diff_signed.

Theorem C69_iterator_diff_unsigned_partial : forall sw t l r,
  std_ity t -> isigned t = false -> in_ity t l -> in_ity t r ->
  let H := 2 ^ (diff_bits sw t - 1) in
  ir_iter_diff sw t l r =
    if l <? r then (if r - l <? H then Some (l - r) else if r - l =? H then None else Some (l - r + 2 * H))
    else if (H <=? l) && (r <? H) then (if l - r <? H then None else Some (l - r - 2 * H)) else Some (l - r).
Proof.
  intros sw t l r Ht Hs Hl Hr H. destruct (Z.ltb_spec l r) as [Q|Q].
  - exact (ir_iter_diff_unsigned_lt sw t l r Ht Hs Hl Hr Q).
  - exact (ir_iter_diff_unsigned_ge sw t l r Ht Hs Hl Hr Q).
Qed.
Print Assumptions C69_iterator_diff_unsigned_partial.

(** Every range of a value type narrower than [size_t] has exact iterator differences. *)
Theorem C69_iterator_diff_narrow : forall sw t l r, std_ity t -> in_ity t l -> in_ity t r ->
  ibits t < diff_bits sw t -> ir_iter_diff sw t l r = Some (l - r).
Proof. exact ir_iter_diff_narrow. Qed.
Print Assumptions C69_iterator_diff_narrow.

Theorem C69_iterator_diff_refuted : exists t l r, std_ity t /\ in_ity t l /\ in_ity t r /\
  0 <= l - r < 2 ^ 63 /\ ir_iter_diff 64 t l r = None.
Proof.
  exists u64t, (2 ^ 63), 1. unfold std_ity, in_ity. cbn. repeat split; lia || tauto.
Qed.
Print Assumptions C69_iterator_diff_refuted.

Example C69_witness : std_ity i8t /\ in_range_of i8t {| rs := -2; re := 2 |} /\
  ir_iterate 4 i8t (-2) 2 = Some [-2; -1; 0; 1] /\ ir_size 64 i8t {| rs := -128; re := 127 |} = Some 255 /\
  ir_iter_diff 64 u8t 3 250 = Some (-247) /\ ibits u8t < diff_bits 64 u8t.
Proof. unfold std_ity, in_range_of, in_ity. cbn. repeat split; lia || tauto. Qed.
