(** Properties C01-C10: the bit utilities. *)
From Verif Require Import Words WordsProofs BitsModel BitsSpec BitsProofs BitsProofs2 BitsProofs3.

(** C01. Both implementations of [countl_zero], at every width and through the 128-bit split,
    return the number of leading zero bits ([leading] determines it uniquely). *)
Theorem C01_countl_zero : forall p w x, 0 < w -> x < 2 ^ w ->
  exists k, countl_zero p w x = Some k /\ leading false w x k.
Proof. exact countl_zero_leading. Qed.
Print Assumptions C01_countl_zero.

Theorem C01_countl_one : forall p w x, 0 < w -> x < 2 ^ w ->
  exists k, countl_one p w x = Some k /\ leading true w x k.
Proof. exact countl_one_leading. Qed.
Print Assumptions C01_countl_one.

Theorem C01_leading_unique : forall b w x k k', leading b w x k -> leading b w x k' -> k = k'.
Proof. exact leading_unique. Qed.
Print Assumptions C01_leading_unique.

Theorem C01_bit_width : forall p w x, std_width w -> x < 2 ^ w ->
  exists k, countl_zero p w x = Some k /\ bit_width p w x = Some (w - k) /\
            x < 2 ^ (w - k) /\ (forall j, x < 2 ^ j -> w - k <= j).
Proof. exact bit_width_ok. Qed.
Print Assumptions C01_bit_width.

Example C01_witness : countl_zero Naive 128 (2 ^ 63) = Some 64 /\ 2 ^ 63 < 2 ^ 128 /\
  countl_one Intrinsic 16 0xFE00 = Some 7.
Proof. vm_compute. repeat split; reflexivity. Qed.

(** C02. *)
Theorem C02_countr_zero : forall p w x, x < 2 ^ w ->
  exists k, countr_zero p w x = Some k /\ trailing false w x k.
Proof. exact countr_zero_trailing. Qed.
Print Assumptions C02_countr_zero.

Theorem C02_countr_one : forall p w x, x < 2 ^ w ->
  exists k, countr_one p w x = Some k /\ trailing true w x k.
Proof. exact countr_one_trailing. Qed.
Print Assumptions C02_countr_one.

Theorem C02_trailing_divides : forall w x k, x < 2 ^ w -> trailing false w x k ->
  (2 ^ k | x) /\ (forall j, j <= w -> (2 ^ j | x) -> j <= k).
Proof. exact trailing_divide. Qed.
Print Assumptions C02_trailing_divides.

Theorem C02_trailing_unique : forall b w x k k', trailing b w x k -> trailing b w x k' -> k = k'.
Proof. exact trailing_unique. Qed.
Print Assumptions C02_trailing_unique.

Example C02_witness : countr_zero Naive 128 (2 ^ 100) = Some 100 /\ countr_one Naive 8 0x37 = Some 3.
Proof. vm_compute. split; reflexivity. Qed.

(** C03. *)
Theorem C03_popcount : forall p w x, std_width w -> x < 2 ^ w ->
  popcount p w x = Some (count_bits (N.to_nat w) x).
Proof. exact popcount_ok. Qed.
Print Assumptions C03_popcount.

Theorem C03_has_single_bit : forall w x, x < 2 ^ w ->
  has_single_bit w x = true <-> power_of_two x.
Proof. exact has_single_bit_ok. Qed.
Print Assumptions C03_has_single_bit.

Example C03_witness : popcount Naive 128 (2 ^ 128 - 1) = Some 128 /\ 2 ^ 128 - 1 < 2 ^ 128 /\
  popcount Naive 64 0x8000000000000001 = Some 2 /\ has_single_bit 32 0x80000000 = true.
Proof. vm_compute. repeat split; reflexivity. Qed.

(** C04. *)
Theorem C04_bit_floor : forall p w x, 0 < w -> x < 2 ^ w ->
  exists r, bit_floor p w x = Some r /\ (x = 0 -> r = 0) /\
            (0 < x -> power_of_two r /\ r <= x /\ x < 2 * r).
Proof. exact bit_floor_bounds. Qed.
Print Assumptions C04_bit_floor.

Example C04_witness : bit_floor Naive 32 0xFFFFFFFF = Some 0x80000000 /\ 0xFFFFFFFF < 2 ^ 32.
Proof. vm_compute. split; reflexivity. Qed.

(** C05. *)
Theorem C05_bit_ceil : forall p w x, 0 < w -> x <= 2 ^ (w - 1) ->
  exists r, bit_ceil p w x = Some r /\ power_of_two r /\ x <= r /\
            (forall q, power_of_two q -> x <= q -> r <= q).
Proof. exact bit_ceil_least. Qed.
Print Assumptions C05_bit_ceil.

Theorem C05_bit_ceil_unrepresentable : forall p w x, 0 < w -> 2 ^ (w - 1) < x -> x < 2 ^ w ->
  bit_ceil p w x = if w <? 32 then Some 0 else None.
Proof. exact bit_ceil_above. Qed.
Print Assumptions C05_bit_ceil_unrepresentable.

Example C05_witness : bit_ceil Naive 16 0x8000 = Some 0x8000 /\ bit_ceil Naive 16 0x8001 = Some 0 /\
  bit_ceil Intrinsic 64 (2 ^ 63 + 1) = None /\ bit_ceil Naive 8 5 = Some 8.
Proof. vm_compute. repeat split; reflexivity. Qed.

(** C06. *)
Theorem C06_byte_reverse : forall n w x,
  w = 8 * N.of_nat n -> w <> 8 -> std_width w -> x < 2 ^ w ->
  exists r, byte_reverse w x = Some r /\ r < 2 ^ w /\ le_bytes n r = rev (le_bytes n x).
Proof. exact byte_reverse_bytes. Qed.
Print Assumptions C06_byte_reverse.

Theorem C06_byte_reverse_involutive : forall w x r,
  w <> 8 -> std_width w -> x < 2 ^ w -> byte_reverse w x = Some r -> byte_reverse w r = Some x.
Proof. exact byte_reverse_involutive. Qed.
Print Assumptions C06_byte_reverse_involutive.

Example C06_witness : byte_reverse 64 0x0102030405060708 = Some 0x0807060504030201 /\
  byte_reverse 128 0x0102030405060708090A0B0C0D0E0F10 = Some 0x100F0E0D0C0B0A090807060504030201.
Proof. vm_compute. split; reflexivity. Qed.

(** C07. *)
Theorem C07_bit_fill_right : forall w count r i, 0 < w -> bit_fill_right w count = Some r ->
  N.testbit r i = (i <? N.min count w).
Proof. exact bit_fill_right_bits. Qed.
Print Assumptions C07_bit_fill_right.

Theorem C07_bit_fill_right_value : forall w count, 0 < w ->
  bit_fill_right w count = Some (2 ^ N.min count w - 1).
Proof. exact bit_fill_right_ok. Qed.
Print Assumptions C07_bit_fill_right_value.

Theorem C07_bit_fill_left : forall w count r i, 0 < w -> bit_fill_left w count = Some r ->
  N.testbit r i = (w - N.min count w <=? i) && (i <? w).
Proof. exact bit_fill_left_bits. Qed.
Print Assumptions C07_bit_fill_left.

Theorem C07_bit_fill_left_value : forall w count, 0 < w ->
  bit_fill_left w count = Some (2 ^ w - 2 ^ (w - N.min count w)).
Proof. exact bit_fill_left_ok. Qed.
Print Assumptions C07_bit_fill_left_value.

Example C07_witness : bit_fill_right 8 3 = Some 7 /\ bit_fill_left 8 3 = Some 0xE0 /\
  bit_fill_left 64 1000 = Some (2 ^ 64 - 1).
Proof. vm_compute. repeat split; reflexivity. Qed.

(** C08. *)
Theorem C08_bit_pack : forall rw args,
  args <> [] -> args_ok args -> Forall (fun a => 0 < fst a) args -> total_bits args <= rw ->
  bit_pack rw args = Some (concat_value args).
Proof. exact bit_pack_ok. Qed.
Print Assumptions C08_bit_pack.

Theorem C08_bit_pack_recover : forall rw pre wd v post r,
  args_ok (pre ++ (wd, v) :: post) -> Forall (fun a => 0 < fst a) (pre ++ (wd, v) :: post) ->
  total_bits (pre ++ (wd, v) :: post) <= rw ->
  bit_pack rw (pre ++ (wd, v) :: post) = Some r ->
  N.land (N.shiftr r (total_bits post)) (N.ones wd) = v.
Proof. exact bit_pack_recover. Qed.
Print Assumptions C08_bit_pack_recover.

Theorem C08_bit_pack_injective : forall rw a b r,
  map fst a = map fst b -> args_ok a -> args_ok b -> Forall (fun x => 0 < fst x) a ->
  total_bits a <= rw -> bit_pack rw a = Some r -> bit_pack rw b = Some r -> a = b.
Proof. exact bit_pack_injective. Qed.
Print Assumptions C08_bit_pack_injective.

Theorem C08_bit_pack_auto : forall p args,
  args <> [] -> args_ok args -> Forall (fun a => 0 < fst a) args -> total_bits args <= 128 ->
  bit_pack_auto p args = Some (concat_value args).
Proof. exact bit_pack_auto_ok. Qed.
Print Assumptions C08_bit_pack_auto.

Example C08_witness : bit_pack_auto Naive [(8, 0x12); (16, 0x3456); (8, 0x78)] = Some 0x12345678 /\
  args_ok [(8, 0x12); (16, 0x3456); (8, 0x78)].
Proof. split; [vm_compute; reflexivity|repeat constructor]. Qed.

(** C09. The run-time [byte_select] is right below [sizeof(T)] and above it ... *)
Theorem C09_byte_select_static : forall w i x, std_width w -> x < 2 ^ w -> i < w / 8 ->
  byte_select_static w i x = Some ((x / 2 ^ (8 * i)) mod 256).
Proof. exact byte_select_static_ok. Qed.
Print Assumptions C09_byte_select_static.

Theorem C09_byte_select_partial : forall w i x, std_width w -> x < 2 ^ w -> i < w / 8 ->
  byte_select w x i = Some ((x / 2 ^ (8 * i)) mod 256).
Proof. exact byte_select_ok. Qed.
Print Assumptions C09_byte_select_partial.

Theorem C09_byte_select_beyond_partial : forall w i x, w / 8 < i -> byte_select w x i = Some 0.
Proof. exact byte_select_beyond. Qed.
Print Assumptions C09_byte_select_beyond_partial.

(** ... but at [index == sizeof(T)] the off-by-one guard lets the call through: an 8-bit value is returned
    as a whole, and from 32 bits on the shift count is the full width. *)
Theorem C09_byte_select_at_size : forall w x, std_width w -> x < 2 ^ w ->
  byte_select w x (w / 8) = if w =? 8 then Some x else if w =? 16 then Some 0 else None.
Proof. exact byte_select_at_size. Qed.
Print Assumptions C09_byte_select_at_size.

Theorem C09_byte_select_refuted :
  exists w x i, std_width w /\ x < 2 ^ w /\ w / 8 <= i /\ byte_select w x i <> Some 0.
Proof. exists 32, 1, 4. repeat split; try discriminate. right; right; left; reflexivity. Qed.
Print Assumptions C09_byte_select_refuted.

Theorem C09_swizzle : forall p w x idx,
  std_width w -> x < 2 ^ w -> idx <> [] -> Forall (fun i => i < w / 8) idx -> (length idx <= 16)%nat ->
  swizzle p w x idx = Some (of_le_bytes (rev (map (fun i => (x / 2 ^ (8 * i)) mod 256) idx))).
Proof. exact swizzle_ok. Qed.
Print Assumptions C09_swizzle.

Example C09_witness : swizzle Naive 32 0x11223344 [0; 1; 2; 3] = Some 0x44332211 /\
  byte_select 32 0x11223344 2 = Some 0x22 /\ byte_select 8 0x7F 1 = Some 0x7F.
Proof. vm_compute. repeat split; reflexivity. Qed.

(** C10. [round_up v a] is the least multiple of [a] not below [v]; the code returns it whenever
    it fits the type, and 0 otherwise. [sw] is the width of [size_t]. *)
Theorem C10_apply_alignment : forall sw w k v, v < 2 ^ w -> k < sw ->
  apply_alignment sw w v (2 ^ k) =
    Some (if round_up v (2 ^ k) <? 2 ^ w then round_up v (2 ^ k) else 0).
Proof. exact apply_alignment_ok. Qed.
Print Assumptions C10_apply_alignment.

Theorem C10_round_up_least : forall v a, 0 < a ->
  (a | round_up v a) /\ v <= round_up v a /\ (forall m, (a | m) -> v <= m -> round_up v a <= m).
Proof. exact round_up_spec. Qed.
Print Assumptions C10_round_up_least.

Theorem C10_apply_alignment_idempotent : forall sw w k v r,
  v < 2 ^ w -> k < sw -> apply_alignment sw w v (2 ^ k) = Some r ->
  r < 2 ^ w /\ apply_alignment sw w r (2 ^ k) = Some r.
Proof. exact apply_alignment_idem. Qed.
Print Assumptions C10_apply_alignment_idempotent.

Example C10_witness : apply_alignment 64 32 1001 16 = Some 1008 /\ apply_alignment 64 8 250 16 = Some 0 /\
  1001 < 2 ^ 32 /\ 4 < 64.
Proof. vm_compute. repeat split; reflexivity. Qed.
