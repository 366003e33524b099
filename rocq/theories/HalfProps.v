(** Properties C38, C39, C75, C76: the emulated half. *)
From Coq Require Import Lia ZifyBool ZifyNat ZifyN.
From Verif Require Import Words WordsProofs HalfModel HalfSpec HalfProofs.
Local Open Scope N_scope.
Ltac Zify.zify_post_hook ::= idtac.

(** Every half is widened to a float of the same value, class and sign. *)
Theorem C38_half_to_float h : h < 2 ^ 16 ->
  exists x, u16_to_f32 h = Some x /\ x < 2 ^ 32 /\ f32_value x = f16_value h /\ (x / 2 ^ 31 = 1 <-> h / 2 ^ 15 = 1).
Proof. intros H. destruct (widen_ok h H) as (x & A & B & C & D & _). exists x. tauto. Qed.
Print Assumptions C38_half_to_float.
(** The smallest subnormal, an ordinary number and an infinity. *)
Example C38_witness : u16_to_f32 0x0001 = Some 0x33800000 /\ f32_value 0x33800000 = Fin false (2 ^ 125) /\
  u16_to_f32 0xC248 = Some 0xC0490000 /\ f16_value 0xC248 = Fin true (201 * 2 ^ 143) /\ u16_to_f32 0xFC00 = Some 0xFF800000.
Proof. repeat split; vm_compute; reflexivity. Qed.

(** A float within the range of normal halves becomes the closest half towards zero. *)
Theorem C39_normal_partial x s mag : x < 2 ^ 32 -> f32_value x = Fin s mag -> 2 ^ 135 <= mag -> mag < 2 ^ 165 ->
  f32_to_u16 x < 2 ^ 16 /\ exists mag', f16_value (f32_to_u16 x) = Fin s mag' /\ mag' <= mag /\
    forall h t n, h < 2 ^ 16 -> f16_value h = Fin t n -> n <= mag -> n <= mag'.
Proof. exact (normal_trunc x s mag). Qed.
Print Assumptions C39_normal_partial.
(** 1.0009766f is not a half. *)
Example C39_normal_witness : f32_value 0x3F80201F = Fin false (8396831 * 2 ^ 126) /\ 2 ^ 135 <= 8396831 * 2 ^ 126 /\ 8396831 * 2 ^ 126 < 2 ^ 165 /\ f32_to_u16 0x3F80201F = 0x3C01.
Proof. split; [vm_compute; reflexivity|]. split; [vm_compute; discriminate|]. split; vm_compute; reflexivity. Qed.

(** A float that is a half other than a subnormal becomes that half. *)
Theorem C39_representable_partial x h : x < 2 ^ 32 -> h < 2 ^ 16 -> f32_value x = f16_value h -> f16_value h <> NaN -> ~ subnormal16 h ->
  f32_to_u16 x = h.
Proof.
  intros Hx Hh E N S. destruct (widen_ok h Hh) as (y & _ & Hy & V & _ & R). rewrite <- V in E, N.
  rewrite (f32_value_inj x y Hx Hy E N). apply R, S.
Qed.
Print Assumptions C39_representable_partial.
Example C39_representable_witness : f32_value 0xC0490000 = f16_value 0xC248 /\ f16_value 0xC248 <> NaN /\ ~ subnormal16 0xC248.
Proof. split; [vm_compute; reflexivity|]. split; [vm_compute; discriminate|]. intros [A _]. vm_compute in A. discriminate. Qed.

(** Exactly the halves which are not subnormal survive a round trip (NaNs with their payload). *)
Theorem C39_round_trip_partial h : h < 2 ^ 16 -> exists x, u16_to_f32 h = Some x /\ (f32_to_u16 x = h <-> ~ subnormal16 h).
Proof. intros H. destruct (widen_ok h H) as (x & A & _ & _ & _ & R). exists x. split; assumption. Qed.
Print Assumptions C39_round_trip_partial.
Example C39_round_trip_witness : ~ subnormal16 0x7E01 /\ subnormal16 0x0001.
Proof. split; [intros [A _]; vm_compute in A; discriminate|]. split; vm_compute; [reflexivity|discriminate]. Qed.

(** Infinities, NaNs, zeros and subnormal floats, and the binade [[65536, 131072)] just above the largest half. *)
Theorem C39_special_partial x : x < 2 ^ 32 ->
  (forall s, f32_value x = Inf s -> f32_to_u16 x < 2 ^ 16 /\ f16_value (f32_to_u16 x) = Inf s) /\
  (f32_value x = NaN -> f32_to_u16 x < 2 ^ 16 /\ f16_value (f32_to_u16 x) = NaN /\ (f32_to_u16 x / 2 ^ 15 = 1 <-> x / 2 ^ 31 = 1)) /\
  (forall s mag, f32_value x = Fin s mag -> mag < 2 ^ 23 -> f32_to_u16 x < 2 ^ 16 /\ f16_value (f32_to_u16 x) = Fin s 0) /\
  (forall s mag, f32_value x = Fin s mag -> 2 ^ 165 <= mag -> mag < 2 ^ 166 -> f32_to_u16 x < 2 ^ 16 /\ f16_value (f32_to_u16 x) = Inf s).
Proof. exact (special_ok x). Qed.
Print Assumptions C39_special_partial.
Example C39_special_witness : f32_value 0xC7C00000 = Fin true (3 * 2 ^ 164) /\ f16_value (f32_to_u16 0xC7C00000) = Inf true /\
  f32_value 0x7F800001 = NaN /\ f32_to_u16 0x7F800001 = 0x7E00.
Proof. repeat split; vm_compute; reflexivity. Qed.

(** Every float of magnitude in [[131072, 262144)], whatever its sign, becomes a tiny negative number and not an infinity. *)
Theorem C39_overflow_refuted x s mag : x < 2 ^ 32 -> f32_value x = Fin s mag -> 2 ^ 166 <= mag -> mag < 2 ^ 167 ->
  exists mag', f16_value (f32_to_u16 x) = Fin true mag' /\ mag' < 2 ^ 135.
Proof. exact (overflow_wrong x s mag). Qed.
Print Assumptions C39_overflow_refuted.
Example C39_overflow_witness : f32_value 0x48000000 = Fin false (131072 * one_unit) /\ 131072 * one_unit = 2 ^ 166 /\ f32_to_u16 0x48000000 = 0x8000.
Proof. repeat split; vm_compute; reflexivity. Qed.

(** Every float of magnitude in [[2^-16, 2^-15)], though halves lie there, becomes minus infinity or NaN. *)
Theorem C39_small_refuted x s mag : x < 2 ^ 32 -> f32_value x = Fin s mag -> 2 ^ 133 <= mag -> mag < 2 ^ 134 ->
  f16_value (f32_to_u16 x) = Inf true \/ f16_value (f32_to_u16 x) = NaN.
Proof. exact (small_wrong x s mag). Qed.
Print Assumptions C39_small_refuted.
Example C39_small_witness : f32_value 0x37800000 = Fin false (2 ^ 133) /\ f16_value 0x0100 = Fin false (2 ^ 133) /\ f32_to_u16 0x37800000 = 0xFC00.
Proof. repeat split; vm_compute; reflexivity. Qed.

(** Every float of magnitude in [[2^-15, 2^-14)] becomes about half of itself: [2 * mag' <= mag], and less than four of the
    smallest halves short of that. *)
Theorem C39_halved_refuted x s mag : x < 2 ^ 32 -> f32_value x = Fin s mag -> 2 ^ 134 <= mag -> mag < 2 ^ 135 ->
  exists mag', f16_value (f32_to_u16 x) = Fin s mag' /\ 2 * mag' <= mag /\ mag < 2 * mag' + 4 * 2 ^ 125.
Proof. exact (halved_wrong x s mag). Qed.
Print Assumptions C39_halved_refuted.
Example C39_halved_witness : f32_value 0x38000000 = Fin false (2 ^ 134) /\ f16_value (f32_to_u16 0x38000000) = Fin false (2 ^ 133).
Proof. repeat split; vm_compute; reflexivity. Qed.

(** Negation, [abs], [infinity_or_nan] and the conversions from and to bool mean what they say on all halves.  [abs] keeps a
    NaN as it is. *)
Theorem C75_sign_operations h : h < 2 ^ 16 ->
  half_neg h < 2 ^ 16 /\ f16_value (half_neg h) = negate (f16_value h) /\ (half_neg h / 2 ^ 15 = 1 <-> h / 2 ^ 15 = 0) /\ half_neg (half_neg h) = h /\
  half_abs h < 2 ^ 16 /\ f16_value (half_abs h) = magnitude (f16_value h) /\
  (half_inf_or_nan h = true <-> (f16_value h = NaN \/ exists s, f16_value h = Inf s)) /\
  (half_bool h = false <-> exists s, f16_value h = Fin s 0).
Proof. exact (signs_ok h). Qed.
Print Assumptions C75_sign_operations.
Theorem C75_from_bool b : f16_value (half_of_bool b) = Fin false (if b then one_unit else 0) /\ half_bool (half_of_bool b) = b.
Proof. destruct b; split; vm_compute; reflexivity. Qed.
Print Assumptions C75_from_bool.
Example C75_witness : half_neg 0x3C00 = 0xBC00 /\ half_abs 0xBC00 = 0x3C00 /\ half_abs 0xFE01 = 0xFE01 /\ half_bool 0x8000 = false /\ half_inf_or_nan 0x7C01 = true.
Proof. repeat split; vm_compute; reflexivity. Qed.

(** The limits are the extremes of the finite halves. *)
Theorem C76_limits h s n : h < 2 ^ 16 -> f16_value h = Fin s n ->
  (exists top, f16_value half_highest = Fin false top /\ f16_value half_lowest = Fin true top /\ n <= top) /\
  (exists least, f16_value half_denorm_min = Fin false least /\ 0 < least /\ (n = 0 \/ least <= n)) /\
  (exists least, f16_value half_min = Fin false least /\ ~ subnormal16 half_min /\ (n < least <-> n = 0 \/ subnormal16 h)).
Proof. exact (limits_ok h s n). Qed.
Print Assumptions C76_limits.
(** [epsilon] is the gap above one, [round_error] half a unit in its last place... *)
Theorem C76_epsilon : exists e r, f16_value half_epsilon = Fin false e /\ f16_value half_round_error = Fin false r /\ 0 < e /\
  (exists h, h < 2 ^ 16 /\ f16_value h = Fin false (one_unit + e)) /\
  (forall h n, h < 2 ^ 16 -> f16_value h = Fin false n -> one_unit < n -> one_unit + e <= n) /\ 2 * r = e.
Proof. exact epsilon_ok. Qed.
Print Assumptions C76_epsilon.
Theorem C76_special : f16_value half_infinity = Inf false /\ f16_value half_negative_infinity = Inf true /\ f16_value half_nan = NaN /\
  f16_value half_signaling_nan = NaN /\ f16_value half_negative_zero = Fin true 0.
Proof. repeat split; vm_compute; reflexivity. Qed.
Print Assumptions C76_special.
Theorem C76_integers k h : In (k, h) half_integers -> f16_value h = Fin false (k * one_unit).
Proof.
  intros H. apply (proj1 (Forall_forall (fun kh => f16_value (snd kh) = Fin false (fst kh * one_unit)) half_integers)) in H; [exact H|].
  repeat constructor.
Qed.
Print Assumptions C76_integers.
Example C76_witness : f16_value 0x03FF = Fin false (1023 * 2 ^ 125) /\ f16_value half_highest = Fin false (65504 * one_unit) /\ In (100, 0x5640) half_integers.
Proof. split; [vm_compute; reflexivity|]. split; [vm_compute; reflexivity|]. cbn. tauto. Qed.
