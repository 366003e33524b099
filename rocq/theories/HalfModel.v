(** Model of the emulated half (half.h with MUU_HALF_EMULATED): bit patterns of binary16 and binary32 numbers as [N]. *)
From Verif Require Import Words.
Local Open Scope N_scope.

(** [static_cast<int8_t>]. *)
Definition to_int8 (x : Z) : Z := let m := (x mod 256)%Z in if (128 <=? m)%Z then (m - 256)%Z else m.

(** half.h:1258-1306 [f32_to_u16_naive]; the argument is [bit_cast<uint32_t>(val)]. *)
Definition f32_to_u16 (bits32 : N) : N :=
  let s16 := trunc 16 (N.shiftr (N.land bits32 0x80000000) 16) in
  let frac32 := N.land bits32 0x007FFFFF in
  let exp32 := N.shiftr (N.land bits32 0x7F800000) 23 in
  let exp32ub := to_int8 (to_int8 (Z.of_N exp32) - 127) in                              (* line 1272 *)
  let exp16 := Z.to_N ((exp32ub + 15) mod 65536)%Z in                                   (* line 1274 *)
  let exp16 := if exp32 =? 0xFF then 0x1F else if exp32 =? 0 then 0 else exp16 in       (* lines 1277-1285 *)
  let frac16 := trunc 16 (N.shiftr frac32 13) in
  let frac16 :=
    if (exp32 =? 0xFF) && negb (frac32 =? 0) && (frac16 =? 0) then 0x0200               (* lines 1290-1294 *)
    else if (exp32 =? 0) || ((exp16 =? 0x1F) && negb (exp32 =? 0xFF)) then 0            (* lines 1296-1299 *)
    else if (exp16 =? 0) && negb (exp32 =? 0) then N.lor 0x0100 (N.shiftr frac16 2)     (* lines 1301-1305 *)
    else frac16 in
  let exp16 := trunc 16 (N.shiftl exp16 10) in
  N.lor (N.lor s16 exp16) frac16.

(** half.h:1333-1339, the do-while loop: [frac32] and [offset]; out of fuel stands for non-termination. *)
Fixpoint denormal_loop (fuel : nat) (frac32 offset : N) : option (N * N) :=
  match fuel with
  | O => None
  | S f =>
      let offset := offset + 1 in
      let frac32 := trunc 32 (N.shiftl frac32 1) in
      if negb (N.land frac32 0x0400 =? 0x0400) then denormal_loop f frac32 offset else Some (frac32, offset)
  end.

(** half.h:1309-1358 [u16_to_f32_naive], the bits of the result. *)
Definition u16_to_f32 (val : N) : option N :=
  let s32 := trunc 32 (N.shiftl (N.land val 0x8000) 16) in
  let exp16 := N.shiftr (N.land val 0x7C00) 10 in
  let frac16 := N.land val 0x03FF in
  ef <- (if (exp16 =? 0) && negb (frac16 =? 0) then
           r <- denormal_loop 32 frac16 0 ;;
           Some (113 - snd r, N.land (fst r) 0x03FF)
         else if (exp16 =? 0) && (frac16 =? 0) then Some (0, frac16)
         else if (exp16 =? 31) && (frac16 =? 0) then Some (0xFF, frac16)
         else if (exp16 =? 31) && negb (frac16 =? 0) then Some (0xFF, frac16)
         else Some (exp16 + 112, frac16)) ;;
  let '(exp32, frac32) := ef in
  Some (N.lor (N.lor s32 (trunc 32 (N.shiftl exp32 23))) (trunc 32 (N.shiftl frac32 13))).

(** half.h:177-179 (from bool), 240-247 (to bool), 669-676 (negation), 1061-1068 [infinity_or_nan], 1075-1088 [abs]. *)
Definition half_of_bool (b : bool) : N := if b then 0x3C00 else 0.
Definition half_bool (h : N) : bool := negb (N.land h 0x7FFF =? 0).
Definition half_neg (h : N) : N := N.lxor h 0x8000.
Definition half_inf_or_nan (h : N) : bool := N.land h 0x7C00 =? 0x7C00.
Definition half_abs (h : N) : N :=
  if (N.land h 0x7C00 =? 0x7C00) && negb (N.land h 0x03FF =? 0) then h else N.land h 0x7FFF.

(** half.h:718-727, 781-788, 1461-1529: limits and special constants. *)
Definition half_lowest : N := 0xFBFF.
Definition half_highest : N := 0x7BFF.
Definition half_nan : N := 0xFE01.
Definition half_signaling_nan : N := 0xFC01.
Definition half_infinity : N := 0x7C00.
Definition half_negative_infinity : N := 0xFC00.
Definition half_negative_zero : N := 0x8000.
Definition half_min : N := 0x0400.
Definition half_epsilon : N := 0x1400.
Definition half_round_error : N := 0x1000.
Definition half_denorm_min : N := 0x0001.
(** half.h:734-746 [integer_positive_constants<half>]. *)
Definition half_integers : list (N * N) :=
  [(0, 0x0000); (1, 0x3C00); (2, 0x4000); (3, 0x4200); (4, 0x4400); (5, 0x4500); (6, 0x4600); (7, 0x4700); (8, 0x4800);
   (9, 0x4880); (10, 0x4900); (100, 0x5640)].
