(** Model of muu/impl/core_utils.h (min, max, clamp, between), muu/chars.h (hex digits)
    and muu/integral_range.h. *)
From Verif Require Import Words.

(* ------------------------------------------------- impl/core_utils.h: order *)
Section Order.
  Context {A : Type} (lt : A -> A -> bool).

  (** core_utils.h:51-54: [val1 < val2 ? val1 : val2]. *)
  Definition min2 (a b : A) : A := if lt a b then a else b.
  (** core_utils.h:75-78. *)
  Definition max2 (a b : A) : A := if lt a b then b else a.

  (** core_utils.h:47-63 [min(val1, val2, vals...)]: exactly two further arguments are
      combined pairwise (lines 55-58), any other number is folded from the left. *)
  Fixpoint vmin (v1 v2 : A) (vals : list A) : A :=
    match vals with
    | [] => min2 v1 v2
    | [a; b] => min2 (min2 v1 v2) (min2 a b)
    | a :: r => vmin (min2 v1 v2) a r
    end.
  (** core_utils.h:71-87 [max(val1, val2, vals...)]. *)
  Fixpoint vmax (v1 v2 : A) (vals : list A) : A :=
    match vals with
    | [] => max2 v1 v2
    | [a; b] => max2 (max2 v1 v2) (max2 a b)
    | a :: r => vmax (max2 v1 v2) a r
    end.

  (** core_utils.h:95-100 [clamp]. *)
  Definition clamp (val low high : A) : A :=
    if lt val low then low else if lt high val then high else val.
End Order.

(* ----------------------------------------------- impl/core_utils.h: between *)

(** A built-in integer type. *)
Record ity := { isigned : bool; ibits : Z }.
Definition ity_min (t : ity) : Z := if isigned t then - 2 ^ (ibits t - 1) else 0%Z.
Definition ity_max (t : ity) : Z := (if isigned t then 2 ^ (ibits t - 1) - 1 else 2 ^ ibits t - 1)%Z.
Definition in_ity (t : ity) (x : Z) : Prop := (ity_min t <= x <= ity_max t)%Z.
Definition std_ity (t : ity) : Prop := In (ibits t) [8; 16; 32; 64; 128]%Z.

(** [static_cast] to an integer type (modular, as since C++20 and as on every supported compiler). *)
Definition conv (t : ity) (x : Z) : Z :=
  let m := (x mod 2 ^ ibits t)%Z in
  if isigned t && (2 ^ (ibits t - 1) <=? m)%Z then (m - 2 ^ ibits t)%Z else m.

(** Integral promotion and [std::common_type_t] of two different arithmetic types
    (usual arithmetic conversions, ISO C++ expr.arith.conv). *)
Definition promote (t : ity) : ity := if (ibits t <? 32)%Z then {| isigned := true; ibits := 32 |} else t.
Definition common_type (a b : ity) : ity :=
  let a := promote a in let b := promote b in
  if Bool.eqb (isigned a) (isigned b) then
    {| isigned := isigned a; ibits := Z.max (ibits a) (ibits b) |}
  else
    let ub := if isigned a then ibits b else ibits a in
    let sb := if isigned a then ibits a else ibits b in
    if (sb <=? ub)%Z then {| isigned := false; ibits := ub |} else {| isigned := true; ibits := sb |}.

Definition ity_eqb (a b : ity) : bool := Bool.eqb (isigned a) (isigned b) && (ibits a =? ibits b)%Z.

(** core_utils.h:105-141 [between(val, low, high)] for integers: [val] of type [T], bounds of type [U]. *)
Definition between (T U : ity) (val low high : Z) : bool :=
  if isigned T && negb (isigned U) && (val <? 0)%Z then false            (* lines 118-122 *)
  else if negb (isigned T) && isigned U && (high <? 0)%Z then false      (* lines 123-127 *)
  else if negb (ity_eqb T U) then                                         (* lines 128-134 *)
    let C := common_type T U in
    ((conv C low <=? conv C val) && (conv C val <=? conv C high))%Z
  else ((low <=? val) && (val <=? high))%Z.                               (* line 136 *)

(* ------------------------------------------------------------------ chars.h *)

(** chars.h:30-39 [hex_to_dec], in 32-bit unsigned arithmetic. *)
Definition hex_to_dec (cp : N) : N :=
  if 0x41 <=? cp then trunc 32 (10 + N.lor cp 0x20 + 2 ^ 32 - 0x61)
  else trunc 32 (cp + 2 ^ 32 - 0x30).

(** chars.h:45-48 [dec_to_hex(val, a)]. [cw]: width of the character type. *)
Definition dec_to_hex (cw val a : N) : N :=
  trunc cw (if 10 <=? val then trunc 32 (a + (val - 10)) else 0x30 + val).

(** chars.h:72-75 [byte_to_hex]. *)
Definition byte_to_hex (cw byte a : N) : N * N := (dec_to_hex cw (byte / 16) a, dec_to_hex cw (byte mod 16) a).

(* --------------------------------------------------------- integral_range.h *)

(** integral_range.h:162-179; the value type is an [ity] (pointers behave as unsigned). *)
Record irange := { rs : Z; re : Z }.

(** integral_range.h:201-207: asserts [e >= s]. *)
Definition irange_make (s e : Z) : option irange := if (s <=? e)%Z then Some {| rs := s; re := e |} else None.
Definition ir_bool (r : irange) : bool := (rs r <? re r)%Z.                               (* 211-214 *)
Definition ir_empty (r : irange) : bool := (re r =? rs r)%Z.                              (* 218-221 *)

(** integral_range.h:26-45: [size_type] and [difference_type] are the larger of
    [size_t]/[ptrdiff_t] ([sw] bits) and the value type. *)
Definition diff_bits (sw : Z) (t : ity) : Z := Z.max sw (ibits t).

(** integral_range.h:225-237 [size()]: signed values are subtracted in the signed [difference_type]
    (overflow is undefined), unsigned ones in [size_type] (modular). *)
Definition ir_size (sw : Z) (t : ity) (r : irange) : option Z :=
  let D := {| isigned := true; ibits := diff_bits sw t |} in
  let S := {| isigned := false; ibits := diff_bits sw t |} in
  if isigned t then
    let d := (conv D (re r) - conv D (rs r))%Z in
    if ((ity_min D <=? d) && (d <=? ity_max D))%Z then Some (conv S d) else None
  else Some (conv S (conv S (re r) - conv S (rs r)))%Z.

Definition ir_first (r : irange) : Z := rs r.                                             (* 241-244 *)
(** integral_range.h:248-256 [last()]: asserts [e > s]. *)
Definition ir_last (t : ity) (r : irange) : option Z :=
  if (rs r <? re r)%Z then Some (conv t (re r - 1)) else None.
Definition ir_contains (r : irange) (v : Z) : bool := ((rs r <=? v) && (v <? re r))%Z.     (* 260-263 *)
Definition ir_contains_range (r o : irange) : bool := ((rs r <=? rs o) && (re o <=? re r))%Z. (* 267-270 *)
Definition ir_adjacent (r o : irange) : bool := ((rs r =? re o) || (rs o =? re r))%Z.      (* 274-277 *)
Definition ir_intersects (r o : irange) : bool := ((rs o <? re r) && (rs r <? re o))%Z.    (* 281-284 *)
Definition ir_intersects_or_adjacent (r o : irange) : bool := ((rs o <=? re r) && (rs r <=? re o))%Z. (* 288-291 *)
Definition ir_union (r o : irange) : irange :=                                             (* 295-298 *)
  {| rs := min2 Z.ltb (rs r) (rs o); re := max2 Z.ltb (re r) (re o) |}.

(** integral_range.h:60-64, 128-139, 324-334: a range-for loop [for (it = begin(); it != end(); ++it)].
    [++] on a signed value at its maximum is undefined, on an unsigned one it wraps. [fuel] bounds the
    number of iterations the model looks at; [None] = undefined or not terminated within [fuel]. *)
Fixpoint ir_iterate (fuel : nat) (t : ity) (it e : Z) : option (list Z) :=
  if (it =? e)%Z then Some []
  else match fuel with
       | O => None
       | S f =>
           if isigned t && (it =? ity_max t)%Z then None
           else rest <- ir_iterate f t (conv t (it + 1)) e ;; Some (it :: rest)
       end.

(** integral_range.h:143-154 iterator difference [lhs - rhs]; signed overflow is undefined.
    For unsigned value types the case [rhs > lhs] is computed in [size_type] and negated. *)
Definition ir_iter_diff (sw : Z) (t : ity) (l r : Z) : option Z :=
  let D := {| isigned := true; ibits := diff_bits sw t |} in
  let S := {| isigned := false; ibits := diff_bits sw t |} in
  let chk d := if ((ity_min D <=? d) && (d <=? ity_max D))%Z then Some d else None in
  if negb (isigned t) && (l <? r)%Z then chk (- conv D (conv S (conv S r - conv S l)))%Z
  else chk (conv D l - conv D r)%Z.

(** integral_range.h:82-90 [it += size_type]: [T(size_type(val) + offset)]. *)
Definition ir_iter_add (sw : Z) (t : ity) (v off : Z) : Z :=
  let S := {| isigned := false; ibits := diff_bits sw t |} in
  conv t (conv S (conv S v + off)).
