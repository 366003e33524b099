(** Specifications for core_utils, chars and integral_range, written without the model's helpers. *)
From Verif Require Import Words CoreModel.
Local Open Scope N_scope.

(** A strict total order decided by [lt]. *)
Record strict_total {A : Type} (lt : A -> A -> bool) : Prop := {
  st_irrefl : forall a, lt a a = false;
  st_trans : forall a b c, lt a b = true -> lt b c = true -> lt a c = true;
  st_total : forall a b, lt a b = false -> lt b a = false -> a = b
}.

(** The mixes of argument types for which [between] goes wrong on a negative lower bound: [T] unsigned and at
    least as wide as [int], [U] signed and no wider than [T]. *)
Definition unsafe_mix (T U : ity) : bool :=
  negb (isigned T) && isigned U && (32 <=? ibits T)%Z && (ibits U <=? ibits T)%Z.

(** The value of an ASCII hexadecimal digit, spelled out. *)
Definition hex_digit_value (c : N) : option N :=
  if (48 <=? c) && (c <=? 57) then Some (c - 48)
  else if (65 <=? c) && (c <=? 70) then Some (c - 55)
  else if (97 <=? c) && (c <=? 102) then Some (c - 87)
  else None.

Local Open Scope Z_scope.

(** The set of integers a range stands for. *)
Definition iset (r : irange) (x : Z) : Prop := rs r <= x < re r.
Definition nonempty (r : irange) : Prop := rs r < re r.

(** [l] ends right where [r] begins. *)
Definition meets (l r : irange) : Prop := exists x, iset l x /\ ~ iset l (x + 1) /\ iset r (x + 1) /\ ~ iset r x.

(** A range whose endpoints are values of [t], in the order the constructor asserts. *)
Definition in_range_of (t : ity) (r : irange) : Prop := in_ity t (rs r) /\ in_ity t (re r) /\ rs r <= re r.
