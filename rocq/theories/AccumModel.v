(** Model of accumulator.h for integer samples. *)
From Verif Require Import Words CoreModel.
Local Open Scope Z_scope.

(** impl::basic_accumulator and the sample count (accumulator.h:49, 210-211). *)
Record accum : Type := { a_min : Z; a_max : Z; a_sum : Z; a_count : Z }.
Definition accum_empty : accum := {| a_min := 0; a_max := 0; a_sum := 0; a_count := 0 |}.

Section Accum.
  (** [vt] is the sample type, [sw] the width of [size_t]. *)
  Variables (sw : Z) (vt : ity).
  (** accumulator.h:204-208. *)
  Definition sum_ity : ity := {| isigned := isigned vt; ibits := Z.max (ibits vt) 32 |}.
  (** [x + y] in the sum type: undefined on signed overflow. *)
  Definition sum_add (x y : Z) : option Z :=
    if isigned sum_ity then
      (if (ity_min sum_ity <=? x + y) && (x + y <=? ity_max sum_ity) then Some (x + y) else None)
    else Some (conv sum_ity (x + y)).
  (** accumulator.h:213-217. *)
  Definition impl_start (a : accum) (x : Z) : accum := {| a_min := x; a_max := x; a_sum := conv sum_ity x; a_count := a_count a |}.
  (** accumulator.h:219-226; [min] and [max] are those of core_utils.h. *)
  Definition impl_add (a : accum) (x : Z) : option accum :=
    s <- sum_add (a_sum a) (conv sum_ity x) ;;
    Some {| a_min := min2 Z.ltb x (a_min a); a_max := max2 Z.ltb x (a_max a); a_sum := s; a_count := a_count a |}.
  (** accumulator.h:228-235. *)
  Definition impl_merge (a o : accum) : option accum :=
    s <- sum_add (a_sum a) (a_sum o) ;;
    Some {| a_min := min2 Z.ltb (a_min o) (a_min a); a_max := max2 Z.ltb (a_max o) (a_max a); a_sum := s; a_count := a_count a |}.
  Definition with_count (a : accum) (n : Z) : accum := {| a_min := a_min a; a_max := a_max a; a_sum := a_sum a; a_count := n mod 2 ^ sw |}.
  (** accumulator.h:117-130 [add(sample)]. *)
  Definition accum_add (a : accum) (x : Z) : option accum :=
    let a' := with_count a (a_count a + 1) in
    if a_count a =? 0 then Some (impl_start a' x) else impl_add a' x.
  (** accumulator.h:139-146 [add(begin, end)]. *)
  Fixpoint accum_add_all (a : accum) (xs : list Z) : option accum :=
    match xs with
    | [] => Some a
    | x :: xs' => a' <- accum_add a x ;; accum_add_all a' xs'
    end.
  (** accumulator.h:153-169 [add(other)]. *)
  Definition accum_merge (a o : accum) : option accum :=
    if a_count o =? 0 then Some a
    else if a_count a =? 0 then a' <- impl_merge a o ;; Some (with_count a' (a_count a' + a_count o))
    else Some {| a_min := a_min o; a_max := a_max o; a_sum := a_sum o; a_count := a_count o |}.
End Accum.
