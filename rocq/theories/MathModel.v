(** Model of the integer functions of include/muu/math.h: abs, gcd, lcm, evenly_distribute, approx_equal.

    A value of a built-in integer type is its type and its number. [None] is undefined behaviour. *)
From Verif Require Import Words CoreModel.
Local Open Scope Z_scope.

(** [std::common_type_t]: two equal types are not promoted. *)
Definition common (a b : ity) : ity := if ity_eqb a b then a else common_type a b.
Definition common_all (a b : ity) (l : list ity) : ity := fold_left common l (common a b).

Record tv := TV { ty : ity; val : Z }.
Definition fits (t : ity) (x : Z) : bool := (ity_min t <=? x) && (x <=? ity_max t).

(** The standard library's (numeric.ops.gcd, numeric.ops.lcm): the absolute values, and for lcm the result, have to be representable
    in the common type. *)
Definition std_gcd (a b : tv) : option tv :=
  let c := common (ty a) (ty b) in
  if fits c (Z.abs (val a)) && fits c (Z.abs (val b)) then Some (TV c (Z.gcd (val a) (val b))) else None.
Definition std_lcm (a b : tv) : option tv :=
  let c := common (ty a) (ty b) in
  if fits c (Z.abs (val a)) && fits c (Z.abs (val b)) && fits c (Z.lcm (val a) (val b)) then Some (TV c (Z.lcm (val a) (val b))) else None.

(** math.h:2335-2352 and 2359-2376: two further arguments are combined pairwise, any other number is folded from the left. [cast] is the
    conversion to the return type. *)
Definition cast (t : ity) (x : tv) : tv := TV t (conv t (val x)).
Fixpoint variadic (f : tv -> tv -> option tv) (v1 v2 : tv) (vals : list tv) : option tv :=
  match vals with
  | [] => r <- f v1 v2 ;; Some (cast (common_all (ty v1) (ty v2) []) r)
  | [a; b] => x <- f v1 v2 ;; y <- f a b ;; r <- f x y ;; Some (cast (common_all (ty v1) (ty v2) [ty a; ty b]) r)
  | a :: rest => x <- f v1 v2 ;; r <- variadic f x a rest ;; Some (cast (common_all (ty v1) (ty v2) (map ty vals)) r)
  end.
Definition gcd (v1 v2 : tv) (vals : list tv) : option tv := variadic std_gcd v1 v2 vals.
Definition lcm (v1 v2 : tv) (vals : list tv) : option tv := variadic std_lcm v1 v2 vals.

(** math.h:2382-2388 for a type of [w] bits: the arithmetic is modulo [2^w]. *)
Definition evenly_distribute (w total bucket_count bucket_index : N) : option N :=
  if (bucket_count =? 0)%N then None
  else
    let v := (total / bucket_count)%N in
    Some (if (bucket_index <? total mod bucket_count)%N then trunc w (v + 1) else v).

(** math.h:289-301 (negation overflows for the lowest value), 312-331, 394-440. Types narrower than int are converted to int and
    back. *)
Definition int32 : ity := {| isigned := true; ibits := 32 |}.
Definition int_abs (t : ity) (x : Z) : option Z :=
  if negb (isigned t) then Some x
  else
    let p := promote t in
    let r := if x <? 0 then - x else x in
    if fits p r then Some (conv t r) else None.

(** math.h:509-523 for integers: [a == b] after the usual arithmetic conversions. *)
Definition int_approx_equal (T U : ity) (a b : Z) : bool :=
  let c := common_type T U in conv c a =? conv c b.
