(** Model of the minimum, maximum and clamp of vectors of floating-point numbers, NaN included. *)
From Coq Require Import ZArith List.
From Flocq Require Import BinarySingleNaN.
Import ListNotations.

Section Vmm.
  Context {p e : Z}.
  Notation float := (binary_float p e).
  (** impl/core_utils.h:41-62, of two values *)
  Definition fmin (val1 val2 : float) : float := if Bltb val1 val2 then val1 else val2.
  (** impl/core_utils.h:65-86 *)
  Definition fmax (val1 val2 : float) : float := if Bltb val1 val2 then val2 else val1.
  (** impl/core_utils.h:89-100 *)
  Definition fclamp (val low high : float) : float := if Bltb val low then low else if Bltb high val then high else val.
  (** vector.h:2393-2399 and 2444-2450: in each component *)
  Definition vec2 (f : float -> float -> float) (v1 v2 : list float) : list float := map (fun q => f (fst q) (snd q)) (combine v1 v2).
  (** vector.h:2383-2401 and 2434-2452: two and more arguments, from the right *)
  Fixpoint variadic (f : float -> float -> float) (v1 v2 : list float) (vecs : list (list float)) : list float :=
    match vecs with [] => vec2 f v1 v2 | v3 :: vecs => vec2 f v1 (variadic f v2 v3 vecs) end.
  (** vector.h:2404-2418 and 2455-2468: a range that is not empty, from the left; and one of no vectors. *)
  Definition range (f : float -> float -> float) (n : nat) (l : list (list float)) : list float :=
    match l with [] => repeat (B754_zero false) n | v :: l => fold_left (vec2 f) l v end.
  (** vector.h:2421-2431 and 2471-2481: an initializer list *)
  Definition init_list (f : float -> float -> float) (n : nat) (l : list (list float)) : list float :=
    match l with [] => repeat (B754_zero false) n | [v] => v | [v; w] => vec2 f v w | _ => range f n l end.
  (** vector.h:2490-2519 *)
  Definition vclamp (v low high : list float) : list float := map (fun q => fclamp (fst (fst q)) (snd (fst q)) (snd q)) (combine (combine v low) high).
End Vmm.
