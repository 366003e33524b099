(** Model of the functions of include/muu/vector.h that multiply, divide and measure vectors of floating-point scalars, on IEEE numbers
    (Flocq), with rounding, overflow, underflow, signed zeros, infinities and NaN.

    The scalar is a type that is not promoted: float, double, long double or a 128-bit float; a vector is the list of its components. The
    rounding mode is to nearest, ties to even. Two-byte floats are converted to float and back around the same code (not modelled here).
    [muu::sqrt] is the correctly rounded square root of the run-time library (math.h:984-1021; the compile-time iteration is in SqrtModel.v). *)
From Coq Require Import ZArith Bool List.
From Flocq Require Import Core BinarySingleNaN.
From Verif Require Import FpModel.
Import ListNotations.
Local Open Scope Z_scope.

Section Vflt.
  Variable prec emax : Z.
  Context (prec_gt_0_ : Prec_gt_0 prec).
  Context (prec_lt_emax_ : Prec_lt_emax prec emax).
  Notation float := (binary_float prec emax).
  Notation "x -. y" := (Bminus mode_NE x y) (at level 50, left associativity).
  Notation "x +. y" := (Bplus mode_NE x y) (at level 50, left associativity).
  Notation "x *. y" := (Bmult mode_NE x y) (at level 40, left associativity).
  Notation "x /. y" := (Bdiv mode_NE x y) (at level 40, left associativity).

  (** vector.h:1615-1660, [operator*] with a scalar on either side, and [operator*=]. *)
  Definition scale (v : list float) (s : float) : list float := map (fun x => x *. s) v.
  (** vector.h:1748-1793, [operator/] and [operator/=] with a scalar: the vector is multiplied by the reciprocal. *)
  Definition div_scalar (v : list float) (s : float) : list float := scale v (Bone /. s).
  (** vector.h:1516-1554, [operator-] and [operator-=] with a vector. *)
  Definition minus (v w : list float) : list float := map (fun p => fst p -. snd p) (combine v w).

  (** vector.h:111-131, [COMPONENTWISE_ACCUMULATE] with a product for each component, [a.x * b.x + a.y * b.y + ...] from the left. The code
      is in a MUU_FMA_BLOCK, so that the compiler may fuse a product into the addition next to it: the second operand of every addition,
      and for the first addition either. [k i] is its choice for addition number [i]. *)
  Definition add_first (k : fuse) (p q : float * float) : float :=
    match k with
    | NoFma => fst p *. snd p +. fst q *. snd q
    | FmaLeft => Bfma mode_NE (fst p) (snd p) (fst q *. snd q)
    | FmaRight => Bfma mode_NE (fst q) (snd q) (fst p *. snd p)
    end.
  Definition add_next (k : fuse) (acc : float) (q : float * float) : float :=
    match k with
    | FmaRight => Bfma mode_NE (fst q) (snd q) acc
    | _ => acc +. fst q *. snd q
    end.
  Fixpoint add_rest (k : nat -> fuse) (i : nat) (acc : float) (l : list (float * float)) : float :=
    match l with
    | [] => acc
    | q :: l' => add_rest k (S i) (add_next (k i) acc q) l'
    end.
  Definition accumulate (k : nat -> fuse) (l : list (float * float)) : float :=
    match l with
    | [] => zero prec emax
    | [p] => fst p *. snd p
    | p :: q :: l' => add_rest k 1 (add_first (k O) p q) l'
    end.
  (** vector.h:1218-1237, [dot]. *)
  Definition dot (k : nat -> fuse) (v w : list float) : float := accumulate k (combine v w).
  (** vector.h:1071-1090, [length_squared]. *)
  Definition length_squared (k : nat -> fuse) (v : list float) : float := accumulate k (map (fun x => (x, x)) v).
  (** vector.h:1099-1116, [length]. *)
  Definition length (k : nat -> fuse) (v : list float) : float :=
    match v with
    | [x] => x
    | _ => Bsqrt mode_NE (length_squared k v)
    end.
  (** vector.h:1148-1186, [distance_squared] and [distance]. *)
  Definition distance_squared (k : nat -> fuse) (p1 p2 : list float) : float := length_squared k (minus p2 p1).
  Definition distance (k : nat -> fuse) (p1 p2 : list float) : float := Bsqrt mode_NE (distance_squared k p1 p2).

  (** vector.h:2002-2025 and 2035-2050, [normalize], with the length it stores. *)
  Definition normalize (k : nat -> fuse) (v : list float) : list float * float :=
    match v with
    | [x] => ([Bone], x)
    | _ => let len := length k v in (scale v (Bone /. len), len)
    end.
  (** vector.h:2166-2171, the tolerance of [normalized]: an integer constant is converted to the scalar, and one divided by it. *)
  Definition unit_epsilon : float :=
    Bone /. of_Z prec emax _ _ (100 * (if 24 <=? prec then 10000 else 1) * (if 53 <=? prec then 10000 else 1)).
  (** vector.h:2142-2186, [normalized] for floating-point scalars. *)
  Definition normalized (k : nat -> fuse) (v : list float) : bool :=
    approx_equal prec emax _ _ (length_squared k v) Bone unit_epsilon.
  (** vector.h:2213-2231 and 2241-2253, [direction]. *)
  Definition direction (k : nat -> fuse) (from to : list float) : list float * float := normalize k (minus to from).
End Vflt.
