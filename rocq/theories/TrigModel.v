(** Model of the compile-time sine, cosine and tangent (include/muu/math.h:1098-1137, 1246-1288, 1396-1430) on IEEE numbers, with rounding
    to nearest, ties to even. Nothing is fused: compilers do not contract constant expressions. *)
From Coq Require Import ZArith Bool List.
From Flocq Require Import Core BinarySingleNaN.
From Verif Require Import FpModel SqrtModel.
Local Open Scope Z_scope.

Section Trig.
  Variable prec emax : Z.
  Context (prec_gt_0_ : Prec_gt_0 prec).
  Context (prec_lt_emax_ : Prec_lt_emax prec emax).
  Notation float := (binary_float prec emax).
  Notation zero := (zero prec emax).
  Notation of_Z := (of_Z prec emax _ _).
  Notation "x -. y" := (Bminus mode_NE x y) (at level 50, left associativity).
  Notation "x +. y" := (Bplus mode_NE x y) (at level 50, left associativity).
  Notation "x *. y" := (Bmult mode_NE x y) (at level 40, left associativity).
  Notation "x /. y" := (Bdiv mode_NE x y) (at level 40, left associativity).
  Notation "x <. y" := (Bltb x y) (at level 70).
  Notation "x =. y" := (Beqb x y) (at level 70).

  (** [constants<T>] *)
  Record constants := Constants {
    pi : float; two_pi : float; one_over_pi : float; one_over_two_pi : float; pi_over_two : float; three_pi_over_two : float;
    pi_over_four : float; pi_over_eight : float; sqrt_two : float }.
  Variable c : constants.

  (** math.h:1128-1135; [n] is the number of iterations left, [i] the loop counter. *)
  Fixpoint cos_loop (n : nat) (i : Z) (x term sum : float) : float :=
    match n with
    | O => sum
    | S n =>
        let term := term *. (Bopp x *. x /. (of_Z 2 *. of_Z i *. (of_Z 2 *. of_Z i -. Bone))) in
        let sum' := sum +. term in
        if sum' =. sum then sum' else cos_loop n (i + 1) x term sum'
    end.
  (** math.h:1126-1136: [i] runs from 2 up to max_constexpr_math_iterations - 1 (line 39). *)
  Definition cos_taylor (x : float) : float :=
    let term := Bopp x *. x /. of_Z 2 in cos_loop 98 2 x term (Bone +. term).

  (** math.h:1279-1286; the variable [sign] is written but never read. *)
  Fixpoint sin_loop (n : nat) (i : Z) (x term sum : float) : float :=
    match n with
    | O => sum
    | S n =>
        let term := Bopp term *. x *. x /. (of_Z i *. (of_Z i -. Bone)) in
        let sum' := sum +. term in
        if sum' =. sum then sum' else sin_loop n (i + 2) x term sum'
    end.
  (** math.h:1276-1287: [i] is 3, 5, ... below 200. *)
  Definition sin_taylor (x : float) : float := sin_loop 99 3 x x x.

  (** math.h:1105-1106 and 1255-1256. *)
  Definition reduce (x : float) : option float :=
    if (x <. zero) || (two_pi c <. x)
    then option_map (fun q => x -. two_pi c *. q) (floor_naive prec emax _ _ (x *. one_over_two_pi c))
    else Some x.
  Definition between (a x b : float) : bool := (a <. x) && (x <. b).

  (** math.h:1100-1137 ([cosine] true) and 1248-1288. The functions call each other; [None] if the floor is undefined or [fuel] calls are
      not enough. *)
  Fixpoint trig (fuel : nat) (cosine : bool) (x : float) : option float :=
    match fuel with
    | O => None
    | S fuel =>
        if cosine then
          match reduce x with
          | None => None
          | Some x =>
              if (x =. zero) || (x =. two_pi c) then Some Bone
              else if (x =. pi_over_two c) || (x =. three_pi_over_two c) then Some zero
              else if x =. pi c then Some (Bopp Bone)
              else if between (pi_over_two c) x (pi c) then option_map (fun r => Bopp r) (trig fuel true (pi c -. x))
              else if between (pi c) x (three_pi_over_two c) then option_map (fun r => Bopp r) (trig fuel true (x -. pi c))
              else if between (three_pi_over_two c) x (two_pi c) then trig fuel true (two_pi c -. x)
              else if between (pi_over_four c) x (pi_over_two c) then trig fuel false (pi_over_two c -. x)
              else Some (cos_taylor x)
          end
        else if (x =. zero) || negb (x =. x) then Some x
        else
          match reduce x with
          | None => None
          | Some x =>
              if x =. pi c then Some zero
              else if x =. pi_over_two c then Some Bone
              else if x =. three_pi_over_two c then Some (Bopp Bone)
              else if between (pi_over_two c) x (pi c) then trig fuel false (pi c -. x)
              else if between (pi c) x (three_pi_over_two c) then option_map (fun r => Bopp r) (trig fuel false (x -. pi c))
              else if between (three_pi_over_two c) x (two_pi c) then option_map (fun r => Bopp r) (trig fuel false (two_pi c -. x))
              else if between (pi_over_four c) x (pi_over_two c) then trig fuel true (pi_over_two c -. x)
              else Some (sin_taylor x)
          end
    end.

  (** A division by zero is not a constant expression. *)
  Definition divide (x y : float) : option float := if y =. zero then None else Some (x /. y).

  (** math.h:1398-1430. [None] also for a division by zero. *)
  Fixpoint tangent (fuel : nat) (x : float) : option float :=
    match fuel with
    | O => None
    | S fuel =>
        if (x =. zero) || negb (x =. x) then Some x
        else
          match (if (x <. zero) || (pi c <. x)
                 then option_map (fun q => x -. pi c *. q) (floor_naive prec emax _ _ (x *. one_over_pi c))
                 else Some x) with
          | None => None
          | Some x =>
              if x =. pi c then Some zero
              else if x =. pi_over_four c then Some Bone
              else if x =. pi_over_eight c then Some (sqrt_two c -. Bone)
              else if between (pi_over_two c) x (pi c) then option_map (fun r => Bopp r) (tangent fuel (pi c -. x))
              else if between (pi_over_four c) x (pi_over_two c) then match tangent fuel (pi_over_two c -. x) with Some r => divide Bone r | None => None end
              else if between (pi_over_eight c) x (pi_over_four c) then
                match tangent fuel (x /. of_Z 2) with Some t => divide (t +. t) (Bone -. t *. t) | None => None end
              else
                match trig fuel false x, trig fuel true x with
                | Some s, Some k => divide s k
                | _, _ => None
                end
          end
    end.
End Trig.
Arguments pi {prec emax}. Arguments two_pi {prec emax}. Arguments one_over_pi {prec emax}. Arguments one_over_two_pi {prec emax}.
Arguments pi_over_two {prec emax}. Arguments three_pi_over_two {prec emax}. Arguments pi_over_four {prec emax}.
Arguments pi_over_eight {prec emax}. Arguments sqrt_two {prec emax}.

Section Narrow.
  (** [p], [e]: the type of the argument; [P], [E]: long double. *)
  Variable p e P E : Z.
  Context (Hp : Prec_gt_0 p) (He : Prec_lt_emax p e) (HP : Prec_gt_0 P) (HE : Prec_lt_emax P E).
  Variable c : constants P E.

  (** math.h:1157-1178 ([cosine] true) and 1308-1329, in a constant expression: by way of long double. *)
  Definition trig_narrow (fuel : nat) (cosine : bool) (x : binary_float p e) : option (binary_float p e) :=
    option_map (fp_cast P E p e _ _) (trig P E _ _ c fuel cosine (fp_cast p e P E _ _ x)).
  (** math.h:1450-1471. *)
  Definition tangent_narrow (fuel : nat) (x : binary_float p e) : option (binary_float p e) :=
    option_map (fp_cast P E p e _ _) (tangent P E _ _ c fuel (fp_cast p e P E _ _ x)).
End Narrow.
