(** Model of include/muu/vector.h: length, distance, dot and cross product, normalisation, angle, interpolation.

    Scalars are the real numbers: rounding, overflow and the promotion of narrow scalars are not modelled, and [muu::sqrt],
    [muu::abs] and [muu::acos] are the real functions. A vector of [n] dimensions is a list of [n] numbers. In three dimensions
    a record is used, so that geometry can be stated with coordinates; [l3] is the list of its coordinates. *)
From Coq Require Import Reals List.
From Verif Require Import Words MatModel.
Import ListNotations.
Local Open Scope R_scope.

Local Notation vec := (list R).
Definition at_ (v : vec) (i : nat) : R := nth i v 0.

(** vector.h:158-183: a vector from the function giving its elements (the sizes up to four are written out there). *)
Definition construct (n : nat) (f : nat -> R) : vec := map f (seq 0 n).

(** vector.h:111-131, with the operation +. *)
Definition accumulate (n : nat) (f : nat -> R) : R :=
  match n with
  | 0%nat => 0 (* no such class *)
  | 1%nat => f 0%nat
  | 2%nat => f 0%nat + f 1%nat
  | 3%nat => f 0%nat + f 1%nat + f 2%nat
  | 4%nat => f 0%nat + f 1%nat + f 2%nat + f 3%nat
  | _ => for_ 4 n (fun val i => val + f i) (f 0%nat + f 1%nat + f 2%nat + f 3%nat)
  end.

(** vector.h:1074-1090. *)
Definition length_squared (n : nat) (v : vec) : R := accumulate n (fun i => at_ v i * at_ v i).
(** vector.h:1099-1115. In one dimension the element itself. *)
Definition length (n : nat) (v : vec) : R := match n with 1%nat => at_ v 0 | _ => sqrt (length_squared n v) end.
(** vector.h:1426-1440 and 1500-1516, componentwise. *)
Definition plus (n : nat) (v w : vec) : vec := construct n (fun i => at_ v i + at_ w i).
Definition minus (n : nat) (v w : vec) : vec := construct n (fun i => at_ v i - at_ w i).
(** Scaling, vector.h: operator*(vector, scalar). *)
Definition scale (n : nat) (v : vec) (s : R) : vec := construct n (fun i => at_ v i * s).
(** vector.h:1146-1160, 1169-1183. *)
Definition distance_squared (n : nat) (p1 p2 : vec) : R := length_squared n (minus n p2 p1).
Definition distance (n : nat) (p1 p2 : vec) : R := sqrt (distance_squared n p1 p2).
(** vector.h:1220-1238. *)
Definition dot (n : nat) (v w : vec) : R := accumulate n (fun i => at_ v i * at_ w i).
(** vector.h:1248-1277: the dot product with a principal axis. *)
Definition dot_axis (v : vec) (dimension : nat) : R := at_ v dimension.
(** vector.h:2003-2026: the normalised vector, and the length. In one dimension always one. *)
Definition normalize (n : nat) (v : vec) : vec * R :=
  match n with
  | 1%nat => ([1], at_ v 0)
  | _ => let len := length n v in (scale n v (1 / len), len)
  end.
(** vector.h:2100-2113. *)
Definition normalize_lensq (n : nat) (v : vec) (lensq : R) : vec := scale n v (1 / sqrt lensq).
(** vector.h:2207-2225 (two and three dimensions). *)
Definition direction (n : nat) (from to : vec) : vec * R := normalize n (minus n to from).
(** vector.h:2669-2690. *)
Definition lerp (n : nat) (start finish : vec) (alpha : R) : vec :=
  let inv_alpha := 1 - alpha in construct n (fun i => at_ start i * inv_alpha + at_ finish i * alpha).
(** core_utils.h, [muu::clamp] (C11), at real numbers. *)
Definition clampR (x lo hi : R) : R := if Rlt_dec x lo then lo else if Rlt_dec hi x then hi else x.
(** vector.h:2718-2739 (two and three dimensions). *)
Definition angle (n : nat) (v w : vec) : R :=
  let divisor := length n v * length n w in
  if Req_EM_T divisor 0 then 0 else acos (clampR (dot n v w / divisor) (-1) 1).

(** vector.h:2143-2166 for integers: the loop runs while the sum is greater than one. *)
Fixpoint normalized_loop (l : list Z) (sum : Z) : Z :=
  match l with
  | [] => sum
  | x :: r => if (1 <? sum)%Z then normalized_loop r (sum + Z.abs x)%Z else sum
  end.
Definition normalized_int (v : list Z) : bool :=
  match v with
  | [x] => (x =? 1)%Z
  | _ => (normalized_loop v 0 =? 1)%Z
  end.

(* ------------------------------------------------------------------ three dimensions *)
Record v3 := V3 { vx : R; vy : R; vz : R }.
Definition l3 (v : v3) : vec := [vx v; vy v; vz v].
Definition add3 (v w : v3) : v3 := V3 (vx v + vx w) (vy v + vy w) (vz v + vz w).
Definition sub3 (v w : v3) : v3 := V3 (vx v - vx w) (vy v - vy w) (vz v - vz w).
Definition neg3 (v : v3) : v3 := V3 (- vx v) (- vy v) (- vz v).
Definition scale3 (v : v3) (s : R) : v3 := V3 (vx v * s) (vy v * s) (vz v * s).
Definition dot3 (v w : v3) : R := vx v * vx w + vy v * vy w + vz v * vz w.
Definition length_squared3 (v : v3) : R := vx v * vx v + vy v * vy v + vz v * vz v.
Definition length3 (v : v3) : R := sqrt (length_squared3 v).
Definition normalize3 (v : v3) : v3 := scale3 v (1 / length3 v).
Definition distance3 (p q : v3) : R := sqrt (length_squared3 (sub3 q p)).

(** vector.h:1290-1309. *)
Definition cross (v1 v2 : v3) : v3 :=
  V3 (vy v1 * vz v2 - vz v1 * vy v2) (vz v1 * vx v2 - vx v1 * vz v2) (vx v1 * vy v2 - vy v1 * vx v2).

Inductive axis := AxisX | AxisY | AxisZ.
(** vector.h:1314-1339 *)
Definition cross_axis (v : v3) (a : axis) : v3 :=
  match a with AxisX => V3 0 (vz v) (- vy v) | AxisY => V3 (- vz v) 0 (vx v) | AxisZ => V3 (vy v) (- vx v) 0 end.
(** vector.h:1344-1369 *)
Definition axis_cross (a : axis) (v : v3) : v3 :=
  match a with AxisX => V3 0 (- vz v) (vy v) | AxisY => V3 (vz v) 0 (- vx v) | AxisZ => V3 (- vy v) (vx v) 0 end.
(** vector.h:1248-1277 *)
Definition dot_axis3 (v : v3) (a : axis) : R := match a with AxisX => vx v | AxisY => vy v | AxisZ => vz v end.
(** The constants x_axis, y_axis and z_axis. *)
Definition x_axis := V3 1 0 0.
Definition y_axis := V3 0 1 0.
Definition z_axis := V3 0 0 1.
(** vector.h:1393-1402. *)
Definition orthogonal (v : v3) : v3 :=
  let x := Rabs (vx v) in let y := Rabs (vy v) in let z := Rabs (vz v) in
  cross v (if Rlt_dec x y then (if Rlt_dec x z then x_axis else z_axis) else (if Rlt_dec y z then y_axis else z_axis)).
