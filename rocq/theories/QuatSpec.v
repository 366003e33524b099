(** Hamilton's quaternions with four coordinates, and rotations by Rodrigues' formula. *)
From Coq Require Import Reals List.
From Verif Require Import Words MatModel VecModel VecSpec QuatModel.
Import ListNotations.
Local Open Scope R_scope.

(** a + b i + c j + d k, with i i = j j = k k = i j k = -1 *)
Definition hamilton (p q : R * R * R * R) : R * R * R * R :=
  let '(a, b, c, d) := p in let '(a', b', c', d') := q in
  (a * a' - b * b' - c * c' - d * d', a * b' + b * a' + c * d' - d * c', a * c' - b * d' + c * a' + d * b', a * d' + b * c' - c * b' + d * a').
Definition coords (q : quat) : R * R * R * R := (qs q, vx (qv q), vy (qv q), vz (qv q)).
Definition norm2 (q : quat) : R := qs q * qs q + vx (qv q) * vx (qv q) + vy (qv q) * vy (qv q) + vz (qv q) * vz (qv q).
Definition unit (q : quat) : Prop := norm2 q = 1.
Definition opposite (q : quat) : quat := Quat (- qs q) (V3 (- vx (qv q)) (- vy (qv q)) (- vz (qv q))).
Definition same_rotation (p q : quat) : Prop := p = q \/ p = opposite q.
Definition unit3 (v : v3) : Prop := inner3 v v = 1.
(** The rotation by [t] about the unit vector [k] (counter-clockwise looking against it). *)
Definition rodrigues (k : v3) (t : R) (v : v3) : v3 :=
  add3 (add3 (scale3 v (cos t)) (scale3 (cross k v) (sin t))) (scale3 k (inner3 k v * (1 - cos t))).
