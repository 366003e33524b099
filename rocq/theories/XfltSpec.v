(** Quaternions and rotations of real numbers, and the same formulas with all signs positive. *)
From Coq Require Import Reals List Arith.
Import ListNotations.
Local Open Scope R_scope.

Definition real3 : Type := (R * R * R)%type.
Definition real4 : Type := (R * real3)%type.
Definition values {K} (value : K -> R) (v : K * K * K) : real3 := let '(x, y, z) := v in (value x, value y, value z).
Definition values4 {K} (value : K -> R) (q : K * (K * K * K)) : real4 := (value (fst q), values value (snd q)).
Definition coordinate (v : real3) (i : nat) : R := let '(x, y, z) := v in match i with 0%nat => x | 1%nat => y | _ => z end.
Definition abs3 (v : real3) : real3 := let '(x, y, z) := v in (Rabs x, Rabs y, Rabs z).

(** Hamilton's product (a + b i + c j + d k) (e + f i + g j + h k), from the table of i, j and k. *)
Definition hamilton_s (p q : real4) : R := let '(a, (b, c, d)) := p in let '(e, (f, g, h)) := q in a * e - b * f - c * g - d * h.
Definition hamilton_v (p q : real4) : real3 :=
  let '(a, (b, c, d)) := p in let '(e, (f, g, h)) := q in (a * f + b * e + c * h - d * g, a * g - b * h + c * e + d * f, a * h + b * g - c * f + d * e).
Definition abs4 (q : real4) : real4 := (Rabs (fst q), abs3 (snd q)).
Definition positive_s (p q : real4) : R := let '(a, (b, c, d)) := p in let '(e, (f, g, h)) := q in a * e + b * f + c * g + d * h.
Definition positive_v (p q : real4) : real3 :=
  let '(a, (b, c, d)) := p in let '(e, (f, g, h)) := q in (a * f + b * e + c * h + d * g, a * g + b * h + c * e + d * f, a * h + b * g + c * f + d * e).
Definition magnitude_s (p q : real4) : R := positive_s (abs4 p) (abs4 q).
Definition magnitude_v (p q : real4) : real3 := positive_v (abs4 p) (abs4 q).
(** The conjugate and the square of the norm. *)
Definition real_conjugate (q : real4) : real4 := let '(a, (b, c, d)) := q in (a, (- b, - c, - d)).
Definition norm_squared (q : real4) : R := let '(a, (b, c, d)) := q in a * a + b * b + c * c + d * d.
Definition square3 (v : real3) : R := let '(x, y, z) := v in x * x + y * y + z * z.

(** p + 2 s (v x p) + 2 v x (v x p) *)
Definition real_rotate (q : real4) (p : real3) : real3 :=
  let '(s, (a, b, c)) := q in let '(x, y, z) := p in
  let '(k, l, m) := (b * z - c * y, c * x - a * z, a * y - b * x) in
  (x + 2 * (s * k + (b * m - c * l)), y + 2 * (s * l + (c * k - a * m)), z + 2 * (s * m + (a * l - b * k))).
Definition positive_rotate (q : real4) (p : real3) : real3 :=
  let '(s, (a, b, c)) := q in let '(x, y, z) := p in
  let '(k, l, m) := (b * z + c * y, c * x + a * z, a * y + b * x) in
  (x + 2 * (s * k + (b * m + c * l)), y + 2 * (s * l + (c * k + a * m)), z + 2 * (s * m + (a * l + b * k))).
Definition magnitude_rotate (q : real4) (p : real3) : real3 := positive_rotate (abs4 q) (abs3 p).

(** The matrix of a rotation, by rows. *)
Definition real_matrix (q : real4) (r c : nat) : R :=
  let '(s, (x, y, z)) := q in
  match r, c with
  | 0%nat, 0%nat => 1 - 2 * (y * y + z * z) | 0%nat, 1%nat => 2 * (x * y - s * z) | 0%nat, 2%nat => 2 * (x * z + s * y)
  | 1%nat, 0%nat => 2 * (x * y + s * z) | 1%nat, 1%nat => 1 - 2 * (x * x + z * z) | 1%nat, 2%nat => 2 * (y * z - s * x)
  | 2%nat, 0%nat => 2 * (x * z - s * y) | 2%nat, 1%nat => 2 * (y * z + s * x) | 2%nat, 2%nat => 1 - 2 * (x * x + y * y)
  | _, _ => 0
  end.
Definition positive_matrix (q : real4) (r c : nat) : R :=
  let '(s, (x, y, z)) := q in
  match r, c with
  | 0%nat, 0%nat => 1 + 2 * (y * y + z * z) | 0%nat, 1%nat => 2 * (x * y + s * z) | 0%nat, 2%nat => 2 * (x * z + s * y)
  | 1%nat, 0%nat => 2 * (x * y + s * z) | 1%nat, 1%nat => 1 + 2 * (x * x + z * z) | 1%nat, 2%nat => 2 * (y * z + s * x)
  | 2%nat, 0%nat => 2 * (x * z + s * y) | 2%nat, 1%nat => 2 * (y * z + s * x) | 2%nat, 2%nat => 1 + 2 * (x * x + y * y)
  | _, _ => 0
  end.
(** A row of a matrix applied to a point, with and without the last column. *)
Definition row_times (e : nat -> nat -> R) (p : real3) (r : nat) : R := let '(x, y, z) := p in e r 0%nat * x + e r 1%nat * y + e r 2%nat * z.
Definition row_affine (e : nat -> nat -> R) (p : real3) (r : nat) : R := row_times e p r + e r 3%nat.
Definition absolute (e : nat -> nat -> R) (r c : nat) : R := Rabs (e r c).
