(** Specification of packed unit vectors: the layout of the stored integer, and how far a direction may move. Nothing here refers to
    the model. *)
From Coq Require Import Reals Lra.
From Verif Require Import Words.

(** The stored integer: from the top one bit for each negative component, then one number (two components) or two (three). *)
Definition weight (s : bool) (k : N) : N := if s then 2 ^ k else 0.
Definition stored2 (w : N) (sx sy : bool) (i : N) : N := weight sx (w - 1) + weight sy (w - 2) + i.
Definition stored3 (w : N) (sx sy sz : bool) (i j : N) : N :=
  weight sx (w - 1) + weight sy (w - 2) + weight sz (w - 3) + i * 2 ^ ((w - 4) / 2) + j.
(** The largest number of the first field. *)
Definition levels2 (w : N) : N := 2 ^ (w - 2) - 1.
Definition levels3 (w : N) : N := 2 ^ ((w - 2) / 2) - 1.

Local Open Scope R_scope.
Definition negative (x : R) (s : bool) : Prop := s = true <-> x < 0.
Definition real (n : N) : R := IZR (Z.of_N n).

(** Directions in the plane and in space. *)
Definition len2 (x y : R) : R := sqrt (x * x + y * y).
Definition len3 (x y z : R) : R := sqrt (x * x + y * y + z * z).
(** The distance of the unit vector [u] from the direction of [v]. *)
Definition off2 (u v : R * R) : R :=
  let (a, b) := u in let (x, y) := v in len2 (a - x / len2 x y) (b - y / len2 x y).
Definition off3 (u v : R * R * R) : R :=
  let '(a, b, c) := u in let '(x, y, z) := v in
  len3 (a - x / len3 x y z) (b - y / len3 x y z) (c - z / len3 x y z).
(** Neither component points the other way. *)
Definition same_way (a x : R) : Prop := 0 <= a * x /\ (x = 0 -> a = 0).
Definition not_opposite (a x : R) : Prop := 0 <= a * x.

(** The part of a component in the sum of the absolute values. *)
Definition share2 (x y : R) : R := Rabs x / (Rabs x + Rabs y).
Definition share3 (x y z : R) : R := Rabs x / (Rabs x + Rabs y + Rabs z).
(** The number half-way between two stored levels, in the lower half of the range of [n] levels. *)
Definition tie (n : N) (t : R) : Prop := exists k : N, (2 * k + 3 <= n)%N /\ t * (real n - 1) = real k + / 2.

(** The word of three components of the levels [i] and [j], which are together at most [levels3 w]: if [j] is in the upper half, both
    are stored as their distance from the largest level. *)
Definition word3 (w : N) (sx sy sz : bool) (i j : N) : N :=
  (if levels3 w + 1 <=? 2 * j then stored3 w sx sy sz (levels3 w - i) (levels3 w - j) else stored3 w sx sy sz i j)%N.
(** The levels that are kept apart from those of the other half. *)
Definition apart (n i j : N) : Prop := (i + j <= n)%N /\ ((n + 1 <= 2 * j)%N -> (i + j < n)%N).
(** One level less in the upper half. *)
Definition lower (n i : N) : N := (if 2 * i <=? n then i else i - 1)%N.
(** A partial function repeated. *)
Fixpoint repeat (f : N -> option N) (m : nat) (b : N) : option N :=
  match m with O => Some b | S m => match f b with Some c => repeat f m c | None => None end end.
