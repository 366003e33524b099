(** What the transformations are meant to do. *)
From Coq Require Import Reals List.
From Verif Require Import Words MatModel MatSpec VecModel VecSpec QuatModel XformModel.
Import ListNotations.
Local Open Scope R_scope.

Definition comp (v : v3) (i : nat) : R := match i with 0%nat => vx v | 1%nat => vy v | 2%nat => vz v | _ => 1 end.
(** Row [i] of the matrix times (x, y, z, 1). *)
Definition row_times (m : list (list R)) (i : nat) (p : v3) : R := sum R_ops 4 (fun j => get R_ops m i j * comp p j).
(** In homogeneous coordinates the 4x4 matrix maps (p, 1) to a multiple of (q, 1). *)
Definition projects (m : list (list R)) (p q : v3) : Prop := exists w, w <> 0 /\ row_times m 3 p = w /\ forall i, (i < 3)%nat -> row_times m i p = w * comp q i.
(** The last row of an affine matrix. *)
Definition affine (m : list (list R)) : Prop := get R_ops m 3 0 = 0 /\ get R_ops m 3 1 = 0 /\ get R_ops m 3 2 = 0 /\ get R_ops m 3 3 = 1.
Definition shape (rows cols : nat) : Prop := (rows = 3 /\ cols = 3 \/ rows = 3 /\ cols = 4 \/ rows = 4 /\ cols = 4)%nat.

(** How far in front of the camera. *)
Definition ahead (h : handed) (p : v3) : R := match h with Right => - vz p | Left => vz p end.
Definition in_frustum (h : handed) (fov aspect near far : R) (p : v3) : Prop :=
  near <= ahead h p <= far /\ Rabs (vy p) <= ahead h p * tan (fov / 2) /\ Rabs (vx p) <= aspect * (ahead h p * tan (fov / 2)).
Definition depth_min (a : api) : R := match a with DirectX => 0 | OpenGL => -1 end.
Definition in_clip_volume (a : api) (p : v3) : Prop := -1 <= vx p <= 1 /\ -1 <= vy p <= 1 /\ depth_min a <= vz p <= 1.

(** Three orthogonal unit vectors. *)
Definition orthonormal (x y z : v3) : Prop :=
  inner3 x x = 1 /\ inner3 y y = 1 /\ inner3 z z = 1 /\ inner3 x y = 0 /\ inner3 x z = 0 /\ inner3 y z = 0.
(** Volume with sign. *)
Definition triple (x y z : v3) : R :=
  vx x * (vy y * vz z - vz y * vy z) - vx y * (vy x * vz z - vz x * vy z) + vx z * (vy x * vz y - vz x * vy y).
