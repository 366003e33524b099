(** Model of the transformations in include/muu/matrix.h: constructors for scales, translations and rotations, applying a matrix to
    positions and directions, projections, orthonormalisation.

    Scalars are the real numbers (see VecModel.v); a matrix is the list of its columns (see MatModel.v). *)
From Coq Require Import Reals List.
From Verif Require Import Words MatModel VecModel QuatModel.
Import ListNotations.
Local Open Scope R_scope.

Local Notation mat := (list (list R)).
Definition rget (m : mat) (r c : nat) : R := get R_ops m r c.

(** matrix.h:1582-1584 with matrix_base.h:71-78: conversion of an [r] x [c] matrix to [rows] x [cols]; what is not given is zero. *)
Definition convert (rows cols r c : nat) (m : mat) : mat :=
  map (fun j => map (fun i => if ((i <? r) && (j <? c))%nat%bool then rget m i j else 0) (seq 0 rows)) (seq 0 cols).

(** matrix.h:198-210. *)
Definition from_3d_scale (rows cols : nat) (x y z : R) : mat := set (set (set (identity R_ops rows cols) 0 0 x) 1 1 y) 2 2 z.
(** matrix.h:167-177. *)
Definition from_2d_scale (rows cols : nat) (x y : R) : mat := set (set (identity R_ops rows cols) 0 0 x) 1 1 y.
(** matrix.h:314-327. *)
Definition from_3d_translation (rows cols : nat) (x y z : R) : mat :=
  set (set (set (identity R_ops rows cols) 0 (cols - 1) x) 1 (cols - 1) y) 2 (cols - 1) z.
(** matrix.h:278-288. *)
Definition from_2d_translation (rows cols : nat) (x y : R) : mat := set (set (identity R_ops rows cols) 0 (cols - 1) x) 1 (cols - 1) y.
(** matrix.h:441-471: [rot] is [r] x [c]. *)
Definition from_3d_rotation (rows cols r c : nat) (rot : mat) : mat :=
  if ((r =? rows) && (c =? cols) && (r =? 3) && (c =? 3))%nat%bool then rot
  else
    let out := convert rows cols r c rot in
    let out := if ((4 <=? c) && (cols =? 4))%nat%bool then EarrModel.upd out (cols - 1) (repeat 0 rows) else out in
    let out := if ((4 <=? r) && (rows =? 4))%nat%bool then set (set (set out 3 0 0) 3 1 0) 3 2 0 else out in
    if ((rows =? 4) && (cols =? 4))%nat%bool then set out 3 3 1 else out.
(** matrix.h:689-705 *)
Definition from_axes (rows cols : nat) (x y z : v3) : mat :=
  let col v := l3 v ++ repeat 0 (rows - 3) in
  let out := [col x; col y; col z] ++ repeat (repeat 0 rows) (cols - 3) in
  if ((4 <=? rows) && (4 <=? cols))%nat%bool then set out 3 3 1 else out.
(** matrix.h:473-507; [eps] is the default tolerance of [approx_equal]. *)
Definition from_3d_direction (eps : R) (rows cols : nat) (dir : v3) : mat :=
  let z := neg3 dir in
  let y := if approx_equal (vy dir) (-1) eps then V3 0 0 (-1) else if approx_equal (vy dir) 1 eps then V3 0 0 1 else V3 0 1 0 in
  let x := normalize3 (cross y z) in
  let y := normalize3 (cross z x) in
  from_axes rows cols x y z.

(** matrix.h:721-764. *)
Definition transform_position (j : R) (rows cols : nat) (xform : mat) (pos : v3) : v3 :=
  if (cols =? 3)%nat then
    let v := mat_vec R_ops j rows cols xform (l3 pos) in V3 (VecModel.at_ v 0) (VecModel.at_ v 1) (VecModel.at_ v 2)
  else
    let inv_w := if (rows =? 4)%nat then 1 / (rget xform 3 0 * vx pos + rget xform 3 1 * vy pos + rget xform 3 2 * vz pos + rget xform 3 3) else 1 in
    V3 (inv_w * (rget xform 0 0 * vx pos + rget xform 0 1 * vy pos + rget xform 0 2 * vz pos + rget xform 0 3))
       (inv_w * (rget xform 1 0 * vx pos + rget xform 1 1 * vy pos + rget xform 1 2 * vz pos + rget xform 1 3))
       (inv_w * (rget xform 2 0 * vx pos + rget xform 2 1 * vy pos + rget xform 2 2 * vz pos + rget xform 2 3)).
(** matrix.h:805-823. *)
Definition transform_without_translating (xform : mat) (dir : v3) : v3 :=
  V3 (rget xform 0 0 * vx dir + rget xform 0 1 * vy dir + rget xform 0 2 * vz dir)
     (rget xform 1 0 * vx dir + rget xform 1 1 * vy dir + rget xform 1 2 * vz dir)
     (rget xform 2 0 * vx dir + rget xform 2 1 * vy dir + rget xform 2 2 * vz dir).
(** matrix.h:845-857. *)
Definition transform_direction (xform : mat) (dir : v3) : v3 := scale3 (normalize3 (transform_without_translating xform dir)) (length3 dir).
(** matrix.h:896-908. *)
Definition column3 (m : mat) (c : nat) : v3 := V3 (rget m 0 c) (rget m 1 c) (rget m 2 c).
Definition extract_3d_scale (m : mat) : v3 := V3 (length3 (column3 m 0)) (length3 (column3 m 1)) (length3 (column3 m 2)).
(** matrix.h:603-618; the tolerance is one thousandth. *)
Definition has_3d_shear (m : mat) : bool :=
  let x := normalize3 (column3 m 0) in let y := normalize3 (column3 m 1) in let z := normalize3 (column3 m 2) in
  let eps := 1 / 1000 in
  (negb (approx_equal (dot3 x y) 0 eps) || negb (approx_equal (dot3 x z) 0 eps) || negb (approx_equal (dot3 y z) 0 eps))%bool.

(** matrix.h:27-41. *)
Inductive api := DirectX | OpenGL.
Inductive handed := Right | Left.
(** matrix.h:925-1008; the matrix is built from its rows. *)
Definition perspective_projection (a : api) (h : handed) (vertical_fov aspect_ratio near_clip far_clip : R) : mat :=
  let b := 1 / tan (vertical_fov / 2) in
  let a' := b / aspect_ratio in
  let rows c e w := [[a'; 0; 0; 0]; [0; b; 0; 0]; [0; 0; c; w]; [0; 0; e; 0]] in
  match a with
  | OpenGL =>
    let c := - (far_clip + near_clip) / (far_clip - near_clip) in
    match h with
    | Left => rows c ((2 * far_clip * near_clip) / (far_clip - near_clip)) 1
    | Right => rows c ((-2 * far_clip * near_clip) / (far_clip - near_clip)) (-1)
    end
  | DirectX =>
    let c := far_clip / (near_clip - far_clip) in
    match h with
    | Left => rows c (- near_clip * far_clip / (far_clip - near_clip)) 1
    | Right => rows c (near_clip * far_clip / (near_clip - far_clip)) (-1)
    end
  end.
(** matrix.h:1010-1018: the overload for a screen size; it takes a mode and calls the other one without. *)
Definition perspective_projection_screen (a : api) (h : handed) (vertical_fov x y near_clip far_clip : R) : mat :=
  perspective_projection DirectX Right vertical_fov (x / y) near_clip far_clip.

(** matrix.h:1094-1122 with a depth of three. *)
Definition column_dot (m : mat) (c : nat) (m' : mat) (c' : nat) : R := rget m 0 c * rget m' 0 c' + rget m 1 c * rget m' 1 c' + rget m 2 c * rget m' 2 c'.
Definition set_column3 (m : mat) (c : nat) (v : v3) : mat := set (set (set m 0 c (vx v)) 1 c (vy v)) 2 c (vz v).
(** matrix.h:1124-1157 with a depth of three. *)
Definition column_normalize (rows : nat) (m : mat) (c : nat) : mat :=
  if (rows =? 3)%nat then set_column3 m c (normalize3 (column3 m c))
  else let inv_len := 1 / sqrt (column_dot m c m c) in set_column3 m c (scale3 (column3 m c) inv_len).
(** matrix.h:1180-1188. *)
Definition subtract_dot_mult (out : mat) (o : nat) (m1 : mat) (c1 : nat) (c2 : nat) : mat :=
  let dot := column_dot m1 c1 out c2 in
  set_column3 out o (sub3 (column3 out o) (scale3 (column3 out c2) dot)).
(** matrix.h:1159-1202. *)
Definition orthonormalize (rows : nat) (m : mat) : mat :=
  let out := column_normalize rows m 0 in
  let out := subtract_dot_mult out 1 m 1 0 in
  let out := column_normalize rows out 1 in
  let out := subtract_dot_mult out 2 m 2 0 in
  let out := subtract_dot_mult out 2 out 2 1 in
  column_normalize rows out 2.
