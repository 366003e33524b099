(** Model of the plane transformations in include/muu/matrix.h, and of [orthonormalized]. Scalars are the real numbers; a matrix is the list of
    its columns (see XformModel.v). *)
From Coq Require Import Reals List.
From Verif Require Import Words MatModel VecModel QuatModel XformModel.
Import ListNotations.
Local Open Scope R_scope.

Local Notation mat := (list (list R)).

(** matrix.h:390-415: [rot] is [r] x [c]. *)
Definition from_2d_rotation (rows cols r c : nat) (rot : mat) : mat :=
  if ((r =? rows) && (c =? cols) && (r =? 2) && (c =? 2))%nat%bool then rot
  else
    let out := convert rows cols r c rot in
    let out := if ((3 <=? c) && (cols =? 3))%nat%bool then EarrModel.upd out (cols - 1) (repeat 0 rows) else out in
    let out := if ((3 <=? r) && (rows =? 3))%nat%bool then set (set out 2 0 0) 2 1 0 else out in
    if ((rows =? 3) && (cols =? 3))%nat%bool then set out 2 2 1 else out.
(** matrix.h:650-666: the two axes are the first columns; what is not given is zero. *)
Definition from_2d_axes (rows cols : nat) (x0 x1 y0 y1 : R) : mat :=
  let out := [[x0; x1] ++ repeat 0 (rows - 2); [y0; y1] ++ repeat 0 (rows - 2)] ++ repeat (repeat 0 rows) (cols - 2) in
  let out := if ((3 <=? rows) && (3 <=? cols))%nat%bool then set out 2 2 1 else out in
  if ((4 <=? rows) && (4 <=? cols))%nat%bool then set out 3 3 1 else out.
(** matrix.h:874-880. *)
Definition column2 (m : mat) (c : nat) : list R := [rget m 0 c; rget m 1 c].
Definition extract_2d_scale (m : mat) : R * R := (VecModel.length 2 (column2 m 0), VecModel.length 2 (column2 m 1)).
(** matrix.h:417-429; the tolerance is one thousandth. *)
Definition has_2d_shear (m : mat) : bool :=
  let x := fst (VecModel.normalize 2 (column2 m 0)) in let y := fst (VecModel.normalize 2 (column2 m 1)) in
  negb (approx_equal (VecModel.dot 2 x y) 0 (1 / 1000)).
(** vector.h:2164-2185 over the reals; [eps] is the tolerance of the scalar type. *)
Definition normalized3 (eps : R) (v : v3) : bool := approx_equal (length_squared3 v) 1 eps.
(** matrix.h:1211-1241; [eps_axes] is one hundredth for small floats and one thousandth for the others. *)
Definition orthonormalized (eps eps_axes : R) (m : mat) : bool :=
  let x := column3 m 0 in let y := column3 m 1 in let z := column3 m 2 in
  (normalized3 eps x && normalized3 eps y && normalized3 eps z && approx_equal (dot3 x y) 0 eps_axes && approx_equal (dot3 x z) 0 eps_axes && approx_equal (dot3 y z) 0 eps_axes)%bool.
