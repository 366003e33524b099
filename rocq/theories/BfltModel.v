(** Model of bounding_box.h and of the parts of impl/geometry_common.h below it, for float, double, long double and 128-bit floats.

    Two-byte floats, which compute in float, are not modelled. No operation is fused: the only product is the one with 0.5, which is exact
    unless it underflows, so that fusing it changes nothing above the smallest numbers. *)
From Coq Require Import ZArith Bool List.
From Flocq Require Import Core BinarySingleNaN.
From Verif Require Import FpModel XfltModel.
Import ListNotations.

Section Boxes.
  Variable prec emax : Z.
  Context (prec_gt_0_ : Prec_gt_0 prec).
  Context (prec_lt_emax_ : Prec_lt_emax prec emax).
  Notation float := (binary_float prec emax).
  Notation vec := (vec float).
  Definition map2 (f : float -> float -> float) (v w : vec) : vec := let '(x1, y1, z1) := v in let '(x2, y2, z2) := w in (f x1 x2, f y1 y2, f z1 z2).
  Definition map1 (f : float -> float) (v : vec) : vec := let '(x, y, z) := v in (f x, f y, f z).
  Definition all2 (f : float -> float -> bool) (v w : vec) : bool := let '(x1, y1, z1) := v in let '(x2, y2, z2) := w in f x1 x2 && f y1 y2 && f z1 z2.
  (** [static_cast<scalar_type>(0.5)] *)
  Definition one_half : float := binary_normalize prec emax _ _ mode_NE 1 (-1) false.

  (** impl/core_utils.h:42-92: two values. *)
  Definition min2 (a b : float) : float := if Bltb a b then a else b.
  Definition max2 (a b : float) : float := if Bltb a b then b else a.
  (** vector.h:2382-2417, 2433-2467: two vectors, several of them, a range. *)
  Definition vmin : vec -> vec -> vec := map2 min2.
  Definition vmax : vec -> vec -> vec := map2 max2.
  Fixpoint vmin_all (v : vec) (vs : list vec) : vec := match vs with [] => v | w :: r => vmin v (vmin_all w r) end.
  Fixpoint vmax_all (v : vec) (vs : list vec) : vec := match vs with [] => v | w :: r => vmax v (vmax_all w r) end.
  Definition vmin_range (v : vec) (vs : list vec) : vec := fold_left vmin vs v.
  Definition vmax_range (v : vec) (vs : list vec) : vec := fold_left vmax vs v.

  (** impl/geometry_common.h:635-639. *)
  Record box : Type := Box { center : vec; extents : vec }.
  (** impl/geometry_common.h:492-502, bounding_box.h:188-203. *)
  Definition center_of (lo hi : vec) : vec := map1 (fun x => Bmult mode_NE x one_half) (map2 (Bplus mode_NE) lo hi).
  Definition extents_of (lo hi : vec) : vec := map1 (fun x => Bmult mode_NE x one_half) (map2 (Bminus mode_NE) hi lo).
  Definition from_min_max (lo hi : vec) : box := Box (center_of lo hi) (extents_of lo hi).
  (** bounding_box.h:205-232: two or more points, and a range of points. *)
  Definition from_points (p0 p1 : vec) (ps : list vec) : box := from_min_max (vmin_all p0 (p1 :: ps)) (vmax_all p0 (p1 :: ps)).
  Definition from_range (ps : list vec) : box :=
    match ps with
    | [] => let z := B754_zero false in Box (z, z, z) (z, z, z)
    | p :: r => from_min_max (vmin_range p r) (vmax_range p r)
    end.
  (** impl/geometry_common.h:574-583, 596-598, 655-659; the two corners that are used here. *)
  Definition min_corner (b : box) : vec := map2 (Bplus mode_NE) (center b) (map1 Bopp (extents b)).
  Definition max_corner (b : box) : vec := map2 (Bplus mode_NE) (center b) (extents b).
  (** bounding_box.h:766-777, 786-806, 813-816. *)
  Definition append (b : box) (p : vec) : box := from_min_max (vmin (min_corner b) p) (vmax (max_corner b) p).
  Definition append_all (b : box) (p1 p2 : vec) (ps : list vec) : box := from_min_max (vmin_all (min_corner b) (p1 :: p2 :: ps)) (vmax_all (max_corner b) (p1 :: p2 :: ps)).
  Definition append_box (b other : box) : box := append_all b (min_corner other) (max_corner other) [].
  (** impl/geometry_common.h:747-756, bounding_box.h:863-867. *)
  Definition contains (b : box) (p : vec) : bool := all2 Bleb (map1 (abs prec emax) (map2 (Bminus mode_NE) p (center b))) (extents b).
  (** impl/geometry_common.h:886-898, bounding_box.h:1073-1081. *)
  Definition intersects (b1 b2 : box) : bool :=
    let '(x1, y1, z1) := min_corner b1 in let '(X1, Y1, Z1) := max_corner b1 in let '(x2, y2, z2) := min_corner b2 in let '(X2, Y2, Z2) := max_corner b2 in
    Bleb x2 X1 && Bleb x1 X2 && Bleb y2 Y1 && Bleb y1 Y2 && Bleb z2 Z1 && Bleb z1 Z2.
  (** impl/geometry_common.h:900-912, bounding_box.h:1058-1065. *)
  Definition contains_box (outer inner : box) : bool :=
    let '(x1, y1, z1) := min_corner outer in let '(X1, Y1, Z1) := max_corner outer in let '(x2, y2, z2) := min_corner inner in let '(X2, Y2, Z2) := max_corner inner in
    Bleb x1 x2 && Bleb X2 X1 && Bleb y1 y2 && Bleb Y2 Y1 && Bleb z1 z2 && Bleb Z2 Z1.
End Boxes.
Arguments center {prec emax} b.
Arguments extents {prec emax} b.
Arguments Box {prec emax} center extents.
