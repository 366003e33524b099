(** Model of include/muu/impl/tri_tri_intersection.h: do two triangles intersect, and in which segment?

    Scalars are the real numbers, as in GeomModel; [eps] is EPSILON (line 180), the default tolerance of the scalar type. *)
From Coq Require Import Reals Bool.
From Verif Require Import Words VecModel GeomModel.
Local Open Scope R_scope.

(** [a != 0]. *)
Definition nonzero (a : R) : bool := if Req_EM_T a 0 then false else true.
(** [v[k]]. *)
Definition coord (v : v3) (k : nat) : R := match k with O => vx v | S O => vy v | _ => vz v end.
(** The two coordinates [i0], [i1] of a point. *)
Definition flat (i0 i1 : nat) (v : v3) : R * R := (coord v i0, coord v i1).

(* ------------------------------------------------------------------ triangles in one plane *)
(** Lines 60-86, MUU_TRITRI_EDGE_EDGE_TEST. The edge of the first triangle starts at [v] and has the direction [a]. *)
Definition edge_edge (v a u0 u1 : R * R) : bool :=
  let (ax, ay) := a in
  let bx := fst u0 - fst u1 in
  let by_ := snd u0 - snd u1 in
  let cx := fst v - fst u0 in
  let cy := snd v - snd u0 in
  let f := ay * bx - ax * by_ in
  let d := by_ * cx - bx * cy in
  if (ltb 0 f && leb 0 d && leb d f) || (ltb f 0 && leb d 0 && leb f d) then
    let e := ax * cy - ay * cx in
    if ltb 0 f then leb 0 e && leb e f else leb e 0 && leb f e
  else false.
(** Lines 88-97, MUU_TRITRI_EDGE_AGAINST_TRI_EDGES. *)
Definition edge_edges (v0 v1 u0 u1 u2 : R * R) : bool :=
  let a := (fst v1 - fst v0, snd v1 - snd v0) in
  edge_edge v0 a u0 u1 || edge_edge v0 a u1 u2 || edge_edge v0 a u2 u0.
(** Lines 99-120, MUU_TRITRI_POINT_IN_TRI. *)
Definition side (v u0 u1 : R * R) : R :=
  let a := snd u1 - snd u0 in
  let b := - (fst u1 - fst u0) in
  let c := - a * fst u0 - b * snd u0 in
  a * fst v + b * snd v + c.
Definition point_in (v u0 u1 u2 : R * R) : bool :=
  let d0 := side v u0 u1 in
  let d1 := side v u1 u2 in
  let d2 := side v u2 u0 in
  ltb 0 (d0 * d1) && ltb 0 (d0 * d2).
(** Lines 191-211: the coordinates left when the largest component of the normal is dropped. *)
Definition axes (n : v3) : nat * nat :=
  let a := abs3 n in
  if ltb (vy a) (vx a) then (if ltb (vz a) (vx a) then (1, 2) else (0, 1))%nat
  else (if ltb (vy a) (vz a) then (0, 1) else (0, 2))%nat.
(** Lines 182-223. *)
Definition coplanar_tri_tri (n v0 v1 v2 u0 u1 u2 : v3) : bool :=
  let (i0, i1) := axes n in
  let p := flat i0 i1 in
  edge_edges (p v0) (p v1) (p u0) (p u1) (p u2)
  || edge_edges (p v1) (p v2) (p u0) (p u1) (p u2)
  || edge_edges (p v2) (p v0) (p u0) (p u1) (p u2)
  || point_in (p v0) (p u0) (p u1) (p u2)
  || point_in (p u0) (p v0) (p v1) (p v2).

(* ------------------------------------------------------------------ the general case *)
(** Lines 235-248: the distances of three points from the plane of a triangle (times twice its area), small ones replaced by zero. *)
Definition snap (eps d : R) : R := if ltb (Rabs d) eps then 0 else d.
Definition height (n p0 p : v3) : R := dot3 n p + - dot3 n p0.
(** Lines 122-170, MUU_TRITRI_COMPUTE_INTERVALS: [A], [B], [C], [X0] and [X1]; [None] if all distances are zero. *)
Definition intervals (vv0 vv1 vv2 d0 d1 d2 : R) : option (R * R * R * R * R) :=
  if ltb 0 (d0 * d1) then Some (vv2, (vv0 - vv2) * d2, (vv1 - vv2) * d2, d2 - d0, d2 - d1)
  else if ltb 0 (d0 * d2) then Some (vv1, (vv0 - vv1) * d1, (vv2 - vv1) * d1, d1 - d0, d1 - d2)
  else if ltb 0 (d1 * d2) || nonzero d0 then Some (vv0, (vv1 - vv0) * d0, (vv2 - vv0) * d0, d0 - d1, d0 - d2)
  else if nonzero d1 then Some (vv1, (vv0 - vv1) * d1, (vv2 - vv1) * d1, d1 - d0, d1 - d2)
  else if nonzero d2 then Some (vv2, (vv0 - vv2) * d2, (vv1 - vv2) * d2, d2 - d0, d2 - d1)
  else None.
(** Lines 271-285: the largest component of the direction of the common line. *)
Definition main_axis (d : v3) : nat :=
  let '(index, max) := (O, Rabs (vx d)) in
  let '(index, max) := if ltb max (Rabs (vy d)) then (1%nat, Rabs (vy d)) else (index, max) in
  if ltb max (Rabs (vz d)) then 2%nat else index.
(** Lines 33-43, MUU_TRITRI_SORT. *)
Definition sort (a b : R) : R * R := if ltb b a then (b, a) else (a, b).

(** What the version with a segment does. *)
Inductive outcome := Result (answer : bool) (seg : option (v3 * v3)) | ReadsUnwritten | DividesByZero.

Section Test.
  Variable eps : R.
  Variables v0 v1 v2 u0 u1 u2 : v3.
  Let n1 := cross (sub3 v1 v0) (sub3 v2 v0).
  Let n2 := cross (sub3 u1 u0) (sub3 u2 u0).
  Let du (p : v3) := snap eps (height n1 v0 p).
  Let dv (p : v3) := snap eps (height n2 u0 p).
  Let at_ (p : v3) := coord p (main_axis (cross n1 n2)).

  (** Lines 225-316. *)
  Definition intersects : bool :=
    if ltb 0 (du u0 * du u1) && ltb 0 (du u0 * du u2) then false
    else if ltb 0 (dv v0 * dv v1) && ltb 0 (dv v0 * dv v2) then false
    else
      match intervals (at_ v0) (at_ v1) (at_ v2) (dv v0) (dv v1) (dv v2) with
      | None => coplanar_tri_tri n1 v0 v1 v2 u0 u1 u2
      | Some (a, b, c, x0, x1) =>
          match intervals (at_ u0) (at_ u1) (at_ u2) (du u0) (du u1) (du u2) with
          | None => coplanar_tri_tri n1 v0 v1 v2 u0 u1 u2
          | Some (d, e, f, y0, y1) =>
              let xx := x0 * x1 in
              let yy := y0 * y1 in
              let xxyy := xx * yy in
              let tmp := a * xxyy in
              let (s0, s1) := sort (tmp + b * x1 * yy) (tmp + c * x0 * yy) in
              let tmp := d * xxyy in
              let (t0, t1) := sort (tmp + e * xx * y1) (tmp + f * xx * y0) in
              if ltb s1 t0 || ltb t1 s0 then false else true
          end
      end.

  (** Lines 318-343, [isect2]: the points where two edges of a triangle meet the plane, and their coordinates; [None] for a division by
      zero. *)
  Definition isect2 (x0 x1 x2 : v3) (vv0 vv1 vv2 d0 d1 d2 : R) : option (R * R * v3 * v3) :=
    if nonzero (d0 - d1) && nonzero (d0 - d2) then
      let tmp := d0 / (d0 - d1) in
      let isect0 := vv0 + (vv1 - vv0) * tmp in
      let isectpoint0 := add3 (scale3 (sub3 x1 x0) tmp) x0 in
      let tmp := d0 / (d0 - d2) in
      let isect1 := vv0 + (vv2 - vv0) * tmp in
      let isectpoint1 := add3 x0 (scale3 (sub3 x2 x0) tmp) in
      Some (isect0, isect1, isectpoint0, isectpoint1)
    else None.
  (** Lines 345-376; [None] if it returns true, without having written its results. *)
  Definition isectline (x0 x1 x2 : v3) (vv0 vv1 vv2 d0 d1 d2 : R) : option (option (R * R * v3 * v3)) :=
    if ltb 0 (d0 * d1) then Some (isect2 x2 x0 x1 vv2 vv0 vv1 d2 d0 d1)
    else if ltb 0 (d0 * d2) then Some (isect2 x1 x0 x2 vv1 vv0 vv2 d1 d0 d2)
    else if ltb 0 (d1 * d2) || nonzero d0 then Some (isect2 x0 x1 x2 vv0 vv1 vv2 d0 d1 d2)
    else if nonzero d1 then Some (isect2 x1 x0 x2 vv1 vv0 vv2 d1 d0 d2)
    else if nonzero d2 then Some (isect2 x2 x0 x1 vv2 vv0 vv1 d2 d0 d1)
    else None.
  (** Lines 45-57, MUU_TRITRI_SORT2; the flag is [smallest == 1]. *)
  Definition sort2 (a b : R) : R * R * bool := if ltb b a then (b, a, true) else (a, b, false).

  (** Lines 378-572: the result and the segment. Variables can be read that were never written, because the result of
      the second call of [compute_intervals_isectline] is ignored. *)
  Definition intersects_segment : outcome :=
    if ltb 0 (du u0 * du u1) && ltb 0 (du u0 * du u2) then Result false None
    else if ltb 0 (dv v0 * dv v1) && ltb 0 (dv v0 * dv v2) then Result false None
    else
      match isectline v0 v1 v2 (at_ v0) (at_ v1) (at_ v2) (dv v0) (dv v1) (dv v2) with
      | None => Result (coplanar_tri_tri n1 v0 v1 v2 u0 u1 u2) None
      | Some None => DividesByZero
      | Some (Some (s0, s1, a1, a2)) =>
          match isectline u0 u1 u2 (at_ u0) (at_ u1) (at_ u2) (du u0) (du u1) (du u2) with
          | None => ReadsUnwritten
          | Some None => DividesByZero
          | Some (Some (t0, t1, b1, b2)) =>
              let '(s0, s1, smallest1) := sort2 s0 s1 in
              let '(t0, t1, smallest2) := sort2 t0 t1 in
              if ltb s1 t0 || ltb t1 s0 then Result false None
              else
                let seg :=
                  if ltb t0 s0 then
                    (if smallest1 then a2 else a1,
                     if ltb t1 s1 then (if smallest2 then b1 else b2) else (if smallest1 then a1 else a2))
                  else
                    (if smallest2 then b2 else b1,
                     if ltb s1 t1 then (if smallest1 then a1 else a2) else (if smallest2 then b1 else b2)) in
                Result true (Some seg)
          end
      end.
End Test.
