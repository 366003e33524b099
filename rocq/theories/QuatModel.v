(** Model of include/muu/quaternion.h, include/muu/impl/quaternion_x_matrix.h and the conversion in include/muu/matrix.h.

    Scalars are the real numbers (see VecModel.v); [muu::sin], [muu::cos], [muu::asin], [muu::acos] are the real functions and
    [atan2] is the usual case distinction. *)
From Coq Require Import Reals List.
From Verif Require Import Words MatModel VecModel.
Import ListNotations.
Local Open Scope R_scope.

Definition R_ops : ops R := {| zero := 0; one := 1; add := Rplus; mul := Rmult; sub := Rminus; neg := Ropp; div := Rdiv |}.

Record quat := Quat { qs : R; qv : v3 }.

(** math.h:1977-2004; at (0, 0) the C library gives 0. *)
Definition atan2 (y x : R) : R :=
  if Rlt_dec 0 x then atan (y / x)
  else if Rlt_dec x 0 then (if Rle_dec 0 y then atan (y / x) + PI else atan (y / x) - PI)
  else if Rlt_dec 0 y then PI / 2
  else if Rlt_dec y 0 then - (PI / 2)
  else 0.
(** math.h:451-457. *)
Definition approx_equal (a b epsilon : R) : bool := if Rlt_dec (Rabs (b - a)) epsilon then true else false.

(** quaternion.h:478-488. *)
Definition qdot (q1 q2 : quat) : R := qs q1 * qs q2 + dot3 (qv q1) (qv q2).
(** quaternion.h:510-522. *)
Definition qnormalize (q : quat) : quat := let inv_length := 1 / sqrt (qdot q q) in Quat (qs q * inv_length) (scale3 (qv q) inv_length).
(** quaternion.h:571-581. *)
Definition conjugate (q : quat) : quat := Quat (qs q) (neg3 (qv q)).
(** quaternion.h:851-865. *)
Definition qmul (lhs rhs : quat) : quat :=
  Quat (qs lhs * qs rhs - dot3 (qv lhs) (qv rhs)) (add3 (add3 (scale3 (qv rhs) (qs lhs)) (scale3 (qv lhs) (qs rhs))) (cross (qv lhs) (qv rhs))).
(** quaternion.h:868-884. *)
Definition rotate (lhs : quat) (rhs : v3) : v3 :=
  let t := scale3 (cross (qv lhs) rhs) 2 in
  let u := cross (qv lhs) t in
  let t := scale3 t (qs lhs) in
  V3 (vx rhs + vx t + vx u) (vy rhs + vy t + vy u) (vz rhs + vz t + vz u).

(** quaternion.h:597-615. *)
Definition from_axis_angle (axis : v3) (angle : R) : quat := let angle := angle * / 2 in Quat (cos angle) (scale3 axis (sin angle)).
(** quaternion.h:633-665. *)
Definition to_axis_angle (q : quat) (shortest_path : bool) : v3 * R :=
  let len := length3 (qv q) in
  let correction := if andb shortest_path (if Rlt_dec (qs q) 0 then true else false) then -1 else 1 in
  if Req_EM_T len 0 then (x_axis, 2 * atan2 len (qs q * correction))
  else (V3 (vx (qv q) * correction / len) (vy (qv q) * correction / len) (vz (qv q) * correction / len), 2 * atan2 len (qs q * correction)).
(** quaternion.h:921-936: a part of a rotation. *)
Definition qpart (lhs : quat) (rhs : R) : quat :=
  let (axis, angle) := to_axis_angle lhs true in
  let angle := angle * (rhs * / 2) in
  let axis := normalize3 axis in
  Quat (cos angle) (scale3 axis (sin angle)).

(** quaternion.h:688-725. *)
Definition from_euler (yaw pitch roll : R) : quat :=
  let yaw := - yaw in let roll := - roll in
  let c1 := cos (pitch * / 2) in let s1 := sin (pitch * / 2) in
  let c2 := cos (yaw * / 2) in let s2 := sin (yaw * / 2) in
  let c3 := cos (roll * / 2) in let s3 := sin (roll * / 2) in
  Quat (c1 * c2 * c3 - s1 * s2 * s3) (V3 (s1 * c2 * c3 - c1 * s2 * s3) (c1 * s2 * c3 + s1 * c2 * s3) (c1 * c2 * s3 + s1 * s2 * c3)).
(** quaternion.h:740-788: yaw, pitch and roll. *)
Definition to_euler (q : quat) : R * R * R :=
  let s := qs q in let x := vx (qv q) in let y := vy (qv q) in let z := vz (qv q) in
  let sqw := s * s in let sqx := x * x in let sqy := y * y in let sqz := z * z in
  let test := y * z + s * x in
  let correction := sqx + sqy + sqz + sqw in
  let threshold := 49995 / 100000 in
  if Rlt_dec (threshold * correction) test then (-2 * atan2 z s, PI / 2, 0)
  else if Rlt_dec test (- threshold * correction) then (2 * atan2 z s, - (PI / 2), 0)
  else (- atan2 (-2 * (x * z - s * y)) (sqw - sqx - sqy + sqz), asin (2 * test / correction), - atan2 (-2 * (x * y - s * z)) (sqw - sqx + sqy - sqz)).

(** quaternion.h:804-826; [eps] is the default tolerance of [approx_equal]. *)
Definition from_rotation (eps : R) (from to : v3) : quat :=
  let k_cos_theta := dot3 from to in
  let k := sqrt (length_squared3 from * length_squared3 from) in
  if approx_equal (k_cos_theta / k) (-1) eps then Quat 0 (normalize3 (orthogonal from))
  else qnormalize (Quat (k_cos_theta + k) (cross from to)).

(** quaternion.h:977-1017. *)
Definition slerp (start finish : quat) (alpha : R) : quat :=
  let dot := qdot start finish in
  let (correction, dot) := if Rlt_dec dot 0 then (-1, - dot) else (1, dot) in
  if Rle_dec (9995 / 10000) dot then
    let inv_alpha := 1 - alpha in
    qnormalize (Quat (qs start * inv_alpha + qs finish * alpha * correction) (add3 (scale3 (qv start) inv_alpha) (scale3 (scale3 (qv finish) alpha) correction)))
  else
    let theta_0 := acos dot in
    let theta := theta_0 * alpha in
    let sin_theta_div := sin theta / sin theta_0 in
    let s0 := cos theta - dot * sin_theta_div in
    let s1 := sin_theta_div in
    Quat (qs start * s0 + qs finish * s1 * correction) (add3 (scale3 (qv start) s0) (scale3 (scale3 (qv finish) s1) correction)).

(** matrix.h:511-550. Columns and elements that are not given are zero. *)
Definition mat_of_quat (rows cols : nat) (q : quat) : list (list R) :=
  let x2 := vx (qv q) * vx (qv q) in let y2 := vy (qv q) * vy (qv q) in let z2 := vz (qv q) * vz (qv q) in
  let sx := qs q * vx (qv q) in let sy := qs q * vy (qv q) in let sz := qs q * vz (qv q) in
  let xz := vx (qv q) * vz (qv q) in let yz := vy (qv q) * vz (qv q) in let xy := vx (qv q) * vy (qv q) in
  let col l := l ++ repeat 0 (rows - 3) in
  let out := [col [1 - 2 * (y2 + z2); 2 * (xy + sz); 2 * (xz - sy)];
              col [2 * (xy - sz); 1 - 2 * (x2 + z2); 2 * (sx + yz)];
              col [2 * (sy + xz); 2 * (yz - sx); 1 - 2 * (x2 + y2)]] ++ repeat (repeat 0 rows) (cols - 3) in
  if ((rows =? 4) && (cols =? 4))%nat%bool then set out 3 3 1 else out.

(** quaternion_x_matrix.h:17-77. *)
Definition quat_of_mat (m : list (list R)) : quat :=
  let m00 := get R_ops m 0 0 in let m01 := get R_ops m 0 1 in let m02 := get R_ops m 0 2 in
  let m10 := get R_ops m 1 0 in let m11 := get R_ops m 1 1 in let m12 := get R_ops m 1 2 in
  let m20 := get R_ops m 2 0 in let m21 := get R_ops m 2 1 in let m22 := get R_ops m 2 2 in
  let trace := m00 + m11 + m22 in
  if Rlt_dec 0 trace then
    let s := sqrt (trace + 1) * 2 in let inv_s := 1 / s in
    Quat (/ 4 * s) (V3 ((m21 - m12) * inv_s) ((m02 - m20) * inv_s) ((m10 - m01) * inv_s))
  else if andb (if Rlt_dec m11 m00 then true else false) (if Rlt_dec m22 m00 then true else false) then
    let s := sqrt (m00 - m11 - m22 + 1) * 2 in let inv_s := 1 / s in
    Quat ((m21 - m12) * inv_s) (V3 (/ 4 * s) ((m01 + m10) * inv_s) ((m02 + m20) * inv_s))
  else if Rlt_dec m22 m11 then
    let s := sqrt (m11 - m00 - m22 + 1) * 2 in let inv_s := 1 / s in
    Quat ((m02 - m20) * inv_s) (V3 ((m01 + m10) * inv_s) (/ 4 * s) ((m21 + m12) * inv_s))
  else
    let s := sqrt (m22 - m00 - m11 + 1) * 2 in let inv_s := 1 / s in
    Quat ((m10 - m01) * inv_s) (V3 ((m02 + m20) * inv_s) ((m21 + m12) * inv_s) (/ 4 * s)).
