(** Model of include/muu/matrix.h: products, transpose, identity, determinant, inverse.

    Scalars are any type with the operations of [ops]; the laws they are assumed to obey are hypotheses of the theorems (a
    commutative ring: exact arithmetic, or unsigned integers modulo a power of two; a field where a division occurs).
    Rounding, fused multiplication and the promotion of narrow scalars (lines 2407-2409, 2772-2774) are not modelled.

    A matrix is the list of its columns ([m], matrix_base.h:28). Bounds of the template parameters are those of the class:
    at least one row and one column. [junk] is what is found in the elements of an object that has been default-initialised
    (matrix_base.h:30 leaves them uninitialised); the theorems hold for every [junk]. *)
From Verif Require Import Words EarrModel.
Local Open Scope nat_scope.

Record ops (K : Type) := { zero : K; one : K; add : K -> K -> K; mul : K -> K -> K; sub : K -> K -> K; neg : K -> K; div : K -> K -> K }.
Arguments zero {K}. Arguments one {K}. Arguments add {K}. Arguments mul {K}. Arguments sub {K}. Arguments neg {K}. Arguments div {K}.

Declare Scope lin_scope.
Delimit Scope lin_scope with lin.

Section Matrix.
  Context {K : Type} (F : ops K).
  Local Notation "x + y" := (add F x y) : lin_scope.
  Local Notation "x * y" := (mul F x y) : lin_scope.
  Local Notation "x - y" := (sub F x y) : lin_scope.
  Local Notation "- x" := (neg F x) : lin_scope.
  Local Notation "x / y" := (div F x y) : lin_scope.

  Local Notation vec := (list K).
  Local Notation mat := (list (list K)).

  (** Elements: [v\[i\]], [m(r, c)], [m.get<r, c>()]. The default of [nth] is never used for an index in range. *)
  Definition at_ (v : vec) (i : nat) : K := nth i v (zero F).
  Definition get (m : mat) (r c : nat) : K := at_ (nth c m []) r.
  Definition set (m : mat) (r c : nat) (x : K) : mat := upd m c (upd (nth c m []) r x).

  Definition fresh_vec (junk : K) (n : nat) : vec := repeat junk n.
  Definition fresh (junk : K) (rows cols : nat) : mat := repeat (fresh_vec junk rows) cols.

  (** [for (size_t i = from; i < to; i++)] *)
  Definition for_ {S : Type} (from to : nat) (body : S -> nat -> S) (s : S) : S := fold_left body (seq from (to - from)) s.

  (** matrix.h:2416-2423. *)
  Definition mul_2x2 (lhs rhs : mat) : mat :=
    ([[get lhs 0 0 * get rhs 0 0 + get lhs 0 1 * get rhs 1 0; get lhs 1 0 * get rhs 0 0 + get lhs 1 1 * get rhs 1 0];
     [get lhs 0 0 * get rhs 0 1 + get lhs 0 1 * get rhs 1 1; get lhs 1 0 * get rhs 0 1 + get lhs 1 1 * get rhs 1 1]])%lin.

  (** matrix.h:2424-2438. *)
  Definition mul_3x3 (lhs rhs : mat) : mat :=
    ([[get lhs 0 0 * get rhs 0 0 + get lhs 0 1 * get rhs 1 0 + get lhs 0 2 * get rhs 2 0; get lhs 1 0 * get rhs 0 0 + get lhs 1 1 * get rhs 1 0 + get lhs 1 2 * get rhs 2 0; get lhs 2 0 * get rhs 0 0 + get lhs 2 1 * get rhs 1 0 + get lhs 2 2 * get rhs 2 0];
     [get lhs 0 0 * get rhs 0 1 + get lhs 0 1 * get rhs 1 1 + get lhs 0 2 * get rhs 2 1; get lhs 1 0 * get rhs 0 1 + get lhs 1 1 * get rhs 1 1 + get lhs 1 2 * get rhs 2 1; get lhs 2 0 * get rhs 0 1 + get lhs 2 1 * get rhs 1 1 + get lhs 2 2 * get rhs 2 1];
     [get lhs 0 0 * get rhs 0 2 + get lhs 0 1 * get rhs 1 2 + get lhs 0 2 * get rhs 2 2; get lhs 1 0 * get rhs 0 2 + get lhs 1 1 * get rhs 1 2 + get lhs 1 2 * get rhs 2 2; get lhs 2 0 * get rhs 0 2 + get lhs 2 1 * get rhs 1 2 + get lhs 2 2 * get rhs 2 2]])%lin.

  (** matrix.h:2439-2460. *)
  Definition mul_4x4 (lhs rhs : mat) : mat :=
    ([[get lhs 0 0 * get rhs 0 0 + get lhs 0 1 * get rhs 1 0 + get lhs 0 2 * get rhs 2 0 + get lhs 0 3 * get rhs 3 0; get lhs 1 0 * get rhs 0 0 + get lhs 1 1 * get rhs 1 0 + get lhs 1 2 * get rhs 2 0 + get lhs 1 3 * get rhs 3 0; get lhs 2 0 * get rhs 0 0 + get lhs 2 1 * get rhs 1 0 + get lhs 2 2 * get rhs 2 0 + get lhs 2 3 * get rhs 3 0; get lhs 3 0 * get rhs 0 0 + get lhs 3 1 * get rhs 1 0 + get lhs 3 2 * get rhs 2 0 + get lhs 3 3 * get rhs 3 0];
     [get lhs 0 0 * get rhs 0 1 + get lhs 0 1 * get rhs 1 1 + get lhs 0 2 * get rhs 2 1 + get lhs 0 3 * get rhs 3 1; get lhs 1 0 * get rhs 0 1 + get lhs 1 1 * get rhs 1 1 + get lhs 1 2 * get rhs 2 1 + get lhs 1 3 * get rhs 3 1; get lhs 2 0 * get rhs 0 1 + get lhs 2 1 * get rhs 1 1 + get lhs 2 2 * get rhs 2 1 + get lhs 2 3 * get rhs 3 1; get lhs 3 0 * get rhs 0 1 + get lhs 3 1 * get rhs 1 1 + get lhs 3 2 * get rhs 2 1 + get lhs 3 3 * get rhs 3 1];
     [get lhs 0 0 * get rhs 0 2 + get lhs 0 1 * get rhs 1 2 + get lhs 0 2 * get rhs 2 2 + get lhs 0 3 * get rhs 3 2; get lhs 1 0 * get rhs 0 2 + get lhs 1 1 * get rhs 1 2 + get lhs 1 2 * get rhs 2 2 + get lhs 1 3 * get rhs 3 2; get lhs 2 0 * get rhs 0 2 + get lhs 2 1 * get rhs 1 2 + get lhs 2 2 * get rhs 2 2 + get lhs 2 3 * get rhs 3 2; get lhs 3 0 * get rhs 0 2 + get lhs 3 1 * get rhs 1 2 + get lhs 3 2 * get rhs 2 2 + get lhs 3 3 * get rhs 3 2];
     [get lhs 0 0 * get rhs 0 3 + get lhs 0 1 * get rhs 1 3 + get lhs 0 2 * get rhs 2 3 + get lhs 0 3 * get rhs 3 3; get lhs 1 0 * get rhs 0 3 + get lhs 1 1 * get rhs 1 3 + get lhs 1 2 * get rhs 2 3 + get lhs 1 3 * get rhs 3 3; get lhs 2 0 * get rhs 0 3 + get lhs 2 1 * get rhs 1 3 + get lhs 2 2 * get rhs 2 3 + get lhs 2 3 * get rhs 3 3; get lhs 3 0 * get rhs 0 3 + get lhs 3 1 * get rhs 1 3 + get lhs 3 2 * get rhs 2 3 + get lhs 3 3 * get rhs 3 3]])%lin.

  (** matrix.h:2461-2476, [lhs] being [rows] x [n] and [rhs] [n] x [cols]. *)
  Definition mul_any (junk : K) (rows n cols : nat) (lhs rhs : mat) : mat :=
    for_ 0 rows (fun out r =>
      for_ 0 cols (fun out c =>
        set out r c (for_ 1 n (fun val k => (val + get lhs r k * get rhs k c)%lin) (get lhs r 0 * get rhs 0 c)%lin)) out)
      (fresh junk rows cols).

  (** matrix.h:2398-2480. *)
  Definition mat_mul (junk : K) (rows n cols : nat) (lhs rhs : mat) : mat :=
    if (rows =? 2) && (n =? 2) && (cols =? 2) then mul_2x2 lhs rhs
    else if (rows =? 3) && (n =? 3) && (cols =? 3) then mul_3x3 lhs rhs
    else if (rows =? 4) && (n =? 4) && (cols =? 4) then mul_4x4 lhs rhs
    else mul_any junk rows n cols lhs rhs.

  (** matrix.h:2512-2515. *)
  Definition col_2x2 (lhs : mat) (rhs : vec) : vec :=
    [get lhs 0 0 * at_ rhs 0 + get lhs 0 1 * at_ rhs 1;
     get lhs 1 0 * at_ rhs 0 + get lhs 1 1 * at_ rhs 1]%lin.

  (** matrix.h:2516-2521. *)
  Definition col_3x3 (lhs : mat) (rhs : vec) : vec :=
    [get lhs 0 0 * at_ rhs 0 + get lhs 0 1 * at_ rhs 1 + get lhs 0 2 * at_ rhs 2;
     get lhs 1 0 * at_ rhs 0 + get lhs 1 1 * at_ rhs 1 + get lhs 1 2 * at_ rhs 2;
     get lhs 2 0 * at_ rhs 0 + get lhs 2 1 * at_ rhs 1 + get lhs 2 2 * at_ rhs 2]%lin.

  (** matrix.h:2522-2528. *)
  Definition col_4x4 (lhs : mat) (rhs : vec) : vec :=
    [get lhs 0 0 * at_ rhs 0 + get lhs 0 1 * at_ rhs 1 + get lhs 0 2 * at_ rhs 2 + get lhs 0 3 * at_ rhs 3;
     get lhs 1 0 * at_ rhs 0 + get lhs 1 1 * at_ rhs 1 + get lhs 1 2 * at_ rhs 2 + get lhs 1 3 * at_ rhs 3;
     get lhs 2 0 * at_ rhs 0 + get lhs 2 1 * at_ rhs 1 + get lhs 2 2 * at_ rhs 2 + get lhs 2 3 * at_ rhs 3;
     get lhs 3 0 * at_ rhs 0 + get lhs 3 1 * at_ rhs 1 + get lhs 3 2 * at_ rhs 2 + get lhs 3 3 * at_ rhs 3]%lin.

  (** matrix.h:2529-2540. *)
  Definition col_any (junk : K) (rows cols : nat) (lhs : mat) (rhs : vec) : vec :=
    for_ 0 rows (fun out r => upd out r (for_ 1 cols (fun val c => (val + get lhs r c * at_ rhs c)%lin) (get lhs r 0 * at_ rhs 0)%lin)) (fresh_vec junk rows).
  (** matrix.h:2495-2544, matrix times column vector. *)
  Definition mat_vec (junk : K) (rows cols : nat) (lhs : mat) (rhs : vec) : vec :=
    if (rows =? 2) && (cols =? 2) then col_2x2 lhs rhs
    else if (rows =? 3) && (cols =? 3) then col_3x3 lhs rhs
    else if (rows =? 4) && (cols =? 4) then col_4x4 lhs rhs
    else col_any junk rows cols lhs rhs.

  (** matrix.h:2566-2569. *)
  Definition row_2x2 (lhs : vec) (rhs : mat) : vec :=
    [at_ lhs 0 * get rhs 0 0 + at_ lhs 1 * get rhs 1 0;
     at_ lhs 0 * get rhs 0 1 + at_ lhs 1 * get rhs 1 1]%lin.

  (** matrix.h:2570-2575. *)
  Definition row_3x3 (lhs : vec) (rhs : mat) : vec :=
    [at_ lhs 0 * get rhs 0 0 + at_ lhs 1 * get rhs 1 0 + at_ lhs 2 * get rhs 2 0;
     at_ lhs 0 * get rhs 0 1 + at_ lhs 1 * get rhs 1 1 + at_ lhs 2 * get rhs 2 1;
     at_ lhs 0 * get rhs 0 2 + at_ lhs 1 * get rhs 1 2 + at_ lhs 2 * get rhs 2 2]%lin.

  (** matrix.h:2576-2582. *)
  Definition row_4x4 (lhs : vec) (rhs : mat) : vec :=
    [at_ lhs 0 * get rhs 0 0 + at_ lhs 1 * get rhs 1 0 + at_ lhs 2 * get rhs 2 0 + at_ lhs 3 * get rhs 3 0;
     at_ lhs 0 * get rhs 0 1 + at_ lhs 1 * get rhs 1 1 + at_ lhs 2 * get rhs 2 1 + at_ lhs 3 * get rhs 3 1;
     at_ lhs 0 * get rhs 0 2 + at_ lhs 1 * get rhs 1 2 + at_ lhs 2 * get rhs 2 2 + at_ lhs 3 * get rhs 3 2;
     at_ lhs 0 * get rhs 0 3 + at_ lhs 1 * get rhs 1 3 + at_ lhs 2 * get rhs 2 3 + at_ lhs 3 * get rhs 3 3]%lin.

  (** matrix.h:2583-2594. *)
  Definition row_any (junk : K) (rows cols : nat) (lhs : vec) (rhs : mat) : vec :=
    for_ 0 cols (fun out c => upd out c (for_ 1 rows (fun val r => (val + at_ lhs r * get rhs r c)%lin) (at_ lhs 0 * get rhs 0 c)%lin)) (fresh_vec junk cols).
  (** matrix.h:2551-2599, row vector times matrix. *)
  Definition vec_mat (junk : K) (rows cols : nat) (lhs : vec) (rhs : mat) : vec :=
    if (rows =? 2) && (cols =? 2) then row_2x2 lhs rhs
    else if (rows =? 3) && (cols =? 3) then row_3x3 lhs rhs
    else if (rows =? 4) && (cols =? 4) then row_4x4 lhs rhs
    else row_any junk rows cols lhs rhs.

  (** matrix.h:2679-2685. *)
  Definition transpose_2x2 (m : mat) : mat :=
    [[get m 0 0; get m 0 1];
     [get m 1 0; get m 1 1]].

  (** matrix.h:2686-2693. *)
  Definition transpose_3x3 (m : mat) : mat :=
    [[get m 0 0; get m 0 1; get m 0 2];
     [get m 1 0; get m 1 1; get m 1 2];
     [get m 2 0; get m 2 1; get m 2 2]].

  (** matrix.h:2694-2702. *)
  Definition transpose_4x4 (m : mat) : mat :=
    [[get m 0 0; get m 0 1; get m 0 2; get m 0 3];
     [get m 1 0; get m 1 1; get m 1 2; get m 1 3];
     [get m 2 0; get m 2 1; get m 2 2; get m 2 3];
     [get m 3 0; get m 3 1; get m 3 2; get m 3 3]].

  (** matrix.h:2703-2713. *)
  Definition transpose_any (junk : K) (rows cols : nat) (m : mat) : mat :=
    for_ 0 cols (fun out c => for_ 0 rows (fun out r => set out c r (at_ (nth c m []) r)) out) (fresh junk cols rows).
  (** matrix.h:2670-2716. *)
  Definition transpose (junk : K) (rows cols : nat) (m : mat) : mat :=
    if (rows =? 2) && (cols =? 2) then transpose_2x2 m
    else if (rows =? 3) && (cols =? 3) then transpose_3x3 m
    else if (rows =? 4) && (cols =? 4) then transpose_4x4 m
    else transpose_any junk rows cols m.

  (** matrix.h:3116-3136, [constants::identity]. *)
  Definition identity (rows cols : nat) : mat :=
    let m := set (fresh (zero F) rows cols) 0 0 (one F) in
    let m := if (1 <? rows) && (1 <? cols) then set m 1 1 (one F) else m in
    let m := if (2 <? rows) && (2 <? cols) then set m 2 2 (one F) else m in
    let m := if (3 <? rows) && (3 <? cols) then set m 3 3 (one F) else m in
    if (4 <? rows) && (4 <? cols) then for_ 4 (Nat.min rows cols) (fun m i => set m i i (one F)) m else m.

  (** matrix.h:1395-1411 (broadcast), 1453-1463 with matrix_base.h:74-120 (row-major scalars, missing ones zero). *)
  Definition broadcast (rows cols : nat) (x : K) : mat := repeat (repeat x rows) cols.
  Definition of_rows (rows cols : nat) (l : vec) : mat :=
    map (fun c => map (fun r => if c + cols * r <? length l then at_ l (c + cols * r) else zero F) (seq 0 rows)) (seq 0 cols).

  (* ------------------------------------------------------------------ determinant and inverse *)
  (** matrix.h:1026-1036. *)
  Definition det_2x2 (r0 r1 c0 c1 : nat) (m : mat) : K := (get m r0 c0 * get m r1 c1 - get m r0 c1 * get m r1 c0)%lin.
  (** matrix.h:1038-1054. *)
  Definition det_3x3 (r0 r1 r2 c0 c1 c2 : nat) (m : mat) : K :=
    (get m r0 c0 * det_2x2 r1 r2 c1 c2 m - get m r0 c1 * det_2x2 r1 r2 c0 c2 m + get m r0 c2 * det_2x2 r1 r2 c0 c1 m)%lin.
  (** matrix.h:1056-1076. *)
  Definition det_4x4 (r0 r1 r2 r3 c0 c1 c2 c3 : nat) (m : mat) : K :=
    (get m r0 c0 * det_3x3 r1 r2 r3 c1 c2 c3 m - get m r0 c1 * det_3x3 r1 r2 r3 c0 c2 c3 m
     + get m r0 c2 * det_3x3 r1 r2 r3 c0 c1 c3 m - get m r0 c3 * det_3x3 r1 r2 r3 c0 c1 c2 m)%lin.
  (** matrix.h:2739-2751. Only square matrices of at most four rows have a determinant. *)
  Definition determinant (n : nat) (m : mat) : option K :=
    match n with
    | 1 => Some (get m 0 0)
    | 2 => Some (det_2x2 0 1 0 1 m)
    | 3 => Some (det_3x3 0 1 2 0 1 2 m)
    | 4 => Some (det_4x4 0 1 2 3 0 1 2 3 m)
    | _ => None
    end.

  (** matrix.h:2782-2785. *)
  Definition invert_1x1 (m : mat) : mat := [[(one F / get m 0 0)%lin]].

  (** matrix.h:2786-2791. *)
  Definition invert_2x2 (m : mat) : mat :=
    let det := (one F / det_2x2 0 1 0 1 m)%lin in
    ([[det * get m 1 1; det * - get m 1 0];
     [det * - get m 0 1; det * get m 0 0]])%lin.

  (** matrix.h:2792-2806. *)
  Definition invert_3x3 (m : mat) : mat :=
    let det := (one F / det_3x3 0 1 2 0 1 2 m)%lin in
    ([[det * (get m 1 1 * get m 2 2 - get m 1 2 * get m 2 1); det * - (get m 1 0 * get m 2 2 - get m 1 2 * get m 2 0); det * (get m 1 0 * get m 2 1 - get m 1 1 * get m 2 0)];
     [det * - (get m 0 1 * get m 2 2 - get m 0 2 * get m 2 1); det * (get m 0 0 * get m 2 2 - get m 0 2 * get m 2 0); det * - (get m 0 0 * get m 2 1 - get m 0 1 * get m 2 0)];
     [det * (get m 0 1 * get m 1 2 - get m 0 2 * get m 1 1); det * - (get m 0 0 * get m 1 2 - get m 0 2 * get m 1 0); det * (get m 0 0 * get m 1 1 - get m 0 1 * get m 1 0)]])%lin.

  (** matrix.h:2807-2861. *)
  Definition invert_4x4 (m : mat) : mat :=
    let A2323 := (get m 2 2 * get m 3 3 - get m 2 3 * get m 3 2)%lin in
    let A1323 := (get m 2 1 * get m 3 3 - get m 2 3 * get m 3 1)%lin in
    let A1223 := (get m 2 1 * get m 3 2 - get m 2 2 * get m 3 1)%lin in
    let A0323 := (get m 2 0 * get m 3 3 - get m 2 3 * get m 3 0)%lin in
    let A0223 := (get m 2 0 * get m 3 2 - get m 2 2 * get m 3 0)%lin in
    let A0123 := (get m 2 0 * get m 3 1 - get m 2 1 * get m 3 0)%lin in
    let A2313 := (get m 1 2 * get m 3 3 - get m 1 3 * get m 3 2)%lin in
    let A1313 := (get m 1 1 * get m 3 3 - get m 1 3 * get m 3 1)%lin in
    let A1213 := (get m 1 1 * get m 3 2 - get m 1 2 * get m 3 1)%lin in
    let A2312 := (get m 1 2 * get m 2 3 - get m 1 3 * get m 2 2)%lin in
    let A1312 := (get m 1 1 * get m 2 3 - get m 1 3 * get m 2 1)%lin in
    let A1212 := (get m 1 1 * get m 2 2 - get m 1 2 * get m 2 1)%lin in
    let A0313 := (get m 1 0 * get m 3 3 - get m 1 3 * get m 3 0)%lin in
    let A0213 := (get m 1 0 * get m 3 2 - get m 1 2 * get m 3 0)%lin in
    let A0312 := (get m 1 0 * get m 2 3 - get m 1 3 * get m 2 0)%lin in
    let A0212 := (get m 1 0 * get m 2 2 - get m 1 2 * get m 2 0)%lin in
    let A0113 := (get m 1 0 * get m 3 1 - get m 1 1 * get m 3 0)%lin in
    let A0112 := (get m 1 0 * get m 2 1 - get m 1 1 * get m 2 0)%lin in
    let det := (one F / (get m 0 0 * (get m 1 1 * A2323 - get m 1 2 * A1323 + get m 1 3 * A1223) - get m 0 1 * (get m 1 0 * A2323 - get m 1 2 * A0323 + get m 1 3 * A0223) + get m 0 2 * (get m 1 0 * A1323 - get m 1 1 * A0323 + get m 1 3 * A0123) - get m 0 3 * (get m 1 0 * A1223 - get m 1 1 * A0223 + get m 1 2 * A0123)))%lin in
    ([[det * (get m 1 1 * A2323 - get m 1 2 * A1323 + get m 1 3 * A1223); det * - (get m 1 0 * A2323 - get m 1 2 * A0323 + get m 1 3 * A0223); det * (get m 1 0 * A1323 - get m 1 1 * A0323 + get m 1 3 * A0123); det * - (get m 1 0 * A1223 - get m 1 1 * A0223 + get m 1 2 * A0123)];
     [det * - (get m 0 1 * A2323 - get m 0 2 * A1323 + get m 0 3 * A1223); det * (get m 0 0 * A2323 - get m 0 2 * A0323 + get m 0 3 * A0223); det * - (get m 0 0 * A1323 - get m 0 1 * A0323 + get m 0 3 * A0123); det * (get m 0 0 * A1223 - get m 0 1 * A0223 + get m 0 2 * A0123)];
     [det * (get m 0 1 * A2313 - get m 0 2 * A1313 + get m 0 3 * A1213); det * - (get m 0 0 * A2313 - get m 0 2 * A0313 + get m 0 3 * A0213); det * (get m 0 0 * A1313 - get m 0 1 * A0313 + get m 0 3 * A0113); det * - (get m 0 0 * A1213 - get m 0 1 * A0213 + get m 0 2 * A0113)];
     [det * - (get m 0 1 * A2312 - get m 0 2 * A1312 + get m 0 3 * A1212); det * (get m 0 0 * A2312 - get m 0 2 * A0312 + get m 0 3 * A0212); det * - (get m 0 0 * A1312 - get m 0 1 * A0312 + get m 0 3 * A0112); det * (get m 0 0 * A1212 - get m 0 1 * A0212 + get m 0 2 * A0112)]])%lin.

  (** matrix.h:2768-2864. *)
  Definition invert (n : nat) (m : mat) : option mat :=
    match n with
    | 1 => Some (invert_1x1 m)
    | 2 => Some (invert_2x2 m)
    | 3 => Some (invert_3x3 m)
    | 4 => Some (invert_4x4 m)
    | _ => None
    end.
End Matrix.
