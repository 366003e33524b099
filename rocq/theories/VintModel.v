(** Model of muu::vector with an integer scalar type: include/muu/vector.h (arithmetic, shifts, sums and products, comparison,
    min/max/clamp), impl/vector_types_common.h:14-38, meta.h:588-663 [highest_ranked], math.h:353-436 [abs].

    A vector is the list of its components. A scalar type is an [ity] (CoreModel.v: signedness and width; 8 to 128 bits;
    characters, bool and enumerations are left out). [None] is undefined behaviour: signed overflow, division by zero, a shift
    count out of range or a failed MUU_ASSUME. *)
From Coq Require Import ZArith List Bool.
From Verif Require Import Words CoreModel.
Import ListNotations.
Local Open Scope Z_scope.

Definition int_ : ity := {| isigned := true; ibits := 32 |}.
Definition fits (t : ity) (x : Z) : bool := (ity_min t <=? x) && (x <=? ity_max t).
Definition at_ (v : list Z) (i : nat) : Z := nth i v 0.

(* ----------------------------------------------------------- the built-in operators *)

(** A built-in operator on (promoted) operands of type [p], its exact result being [r] (ISO C++ expr.pre/4, basic.fundamental/2). *)
Definition arith (p : ity) (r : Z) : option Z :=
  if isigned p then (if fits p r then Some r else None) else Some (conv p r).
Definition add (p : ity) (a b : Z) : option Z := arith p (a + b).
Definition sub (p : ity) (a b : Z) : option Z := arith p (a - b).
Definition mul (p : ity) (a b : Z) : option Z := arith p (a * b).
Definition div (p : ity) (a b : Z) : option Z := if b =? 0 then None else arith p (Z.quot a b).
(** expr.mul/4: undefined when the quotient is. *)
Definition rem (p : ity) (a b : Z) : option Z :=
  match div p a b with Some _ => Some (Z.rem a b) | None => None end.
Definition neg (p : ity) (a : Z) : option Z := arith p (- a).
(** expr.shift; up to C++17 ([std20] false) a negative left operand, or a bit lost to the left, is undefined for signed types. *)
Definition shl1 (std20 : bool) (p : ity) (x k : Z) : option Z :=
  if (0 <=? k) && (k <? ibits p) then
    if std20 || negb (isigned p) then Some (conv p (x * 2 ^ k))
    else if (0 <=? x) && (x * 2 ^ k <=? 2 ^ ibits p - 1) then Some (conv p (x * 2 ^ k)) else None
  else None.
Definition shr1 (p : ity) (x k : Z) : option Z :=
  if (0 <=? k) && (k <? ibits p) then Some (x / 2 ^ k) else None.

(* --------------------------------------------------------- the componentwise macros *)

Fixpoint all (l : list (option Z)) : option (list Z) :=
  match l with
  | [] => Some []
  | o :: r => x <- o ;; s <- all r ;; Some (x :: s)
  end.
(** vector.h:135-145: the result of the function, of type [ft], is cast to the scalar type when it is another one. *)
Definition cast_from (ft t : ity) (o : option Z) : option Z :=
  x <- o ;; Some (if ity_eqb ft t then x else conv t x).
(** vector.h:158-182 COMPONENTWISE_CONSTRUCT. *)
Definition construct (ft t : ity) (n : nat) (f : nat -> option Z) : option (list Z) :=
  let g i := cast_from ft t (f i) in
  match n with
  | 0%nat => None
  | 1%nat => all [g 0%nat]
  | 2%nat => all [g 0%nat; g 1%nat]
  | 3%nat => all [g 0%nat; g 1%nat; g 2%nat]
  | 4%nat => all [g 0%nat; g 1%nat; g 2%nat; g 3%nat]
  | _ => all (map g (seq 0 n))
  end.
(** vector.h:184-207 COMPONENTWISE_ASSIGN: the components are written one after the other; [f] may read the vector written to. *)
Definition set_at (v : list Z) (i : nat) (x : Z) : list Z := firstn i v ++ x :: skipn (i + 1) v.
Fixpoint assign_loop (ft t : ity) (f : list Z -> nat -> option Z) (todo : list nat) (v : list Z) : option (list Z) :=
  match todo with
  | [] => Some v
  | i :: r => x <- cast_from ft t (f v i) ;; assign_loop ft t f r (set_at v i x)
  end.
Definition assign (ft t : ity) (n : nat) (f : list Z -> nat -> option Z) (v : list Z) : option (list Z) :=
  assign_loop ft t f (seq 0 n) v.
(** vector.h:111-131 COMPONENTWISE_ACCUMULATE. *)
Fixpoint acc_loop (op : Z -> Z -> option Z) (f : nat -> option Z) (todo : list nat) (val : Z) : option Z :=
  match todo with
  | [] => Some val
  | i :: r => x <- f i ;; v <- op val x ;; acc_loop op f r v
  end.
Definition accumulate (op : Z -> Z -> option Z) (n : nat) (f : nat -> option Z) : option Z :=
  match n with
  | 0%nat => None
  | 1%nat => f 0%nat
  | 2%nat => a <- f 0%nat ;; b <- f 1%nat ;; op a b
  | 3%nat => a <- f 0%nat ;; b <- f 1%nat ;; ab <- op a b ;; c <- f 2%nat ;; op ab c
  | 4%nat => a <- f 0%nat ;; b <- f 1%nat ;; ab <- op a b ;; c <- f 2%nat ;; abc <- op ab c ;; d <- f 3%nat ;; op abc d
  | _ => a <- f 0%nat ;; b <- f 1%nat ;; ab <- op a b ;; c <- f 2%nat ;; abc <- op ab c ;; d <- f 3%nat ;; abcd <- op abc d ;;
         acc_loop op f (seq 4 (n - 4)) abcd
  end.
(** vector.h:67-87 COMPONENTWISE_AND. *)
Definition and_all (n : nat) (f : nat -> bool) : bool :=
  match n with
  | 0%nat => true
  | 1%nat => f 0%nat
  | 2%nat => f 0%nat && f 1%nat
  | 3%nat => f 0%nat && f 1%nat && f 2%nat
  | 4%nat => f 0%nat && f 1%nat && f 2%nat && f 3%nat
  | _ => forallb f (seq 0 n)
  end.

(* ------------------------------------------------------------------------ arithmetic *)

(** vector.h:1422-1439, 1516-1533, 1576-1593, 1615-1632, 1709-1726, 1748-1769, 1803-1820, 1842-1859 for integers. *)
Definition plus (t : ity) (n : nat) (v w : list Z) := construct (promote t) t n (fun i => add (promote t) (at_ v i) (at_ w i)).
Definition minus (t : ity) (n : nat) (v w : list Z) := construct (promote t) t n (fun i => sub (promote t) (at_ v i) (at_ w i)).
Definition times (t : ity) (n : nat) (v w : list Z) := construct (promote t) t n (fun i => mul (promote t) (at_ v i) (at_ w i)).
Definition times_scalar (t : ity) (n : nat) (v : list Z) (s : Z) :=
  construct (promote t) t n (fun i => mul (promote t) (at_ v i) s).
Definition divide (t : ity) (n : nat) (v w : list Z) := construct (promote t) t n (fun i => div (promote t) (at_ v i) (at_ w i)).
Definition divide_scalar (t : ity) (n : nat) (v : list Z) (s : Z) :=
  construct (promote t) t n (fun i => div (promote t) (at_ v i) s).
Definition modulo (t : ity) (n : nat) (v w : list Z) := construct (promote t) t n (fun i => rem (promote t) (at_ v i) (at_ w i)).
Definition modulo_scalar (t : ity) (n : nat) (v : list Z) (s : Z) :=
  construct (promote t) t n (fun i => rem (promote t) (at_ v i) s).
(** vector.h:1555-1566; for signed types only. *)
Definition negate (t : ity) (n : nat) (v : list Z) := construct (promote t) t n (fun i => neg (promote t) (at_ v i)).
(** math.h:403-436: the narrow types are computed in int and cast back. *)
Definition abs1 (t : ity) (x : Z) : option Z :=
  if isigned t then
    if ibits t <? 32 then y <- (if x <? 0 then neg int_ x else Some x) ;; Some (conv t y)
    else if x <? 0 then neg t x else Some x
  else Some x.
(** vector.h:2760-2775. *)
Definition vabs (t : ity) (n : nat) (v : list Z) : option (list Z) :=
  if isigned t then construct t t n (fun i => abs1 t (at_ v i)) else Some v.

(** The compound forms, vector.h:1442-1458, 1536-1552, 1596-1612, 1729-1745, 1823-1839; [self] true: the right-hand side is
    the vector itself, passed by reference. *)
Definition compound (op : ity -> Z -> Z -> option Z) (self : bool) (t : ity) (n : nat) (v w : list Z) : option (list Z) :=
  assign (promote t) t n (fun cur i => op (promote t) (at_ cur i) (at_ (if self then cur else w) i)) v.
(** vector.h:1642-1658, 1772-1793, 1862-1878: the scalar is passed by value. *)
Definition compound_scalar (op : ity -> Z -> Z -> option Z) (t : ity) (n : nat) (v : list Z) (s : Z) : option (list Z) :=
  assign (promote t) t n (fun cur i => op (promote t) (at_ cur i) s) v.

(* ----------------------------------------------------------------- sums and products *)

(** vector.h:1469-1499: [decltype(scalar_type{} + scalar_type{})] is the promoted type. *)
Definition vsum_wide (t : ity) (n : nat) (v : list Z) : option Z := accumulate (add t) n (fun i => Some (at_ v i)).
Definition vsum (t : ity) (n : nat) (v : list Z) : option Z :=
  match n with
  | 1%nat => Some (at_ v 0)
  | _ => let a := promote t in
         if negb (ity_eqb a t) then r <- vsum_wide a n (map (conv a) v) ;; Some (conv t r)
         else vsum_wide t n v
  end.
(** vector.h:1662-1692. *)
Definition vproduct_wide (t : ity) (n : nat) (v : list Z) : option Z := accumulate (mul t) n (fun i => Some (at_ v i)).
Definition vproduct (t : ity) (n : nat) (v : list Z) : option Z :=
  match n with
  | 1%nat => Some (at_ v 0)
  | _ => let a := promote t in
         if negb (ity_eqb a t) then r <- vproduct_wide a n (map (conv a) v) ;; Some (conv t r)
         else vproduct_wide t n v
  end.

(** meta.h:588-663 on integers: the same type; the three specialisations; otherwise [decltype(T{} + U{})]. *)
Definition ity_of (s : bool) (b : Z) : ity := {| isigned := s; ibits := b |}.
Definition highest_ranked (a b : ity) : ity :=
  if ity_eqb a b then a
  else if (ity_eqb a (ity_of true 8) && ity_eqb b (ity_of true 16)) || (ity_eqb b (ity_of true 8) && ity_eqb a (ity_of true 16))
       then ity_of true 16
  else if (ity_eqb a (ity_of false 8) && ity_eqb b (ity_of false 16)) || (ity_eqb b (ity_of false 8) && ity_eqb a (ity_of false 16))
       then ity_of false 16
  else if (ity_eqb a (ity_of false 8) && ity_eqb b (ity_of true 16)) || (ity_eqb b (ity_of false 8) && ity_eqb a (ity_of true 16))
       then ity_of true 16
  else common_type a b.
(** vector.h:251-252, 282-283. *)
Definition product_type (t : ity) : ity := highest_ranked (ity_of true (ibits t)) int_.
Definition requires_promotion (t : ity) : bool := negb (ity_eqb (product_type t) t).
Definition to_product (t : ity) (v : list Z) : list Z := if requires_promotion t then map (conv (product_type t)) v else v.

(** vector.h:1221-1238; the product type is the scalar type of the promoted vectors. *)
Definition dot (t : ity) (n : nat) (v w : list Z) : option Z :=
  let p := product_type t in let v := to_product t v in let w := to_product t w in
  accumulate (add p) n (fun i => mul p (at_ v i) (at_ w i)).
(** vector.h:1290-1308. *)
Definition cross (t : ity) (v w : list Z) : option (list Z) :=
  let p := product_type t in let v := to_product t v in let w := to_product t w in
  let term i j := a <- mul p (at_ v i) (at_ w j) ;; b <- mul p (at_ v j) (at_ w i) ;; sub p a b in
  all [term 1%nat 2%nat; term 2%nat 0%nat; term 0%nat 1%nat].

(* ---------------------------------------------------------------------------- shifts *)

(** vector.h:1891-1911: narrow and unsigned vectors are converted to the (signed) product type, shifted, and converted back. *)
Definition shift_left (std20 : bool) (t : ity) (n : nat) (v : list Z) (k : Z) : option (list Z) :=
  let p := product_type t in
  if requires_promotion t then
    r <- construct p p n (fun i => shl1 std20 p (at_ (to_product t v) i) k) ;; Some (map (conv t) r)
  else construct t t n (fun i => shl1 std20 t (at_ v i) k).
(** vector.h:1940-1960. *)
Definition shift_right (t : ity) (n : nat) (v : list Z) (k : Z) : option (list Z) :=
  let p := product_type t in
  if requires_promotion t then
    r <- construct p p n (fun i => shr1 p (at_ (to_product t v) i) k) ;; Some (map (conv t) r)
  else construct t t n (fun i => shr1 t (at_ v i) k).

(** vector.h:1916-1936, 1965-1985: the compound forms; promoted vectors go through the operators above. *)
Definition shift_left_assign (std20 : bool) (t : ity) (n : nat) (v : list Z) (k : Z) : option (list Z) :=
  if requires_promotion t then shift_left std20 t n v k
  else assign t t n (fun cur i => shl1 std20 t (at_ cur i) k) v.
Definition shift_right_assign (t : ity) (n : nat) (v : list Z) (k : Z) : option (list Z) :=
  if requires_promotion t then shift_right t n v k
  else assign t t n (fun cur i => shr1 t (at_ cur i) k) v.

(* ------------------------------------------------------------------------ comparison *)

(** vector.h:800-848 with vector_types_common.h:14-18. *)
Definition equal (t u : ity) (n : nat) (v w : list Z) : bool :=
  if ity_eqb t u then and_all n (fun i => at_ v i =? at_ w i)
  else let c := highest_ranked t u in and_all n (fun i => conv c (at_ v i) =? conv c (at_ w i)).
(** vector.h:856-870. *)
Definition not_equal (t u : ity) (n : nat) (v w : list Z) : bool := negb (equal t u n v w).
(** vector.h:879-888. *)
Definition zero (n : nat) (v : list Z) : bool := and_all n (fun i => at_ v i =? 0).

(** vector.h:2383-2401, 2434-2452: two vectors, and more. *)
Definition vmin2 (t : ity) (n : nat) (v w : list Z) := construct t t n (fun i => Some (min2 Z.ltb (at_ v i) (at_ w i))).
Definition vmax2 (t : ity) (n : nat) (v w : list Z) := construct t t n (fun i => Some (max2 Z.ltb (at_ v i) (at_ w i))).
Fixpoint vmin (t : ity) (n : nat) (v1 v2 : list Z) (vecs : list (list Z)) : option (list Z) :=
  match vecs with
  | [] => vmin2 t n v1 v2
  | v3 :: r => m <- vmin t n v2 v3 r ;; vmin2 t n v1 m
  end.
Fixpoint vmax (t : ity) (n : nat) (v1 v2 : list Z) (vecs : list (list Z)) : option (list Z) :=
  match vecs with
  | [] => vmax2 t n v1 v2
  | v3 :: r => m <- vmax t n v2 v3 r ;; vmax2 t n v1 m
  end.
(** vector.h:2405-2418, 2456-2468: a range of vectors; [vector{}] for the empty one. *)
Fixpoint fold_range (op : list Z -> list Z -> option (list Z)) (out : list Z) (l : list (list Z)) : option (list Z) :=
  match l with
  | [] => Some out
  | v :: r => o <- op out v ;; fold_range op o r
  end.
Definition range_op (op : list Z -> list Z -> option (list Z)) (n : nat) (l : list (list Z)) : option (list Z) :=
  match l with
  | [] => Some (repeat 0 n)
  | v :: r => fold_range op v r
  end.
(** vector.h:2422-2431, 2472-2481: an initializer_list. *)
Definition list_op (op : list Z -> list Z -> option (list Z)) (n : nat) (l : list (list Z)) : option (list Z) :=
  match l with
  | [] => Some (repeat 0 n)
  | [v] => Some v
  | [v; w] => op v w
  | _ => range_op op n l
  end.
(** vector.h:2491-2519. *)
Definition vclamp (t : ity) (n : nat) (v low high : list Z) :=
  construct t t n (fun i => Some (clamp Z.ltb (at_ v i) (at_ low i) (at_ high i))).
Definition vclamp_assign (t : ity) (n : nat) (v low high : list Z) :=
  assign t t n (fun cur i => Some (clamp Z.ltb (at_ cur i) (at_ low i) (at_ high i))) v.
