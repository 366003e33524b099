(** Models of span.h and static_array.h. *)
From Verif Require Import Words.
Local Open Scope N_scope.

(** A pointer into an array object: which object, and how many elements from its start.  [None] is the null pointer. *)
Definition ptr : Type := option (N * Z).
(** [p + n] ([expr.add]/4): undefined unless the result stays within the object of [len] elements or one past it. *)
Definition ptr_add (len : N) (p : ptr) (n : Z) : option ptr :=
  match p with
  | None => if (n =? 0)%Z then Some None else None
  | Some (o, k) => if ((0 <=? k + n) && (k + n <=? Z.of_N len))%Z then Some (Some (o, k + n)%Z) else None
  end.

(** A span<T, Extent>: [s_static] is [Some Extent], or [None] for dynamic_extent (span.h:93-226, the three [span_storage]s).
    [None] results are failed assertions. *)
Record span : Type := { s_ptr : ptr; s_size : N; s_static : option N }.

Section Span.
  (** The array the spans view: its id and its length; [sw] is the width of [size_t]. *)
  Variables (sw len : N).
  Definition dyn : N := 2 ^ sw - 1.                                         (* dynamic_extent *)

  (** span.h:108-116, 153-160, 197-206 constructors from pointer and count; span.h:251-270 the check of the count against a
      static extent. *)
  Definition span_new (ext : option N) (p : ptr) (n : N) : option span :=
    match ext, p with
    | None, None => if n =? 0 then Some {| s_ptr := p; s_size := n; s_static := None |} else None
    | None, Some _ => Some {| s_ptr := p; s_size := n; s_static := None |}
    | Some e, _ =>
        if (n =? e) && ((e =? 0) || match p with None => false | _ => true end)
        then Some {| s_ptr := p; s_size := e; s_static := ext |} else None
    end.
  (** span.h:275-296, 340-348 conversion from another span: the size of a dynamic one is not checked. *)
  Definition span_convert (ext : option N) (s : span) : option span :=
    match ext, s_ptr s with
    | None, p => span_new None p (s_size s)
    | Some e, p => if (e =? 0) || match p with None => false | _ => true end then Some {| s_ptr := p; s_size := e; s_static := ext |} else None
    end.
  (** span.h:606-622. *)
  Definition span_first (s : span) (n : N) : option span := if n <=? s_size s then span_new None (s_ptr s) n else None.
  Definition span_first_static (s : span) (n : N) : option span := if n <=? s_size s then span_new (Some n) (s_ptr s) n else None.
  (** span.h:626-641. *)
  Definition span_last (s : span) (n : N) : option span :=
    if n <=? s_size s then p <- ptr_add len (s_ptr s) (Z.of_N (s_size s - n)) ;; span_new None p n else None.
  Definition span_last_static (s : span) (n : N) : option span :=
    if n <=? s_size s then p <- ptr_add len (s_ptr s) (Z.of_N (s_size s - n)) ;; span_new (Some n) p n else None.
  (** span.h:667-681 [subspan(offset, count)], and 646-663 the static one. *)
  Definition span_sub (s : span) (o n : N) : option span :=
    if o <? s_size s then
      p <- ptr_add len (s_ptr s) (Z.of_N o) ;;
      if n =? dyn then span_new None p (s_size s - o)
      else if n <=? s_size s - o then span_new None p n else None
    else None.
  Definition span_sub_static (s : span) (o n : N) : option span :=
    if o <? s_size s then
      p <- ptr_add len (s_ptr s) (Z.of_N o) ;;
      if n =? dyn then span_new None p (s_size s - o)
      else if n <=? s_size s - o then span_new (Some n) p n else None
    else None.
  (** span.h:131-134, 174-177, 221-224 [empty]. *)
  Definition span_empty (s : span) : bool :=
    match s_static s with None => s_size s =? 0 | Some e => e =? 0 end.

  (** Reading through the span: span.h:511-528 [operator[]], [front], [back]; undefined outside the array. *)
  Definition load {A} (mem : list A) (p : ptr) : option A :=
    match p with Some (_, k) => if (k <? 0)%Z then None else nth_error mem (Z.to_nat k) | None => None end.
  Definition span_at {A} (mem : list A) (s : span) (i : N) : option A := p <- ptr_add len (s_ptr s) (Z.of_N i) ;; load mem p.
  Definition span_front {A} (mem : list A) (s : span) : option A := load mem (s_ptr s).
  Definition span_back {A} (mem : list A) (s : span) : option A :=
    p <- ptr_add len (s_ptr s) (Z.of_N (s_size s) - 1)%Z ;; load mem p.
  (** Iterating from [begin()] to [end()] (span.h:538-548). *)
  Fixpoint walk {A} (mem : list A) (fuel : nat) (p q : ptr) : option (list A) :=
    match p, q with
    | None, None => Some []
    | Some (o, k), Some (o', k') =>
        if (k =? k')%Z then Some []
        else match fuel with
             | O => None
             | S f => x <- load mem p ;; p' <- ptr_add len p 1 ;; r <- walk mem f p' q ;; Some (x :: r)
             end
    | _, _ => None
    end.
  Definition span_iterate {A} (mem : list A) (s : span) : option (list A) :=
    e <- ptr_add len (s_ptr s) (Z.of_N (s_size s)) ;; walk mem (length mem) (s_ptr s) e.
End Span.

(* ------------------------------------------------------------------ static_array *)

(** static_array<T, Elements...> is its list of elements (static_array.h:16-18, 32).  A zero-length array is not valid C++,
    so lists are meant to be non-empty. *)
Definition sa_size {A} (l : list A) : N := N.of_nat (length l).                           (* lines 42-47 *)
Definition sa_empty {A} (l : list A) : bool := 0 <? sa_size l.                            (* lines 49-55 *)
Definition sa_at {A} (l : list A) (i : N) : option A := nth_error l (N.to_nat i).         (* lines 34-39 *)
Definition sa_front {A} (l : list A) : option A := sa_at l 0.                             (* lines 57-63 *)
Definition sa_back {A} (l : list A) : option A := sa_at l (sa_size l - 1).                (* lines 65-71 *)
(** static_array.h:161-162 [is_equal]: the same type, hence the same elements. *)
Fixpoint sa_equal {A} (eqb : A -> A -> bool) (a b : list A) : bool :=
  match a, b with
  | [], [] => true
  | x :: a', y :: b' => eqb x y && sa_equal eqb a' b'
  | _, _ => false
  end.
(** static_array.h:164-191 [is_less], read with [is_equal<E...>] for the [is_equal<T, E...>] of line 167 (which does not
    compile).  Object 1 is [values], object 2 the other array's [values]; line 176 computes [last2] from [last1]. *)
Fixpoint sa_less_loop {A} (ltb : A -> A -> bool) (a b : list A) (fuel : nat) (first1 last1 first2 last2 : ptr) : option bool :=
  let eqp (p q : ptr) := match p, q with Some (o, k), Some (o', k') => (o =? o') && (k =? k')%Z | _, _ => false end in
  match fuel with
  | O => None
  | S f =>
      if negb (eqp first1 last1) && negb (eqp first2 last2) then
        x <- load a first1 ;;
        y <- load b first2 ;;
        if ltb x y then Some true
        else if ltb y x then Some false
        else
          p <- ptr_add (sa_size a) first1 1 ;;
          q <- ptr_add (sa_size b) first2 1 ;;
          sa_less_loop ltb a b f p last1 q last2
      else Some (eqp first1 last1 && negb (eqp first2 last2))
  end.
Definition sa_less {A} (eqb ltb : A -> A -> bool) (a b : list A) : option bool :=
  if sa_equal eqb a b then Some false
  else
    let first1 := Some (1, 0%Z) in
    let first2 := Some (2, 0%Z) in
    last1 <- ptr_add (sa_size a) first1 (Z.of_N (sa_size a)) ;;
    last2 <- ptr_add (sa_size a) last1 (Z.of_N (sa_size b)) ;;
    sa_less_loop ltb a b (S (length a)) first1 last1 first2 last2.
