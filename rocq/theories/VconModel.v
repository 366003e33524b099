(** Model of the constructors and component access of muu::vector: include/muu/impl/vector_base.h and
    include/muu/vector.h:310-790, 2282-2376, 2524-2649.

    A vector of [n] dimensions is the list of its [n] components, of a scalar type [S] with value [zero] for [scalar_type{}].
    [None] as the result of a constructor means that the program is ill-formed (a constraint or a static_assert fails, or there
    is no such constructor); where it means undefined behaviour this is said. [cast] stands for [static_cast<scalar_type>] from
    the source's element type. *)
From Coq Require Import List Arith Bool.
Import ListNotations.

Section Construct.
  Context {S : Type} (zero : S).

  (* ------------------------------------------------------------ vector_base.h: storage *)

  (** vector_base.h:97-102: [storage_base(componentwise_tag, x_ = {}, y_ = {})]. *)
  Definition componentwise2 (args : list S) : option (list S) :=
    match args with
    | [] => Some [zero; zero]
    | [x] => Some [x; zero]
    | [x; y] => Some [x; y]
    | _ => None
    end.
  (** vector_base.h:183-190. *)
  Definition componentwise3 (args : list S) : option (list S) :=
    match args with
    | [] => Some [zero; zero; zero]
    | [x] => Some [x; zero; zero]
    | [x; y] => Some [x; y; zero]
    | [x; y; z] => Some [x; y; z]
    | _ => None
    end.
  (** vector_base.h:276-285. *)
  Definition componentwise4 (args : list S) : option (list S) :=
    match args with
    | [] => Some [zero; zero; zero; zero]
    | [x] => Some [x; zero; zero; zero]
    | [x; y] => Some [x; y; zero; zero]
    | [x; y; z] => Some [x; y; z; zero]
    | [x; y; z; w] => Some [x; y; z; w]
    | _ => None
    end.
  (** vector_base.h:349, initialised as [values{ args... }]: an array of [n] elements; those without an initialiser are
      value-initialised, too many initialisers are ill-formed. *)
  Definition values (n : nat) (args : list S) : option (list S) :=
    if length args <=? n then Some (args ++ repeat zero (n - length args)) else None.

  (** vector_base.h:54-70, 110-126, 199-215, 295-311, 396-410: the constructors tagged [array_cast_tag] and [tuple_cast_tag].
      With one dimension exactly one element is wanted (lines 60, 69). *)
  Definition cast_init (n : nat) (args : list S) : option (list S) :=
    match n with
    | 0 => None (* vector.h:236 *)
    | 1 => match args with [x] => Some [x] | _ => None end
    | 2 => componentwise2 args
    | 3 => componentwise3 args
    | 4 => componentwise4 args
    | _ => values n args
    end.
  (** vector_base.h:128-155, 217-244, 313-340, 420-442: the constructors tagged [tuple_concat_tag]; there is none with one
      dimension. *)
  Definition concat_init (n : nat) (args : list S) : option (list S) :=
    match n with
    | 0 => None
    | 1 => None
    | 2 => componentwise2 args
    | 3 => componentwise3 args
    | 4 => componentwise4 args
    | _ => values n args
    end.

  (* -------------------------------------------------------------- vector.h: constructors *)

  (** vector.h:393-395 with vector_base.h:50-52, 105-108, 193-197, 288-293, 383-394. *)
  Definition broadcast (n : nat) (x : S) : option (list S) :=
    match n with
    | 0 => None
    | 1 => Some [x]
    | 2 => Some [x; x]
    | 3 => Some [x; x; x]
    | 4 => Some [x; x; x; x]
    | _ => values n (map (fun _ => x) (seq 0 n))
    end.

  (** vector.h:336 with vector_base.h:43-46, 91-93, 177-179, 267-272, 360-380: one value per component. The single argument of
      the one-dimensional class is taken by the constructor of vector.h:393, which hides the inherited one. *)
  Definition from_scalars (n : nat) (args : list S) : option (list S) :=
    match n, args with
    | 0, _ => None
    | _, [] => None                                          (* the default constructor; see [default_init] *)
    | _, [x] => broadcast n x
    | 1, _ => None
    | 2, [x; y] => componentwise2 [x; y]
    | 2, _ => None
    | 3, [x; y] => componentwise3 [x; y; zero]
    | 3, [x; y; z] => componentwise3 [x; y; z]
    | 3, _ => None
    | 4, [x; y] => componentwise4 [x; y; zero; zero]
    | 4, [x; y; z] => componentwise4 [x; y; z; zero]
    | 4, [x; y; z; w] => componentwise4 [x; y; z; w]
    | 4, _ => None
    | _, [x; y] => values n [x; y; zero; zero]
    | _, [x; y; z] => values n [x; y; z; zero]
    | _, x :: y :: z :: w :: vals => if 4 + length vals <=? n then values n ([x; y; z; w] ++ vals) else None
    end.

  (** vector.h:402-416 and 442-456: an array, or std::array, of the vector's own scalar type. [bit_castable] is
      [build::supports_constexpr_bit_cast]; an object of the same size is then copied bit by bit. *)
  Definition from_array (bit_castable : bool) (n : nat) (arr : list S) : option (list S) :=
    let N := length arr in
    if (N <? n) || ((n =? N) && negb bit_castable) then cast_init n (map (fun i => nth i arr zero) (seq 0 N))
    else if (n =? N) && bit_castable then Some arr
    else None.

  (** vector.h:594-614: from a pointer and a count. [old] is what the uninitialised object held before. [vals] are the elements
      that may be read from the pointer on. The assumption in line 600 and reading past the end make it undefined ([None]).
      All-zero bytes are taken to be the value zero (line 611), as for integers and IEEE numbers. *)
  Fixpoint overwrite (old new : list S) : list S :=
    match old, new with
    | _ :: o, x :: r => x :: overwrite o r
    | _, _ => old
    end.
  Definition set_at (v : list S) (i : nat) (x : S) : list S := firstn i v ++ x :: skipn (i + 1) v.
  Definition memset_tail (n num : nat) (v : list S) : list S := firstn num v ++ repeat zero (n - num).

  Section Other.
    Context {A : Type} (cast : A -> S).

    (** vector.h:426-435 and 466-475: an array, or std::array, of another type. *)
    Definition from_other_array (n : nat) (arr : list A) : option (list S) :=
      if length arr <=? n then cast_init n (map cast arr) else None.
    (** vector.h:486-496: from a tuple. The elements may have different types; [A] is then their disjoint union. *)
    Definition from_tuple (n : nat) (tpl : list A) : option (list S) :=
      if length tpl <=? n then cast_init n (map cast tpl) else None.
    (** vector.h:530-535: from another vector, of any size. *)
    Definition from_vector (n : nat) (vec : list A) : option (list S) :=
      let D := length vec in cast_init n (map cast (firstn (if D <? n then D else n) vec)).
    (** vector.h:634-643: from a span of static extent. *)
    Definition from_static_span (n : nat) (vals : list A) : option (list S) :=
      if length vals <=? n then cast_init n (map cast vals) else None.
    (** vector.h:620-626: from a pointer alone; reading past the end is undefined. *)
    Definition from_pointer (n : nat) (vals : list A) : option (list S) :=
      if n <=? length vals then cast_init n (map cast (firstn n vals)) else None.
    (** vector.h:606-607. *)
    Fixpoint assign_from (i : nat) (vals : list A) (v : list S) : list S :=
      match vals with
      | [] => v
      | x :: r => assign_from (i + 1) r (set_at v i (cast x))
      end.
    (** vector.h:597-614 when the source's type is another one. *)
    Definition from_pointer_count_other (n : nat) (old : list S) (vals : list A) (num : nat) : option (list S) :=
      if (num <=? n) && (num <=? length vals) then
        let v := assign_from 0 (firstn num vals) old in
        Some (if num <? n then memset_tail n num v else v)
      else None.
  End Other.

  (** vector.h:597-614 when the source's type is the scalar type. *)
  Definition from_pointer_count_same (n : nat) (old vals : list S) (num : nat) : option (list S) :=
    if (num <=? n) && (num <=? length vals) then
      let v := overwrite old (firstn num vals) in
      Some (if num <? n then memset_tail n num v else v)
    else None.
  (** vector.h:650-654: from a span of dynamic extent. *)
  Definition from_dynamic_span_same (n : nat) (old vals : list S) : option (list S) :=
    from_pointer_count_same n old vals (length vals).
  Definition from_dynamic_span_other {A} (cast : A -> S) (n : nat) (old : list S) (vals : list A) : option (list S) :=
    from_pointer_count_other cast n old vals (length vals).

  (** vector.h:552-561: two vectors one after the other. *)
  Definition from_two {A B} (castA : A -> S) (castB : B -> S) (n : nat) (v1 : list A) (v2 : list B) : option (list S) :=
    if length v1 + length v2 <=? n then concat_init n (map castA v1 ++ map castB v2) else None.
  (** vector.h:577-586: a vector and then scalars (of any types: [B] is their disjoint union). *)
  Definition from_appended {A B} (castA : A -> S) (castB : B -> S) (n : nat) (v : list A) (vals : list B)
    : option (list S) :=
    if length v + length vals <=? n then concat_init n (map castA v ++ map castB vals) else None.

  (** vector.h:325 used as [vector{}]: the constructor is not user-provided, so the object is zero-initialised. *)
  Definition default_init (n : nat) : list S := repeat zero n.

  (** Which constructor initialises a vector of [n] dimensions from one other vector [vec] (ISO C++ dcl.init, over.match.ctor,
      over.match.copy, over.match.list): written [vector<S, n> r(vec)] or [r{ vec }], [r = vec], [r = { vec }].
      There are the explicit constructor of vector.h:533 and, when [vec] is not larger, the non-explicit one of vector.h:584
      without further values; the former is more specialised. Copy-initialisation leaves explicit constructors aside; in
      copy-list-initialisation they take part and make the program ill-formed when chosen. A vector of the very same type is
      copied (vector.h:329). *)
  Inductive form := Direct | Copy | CopyList.
  Definition init_from_vector {A} (cast : A -> S) (same_scalar : bool) (how : form) (n : nat) (vec : list A)
    : option (list S) :=
    if same_scalar && (length vec =? n) then Some (map cast vec)   (* cast is then the identity *)
    else match how with
         | Direct => from_vector cast n vec
         | Copy => from_appended cast (fun x : S => x) n vec []
         | CopyList => None
         end.

  (* ------------------------------------------------------------- vector.h: component access *)

  (** vector.h:665-684 [get<I>()]: the members x, y, z, w up to four dimensions, [values[I]] above. [None]: ill-formed. *)
  Definition get (n : nat) (v : list S) (i : nat) : option S :=
    if i <? n then
      if n <=? 4 then
        match i, v with
        | 0, x :: _ => Some x
        | 1, _ :: y :: _ => Some y
        | 2, _ :: _ :: z :: _ => Some z
        | 3, _ :: _ :: _ :: w :: _ => Some w
        | _, _ => None
        end
      else nth_error v i
    else None.
  (** vector.h:686-724 [operator[]]: the switch in constant evaluation, otherwise [*(&vec.x + dim)] or [values[dim]].
      [None]: the assumption in line 690 fails, undefined behaviour. *)
  Definition subscript (consteval_ : bool) (n : nat) (v : list S) (dim : nat) : option S :=
    if dim <? n then
      if (n <=? 4) && consteval_ then
        match dim with
        | 0 => nth_error v 0
        | 1 => if 1 <? n then nth_error v 1 else None
        | 2 => if 2 <? n then nth_error v 2 else None
        | 3 => if 3 <? n then nth_error v 3 else None
        | _ => None
        end
      else nth_error v dim
    else None.
  (** vector.h:776-787, 2287-2373: the elements seen by a loop over [begin(), end()], both pointers into [data()]. *)
  Definition iterate (n : nat) (v : list S) : list S := firstn n v.

  (** vector.h:2557-2566 [swizzle<Indices...>()]. *)
  Fixpoint gets (n : nat) (v : list S) (idx : list nat) : option (list S) :=
    match idx with
    | [] => Some []
    | i :: r =>
        match get n v i with
        | Some x => match gets n v r with Some l => Some (x :: l) | None => None end
        | None => None
        end
    end.
  Definition swizzle (n : nat) (v : list S) (idx : list nat) : option (list S) :=
    if (0 <? length idx) && forallb (fun i => i <? n) idx then
      match gets n v idx with
      | Some l => from_scalars (length idx) l
      | None => None
      end
    else None.
  (** vector.h:2603-2646. [one] is [scalar_constants::one]. *)
  Definition xy (n : nat) (v : list S) : option (list S) := if 2 <=? n then
    match get n v 0, get n v 1 with Some x, Some y => from_scalars 2 [x; y] | _, _ => None end else None.
  Definition xz (n : nat) (v : list S) : option (list S) := if 3 <=? n then
    match get n v 0, get n v 2 with Some x, Some z => from_scalars 2 [x; z] | _, _ => None end else None.
  Definition yx (n : nat) (v : list S) : option (list S) := if 2 <=? n then
    match get n v 1, get n v 0 with Some y, Some x => from_scalars 2 [y; x] | _, _ => None end else None.
  Definition xyz (n : nat) (v : list S) : option (list S) := if 3 <=? n then
    match get n v 0, get n v 1, get n v 2 with Some x, Some y, Some z => from_scalars 3 [x; y; z] | _, _, _ => None end
    else None.
  Definition xyz_with (last : S) (n : nat) (v : list S) : option (list S) := if 3 <=? n then
    match get n v 0, get n v 1, get n v 2 with
    | Some x, Some y, Some z => from_scalars 4 [x; y; z; last] | _, _, _ => None
    end else None.
End Construct.
