(** Model of [muu::pointer_cast] (include/muu/pointer_cast.h).

    The function is a chain of [if constexpr] on the two types, calling itself with other types; what it does at run time is the
    sequence of C++ casts that is left. So the model has three parts: the types, the choice of casts (the function itself, [plan]),
    and what the C++ casts do ([allowed] for their rules, [value] for their results). *)
From Verif Require Import Words.
Import ListNotations.
Local Open Scope N_scope.

(* -------------------------------------------------------------------- types *)

Record cv := Cv { is_const : bool; is_volatile : bool }.
Definition no_cv : cv := Cv false false.
Definition is_cv (q : cv) : bool := is_const q || is_volatile q.
Definition cv_eqb (p q : cv) : bool := Bool.eqb (is_const p) (is_const q) && Bool.eqb (is_volatile p) (is_volatile q).
(** Every qualifier of [p] is one of [q]. *)
Definition cv_le (p q : cv) : bool := implb (is_const p) (is_const q) && implb (is_volatile p) (is_volatile q).

(** What can be pointed to. [Other] stands for arithmetic, enumeration, union and array types. *)
Inductive ty :=
| Void
| Other (k : nat)
| Class (c : nat)
| Func (signature : nat) (is_noexcept : bool)
| Ptr (q : cv) (t : ty).

Fixpoint ty_eqb (s t : ty) : bool :=
  match s, t with
  | Void, Void => true
  | Other i, Other j => Nat.eqb i j
  | Class i, Class j => Nat.eqb i j
  | Func i a, Func j b => Nat.eqb i j && Bool.eqb a b
  | Ptr p s, Ptr q t => cv_eqb p q && ty_eqb s t
  | _, _ => false
  end.
Definition is_void (t : ty) : bool := match t with Void => true | _ => false end.
Definition is_function (t : ty) : bool := match t with Func _ _ => true | _ => false end.
Definition is_pointer (t : ty) : bool := match t with Ptr _ _ => true | _ => false end.
(** meta.h:1656-1658 [remove_noexcept]. *)
Definition remove_noexcept (t : ty) : ty := match t with Func i _ => Func i false | _ => t end.

(** Integer and enumeration types: size in bytes, sign, whether an enumeration, and whether it is (its underlying type is)
    [intptr_t] or [uintptr_t]. *)
Record int_type := Int { bytes : N; is_signed : bool; is_enum : bool; is_intptr : bool }.

(** The types [From] and [To]: a pointer to a possibly qualified type, an integer or enumeration, or [nullptr_t]. *)
Inductive ptype := P (q : cv) (t : ty) | I (i : int_type) | Nullptr.

(* ---------------------------------------------------------------- hierarchy *)

(** The relation between a class and one of its proper bases: at a fixed distance, reached through virtual inheritance, or
    ambiguous. (All inheritance is public.) *)
Inductive link := Fixed (d : N) | Virtual | Ambiguous.
Record hierarchy := Hierarchy {
  derives : nat -> nat -> bool;                        (* derives d b: b is a proper base of d *)
  link_of : nat -> nat -> link;                        (* its kind, if so *)
  polymorphic : nat -> bool;
  parts : nat -> list (nat * N);                       (* all class subobjects of a complete object with their offsets, itself too *)
  within : nat -> nat * N -> list (nat * N)            (* those that are bases of one of these *)
}.
(** meta.h:1374-1378 [inherits_from]. *)
Definition inherits_from (h : hierarchy) (child parent : ty) : bool :=
  match child, parent with Class c, Class p => derives h c p | _, _ => false end.

(* --------------------------------------------------------------- the choice *)

Inductive step :=
| StaticCast (q : cv) (t : ty)      (* static_cast<q t*>(x), x a pointer *)
| ConstCast (q : cv) (t : ty)
| ReinterpretCast (q : cv) (t : ty)
| DynamicCast (q : cv) (t : ty)
| FromInt (q : cv) (t : ty)         (* reinterpret_cast<q t*>(x), x an integer *)
| ToInt (i : int_type)              (* reinterpret_cast<i>(x), x a pointer *)
| Convert (i : int_type)            (* static_cast<i>(x), x an integer or enumeration *)
| ValueInit (p : ptype).            (* return {} *)

(** [Rejected]: a static_assert fails. [Endless]: more nested calls than the fuel allows. *)
Inductive outcome := Casts (l : list step) | Rejected | Endless.
Definition and_then (a b : outcome) : outcome :=
  match a, b with
  | Casts k, Casts l => Casts (k ++ l)
  | Endless, _ | _, Endless => Endless
  | _, _ => Rejected
  end.

Section Choice.
  Context (h : hierarchy) (ptr : N).   (* sizeof(void* ) *)

  (** pointer_cast.h:84-85 and 138-272, both types pointers, [q1 from_base*] to [q2 to_base*]; the cases in the order of the code. [rebase_pointer]
      (meta.h:163-194, 1392) keeps the qualifiers of the type pointed to; function types have no qualifiers. The case for [IUnknown] on
      Windows is left out. *)
  Fixpoint plan_ptr (fuel : nat) (q1 : cv) (from_base : ty) (q2 : cv) (to_base : ty) : outcome :=
    match fuel with
    | O => Endless
    | S n =>
        if cv_eqb q1 q2 && ty_eqb from_base to_base then Casts []                                     (* 84-85 *)
        else if ty_eqb from_base to_base then                                                         (* 143 *)
          if is_cv q1 then Casts [ConstCast no_cv from_base; StaticCast q2 to_base]                   (* 148-149 *)
          else if cv_eqb q2 (Cv true (is_volatile q2)) || cv_eqb q2 (Cv true true) || cv_eqb q2 (Cv (is_const q2) true)
          then Casts [StaticCast q2 to_base]                                                          (* 154-156 *)
          else Rejected
        else if is_function from_base || is_function to_base then                                     (* 163 *)
          if is_function from_base && is_function to_base then
            if ty_eqb (remove_noexcept from_base) (remove_noexcept to_base) then
              if ty_eqb from_base (remove_noexcept from_base) then Casts [ReinterpretCast q2 to_base] (* 172-173 *)
              else Casts [StaticCast q2 to_base]                                                      (* 177 *)
            else Rejected
          else if is_function from_base then
            if is_void to_base then Casts [ReinterpretCast no_cv Void; StaticCast q2 to_base]         (* 183-187 *)
            else Rejected
          else if is_void from_base then and_then (plan_ptr n q1 from_base no_cv Void) (Casts [ReinterpretCast q2 to_base]) (* 193-197 *)
          else Rejected
        else if is_void from_base || is_void to_base || inherits_from h from_base to_base then        (* 204-207 *)
          and_then (Casts [StaticCast q1 to_base]) (plan_ptr n q1 to_base q2 to_base)
        else if inherits_from h to_base from_base then                                                (* 243-248 *)
          if match from_base with Class c => polymorphic h c | _ => false end
          then and_then (Casts [DynamicCast q1 to_base]) (plan_ptr n q1 to_base q2 to_base)
          else and_then (Casts [StaticCast q1 to_base]) (plan_ptr n q1 to_base q2 to_base)
        else if is_pointer from_base then                                                             (* 252-254 *)
          and_then (Casts [StaticCast q1 Void]) (plan_ptr n q1 Void q2 to_base)
        else if is_pointer to_base then                                                               (* 258-261 *)
          and_then (plan_ptr n q1 from_base q2 Void) (Casts [StaticCast q2 to_base])
        else and_then (Casts [ReinterpretCast q1 to_base]) (plan_ptr n q1 to_base q2 to_base)         (* 265-270 *)
    end.

  Definition intptr (s : bool) : int_type := Int ptr s false true.

  (** pointer_cast.h:55-273 [pointer_cast<To>(From)]. The size check on function pointers (79-81) holds on every platform that is modelled. *)
  Definition plan (from to : ptype) : outcome :=
    match from, to with
    | I _, I _ => Rejected                                                                            (* 62-63 *)
    | _, Nullptr => Rejected                                                                          (* 64-67 *)
    | Nullptr, I i => if ptr <=? bytes i then Casts [ValueInit to] else Rejected                      (* 64-65, 88-91 *)
    | Nullptr, P _ _ => Casts [ValueInit to]
    | P _ _, I i =>
        if negb (ptr <=? bytes i) then Rejected                                                       (* 64-65 *)
        else if is_enum i || (ptr <? bytes i) then Casts [ToInt (intptr (is_signed i)); Convert i]    (* 104-107 *)
        else Casts [ToInt i]                                                                          (* 110-113 *)
    | I i, P q t =>
        if negb (ptr <=? bytes i) then Rejected                                                       (* 68-72 *)
        else
          let '(pre, j) := if is_enum i then let j := Int (bytes i) (is_signed i) false (is_intptr i) in ([Convert j], j) else ([], i) in (* 121-122 *)
          Casts (pre ++ (if is_intptr j then [FromInt q t] else [Convert (intptr (is_signed j)); FromInt q t]))  (* 125-132 *)
    | P q1 s, P q2 t => plan_ptr 4 q1 s q2 t
    end.
End Choice.

(* ------------------------------------------------------ the rules of the casts *)

(** C++17 [expr.static.cast], [conv.ptr], [conv.qual], [expr.const.cast], [expr.reinterpret.cast], [expr.dynamic.cast] for the pointer types above.
    Only what is at the top level of the type pointed to is compared: for [reinterpret_cast] that is the rule about casting away
    constness if not both types are pointers to pointers, which is how it is used. Conversion between function and object pointers
    is conditionally supported; it is assumed to be. *)
Section Rules.
  Context (h : hierarchy) (ptr : N).
  Definition static_ok (q1 : cv) (s : ty) (q2 : cv) (t : ty) : bool :=
    match s, t with
    | Func i a, Func j b => Nat.eqb i j && implb b a
    | Func _ _, _ | _, Func _ _ => false
    | Void, _ | _, Void => cv_le q1 q2
    | Class c, Class d =>
        cv_le q1 q2 &&
        (Nat.eqb c d
         || (derives h c d && match link_of h c d with Ambiguous => false | _ => true end)
         || (derives h d c && match link_of h d c with Fixed _ => true | _ => false end))
    | _, _ => ty_eqb s t && cv_le q1 q2
    end.
  Definition const_ok (s t : ty) : bool := ty_eqb s t && negb (is_function s).
  Definition reinterpret_ok (q1 : cv) (s : ty) (q2 : cv) (t : ty) : bool :=
    if is_function s || is_function t then true else cv_le q1 q2 && negb (is_pointer s && is_pointer t).
  Definition dynamic_ok (q1 : cv) (s : ty) (q2 : cv) (t : ty) : bool :=
    match s, t with Class c, Class d => cv_le q1 q2 && derives h d c && polymorphic h c | _, _ => false end.

  Definition allowed (from : ptype) (s : step) : option ptype :=
    match from, s with
    | P q1 a, StaticCast q2 b => if static_ok q1 a q2 b then Some (P q2 b) else None
    | P q1 a, ConstCast q2 b => if const_ok a b then Some (P q2 b) else None
    | P q1 a, ReinterpretCast q2 b => if reinterpret_ok q1 a q2 b then Some (P q2 b) else None
    | P q1 a, DynamicCast q2 b => if dynamic_ok q1 a q2 b then Some (P q2 b) else None
    | I i, FromInt q t => Some (P q t)
    | P _ _, ToInt i => if (ptr <=? bytes i) && negb (is_enum i) then Some (I i) else None
    | I _, Convert i => Some (I i)
    | Nullptr, ValueInit p => Some p
    | _, _ => None
    end.
  (** The type after a list of casts, if all of them are allowed. *)
  Fixpoint typed (from : ptype) (l : list step) : option ptype :=
    match l with [] => Some from | s :: r => p <- allowed from s ;; typed p r end.
End Rules.

(* ----------------------------------------------------- what the casts compute *)

(** A pointer is its address, null is 0; an integer is its bits. The memory lists the complete objects of class type by address.
    C++ keeps different objects of one class at different addresses, so that a class and an address name one subobject. *)
Definition memory := list (N * nat).
Section Values.
  Context (h : hierarchy) (ptr : N) (m : memory).

  Definition has_part (k c : nat) (o : N) : bool := existsb (fun p => Nat.eqb (fst p) c && (snd p =? o)) (parts h k).
  (** The complete object of which there is a subobject of class [c] at address [a]. *)
  Definition locate (c : nat) (a : N) : option (N * nat) := find (fun e => (fst e <=? a) && has_part (snd e) c (a - fst e)) m.

  (** The offsets in [k] of the [b] subobjects of the subobject [p]. *)
  Definition bases_in (k : nat) (p : nat * N) (b : nat) : list N := map snd (filter (fun x => Nat.eqb (fst x) b) (within h k p)).
  (** The offsets in [k] of the [d] subobjects that have the [b] subobject at [o] as a base. *)
  Definition owners (k d b : nat) (o : N) : list N :=
    map snd (filter (fun x => Nat.eqb (fst x) d && existsb (N.eqb o) (bases_in k x b)) (parts h k)).

  (** [conv.ptr]/3: to the base [b] of the [d] at address [a]. *)
  Definition upcast (d b : nat) (a : N) : option N :=
    if a =? 0 then Some 0
    else match link_of h d b with
         | Fixed x => Some (a + x)
         | Virtual => e <- locate d a ;; match bases_in (snd e) (d, a - fst e) b with [o] => Some (fst e + o) | _ => None end
         | Ambiguous => None
         end.
  (** [expr.static.cast]/11: undefined unless there is a [d] around the [b]. *)
  Definition downcast (b d : nat) (a : N) : option N :=
    if a =? 0 then Some 0
    else match link_of h d b with
         | Fixed x => if x <=? a then match locate d (a - x) with Some _ => Some (a - x) | None => None end else None
         | _ => None
         end.
  (** [expr.dynamic.cast]/8, all inheritance public. Undefined if there is no object. *)
  Definition dynamic (b d : nat) (a : N) : option N :=
    if a =? 0 then Some 0
    else
      e <- locate b a ;;
      Some (match owners (snd e) d b (a - fst e) with
            | [o] => fst e + o
            | _ => match filter (fun x => Nat.eqb (fst x) d) (parts h (snd e)) with [(_, o)] => fst e + o | _ => 0 end
            end).

  Definition sign_extend (w1 w2 n : N) : N := if 2 ^ (w1 - 1) <=? n then n + (2 ^ w2 - 2 ^ w1) else n.
  (** [conv.integral] between sizes [w1] and [w2] in bits. *)
  Definition convert_int (signed1 : bool) (w1 w2 n : N) : N :=
    if w2 <=? w1 then n mod 2 ^ w2 else if signed1 then sign_extend w1 w2 n else n.

  Definition value (from : ptype) (s : step) (x : N) : option N :=
    match from, s with
    | P _ (Class c), StaticCast _ (Class d) =>
        if Nat.eqb c d then Some x else if derives h c d then upcast c d x else if derives h d c then downcast c d x else None
    | P _ (Class c), DynamicCast _ (Class d) => dynamic c d x
    | P _ _, (StaticCast _ _ | ConstCast _ _ | ReinterpretCast _ _) => Some x
    | I i, FromInt _ _ => Some (x mod 2 ^ (8 * ptr))
    | P _ _, ToInt i => Some x
    | I i, Convert j => Some (convert_int (is_signed i) (8 * bytes i) (8 * bytes j) x)
    | Nullptr, ValueInit _ => Some 0
    | _, _ => None
    end.
  Fixpoint run (from : ptype) (l : list step) (x : N) : option N :=
    match l with [] => Some x | s :: r => y <- value from s x ;; p <- allowed h ptr from s ;; run p r y end.

  (** The call: [None] if it does not compile or its behaviour is undefined. *)
  Definition pointer_cast (from to : ptype) (x : N) : option N :=
    match plan h ptr from to with Casts l => run from l x | _ => None end.
End Values.
