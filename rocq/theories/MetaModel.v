(** Model of the type functions of include/muu/meta.h that take types apart and put them together again: qualifiers and references,
    signedness, enums and pointers, picking a type from a list, function types, and how a parameter is passed.

    A type is a tree. Qualifiers sit where C++ keeps them: on objects, pointers and pointers to member functions; an array has the
    qualifiers of its elements; functions and references have none. So two trees are equal exactly when C++ says the types are the same.

    Left out: vectors and matrices of anything but arithmetic types; [__fp16]; pointers to data members; [operator()] that is a static
    member function; the traits that only ask whether an expression compiles. *)
From Verif Require Import Words.
Import ListNotations.
Local Open Scope N_scope.

(* ------------------------------------------------------------------ types *)

Inductive aty :=
| TBool | TChar | TSChar | TUChar | TShort | TUShort | TInt | TUInt | TLong | TULong | TLLong | TULLong | TInt128 | TUInt128
| TChar8 | TChar16 | TChar32 | TWChar | THalf | TFloat16 | TFloat | TDouble | TLDouble | TFloat128.

Definition aty_num (a : aty) : N :=
  match a with
  | TBool => 0 | TChar => 1 | TSChar => 2 | TUChar => 3 | TShort => 4 | TUShort => 5 | TInt => 6 | TUInt => 7 | TLong => 8
  | TULong => 9 | TLLong => 10 | TULLong => 11 | TInt128 => 12 | TUInt128 => 13 | TChar8 => 14 | TChar16 => 15 | TChar32 => 16
  | TWChar => 17 | THalf => 18 | TFloat16 => 19 | TFloat => 20 | TDouble => 21 | TLDouble => 22 | TFloat128 => 23
  end.
Definition aty_eqb (a b : aty) : bool := aty_num a =? aty_num b.

(** What an object type can be besides pointers and arrays. [OVec None _] is the name [vector<void, n>]. *)
Inductive obj :=
| OVoid
| OArith (a : aty)
| OEnum (id : N) (under : aty)
| OClass (id : N)
| OVec (s : option aty) (n : N)
| OMat (s : option aty) (n m : N)
| OQuat (s : aty).

(** How a member function (or a function type of that kind) is qualified. *)
Inductive refk := RNone | RL | RR.
Record fqual := { fq_c : bool; fq_v : bool; fq_r : refk }.
Definition fq_plain (q : fqual) : bool :=
  negb (fq_c q) && negb (fq_v q) && match fq_r q with RNone => true | _ => false end.

(** [cc] is the calling convention, 0 the one meant when none is written; [va] says the parameters end in an ellipsis. *)
Inductive ty :=
| Obj (c v : bool) (b : obj)
| Ptr (c v : bool) (t : ty)
| Arr (n : option N) (t : ty)
| Fun (q : fqual) (cc : N) (va ne : bool) (r : ty) (ps : list ty)
| Mem (c v : bool) (cls : N) (q : fqual) (cc : N) (va ne : bool) (r : ty) (ps : list ty)
| LRef (t : ty)
| RRef (t : ty).

(** What a platform and the classes of a program fix: whether [wchar_t] is signed (32 bits, else 16 and unsigned), whether [long] has
    64 bits, the calling conventions the header lists for functions and for member functions
    (impl/preprocessor_for_each_attributes.h:128-176, 179-), and, for every class, the type of [&T::operator()] if that names one
    function and the type of [+t] if that is a pointer to a function. *)
Record plat := {
  p_wsigned : bool;
  p_long64 : bool;
  p_ccs : list N;
  p_mccs : list N;
  p_call : N -> option ty;
  p_plus : N -> option ty }.

Definition has (l : list N) (x : N) : bool := existsb (N.eqb x) l.

(* ------------------------------------------------------------------ the standard's type functions *)

Fixpoint s_is_const (t : ty) : bool :=
  match t with Obj c _ _ => c | Ptr c _ _ => c | Arr _ u => s_is_const u | Mem c _ _ _ _ _ _ _ _ => c | _ => false end.
Fixpoint s_is_volatile (t : ty) : bool :=
  match t with Obj _ v _ => v | Ptr _ v _ => v | Arr _ u => s_is_volatile u | Mem _ v _ _ _ _ _ _ _ => v | _ => false end.
Fixpoint s_set_c (x : bool) (t : ty) : ty :=
  match t with
  | Obj _ v b => Obj x v b
  | Ptr _ v u => Ptr x v u
  | Arr n u => Arr n (s_set_c x u)
  | Mem _ v k q cc va ne r ps => Mem x v k q cc va ne r ps
  | _ => t
  end.
Fixpoint s_set_v (x : bool) (t : ty) : ty :=
  match t with
  | Obj c _ b => Obj c x b
  | Ptr c _ u => Ptr c x u
  | Arr n u => Arr n (s_set_v x u)
  | Mem c _ k q cc va ne r ps => Mem c x k q cc va ne r ps
  | _ => t
  end.
Definition s_add_const := s_set_c true.
Definition s_remove_const := s_set_c false.
Definition s_add_volatile := s_set_v true.
Definition s_remove_volatile := s_set_v false.
Definition s_remove_cv (t : ty) : ty := s_remove_volatile (s_remove_const t).
Definition s_remove_reference (t : ty) : ty := match t with LRef u => u | RRef u => u | _ => t end.
(** Types a reference or pointer can be made to: not void, and not a function type with qualifiers. *)
Definition s_void (t : ty) : bool := match t with Obj _ _ OVoid => true | _ => false end.
Definition s_abominable (t : ty) : bool := match t with Fun q _ _ _ _ _ => negb (fq_plain q) | _ => false end.
Definition s_add_lref (t : ty) : ty :=
  match t with
  | LRef u => LRef u
  | RRef u => LRef u
  | _ => if s_void t || s_abominable t then t else LRef t
  end.
Definition s_add_rref (t : ty) : ty :=
  match t with
  | LRef u => LRef u
  | RRef u => RRef u
  | _ => if s_void t || s_abominable t then t else RRef t
  end.
Definition s_add_pointer (t : ty) : ty :=
  let u := s_remove_reference t in if s_abominable u then u else Ptr false false u.
Definition s_remove_pointer (t : ty) : ty := match t with Ptr _ _ u => u | _ => t end.
Definition s_is_pointer (t : ty) : bool := match t with Ptr _ _ _ => true | _ => false end.
Definition s_is_reference (t : ty) : bool := match t with LRef _ => true | RRef _ => true | _ => false end.
Definition s_is_function (t : ty) : bool := match t with Fun _ _ _ _ _ _ => true | _ => false end.

(* ------------------------------------------------------------------ qualifiers and references *)

(** meta.h:133-147. *)
Definition rebase_ref_ (t u : ty) : ty := match t with LRef _ => s_add_lref u | RRef _ => s_add_rref u | _ => u end.
(** meta.h:149-163. *)
Definition copy_ref_ (t f : ty) : ty :=
  match f with
  | LRef _ => s_add_lref (s_remove_reference t)
  | RRef _ => s_add_rref (s_remove_reference t)
  | _ => s_remove_reference t
  end.
(** meta.h:38. *)
Definition remove_cvref (t : ty) : ty := s_remove_cv (s_remove_reference t).
(** meta.h:1250-1280 (const). *)
Definition is_const (t : ty) : bool := s_is_const (s_remove_reference t).
Definition add_const (t : ty) : ty := rebase_ref_ t (s_add_const (s_remove_reference t)).
Definition remove_const (t : ty) : ty := rebase_ref_ t (s_remove_const (s_remove_reference t)).
Definition set_const (t : ty) (x : bool) : ty := if x then add_const t else remove_const t.
Definition conditionally_add_const (t : ty) (x : bool) : ty := if x then add_const t else t.
Definition copy_const (t f : ty) : ty := set_const t (is_const f).
(** meta.h:1282-1312 (volatile). *)
Definition is_volatile (t : ty) : bool := s_is_volatile (s_remove_reference t).
Definition add_volatile (t : ty) : ty := rebase_ref_ t (s_add_volatile (s_remove_reference t)).
Definition remove_volatile (t : ty) : ty := rebase_ref_ t (s_remove_volatile (s_remove_reference t)).
Definition set_volatile (t : ty) (x : bool) : ty := if x then add_volatile t else remove_volatile t.
Definition conditionally_add_volatile (t : ty) (x : bool) : ty := if x then add_volatile t else t.
Definition copy_volatile (t f : ty) : ty := set_volatile t (is_volatile f).
(** meta.h:1314-1334 (both). *)
Definition add_cv (t : ty) : ty := rebase_ref_ t (s_add_volatile (s_add_const (s_remove_reference t))).
Definition remove_cv (t : ty) : ty := rebase_ref_ t (s_remove_volatile (s_remove_const (s_remove_reference t))).
Definition set_cv (t : ty) (x : bool) : ty := if x then add_cv t else remove_cv t.
Definition conditionally_add_cv (t : ty) (x : bool) : ty := if x then add_cv t else t.
Definition copy_cv (t f : ty) : ty := copy_const (copy_volatile t f) f.
(** meta.h:24-25, 1336-1352. *)
Definition is_cv (t : ty) : bool := s_is_const t || s_is_volatile t.
Definition any_cv (l : list ty) : bool := existsb is_cv l.
Definition all_cv (l : list ty) : bool := negb (match l with [] => true | _ => false end) && forallb is_cv l.
Definition is_cvref (t : ty) : bool := s_is_const t || s_is_volatile t || s_is_reference t.
(** meta.h:1362-1372. *)
Definition copy_ref (t f : ty) : ty := copy_ref_ t f.
Definition copy_cvref (t f : ty) : ty := copy_ref (copy_cv (s_remove_reference t) (s_remove_reference f)) f.
Definition make_cref (t : ty) : ty := s_add_lref (s_add_const (remove_cvref t)).
(** meta.h:733-753, 807-813. *)
Definition remove_lvalue_reference (t : ty) : ty := match t with LRef u => u | _ => t end.
Definition remove_rvalue_reference (t : ty) : ty := match t with RRef u => u | _ => t end.

(* ------------------------------------------------------------------ enums, signedness, pointers *)

(** meta.h:758-805. The specialisations for qualifiers and references peel one layer each; [const volatile] is one layer. *)
Definition is_enum_type (t : ty) : bool := match s_remove_reference t with Obj _ _ (OEnum _ _) => true | _ => false end.
Definition remove_enum_obj (t : ty) : ty :=
  match t with Obj c v (OEnum _ u) => Obj c v (OArith u) | _ => t end.
Definition remove_enum (t : ty) : ty :=
  if is_enum_type t then
    match t with
    | LRef u => s_add_lref (remove_enum_obj u)
    | RRef u => s_add_rref (remove_enum_obj u)
    | _ => remove_enum_obj t
    end
  else t.

(** The scalar tables, meta.h:327-440 and 487-576; [None] is [void]. *)
Definition sgn_scalar (P : plat) (a : aty) : option aty :=
  match a with
  | TChar => Some TSChar | TSChar => Some TSChar | TUChar => Some TSChar
  | TShort => Some TShort | TUShort => Some TShort
  | TInt => Some TInt | TUInt => Some TInt
  | TLong => Some TLong | TULong => Some TLong
  | TLLong => Some TLLong | TULLong => Some TLLong
  | THalf => Some THalf | TFloat => Some TFloat | TDouble => Some TDouble | TLDouble => Some TLDouble
  | TInt128 => Some TInt128 | TUInt128 => Some TInt128
  | TFloat128 => Some TFloat128 | TFloat16 => Some TFloat16
  | TWChar => Some (if p_wsigned P then TWChar else TShort)     (* signed_integer<16> is short, meta.h:97-126 *)
  | _ => None
  end.
Definition uns_scalar (P : plat) (a : aty) : option aty :=
  match a with
  | TChar => Some TUChar | TSChar => Some TUChar | TUChar => Some TUChar
  | TShort => Some TUShort | TUShort => Some TUShort
  | TInt => Some TUInt | TUInt => Some TUInt
  | TLong => Some TULong | TULong => Some TULong
  | TLLong => Some TULLong | TULLong => Some TULLong
  | TChar32 => Some TChar32 | TChar16 => Some TChar16 | TChar8 => Some TChar8
  | TInt128 => Some TUInt128 | TUInt128 => Some TUInt128
  | TWChar => Some (if p_wsigned P then TUInt else TWChar)      (* unsigned_integer<32> is unsigned int, meta.h:60-95 *)
  | _ => None
  end.
Definition arith_or_void (a : option aty) : obj := match a with Some a => OArith a | None => OVoid end.
Definition bind_scalar (f : aty -> option aty) (s : option aty) : option aty := match s with Some a => f a | None => None end.
Definition sgn_obj (P : plat) (b : obj) : obj :=
  match b with
  | OArith a => arith_or_void (sgn_scalar P a)
  | OVec s n => OVec (bind_scalar (sgn_scalar P) s) n          (* meta.h:441-445 *)
  | OMat s n m => OMat (bind_scalar (sgn_scalar P) s) n m      (* meta.h:451-455 *)
  | OQuat s => OQuat s                                         (* meta.h:446-450 *)
  | _ => OVoid
  end.
Definition uns_obj (P : plat) (b : obj) : obj :=
  match b with
  | OArith a => arith_or_void (uns_scalar P a)
  | OVec s n => OVec (bind_scalar (uns_scalar P) s) n          (* meta.h:577-581 *)
  | OMat s n m => OMat (bind_scalar (uns_scalar P) s) n m      (* meta.h:582-586 *)
  | _ => OVoid
  end.
(** meta.h:297-326, 457-486, 1394-1402: qualifiers and references are peeled and put back; what the tables do not name is [void], and a
    qualified pointer or array of qualified elements matches the qualifier specialisations too. *)
Definition sign_with (f : obj -> obj) (t : ty) : ty :=
  match t with
  | Obj c v b => Obj c v (f b)
  | Ptr c v _ => Obj c v OVoid
  | Mem c v _ _ _ _ _ _ _ => Obj c v OVoid
  | Arr _ _ => Obj (s_is_const t) (s_is_volatile t) OVoid
  | _ => Obj false false OVoid
  end.
Definition sign_ref (f : obj -> obj) (t : ty) : ty :=
  match t with
  | LRef u => s_add_lref (sign_with f u)
  | RRef u => s_add_rref (sign_with f u)
  | _ => sign_with f t
  end.
Definition make_signed (P : plat) (t : ty) : ty := sign_ref (sgn_obj P) t.
Definition make_unsigned (P : plat) (t : ty) : ty := sign_ref (uns_obj P) t.
(** meta.h:1065-1119: [std::is_signed] and [std::is_unsigned] on what is left without qualifiers, reference and enum. [char] is signed
    on the platforms the header targets. *)
Definition a_signed (P : plat) (a : aty) : bool :=
  match a with
  | TChar | TSChar | TShort | TInt | TLong | TLLong | TInt128 | THalf | TFloat16 | TFloat | TDouble | TLDouble | TFloat128 => true
  | TWChar => p_wsigned P
  | _ => false
  end.
Definition a_unsigned (P : plat) (a : aty) : bool :=
  match a with
  | TBool | TUChar | TUShort | TUInt | TULong | TULLong | TUInt128 | TChar8 | TChar16 | TChar32 => true
  | TWChar => negb (p_wsigned P)
  | _ => false
  end.
Definition arith_of (t : ty) : option aty := match remove_enum (remove_cvref t) with Obj _ _ (OArith a) => Some a | _ => None end.
Definition is_signed (P : plat) (t : ty) : bool := match arith_of t with Some a => a_signed P a | None => false end.
Definition is_unsigned (P : plat) (t : ty) : bool := match arith_of t with Some a => a_unsigned P a | None => false end.
(** meta.h:1404-1418. *)
Definition set_signed (P : plat) (t : ty) (x : bool) : ty := if x then make_signed P t else make_unsigned P t.
Definition copy_signed (P : plat) (t f : ty) : ty := set_signed P t (is_signed P f).
Definition set_unsigned (P : plat) (t : ty) (x : bool) : ty := if x then make_unsigned P t else make_signed P t.
Definition copy_unsigned (P : plat) (t f : ty) : ty := set_unsigned P t (is_unsigned P f).

(** meta.h:165-195, 1390-1392: the three specialisations match only pointers that are not themselves qualified. [None]: the
    [static_assert]. *)
Definition rebase_pointer_obj (t u : ty) : option ty :=
  match t with
  | Ptr false false p =>
      if s_is_const p && s_is_volatile p then Some (s_add_pointer (s_add_const (s_add_volatile u)))
      else if s_is_volatile p then Some (s_add_pointer (s_add_volatile u))
      else if s_is_const p then Some (s_add_pointer (s_add_const u))
      else Some (s_add_pointer u)
  | Ptr _ _ _ => Some (s_add_pointer u)
  | _ => None
  end.
Definition rebase_pointer (t u : ty) : option ty :=
  match t with
  | LRef p => option_map s_add_lref (rebase_pointer_obj p u)
  | RRef p => option_map s_add_rref (rebase_pointer_obj p u)
  | _ => rebase_pointer_obj t u
  end.

(** meta.h:670-697, 1440-1448. *)
Fixpoint pointer_rank (t : ty) : N := match t with Ptr _ _ u => 1 + pointer_rank u | _ => 0 end.
Fixpoint remove_all_pointers (t : ty) : ty := match t with Ptr _ _ u => remove_all_pointers u | _ => t end.

(* ------------------------------------------------------------------ picking from a list *)

(** meta.h:208-225 [largest_], 228-245 [smallest_], 257-294 [most_aligned_], [least_aligned_]: [f] is the size or the alignment, 0 for
    void and functions (meta.h:199-205, 248-254). The list is never empty. *)
Fixpoint pick {A} (better : N -> N -> bool) (f : A -> N) (t : A) (l : list A) : A :=
  match l with
  | [] => t
  | u :: l' => let r := pick better f u l' in if better (f r) (f t) then r else t
  end.
Definition largest {A} (f : A -> N) (t : A) (l : list A) : A := pick (fun a b => b <? a) f t l.
Definition smallest {A} (f : A -> N) (t : A) (l : list A) : A := pick N.ltb f t l.
(** meta.h:825-828, a left fold from 0 of type [size_t] ([w] bits). *)
Definition total_size {A} (w : N) (f : A -> N) (l : list A) : N := fold_left (fun s t => (s + f t) mod 2 ^ w) l 0.
(** meta.h:858-883 [index_of_type]; [None]: the [static_assert]. *)
Fixpoint index_of_type_ {A} (eqb : A -> A -> bool) (t : A) (i : N) (l : list A) : option N :=
  match l with
  | [] => None
  | u :: l' => if eqb t u then Some i else index_of_type_ eqb t (i + 1) l'
  end.
Definition index_of_type {A} (eqb : A -> A -> bool) (t : A) (l : list A) : option N := index_of_type_ eqb t 0 l.
(** meta.h:886-918 [type_at_index] without the compiler's builtin. *)
Fixpoint type_at_index {A} (i : nat) (l : list A) : option A :=
  match l, i with
  | t :: _, O => Some t
  | _ :: l', S k => type_at_index k l'
  | [], _ => None
  end.

(** The language's rules for [a + b] on arithmetic types. An integer type after promotion has a rank and a sign. *)
Definition int_of (a : aty) : option (N * bool) :=
  match a with
  | TInt => Some (0, true) | TUInt => Some (0, false) | TLong => Some (1, true) | TULong => Some (1, false)
  | TLLong => Some (2, true) | TULLong => Some (2, false) | TInt128 => Some (3, true) | TUInt128 => Some (3, false)
  | _ => None
  end.
Definition of_int (r : N) (s : bool) : aty :=
  match r with
  | 0 => if s then TInt else TUInt
  | 1 => if s then TLong else TULong
  | 2 => if s then TLLong else TULLong
  | _ => if s then TInt128 else TUInt128
  end.
Definition int_bits (P : plat) (r : N) : N := match r with 0 => 32 | 1 => if p_long64 P then 64 else 32 | 2 => 64 | _ => 128 end.
Definition promoted (P : plat) (a : aty) : aty :=
  match a with
  | TBool | TChar | TSChar | TUChar | TShort | TUShort | TChar8 | TChar16 | TWChar => TInt
  | TChar32 => TUInt
  | _ => a
  end.
Definition float_rank (a : aty) : option N :=
  match a with
  | THalf => Some 0 | TFloat16 => Some 1 | TFloat => Some 2 | TDouble => Some 3 | TLDouble => Some 4 | TFloat128 => Some 5 | _ => None
  end.
(** The type of [a{} + b{}]. [half] has operators for every arithmetic type (half.h:450-480): it stays a [half] against an integer and
    becomes the other type against a floating-point one. *)
Definition plus_type (P : plat) (a b : aty) : aty :=
  match float_rank a, float_rank b with
  | Some x, Some y => if x <? y then b else a
  | Some _, None => a
  | None, Some _ => b
  | None, None =>
      match int_of (promoted P a), int_of (promoted P b) with
      | Some (r, s), Some (r', s') =>
          if Bool.eqb s s' then of_int (N.max r r') s
          else
            let '(rs, ru) := if s then (r, r') else (r', r) in
            if rs <=? ru then of_int ru false
            else if int_bits P ru <? int_bits P rs then of_int rs true
            else of_int rs false
      | _, _ => TInt
      end
  end.
(** meta.h:588-663. An element is an arithmetic type or void ([None]). The result is [None] when no specialisation is the best:
    two voids match three equally good ones. *)
Definition hr_special (a b : aty) : option aty :=
  match a, b with
  | TSChar, TShort | TShort, TSChar => Some TShort
  | TUChar, TUShort | TUShort, TUChar => Some TUShort
  | TUChar, TShort | TShort, TUChar => Some TShort
  | THalf, TFloat | TFloat, THalf => Some TFloat
  | THalf, TDouble | TDouble, THalf => Some TDouble
  | THalf, TLDouble | TLDouble, THalf => Some TLDouble
  | THalf, TFloat16 | TFloat16, THalf => Some TFloat16
  | TFloat16, TFloat | TFloat, TFloat16 => Some TFloat
  | TFloat16, TDouble | TDouble, TFloat16 => Some TDouble
  | TFloat16, TLDouble | TLDouble, TFloat16 => Some TLDouble
  | THalf, TFloat128 | TFloat128, THalf => Some TFloat128
  | TFloat16, TFloat128 | TFloat128, TFloat16 => Some TFloat128
  | _, _ => None
  end.
Definition highest_ranked2 (P : plat) (a b : option aty) : option (option aty) :=
  match a, b with
  | None, None => None
  | None, Some b => Some (Some b)
  | Some a, None => Some (Some a)
  | Some a, Some b =>
      match hr_special a b with
      | Some r => Some (Some r)
      | None => if aty_eqb a b then Some (Some a) else Some (Some (plus_type P a b))
      end
  end.
Fixpoint highest_ranked (P : plat) (t : option aty) (l : list (option aty)) : option (option aty) :=
  match l with
  | [] => Some t
  | u :: l' => match highest_ranked P u l' with Some r => highest_ranked2 P t r | None => None end
  end.

(* ------------------------------------------------------------------ functions *)

(** meta.h:1516-1564. *)
Fixpoint remove_callconv_ (P : plat) (t : ty) : ty :=
  match t with
  | Fun q cc va ne r ps =>
      if fq_plain q && negb va && has (p_ccs P) cc then Fun q 0 va ne r ps else t
  | Ptr false false u => s_add_pointer (remove_callconv_ P u)
  | Mem false false k q cc va ne r ps => if negb va && has (p_mccs P) cc then Mem false false k q 0 va ne r ps else t
  | _ => t
  end.
Definition remove_callconv (P : plat) (t : ty) : ty := copy_cvref (remove_callconv_ P (remove_cvref t)) t.
(** meta.h:1569-1611 and 1616-1658. *)
Definition set_noexcept_ (P : plat) (x : bool) (t : ty) : ty :=
  match t with
  | Fun q cc va ne r ps =>
      if fq_plain q && negb va && negb (Bool.eqb ne x) && has (p_ccs P) cc then Fun q cc va x r ps else t
  | Ptr false false (Fun q cc va ne r ps) =>
      if fq_plain q && negb va && negb (Bool.eqb ne x) && has (p_ccs P) cc then Ptr false false (Fun q cc va x r ps) else t
  | Mem false false k q cc va ne r ps =>
      if negb va && negb (Bool.eqb ne x) && has (p_mccs P) cc then Mem false false k q cc va x r ps else t
  | _ => t
  end.
Definition add_noexcept (P : plat) (t : ty) : ty := copy_cvref (set_noexcept_ P true (remove_cvref t)) t.
Definition remove_noexcept (P : plat) (t : ty) : ty := copy_cvref (set_noexcept_ P false (remove_cvref t)) t.

(** meta.h:2521-2522. *)
Definition undecorated (P : plat) (t : ty) : ty :=
  remove_callconv P (remove_noexcept P (s_remove_pointer (remove_cvref t))).
(** The type of [+t] for an rvalue of type [t], where that is a pointer to a function. *)
Definition unary_plus (P : plat) (t : ty) : option ty :=
  match t with
  | Fun q _ _ _ _ _ => if fq_plain q then Some (Ptr false false t) else None
  | Ptr _ _ (Fun q cc va ne r ps) => Some (Ptr false false (Fun q cc va ne r ps))
  | Obj _ _ (OClass k) => p_plus P k
  | _ => None
  end.
Definition call_operator (P : plat) (t : ty) : option ty := match t with Obj _ _ (OClass k) => p_call P k | _ => None end.
(** meta.h:2524-2557. [None]: the template inherits from itself and does not compile. [fuel] bounds how often a type is replaced by
    another; it never takes more than two steps except where it goes round in circles. *)
Fixpoint arity_ (P : plat) (fuel : nat) (t : ty) : option nat :=
  match fuel with
  | O => None
  | S k =>
      match call_operator P t with
      | Some m => arity_ P k (undecorated P m)
      | None =>
          match t with
          | Fun q 0 false false r ps =>
              if fq_plain q then Some (length ps)
              else match unary_plus P t with Some p => arity_ P k (undecorated P p) | None => Some 0%nat end
          | Mem false false _ _ 0 false false _ ps => Some (length ps)
          | _ => match unary_plus P t with Some p => arity_ P k (undecorated P p) | None => Some 0%nat end
          end
      end
  end.
(** meta.h:2562-2565. *)
Definition arity (P : plat) (t : ty) : option nat := arity_ P 4 (undecorated P t).

(* ------------------------------------------------------------------ passing parameters *)

(** What the header asks about a class. *)
Record cls_info := {
  k_trivially_copyable : bool;
  k_copyable : bool;              (* has a copy constructor that may be used *)
  k_nothrow_copy : bool;
  k_nothrow_destroy : bool;
  k_always_value : bool;          (* meta.h:2131 *)
  k_size : N }.

(** meta.h:2311-2333, 2350-2351, without [__vectorcall]; [ptr] is the size of a pointer. muu's vectors, matrices and quaternions are classes
    like any other here, described by [ci] applied to them. *)
Definition by_value (ptr : N) (ci : obj -> cls_info) (t : ty) : bool :=
  match t with
  | Obj _ _ OVoid => true
  | Obj _ _ (OArith _) => true
  | Obj _ _ (OEnum _ _) => true
  | Ptr _ _ _ => true
  | Mem _ _ _ _ _ _ _ _ _ => true
  | Obj _ _ b =>
      k_always_value (ci b)
      || ((k_trivially_copyable (ci b) || k_nothrow_copy (ci b)) && k_nothrow_destroy (ci b) && (k_size (ci b) <=? ptr * 2))
  | _ => false
  end.
Definition readonly_param (ptr : N) (ci : obj -> cls_info) (t : ty) : ty :=
  let u := s_remove_reference t in
  if by_value ptr ci u then s_remove_cv u else s_add_lref (s_add_const u).
(** meta.h:2361-2365: a fold over [||] that starts from [true]. *)
Definition pass_readonly_by_reference (ptr : N) (ci : obj -> cls_info) (l : list ty) : bool :=
  fold_left (fun b t => b || s_is_reference (readonly_param ptr ci t)) l true.
Definition pass_readonly_by_value (ptr : N) (ci : obj -> cls_info) (l : list ty) : bool :=
  negb (pass_readonly_by_reference ptr ci l).
