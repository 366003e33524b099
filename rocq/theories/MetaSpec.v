(** What the type functions of meta.h are supposed to do, said without them: a type is a bare type with qualifiers put on and a
    reference taken, and each function changes one of these and keeps the others. *)
From Verif Require Import Words MetaModel.
Import ListNotations.
Local Open Scope N_scope.

(** [qual c v u t]: [t] is the bare type [u], const if [c] and volatile if [v]. The qualifiers of an array are those of its elements. *)
Inductive qual : bool -> bool -> ty -> ty -> Prop :=
| q_obj c v b : qual c v (Obj false false b) (Obj c v b)
| q_ptr c v p : qual c v (Ptr false false p) (Ptr c v p)
| q_mem c v k q cc va ne r ps : qual c v (Mem false false k q cc va ne r ps) (Mem c v k q cc va ne r ps)
| q_arr c v n u t : qual c v u t -> qual c v (Arr n u) (Arr n t)
| q_fun q cc va ne r ps : qual false false (Fun q cc va ne r ps) (Fun q cc va ne r ps).

(** Bare types that can be const or volatile, and those that references can refer to. *)
Fixpoint cvable (u : ty) : bool :=
  match u with Arr _ e => cvable e | Fun _ _ _ _ _ _ => false | _ => true end.
Definition can_ref (u : ty) : bool :=
  match u with
  | Obj _ _ OVoid => false
  | Fun {| fq_c := false; fq_v := false; fq_r := RNone |} _ _ _ _ _ => true
  | Fun _ _ _ _ _ _ => false
  | _ => true
  end.

(** [made r c v u t]: [t] is [u] qualified by [c] and [v], and then the reference [r] to that. *)
Inductive made : refk -> bool -> bool -> ty -> ty -> Prop :=
| m_none c v u t : qual c v u t -> made RNone c v u t
| m_l c v u t : can_ref u = true -> qual c v u t -> made RL c v u (LRef t)
| m_r c v u t : can_ref u = true -> qual c v u t -> made RR c v u (RRef t).

(** The trees that are C++ types, as far as references go. *)
Fixpoint no_ref (t : ty) : bool :=
  match t with LRef _ => false | RRef _ => false | Arr _ e => no_ref e | _ => true end.
Definition legal (t : ty) : bool :=
  match t with LRef u => no_ref u && can_ref u | RRef u => no_ref u && can_ref u | _ => no_ref t end.

Definition is_ref (r : refk) : bool := match r with RNone => false | _ => true end.

(** Integers: whether negative numbers can be held, and the number of bits. [None] for bool and floating point. *)
Definition int_info (P : plat) (a : aty) : option (bool * N) :=
  match a with
  | TChar => Some (true, 8) | TSChar => Some (true, 8) | TUChar => Some (false, 8) | TChar8 => Some (false, 8)
  | TShort => Some (true, 16) | TUShort => Some (false, 16) | TChar16 => Some (false, 16)
  | TInt => Some (true, 32) | TUInt => Some (false, 32) | TChar32 => Some (false, 32)
  | TLong => Some (true, if p_long64 P then 64 else 32) | TULong => Some (false, if p_long64 P then 64 else 32)
  | TLLong => Some (true, 64) | TULLong => Some (false, 64)
  | TInt128 => Some (true, 128) | TUInt128 => Some (false, 128)
  | TWChar => Some (if p_wsigned P then (true, 32) else (false, 16))
  | _ => None
  end.
Definition unicode (a : aty) : bool := match a with TChar8 | TChar16 | TChar32 => true | _ => false end.
Definition floating (a : aty) : bool :=
  match a with THalf | TFloat16 | TFloat | TDouble | TLDouble | TFloat128 => true | _ => false end.

(** [stars n u t]: [t] has [n] stars in front of [u], each with any qualifiers. *)
Inductive stars : nat -> ty -> ty -> Prop :=
| st_0 u : (forall c v p, u <> Ptr c v p) -> stars 0 u u
| st_s n u c v t : stars n u t -> stars (S n) u (Ptr c v t).

(** Types that [+] does not promote. *)
Definition wide (a : aty) : bool :=
  match a with
  | TInt | TUInt | TLong | TULong | TLLong | TULLong | TInt128 | TUInt128
  | THalf | TFloat16 | TFloat | TDouble | TLDouble | TFloat128 => true
  | _ => false
  end.

(** The order of the language among the integer types, and among the floating-point types; a type and its unsigned or signed counterpart are
    equal in it. *)
Definition conv_rank (a : aty) : N :=
  match a with
  | TInt | TUInt => 1 | TLong | TULong => 2 | TLLong | TULLong => 3 | TInt128 | TUInt128 => 4
  | THalf => 11 | TFloat16 => 12 | TFloat => 13 | TDouble => 14 | TLDouble => 15 | TFloat128 => 16
  | _ => 0
  end.

(** [fn_set x t t']: [t'] is [t], a function or a pointer to one or to a member function, perhaps qualified and behind a reference, with
    only the exception specification changed, to [x]. *)
Inductive fn_set (x : bool) : ty -> ty -> Prop :=
| fs_fun cc ne r ps q :
    can_ref (Fun q cc false ne r ps) = true -> fn_set x (Fun q cc false ne r ps) (Fun q cc false x r ps)
| fs_ptr c v q cc ne r ps :
    can_ref (Fun q cc false ne r ps) = true ->
    fn_set x (Ptr c v (Fun q cc false ne r ps)) (Ptr c v (Fun q cc false x r ps))
| fs_mem c v k q cc ne r ps : fn_set x (Mem c v k q cc false ne r ps) (Mem c v k q cc false x r ps)
| fs_l t t' : fn_set x t t' -> no_ref t = true -> fn_set x (LRef t) (LRef t')
| fs_r t t' : fn_set x t t' -> no_ref t = true -> fn_set x (RRef t) (RRef t').
(** The same for the calling convention, set to the default one. *)
Inductive cc_reset : ty -> ty -> Prop :=
| cr_fun cc va ne r ps q :
    can_ref (Fun q cc va ne r ps) = true -> cc_reset (Fun q cc va ne r ps) (Fun q 0 va ne r ps)
| cr_ptr c v q cc va ne r ps :
    can_ref (Fun q cc va ne r ps) = true -> cc_reset (Ptr c v (Fun q cc va ne r ps)) (Ptr c v (Fun q 0 va ne r ps))
| cr_mem c v k q cc va ne r ps : cc_reset (Mem c v k q cc va ne r ps) (Mem c v k q 0 va ne r ps)
| cr_l t t' : cc_reset t t' -> no_ref t = true -> cc_reset (LRef t) (LRef t')
| cr_r t t' : cc_reset t t' -> no_ref t = true -> cc_reset (RRef t) (RRef t').

(** Calling conventions and ellipses of what a functional type calls. *)
Definition fn_of (t : ty) : option (bool * N * bool) :=
  match (match t with LRef u => u | RRef u => u | _ => t end) with
  | Fun _ cc va _ _ _ => Some (false, cc, va)
  | Ptr _ _ (Fun _ cc va _ _ _) => Some (false, cc, va)
  | Mem _ _ _ _ cc va _ _ _ => Some (true, cc, va)
  | _ => None
  end.
Definition known (P : plat) (t : ty) : Prop :=
  match fn_of t with
  | Some (m, cc, va) => va = false /\ In cc (if m then p_mccs P else p_ccs P)
  | None => False
  end.

(** [calls P t m cc va ps]: calling an object of the functional type [t] passes the parameters [ps] to a function ([m] false) or member
    function with this convention and ellipsis. For a class it is the one call operator, else the function its objects turn into. *)
Inductive calls (P : plat) : ty -> bool -> N -> bool -> list ty -> Prop :=
| ca_fun q cc va ne r ps : can_ref (Fun q cc va ne r ps) = true -> calls P (Fun q cc va ne r ps) false cc va ps
| ca_ptr c v q cc va ne r ps :
    can_ref (Fun q cc va ne r ps) = true -> calls P (Ptr c v (Fun q cc va ne r ps)) false cc va ps
| ca_mem c v k q cc va ne r ps : calls P (Mem c v k q cc va ne r ps) true cc va ps
| ca_op c v k k' q cc va ne r ps :
    p_call P k = Some (Mem false false k' q cc va ne r ps) -> calls P (Obj c v (OClass k)) true cc va ps
| ca_plus c v k q cc va ne r ps :
    p_call P k = None -> p_plus P k = Some (Ptr false false (Fun q cc va ne r ps)) -> can_ref (Fun q cc va ne r ps) = true ->
    calls P (Obj c v (OClass k)) false cc va ps
| ca_l t m cc va ps : calls P t m cc va ps -> no_ref t = true -> calls P (LRef t) m cc va ps
| ca_r t m cc va ps : calls P t m cc va ps -> no_ref t = true -> calls P (RRef t) m cc va ps.

(** What the two tables of a platform and its classes must satisfy: the default convention is among those listed, [&T::operator()] is a
    pointer to member function and [+t] a pointer to a function. *)
Definition plat_ok (P : plat) : Prop :=
  In 0 (p_ccs P) /\ In 0 (p_mccs P) /\
  (forall k t, p_call P k = Some t -> exists k' q cc va ne r ps, t = Mem false false k' q cc va ne r ps) /\
  (forall k t, p_plus P k = Some t ->
     exists q cc va ne r ps, t = Ptr false false (Fun q cc va ne r ps) /\ can_ref (Fun q cc va ne r ps) = true).
