(** Model of [muu::strong_typedef] and its traits (include/muu/strong_typedef.h).

    A strong typedef adds no code of its own: which operators exist, which of them compile and what they do is decided by C++ rules
    applied to the underlying value. So the model has two layers. The first says what C++'s own operators accept and compute on plain
    values: promotions, usual arithmetic conversions, overflow, pointers into arrays, and classes with any choice of overloads. The
    second is the header: the conditions under which a trait declares an operator, and the operator's body. Over both there is a small
    language of expressions and statements, whose variables may be plain or strong.

    Left out: volatile; the [callable] trait; strong typedefs of strong typedefs; mixed comparisons written by hand with
    [stypedef_comparable<T, U>]; [long] and [long long] are one type when both have 64 bits. Floating-point types are classes with
    all operators here, since arithmetic does not promote them and the header treats scalars and classes alike. *)
From Verif Require Import Words.
Import ListNotations.
Local Open Scope Z_scope.

(* ------------------------------------------------------- plain C++: types and values *)

Inductive sty :=
| SBool
| SInt (sg : bool) (w : Z)
| SEnum (id : nat) (scoped : bool) (sg : bool) (w : Z)
| SPtr (id : nat) (complete : bool)      (* pointer to objects of type [id]; [complete] is false for void and incomplete types *)
| SCls (id : nat).

Definition sty_eqb (a b : sty) : bool :=
  match a, b with
  | SBool, SBool => true
  | SInt s w, SInt s' w' => Bool.eqb s s' && (w =? w')
  | SEnum i c s w, SEnum i' c' s' w' => Nat.eqb i i' && Bool.eqb c c' && Bool.eqb s s' && (w =? w')
  | SPtr i c, SPtr i' c' => Nat.eqb i i' && Bool.eqb c c'
  | SCls i, SCls i' => Nat.eqb i i'
  | _, _ => false
  end.

(** [VI] is the value of an integer, an enumerator, a bool or (the state of) a class object; [VP b i] points at element [i] of the
    array [b]; there are no null pointers. *)
Inductive val := VI (z : Z) | VP (b : nat) (i : Z).

Inductive arith := Add | Sub.
Inductive cmp := Eq | Ne | Lt | Le | Gt | Ge.
Inductive unop := Pos | Neg | Not | ToBool.
Inductive dir := Inc | Dec.

(** The operators a class has. An absent operator is [None]. *)
Record cls := Cls {
  c_arith : arith -> option (Z -> Z -> Z);
  c_cmp : cmp -> option (Z -> Z -> bool);
  c_pos : option (Z -> Z);
  c_neg : option (Z -> Z);
  c_not : option (Z -> bool);
  c_bool : option (Z -> bool);                (* conversion to bool, explicit or not *)
  c_pre : dir -> option (Z -> Z);
  c_post : dir -> option (Z -> Z * Z)         (* new state, returned state *)
}.

(** The compiler and the program: [cpp20] is the language version; [strict] says that a narrowing conversion inside braces is an
    error, as the standard says and Clang and MSVC do. GCC only warns unless the narrowed value is a constant. *)
Record lang := Lang { cpp20 : bool; strict : bool; classes : nat -> cls; len : nat -> Z }.

Definition lo (sg : bool) (w : Z) : Z := if sg then - 2 ^ (w - 1) else 0.
Definition hi (sg : bool) (w : Z) : Z := if sg then 2 ^ (w - 1) - 1 else 2 ^ w - 1.
Definition fits (sg : bool) (w : Z) (z : Z) : bool := (lo sg w <=? z) && (z <=? hi sg w).
(** Conversion to an integer type, modulo two to the width. *)
Definition wrap (sg : bool) (w : Z) (z : Z) : Z :=
  let r := z mod 2 ^ w in if sg && (2 ^ (w - 1) <=? r) then r - 2 ^ w else r.
(** The result of arithmetic in an integer type: overflow of a signed type is undefined. *)
Definition arith_in (sg : bool) (w : Z) (z : Z) : option Z := if sg then if fits sg w z then Some z else None else Some (z mod 2 ^ w).

(** Integral promotion. [int] has 32 bits. *)
Definition promote_int (sg : bool) (w : Z) : bool * Z := if w <? 32 then (true, 32) else (sg, w).
Definition promote (s : sty) : option (bool * Z) :=
  match s with
  | SBool => Some (true, 32)
  | SInt sg w => Some (promote_int sg w)
  | SEnum _ false sg w => Some (promote_int sg w)
  | _ => None
  end.
(** Usual arithmetic conversions, on promoted types. *)
Definition common (a b : bool * Z) : bool * Z :=
  let '(sa, wa) := a in
  let '(sb, wb) := b in
  if Bool.eqb sa sb then (sa, Z.max wa wb)
  else if sa then (if wb >=? wa then b else a) else (if wa >=? wb then a else b).

(** Built-in operators and overloads: the type of the result, [None] if there is no such operator. *)
Definition arith_ty (L : lang) (o : arith) (a b : sty) : option sty :=
  match a, b with
  | SCls i, SCls j => if Nat.eqb i j then match c_arith (classes L i) o with Some _ => Some a | None => None end else None
  | SPtr i c, SPtr j _ => match o with Sub => if Nat.eqb i j && c then Some (SInt true 64) else None | Add => None end
  | SPtr _ c, _ => match promote b with Some _ => if c then Some a else None | None => None end
  | _, SPtr _ c => match promote a, o with Some _, Add => if c then Some b else None | _, _ => None end
  | _, _ => match promote a, promote b with
            | Some p, Some q => let '(s, w) := common p q in Some (SInt s w)
            | _, _ => None
            end
  end.

Definition cmp_fun (o : cmp) (x y : Z) : bool :=
  match o with Eq => x =? y | Ne => negb (x =? y) | Lt => x <? y | Le => x <=? y | Gt => y <? x | Ge => y <=? x end.

(** C++20 makes [a != b] from [a == b] if there is no [!=]. *)
Definition cls_cmp (L : lang) (c : cls) (o : cmp) : option (Z -> Z -> bool) :=
  match c_cmp c o with
  | Some f => Some f
  | None => match o, c_cmp c Eq with
            | Ne, Some f => if cpp20 L then Some (fun x y => negb (f x y)) else None
            | _, _ => None
            end
  end.

Definition cmp_ty (L : lang) (o : cmp) (a b : sty) : option sty :=
  match a, b with
  | SCls i, SCls j => if Nat.eqb i j then match cls_cmp L (classes L i) o with Some _ => Some SBool | None => None end else None
  | SPtr i _, SPtr j _ => if Nat.eqb i j then Some SBool else None
  | SEnum i true _ _, SEnum j true _ _ => if Nat.eqb i j then Some SBool else None
  | _, _ => match promote a, promote b with Some _, Some _ => Some SBool | _, _ => None end
  end.

Definition move (L : lang) (b : nat) (i : Z) : option val := if (0 <=? i) && (i <=? len L b) then Some (VP b i) else None.

(** The values. [None] is undefined behaviour, or ill-typed. *)
Definition arith_val (L : lang) (o : arith) (a b : sty) (x y : val) : option val :=
  match a, b, x, y with
  | SCls i, _, VI u, VI v => match c_arith (classes L i) o with Some f => Some (VI (f u v)) | None => None end
  | _, _, VP p i, VP q j => if Nat.eqb p q then Some (VI (i - j)) else None
  | _, _, VP p i, VI n => move L p (match o with Add => i + n | Sub => i - n end)
  | _, _, VI n, VP p i => move L p (n + i)
  | _, _, VI u, VI v =>
      match promote a, promote b with
      | Some p, Some q =>
          let '(s, w) := common p q in
          let u := wrap s w u in
          let v := wrap s w v in
          match arith_in s w (match o with Add => u + v | Sub => u - v end) with Some z => Some (VI z) | None => None end
      | _, _ => None
      end
  end.

Definition b2v (b : bool) : val := VI (if b then 1 else 0).

Definition cmp_val (L : lang) (o : cmp) (a b : sty) (x y : val) : option val :=
  match a, b, x, y with
  | SCls i, _, VI u, VI v => match cls_cmp L (classes L i) o with Some f => Some (b2v (f u v)) | None => None end
  | _, _, VP p i, VP q j =>
      if Nat.eqb p q then Some (b2v (cmp_fun o i j))
      else match o with Eq => Some (b2v false) | Ne => Some (b2v true) | _ => None end
  | SEnum _ true _ _, _, VI u, VI v => Some (b2v (cmp_fun o u v))
  | _, _, VI u, VI v =>
      match promote a, promote b with
      | Some p, Some q => let '(s, w) := common p q in Some (b2v (cmp_fun o (wrap s w u) (wrap s w v)))
      | _, _ => None
      end
  | _, _, _, _ => None
  end.

Definition cls_not (c : cls) : option (Z -> bool) :=
  match c_not c with
  | Some f => Some f
  | None => match c_bool c with Some f => Some (fun x => negb (f x)) | None => None end
  end.

Definition un_ty (L : lang) (o : unop) (a : sty) : option sty :=
  match o, a with
  | Pos, SCls i => match c_pos (classes L i) with Some _ => Some a | None => None end
  | Neg, SCls i => match c_neg (classes L i) with Some _ => Some a | None => None end
  | Not, SCls i => match cls_not (classes L i) with Some _ => Some SBool | None => None end
  | ToBool, SCls i => match c_bool (classes L i) with Some _ => Some SBool | None => None end
  | Pos, SPtr _ _ => Some a
  | Neg, SPtr _ _ => None
  | (Not | ToBool), SPtr _ _ => Some SBool
  | (Pos | Neg), _ => match promote a with Some (s, w) => Some (SInt s w) | None => None end
  | (Not | ToBool), _ => match promote a with Some _ => Some SBool | None => None end
  end.

Definition un_val (L : lang) (o : unop) (a : sty) (x : val) : option val :=
  match a, x with
  | SCls i, VI u =>
      let c := classes L i in
      match o with
      | Pos => match c_pos c with Some f => Some (VI (f u)) | None => None end
      | Neg => match c_neg c with Some f => Some (VI (f u)) | None => None end
      | Not => match cls_not c with Some f => Some (b2v (f u)) | None => None end
      | ToBool => match c_bool c with Some f => Some (b2v (f u)) | None => None end
      end
  | SPtr _ _, VP _ _ => match o with Pos => Some x | Neg => None | Not => Some (b2v false) | ToBool => Some (b2v true) end
  | _, VI u =>
      match promote a with
      | Some (s, w) =>
          match o with
          | Pos => Some (VI (wrap s w u))
          | Neg => match arith_in s w (- wrap s w u) with Some z => Some (VI z) | None => None end
          | Not => Some (b2v (u =? 0))
          | ToBool => Some (b2v (negb (u =? 0)))
          end
      | None => None
      end
  | _, _ => None
  end.

(** [++] and [--] on a non-const lvalue. There is none for bool (since C++17) and for enumerations. *)
Definition has_pre (L : lang) (d : dir) (a : sty) : bool :=
  match a with
  | SInt _ _ => true
  | SPtr _ c => c
  | SCls i => match c_pre (classes L i) d with Some _ => true | None => false end
  | _ => false
  end.
Definition has_post (L : lang) (d : dir) (a : sty) : bool :=
  match a with
  | SInt _ _ => true
  | SPtr _ c => c
  | SCls i => match c_post (classes L i) d with Some _ => true | None => false end
  | _ => false
  end.
Definition delta (d : dir) : Z := match d with Inc => 1 | Dec => -1 end.

(** The new value, of an integer or a pointer. A short is incremented as an int and converted back. *)
Definition step_val (L : lang) (d : dir) (a : sty) (x : val) : option val :=
  match a, x with
  | SInt sg w, VI u =>
      let '(s, v) := promote_int sg w in
      match arith_in s v (u + delta d) with Some z => Some (VI (wrap sg w z)) | None => None end
  | SPtr _ _, VP b i => move L b (i + delta d)
  | _, _ => None
  end.
Definition pre_val (L : lang) (d : dir) (a : sty) (x : val) : option val :=
  match a, x with
  | SCls i, VI u => match c_pre (classes L i) d with Some f => Some (VI (f u)) | None => None end
  | _, _ => step_val L d a x
  end.
(** New value and returned value. *)
Definition post_val (L : lang) (d : dir) (a : sty) (x : val) : option (val * val) :=
  match a, x with
  | SCls i, VI u => match c_post (classes L i) d with Some f => Some (VI (fst (f u)), VI (snd (f u))) | None => None end
  | _, _ => match step_val L d a x with Some y => Some (y, x) | None => None end
  end.

(* ------------------------------------------------------- strong_typedef.h *)

(** strong_typedef.h:19-36: [ValueType] is [base], [base&], [const base&] or [base&&]. *)
Inductive refk := ByValue | LRef | CRef | RRef.

(** strong_typedef.h:767-822: the traits. *)
Record traits := Traits {
  t_pointer : bool; t_add : bool; t_sub : bool; t_inc : bool; t_dec : bool; t_cmp : bool; t_bool : bool
}.
(** strong_typedef.h:884-889. The tag is a name; the order of the traits is not kept. *)
Record stype := Stype { base : sty; ref : refk; tag : nat; tr : traits }.

Definition refk_eqb (a b : refk) : bool :=
  match a, b with ByValue, ByValue | LRef, LRef | CRef, CRef | RRef, RRef => true | _, _ => false end.
Definition traits_eqb (a b : traits) : bool :=
  Bool.eqb (t_pointer a) (t_pointer b) && Bool.eqb (t_add a) (t_add b) && Bool.eqb (t_sub a) (t_sub b) &&
  Bool.eqb (t_inc a) (t_inc b) && Bool.eqb (t_dec a) (t_dec b) && Bool.eqb (t_cmp a) (t_cmp b) && Bool.eqb (t_bool a) (t_bool b).
Definition stype_eqb (a b : stype) : bool :=
  sty_eqb (base a) (base b) && refk_eqb (ref a) (ref b) && Nat.eqb (tag a) (tag b) && traits_eqb (tr a) (tr b).

(** Types of expressions. The flag says whether the expression is a const object. *)
Inductive ety := Raw (s : sty) | Strong (t : stype) (const : bool).

(** The result of converting a value of type [s] to [t] in an initialisation: identity, or between arithmetic types. *)
Definition range (s : sty) : option (Z * Z) :=
  match s with SBool => Some (0, 1) | SInt sg w => Some (lo sg w, hi sg w) | _ => None end.
Definition convertible (s t : sty) : bool :=
  sty_eqb s t || match range s, range t with Some _, Some _ => true | _, _ => false end.
Definition narrowing (s t : sty) : bool :=
  negb (sty_eqb s t) &&
  match range s, range t with Some (l, h), Some (l', h') => negb ((l' <=? l) && (h <=? h')) | _, _ => true end.
Definition convert (t : sty) (x : val) : val :=
  match t, x with
  | SBool, VI z => b2v (negb (z =? 0))
  | SInt sg w, VI z => VI (wrap sg w z)
  | _, _ => x
  end.

(** [T{ e }] with [e] a temporary of type [s]: strong_typedef.h:910-929 (the three constructors), used at 551, 561, 586, 613 and so on.
    A non-const lvalue reference does not bind to a temporary. *)
Definition braces (L : lang) (t : stype) (s : sty) : bool :=
  convertible s (base t) && negb (strict L && narrowing s (base t)) && negb (refk_eqb (ref t) LRef).
(** Reading the value of [T{ e }] once the operator has returned: with a reference as the value type the temporary is gone. *)
Definition made_same (t : stype) (s : sty) (x : val) : option val :=
  match ref t with ByValue => Some (if sty_eqb s (base t) then x else convert (base t) x) | _ => None end.

Definition trait_of (o : arith) (t : traits) : bool := match o with Add => t_add t | Sub => t_sub t end.
Definition step_trait (d : dir) (t : traits) : bool := match d with Inc => t_inc t | Dec => t_dec t end.

(** strong_typedef.h:531-563 and 593-625: binary plus and minus of two strong values of the same type. *)
Definition s_arith_ty (L : lang) (o : arith) (t : stype) : option ety :=
  if trait_of o (tr t) then
    match arith_ty L o (base t) (base t) with
    | Some s => if braces L t s then Some (Strong t false) else None
    | None => None
    end
  else None.
Definition s_arith_val (L : lang) (o : arith) (t : stype) (x y : val) : option val :=
  match arith_ty L o (base t) (base t), arith_val L o (base t) (base t) x y with
  | Some s, Some z => made_same t s z
  | _, _ => None
  end.

(** strong_typedef.h:565-589 and 627-651: unary plus and minus. *)
Definition s_sign_ty (L : lang) (o : unop) (t : stype) : option ety :=
  if (match o with Pos => t_add (tr t) | _ => t_sub (tr t) end) then
    match un_ty L o (base t) with
    | Some s => if braces L t s then Some (Strong t false) else None
    | None => None
    end
  else None.
Definition s_sign_val (L : lang) (o : unop) (t : stype) (x : val) : option val :=
  match un_ty L o (base t), un_val L o (base t) x with
  | Some s, Some z => made_same t s z
  | _, _ => None
  end.

(** strong_typedef.h:50-262: comparisons of two strong values of the same type; [!=] falls back to [==] (82-134). *)
Definition has_cmp (L : lang) (o : cmp) (a : sty) : bool := match cmp_ty L o a a with Some _ => true | None => false end.
Definition s_cmp_ty (L : lang) (o : cmp) (t : stype) : option ety :=
  if t_cmp (tr t) && (has_cmp L o (base t) || match o with Ne => has_cmp L Eq (base t) | _ => false end) then Some (Raw SBool) else None.
Definition v_not (x : val) : val := match x with VI z => b2v (z =? 0) | _ => x end.
Definition s_cmp_val (L : lang) (o : cmp) (t : stype) (x y : val) : option val :=
  if has_cmp L o (base t) then cmp_val L o (base t) (base t) x y
  else match cmp_val L Eq (base t) (base t) x y with Some b => Some (v_not b) | None => None end.

(** strong_typedef.h:395-527: arithmetic with pointers. The tests use a pointer to a complete class (394-400, 428, 461); the
    subtraction of a pointer from a strong value (494-527) is never declared for these value types. *)
Definition s_ptr_left_ty (L : lang) (o : arith) (p : sty) (t : stype) : option ety :=
  match p with
  | SPtr i c =>
      if t_pointer (tr t) && match arith_ty L o (SPtr 0 true) (base t) with Some (SPtr _ _) => true | _ => false end then
        match arith_ty L o p (base t) with Some s => Some (Raw s) | None => None end
      else None
  | _ => None
  end.
Definition s_ptr_right_ty (L : lang) (o : arith) (t : stype) (p : sty) : option ety :=
  match p, o with
  | SPtr i c, Add =>
      if t_pointer (tr t) && match arith_ty L Add (base t) (SPtr 0 true) with Some (SPtr _ _) => true | _ => false end then
        match arith_ty L Add (base t) p with Some s => Some (Raw s) | None => None end
      else None
  | _, _ => None
  end.

Definition is_bool (s : sty) : bool := match s with SBool => true | _ => false end.
Definition has_un (L : lang) (o : unop) (a : sty) : bool := match un_ty L o a with Some _ => true | None => false end.

(** Conversion to bool, in a condition or by static_cast. The candidates are the explicit conversion to [bool] of the trait
    (strong_typedef.h:277-302) and, if the value is a bool, the explicit conversions to references (365-391), of which the one to a
    non-const reference wins when the object is not const. Between the other two the call is ambiguous. *)
Definition s_tobool_ty (L : lang) (t : stype) (const : bool) : option ety :=
  let by_trait := t_bool (tr t) && has_un L ToBool (base t) in
  if is_bool (base t) then
    if negb const && negb (refk_eqb (ref t) CRef) then Some (Raw SBool)
    else if by_trait then None else Some (Raw SBool)
  else if by_trait then Some (Raw SBool) else None.

(** [!x]: the operator of the trait (strong_typedef.h:304-357), or else C++'s own after conversion to bool. *)
Definition s_not_ty (L : lang) (t : stype) (const : bool) : option ety :=
  if t_bool (tr t) && (has_un L Not (base t) || has_un L ToBool (base t)) then Some (Raw SBool) else s_tobool_ty L t const.
Definition s_not_val (L : lang) (t : stype) (x : val) : option val :=
  if has_un L Not (base t) then un_val L Not (base t) x
  else match un_val L ToBool (base t) x with Some b => Some (v_not b) | None => None end.

(** strong_typedef.h:653-725: increments and decrements; a const reference has none. *)
Definition s_pre_ok (L : lang) (d : dir) (t : stype) : bool :=
  step_trait d (tr t) && has_pre L d (base t) && negb (refk_eqb (ref t) CRef).
(** The body of the postfix operators is [T{ lhs.value++ }] (679, 716). *)
Definition s_post_ok (L : lang) (d : dir) (t : stype) : bool :=
  step_trait d (tr t) && has_post L d (base t) && negb (refk_eqb (ref t) CRef) && braces L t (base t).

(* ------------------------------------------------------- programs *)

(** A variable: its type, whether it is const, and the memory cell of its value (that of the object referred to, for references). *)
Record vdecl := Var { v_ty : sty + stype; v_const : bool; v_loc : nat }.

Inductive expr :=
| EVar (x : nat)
| ELit (s : sty) (v : val)
| EUn (o : unop) (e : expr)
| EArith (o : arith) (a b : expr)
| ECmp (o : cmp) (a b : expr).

Definition env := list vdecl.
Definition mem := nat -> val.

Definition un_check (L : lang) (o : unop) (t : ety) : option ety :=
  match t with
  | Raw s => match un_ty L o s with Some r => Some (Raw r) | None => None end
  | Strong t c =>
      match o with
      | Pos | Neg => s_sign_ty L o t
      | Not => s_not_ty L t c
      | ToBool => s_tobool_ty L t c
      end
  end.
Definition un_eval (L : lang) (o : unop) (t : ety) (x : val) : option val :=
  match t with
  | Raw s => un_val L o s x
  | Strong t c =>
      match o with
      | Pos | Neg => s_sign_val L o t x
      | Not => s_not_val L t x
      | ToBool => un_val L ToBool (base t) x
      end
  end.
Definition arith_check (L : lang) (o : arith) (a b : ety) : option ety :=
  match a, b with
  | Raw s, Raw s' => match arith_ty L o s s' with Some r => Some (Raw r) | None => None end
  | Strong t _, Strong t' _ => if stype_eqb t t' then s_arith_ty L o t else None
  | Raw s, Strong t _ => s_ptr_left_ty L o s t
  | Strong t _, Raw s => s_ptr_right_ty L o t s
  end.
Definition arith_eval (L : lang) (o : arith) (a b : ety) (x y : val) : option val :=
  match a, b with
  | Raw s, Raw s' => arith_val L o s s' x y
  | Strong t _, Strong _ _ => s_arith_val L o t x y
  | Raw s, Strong t _ => arith_val L o s (base t) x y
  | Strong t _, Raw s => arith_val L o (base t) s x y
  end.
Definition cmp_check (L : lang) (o : cmp) (a b : ety) : option ety :=
  match a, b with
  | Raw s, Raw s' => match cmp_ty L o s s' with Some r => Some (Raw r) | None => None end
  | Strong t _, Strong t' _ => if stype_eqb t t' then s_cmp_ty L o t else None
  | _, _ => None
  end.
Definition cmp_eval (L : lang) (o : cmp) (a b : ety) (x y : val) : option val :=
  match a, b with
  | Raw s, Raw s' => cmp_val L o s s' x y
  | Strong t _, Strong _ _ => s_cmp_val L o t x y
  | _, _ => None
  end.

(** Does the expression compile, and with which type? *)
Fixpoint check (L : lang) (G : env) (e : expr) : option ety :=
  match e with
  | EVar x => match nth_error G x with
              | Some d => Some (match v_ty d with inl s => Raw s | inr t => Strong t (v_const d) end)
              | None => None
              end
  | ELit s _ => Some (Raw s)
  | EUn o e => match check L G e with Some t => un_check L o t | None => None end
  | EArith o a b => match check L G a, check L G b with Some s, Some t => arith_check L o s t | _, _ => None end
  | ECmp o a b => match check L G a, check L G b with Some s, Some t => cmp_check L o s t | _, _ => None end
  end.

(** Its value; [None] is undefined behaviour. *)
Fixpoint eval (L : lang) (G : env) (m : mem) (e : expr) : option val :=
  match e with
  | EVar x => match nth_error G x with Some d => Some (m (v_loc d)) | None => None end
  | ELit _ v => Some v
  | EUn o e => match check L G e, eval L G m e with Some t, Some x => un_eval L o t x | _, _ => None end
  | EArith o a b =>
      match check L G a, check L G b, eval L G m a, eval L G m b with
      | Some s, Some t, Some x, Some y => arith_eval L o s t x y
      | _, _, _, _ => None
      end
  | ECmp o a b =>
      match check L G a, check L G b, eval L G m a, eval L G m b with
      | Some s, Some t, Some x, Some y => cmp_eval L o s t x y
      | _, _, _, _ => None
      end
  end.

(** [++x;] [y = x++;] [y = e;] *)
Inductive stmt :=
| SPre (d : dir) (x : nat)
| SPost (d : dir) (y x : nat)
| SSet (y : nat) (e : expr).

Definition v_base (d : vdecl) : sty := match v_ty d with inl s => s | inr t => base t end.

(** Can [y = e] with [e] of type [t]? A strong typedef of a reference has no assignment (strong_typedef.h:904-908: defaulted, hence
    deleted); assignments of plain values of another type are left out. *)
Definition set_ok (d : vdecl) (t : ety) : bool :=
  negb (v_const d) &&
  match v_ty d, t with
  | inl s, Raw s' => sty_eqb s s'
  | inr t, Strong t' _ => stype_eqb t t' && refk_eqb (ref t) ByValue
  | _, _ => false
  end.

Definition check_stmt (L : lang) (G : env) (s : stmt) : bool :=
  match s with
  | SPre d x =>
      match nth_error G x with
      | Some v => negb (v_const v) && match v_ty v with inl s => has_pre L d s | inr t => s_pre_ok L d t end
      | None => false
      end
  | SPost d y x =>
      match nth_error G y, nth_error G x with
      | Some u, Some v =>
          negb (v_const v) &&
          match v_ty v with
          | inl s => has_post L d s && set_ok u (Raw s)
          | inr t => s_post_ok L d t && set_ok u (Strong t false)
          end
      | _, _ => false
      end
  | SSet y e =>
      match nth_error G y, check L G e with Some u, Some t => set_ok u t | _, _ => false end
  end.

Definition upd (m : mem) (l : nat) (x : val) : mem := fun k => if Nat.eqb k l then x else m k.

Definition exec (L : lang) (G : env) (s : stmt) (m : mem) : option mem :=
  match s with
  | SPre d x =>
      match nth_error G x with
      | Some v => match pre_val L d (v_base v) (m (v_loc v)) with Some z => Some (upd m (v_loc v) z) | None => None end
      | None => None
      end
  | SPost d y x =>
      match nth_error G y, nth_error G x with
      | Some u, Some v =>
          match post_val L d (v_base v) (m (v_loc v)) with
          | Some (z, old) =>
              match (match v_ty v with inl _ => Some old | inr t => made_same t (base t) old end) with
              | Some r => Some (upd (upd m (v_loc v) z) (v_loc u) r)
              | None => None
              end
          | None => None
          end
      | _, _ => None
      end
  | SSet y e =>
      match nth_error G y, eval L G m e with Some u, Some z => Some (upd m (v_loc u) z) | _, _ => None end
  end.

Definition check_prog (L : lang) (G : env) (p : list stmt) : bool := forallb (check_stmt L G) p.
Fixpoint run (L : lang) (G : env) (p : list stmt) (m : mem) : option mem :=
  match p with
  | [] => Some m
  | s :: p => match exec L G s m with Some m' => run L G p m' | None => None end
  end.
