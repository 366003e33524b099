(** What a type's name should be: the type-id by which a C++ program refers to it, built from the inside out as declarators are
    ([dcl.meaning]); and which types this library can name. Nothing here refers to how the library computes names. *)
From Coq Require Import Ascii String.
From Verif Require Import Words TnameModel.
Import ListNotations.
Local Open Scope list_scope.

(* ------------------------------------------------------------------ numbers *)

Definition digit_value (c : ascii) : Z := Z.of_N (N_of_ascii c) - 48.
Definition is_digit (c : ascii) : bool := ((48 <=? N_of_ascii c) && (N_of_ascii c <=? 57))%N.
(** The number a string of digits stands for. *)
Definition value (s : str) : Z := fold_left (fun a c => 10 * a + digit_value c)%Z s 0%Z.
(** [s] is the usual decimal notation of [z]. *)
Definition decimal_of (z : Z) (s : str) : Prop :=
  exists d, s = (if (z <? 0)%Z then text "-" else []) ++ d /\
            d <> [] /\ forallb is_digit d = true /\ (hd zero d = "0"%char -> d = text "0") /\ value d = Z.abs z.
Fixpoint decimal_digits (fuel : nat) (v : Z) : str :=
  match fuel with
  | O => []
  | S k => (if (v <? 10)%Z then [] else decimal_digits k (v / 10)%Z) ++ [ascii_of_N (Z.to_N (48 + v mod 10))]
  end.
Definition decimal (z : Z) : str := (if (z <? 0)%Z then text "-" else []) ++ decimal_digits (S (Z.to_nat (Z.log2 (Z.abs z)))) (Z.abs z).

(** Values that their type has, other than those of [bool]. *)
Definition fits (n : num) : bool :=
  negb (boolean n) && (0 <? width n)%N &&
  (if signed n then (- 2 ^ (Z.of_N (width n) - 1) <=? number n) && (number n <? 2 ^ (Z.of_N (width n) - 1)) else (0 <=? number n) && (number n <? 2 ^ Z.of_N (width n)))%Z.
(** The most negative value of a type. *)
Definition lowest (n : num) : bool := signed n && (number n =? - 2 ^ (Z.of_N (width n) - 1))%Z.
(** Bounds of arrays are positive values of [size_t]. *)
Definition is_bound (n : num) : bool := fits n && negb (signed n) && (width n =? 64)%N && negb (narrow n) && (1 <=? number n)%Z.

(* -------------------------------------------------------------- words *)

Definition is_letter (c : ascii) : bool :=
  let n := N_of_ascii c in (((65 <=? n) && (n <=? 90)) || ((97 <=? n) && (n <=? 122)) || (n =? 95))%N.
Definition is_word_char (c : ascii) : bool := is_letter c || is_digit c || Ascii.eqb c ":"%char || Ascii.eqb c " "%char.
Definition keywords : list str := [text "struct "; text "class "; text "union "; text "enum "; text "with "; text "const "; text "volatile "].
(** Names of classes, enumerations, fundamental types and templates: identifiers with their namespaces, or several words such as
    [unsigned long]; not beginning with a class key or a qualifier. *)
Definition word (s : str) : bool :=
  match s with c :: _ => is_letter c | [] => false end && forallb is_word_char s && negb (existsb (starts_with s) keywords).

(* -------------------------------------------------------------- declarators *)

Definition sep (c v : bool) : str := if c || v then text " " else [].
Fixpoint commas (l : list str) : str := match l with [] => [] | [a] => a | a :: r => a ++ text ", " ++ commas r end.
Definition needs_parens (t : ty) : bool := match t with Arr _ _ | Fun _ _ _ _ => true | _ => false end.
Definition with_parens (p : bool) (d : str) : str := if p then text "(" ++ d ++ text ")" else d.

(** The qualifiers. *)
Definition qualifiers (c v : bool) : str :=
  match c, v with true, true => text "const volatile" | true, false => text "const" | false, true => text "volatile" | _, _ => [] end.
(** [spell t d]: the declaration of [d] as a [t]. *)
Fixpoint spell (t : ty) (d : str) : str :=
  let pointer u c v := spell u (with_parens (needs_parens u) (text "*" ++ (if needs_parens u then [] else sep c v) ++ qualifiers c v ++ d)) in
  match t with
  | Named s => s ++ d
  | Qual c v u => match u with Ptr f => pointer f c v | _ => qualifiers c v ++ text " " ++ spell u d end
  | Ptr u => pointer u false false
  | LRef u => spell u (with_parens (needs_parens u) (text "&" ++ d))
  | RRef u => spell u (with_parens (needs_parens u) (text "&&" ++ d))
  | Arr e b => spell e (d ++ text "[" ++ match b with Some n => decimal (number n) | None => [] end ++ text "]")
  | Fun r ps dots x =>
      spell r (d ++ text "(" ++ commas (map (fun p => spell p []) ps ++ (if dots then [text "..."] else [])) ++ text ")" ++ (if x then text " noexcept" else []))
  | Inst tmpl us ns =>
      tmpl ++ text "<" ++ commas (map (fun u => spell u []) us ++ match ns with Some l => map (fun n => decimal (number n)) l | None => [] end) ++ text ">" ++ d
  end.

(* ---------------------------------------------------- which types get that name *)

Section Plain.
  Context (templates : list str) (arguments : list ty -> option (list num) -> str).

  (** How the compiler writes the arguments does not matter for templates with a name of their own; for others it must not contain
      arguments of templates in turn. *)
  Definition tidy (tmpl : str) (us : list ty) (ns : option (list num)) : bool :=
    match ns with
    | None => (mem tmpl templates && (length us =? 1)%nat) || negb (existsb (fun c => Ascii.eqb c "<"%char || Ascii.eqb c ";"%char) (arguments us ns))
    | Some l => negb (existsb (fun c => Ascii.eqb c "<"%char || Ascii.eqb c ";"%char) (arguments us ns)) && (length us <=? 3)%nat
    end.

  (** [plain true t]: a type whose name is its spelling; [plain false t]: also as a part of other types. What is missing: arrays of arrays, pointers to arrays,
      references other than [R(&)(..)] to functions, pointers and references to pointers to functions, functions that return those, pointers to functions with parameters and
      [...], templates with arguments 0 or with an empty list of numbers. *)
  Fixpoint plain (top : bool) (t : ty) : bool :=
    let function ptr u :=
      match u with
      | Fun r ps dots _ => top && plain false r && forallb (plain true) ps && negb (ptr && dots && negb (match ps with [] => true | _ => false end))
      | _ => false
      end in
    match t with
    | Named s => word s
    | Qual c v u =>
        (c || v) &&
        match u with
        | Named _ | Inst _ _ _ => plain false u
        | Ptr f => if is_fun f then function true f else plain false f
        | _ => false
        end
    | Ptr u => if is_fun u then function true u else plain false u
    | LRef u => match u with Arr e b => top && plain false e && match b with Some n => is_bound n | None => true end
                           | _ => if is_fun u then function true u else plain false u end
    | RRef u => match u with Arr e b => top && plain false e && match b with Some n => is_bound n | None => true end
                           | _ => plain false u end
    | Arr e b => top && plain false e && match b with Some n => is_bound n | None => true end
    | Fun r ps dots _ => function false t
    | Inst tmpl us ns =>
        word tmpl && forallb (plain true) us && tidy tmpl us ns &&
        match ns with None => true | Some l => negb (match l with [] => true | _ => false end && match us with [] => false | _ => true end)
                                               && forallb (fun n => fits n && negb (lowest n) && negb (number n =? 0)%Z) l end
    end.
End Plain.

(* ------------------------------------------------------------- which types there are *)

Section Lawful.
  Context (templates : list str) (arguments : list ty -> option (list num) -> str)
          (shape : str -> bool) (kind : str -> bool * N * bool).   (* what parameters a template has: numbers or not, and of which type *)

  Definition is_ref (t : ty) : bool := match t with LRef _ | RRef _ => true | _ => false end.
  Definition is_arr (t : ty) : bool := match t with Arr _ _ => true | _ => false end.

  (** Types that exist in C++ ([dcl.ref], [dcl.array], [dcl.fct]); templates whose arguments contain templates only if those have names
      of their own, and numbers other than the lowest of their type. *)
  Fixpoint lawful (t : ty) : bool :=
    match t with
    | Named s => word s
    | Qual c v u => (c || v) && match u with Named _ | Inst _ _ _ | Ptr _ => lawful u | _ => false end
    | Ptr u | LRef u | RRef u => negb (is_ref u) && lawful u
    | Arr e b => negb (is_ref e) && negb (is_fun e) && lawful e && match b with Some n => is_bound n | None => true end
    | Fun r ps _ _ => negb (is_arr r) && negb (is_fun r) && lawful r && forallb lawful ps
    | Inst tmpl us ns =>
        word tmpl && forallb lawful us && tidy templates arguments tmpl us ns && Bool.eqb (shape tmpl) (match ns with Some _ => true | None => false end) &&
        match ns with
        | None => true
        | Some l => forallb (fun n => fits n && negb (lowest n) && Bool.eqb (signed n) (fst (fst (kind tmpl))) && (width n =? snd (fst (kind tmpl)))%N
                                      && Bool.eqb (narrow n) (snd (kind tmpl))) l
        end
    end.
End Lawful.

Definition solid (s : str) : str := filter (fun c => negb (Ascii.eqb c " "%char)) s.
