(** Model of [muu::type_name] (include/muu/type_name.h).

    A name is a list of characters. [None] means that the name is not a constant expression or not well-formed, so that the program
    does not compile. *)
From Coq Require Import Ascii String.
From Verif Require Import Words.
Import ListNotations.
Local Open Scope list_scope.

Definition str := list ascii.
Definition text (s : string) : str := list_ascii_of_string s.
Arguments text s%string_scope.
Definition quote : str := [ascii_of_nat 39].

(* -------------------------------------------------------------------- types *)

(** Values of template parameters that are not types: the type (sign, width, whether narrower than [int]; [bool] is a case of its
    own) and the number. *)
Record num := Num { signed : bool; width : N; narrow : bool; boolean : bool; number : Z }.

(** Types, as the partial specialisations see them. [Qual c v t] is [const] and/or [volatile] of a type that is not an array, a function or a
    reference; an array of const elements is [Arr (Qual ..)], which is what lines 286-302 and 376-392 print. A template instance has type
    arguments and, if the template takes others after them, these too. Member pointers and functions with qualifiers, which have no
    specialisation, are left out. *)
Inductive ty :=
| Named (s : str)
| Qual (c v : bool) (t : ty)
| Ptr (t : ty)
| LRef (t : ty)
| RRef (t : ty)
| Arr (t : ty) (n : option num)                       (* T[] and T[n] *)
| Fun (r : ty) (ps : list ty) (dots noexc : bool)     (* r(ps...), r(ps..., ...), with noexcept *)
| Inst (tmpl : str) (us : list ty) (ns : option (list num)).

(* --------------------------------------------------------- strings (lines 82-207) *)

Fixpoint find (c : ascii) (s : str) : option nat :=
  match s with [] => None | x :: r => if Ascii.eqb x c then Some O else match find c r with Some i => Some (S i) | None => None end end.
(** type_name.h:126-134; the last position of [c]. *)
Fixpoint rfind (c : ascii) (s : str) : option nat :=
  match s with
  | [] => None
  | x :: r => match rfind c r with Some i => Some (S i) | None => if Ascii.eqb x c then Some O else None end
  end.
Fixpoint starts_with (s prefix : str) {struct prefix} : bool :=
  match prefix, s with
  | [], _ => true
  | p :: ps, x :: r => Ascii.eqb x p && starts_with r ps
  | _ :: _, [] => false
  end.
(** type_name.h:136-143. *)
Definition trim_left_from_first (s : str) (c : ascii) : str := match find c s with Some i => skipn (i + 1) s | None => s end.
(** type_name.h:145-152. *)
Definition trim_right_from_last (s : str) (c : ascii) : str := match rfind c s with Some i => firstn i s | None => s end.

Definition prefixes : list str :=
  [text "`anonymous-namespace" ++ quote ++ text "::"; text "(anonymous namespace)::"; text "{anonymous}::"; text "struct "; text "class "; text "union ";
   text "enum "; text "T = "; text "with "; text "::"; text " "].
(** type_name.h:154-182, one pass over the prefixes and the loop, which ends as every pass but the last removes characters. *)
Definition remove_pass (s : str) : str := fold_left (fun s p => if starts_with s p then skipn (length p) s else s) prefixes s.
Fixpoint remove_loop (fuel : nat) (s : str) : str :=
  match fuel with
  | O => s
  | S n => if existsb (starts_with s) prefixes then remove_loop n (remove_pass s) else s
  end.
Definition remove_prefixes (s : str) : str := remove_loop (length s) s.

(** What the compiler puts into [__PRETTY_FUNCTION__] or [__FUNCSIG__] for the type it writes as [x]; MSVC writes the class key. *)
Inductive compiler := Gcc | Clang | Msvc (key : str).
Definition line (c : compiler) (x : str) : str :=
  match c with
  | Gcc => text "constexpr auto muu::impl::type_name_source_string() [with T = " ++ x ++ text "]"
  | Clang => text "auto muu::impl::type_name_source_string() [T = " ++ x ++ text "]"
  | Msvc key => text "auto __cdecl muu::impl::type_name_source_string<" ++ key ++ x ++ text ">(void) noexcept"
  end.
(** type_name.h:184-207 [type_name_source_string]. *)
Definition source_string (c : compiler) (x : str) : str :=
  let s := line c x in
  let s := match c with
           | Gcc | Clang => trim_right_from_last (trim_left_from_first s "["%char) "]"%char
           | Msvc _ => trim_right_from_last (trim_left_from_first s "<"%char) ">"%char
           end in
  remove_prefixes (trim_right_from_last s ";"%char).

(* -------------------------------------------------- numbers (lines 316-368) *)

(** [val = -val] in the type: in a constant expression an overflow is an error, but a type narrower than [int] wraps around. *)
Definition negate (n : num) : option Z :=
  if (number n =? - 2 ^ (Z.of_N (width n) - 1))%Z then (if narrow n then Some (number n) else None) else Some (- number n)%Z.
(** [T{10}] is an error for [bool]. *)
Definition magnitude (n : num) : option Z :=
  if boolean n then None else if signed n && (number n <? 0)%Z then negate n else Some (number n).
Fixpoint count_digits (fuel : nat) (val : Z) : nat :=
  match fuel with O => O | S k => if (val =? 0)%Z then O else S (count_digits k (Z.quot val 10)) end.
Definition fuel_of (n : num) : nat := S (S (Z.to_nat (Z.log2 (Z.abs (number n))))).
(** type_name.h:318-342. *)
Definition int_to_str_length (n : num) : option nat :=
  if (number n =? 0)%Z then (if boolean n then None else Some 1%nat)
  else v <- magnitude n ;; Some ((if signed n && (number n <? 0)%Z then 1 else 0) + count_digits (fuel_of n) v)%nat.

Definition digit (d : Z) : ascii := ascii_of_N (Z.to_N ((48 + d) mod 256)).
Definition put (s : str) (i : Z) (c : ascii) : option str :=
  if ((0 <=? i) && (i <? Z.of_nat (length s)))%Z then Some (firstn (Z.to_nat i) s ++ c :: skipn (S (Z.to_nat i)) s) else None.
Fixpoint put_digits (fuel : nat) (s : str) (i val : Z) : option (str * Z) :=
  match fuel with
  | O => Some (s, i)
  | S k => if (val =? 0)%Z then Some (s, i) else s' <- put s i (digit (Z.rem val 10)) ;; put_digits k s' (i - 1) (Z.quot val 10)
  end.
(** type_name.h:344-368; the string starts as zeros. *)
Definition int_to_str (n : num) : option str :=
  len <- int_to_str_length n ;;
  v <- magnitude n ;;
  r <- put_digits (fuel_of n) (repeat zero len) (Z.of_nat len - 1) v ;;
  if signed n && (number n <? 0)%Z then put (fst r) (snd r) "-"%char else Some (fst r).

(* ------------------------------------------------------------- the names *)

(** type_name.h:411-434 [type_name_list] and 438-461 [type_name_nttp_list_]. *)
Fixpoint name_list (l : list str) : str :=
  match l with
  | [] => []
  | [a] => a
  | a :: b :: r => match r with [] => a ++ text ", " ++ b | _ => (a ++ text ", " ++ b) ++ text ", " ++ name_list r end
  end.
Fixpoint all_some {A} (l : list (option A)) : option (list A) :=
  match l with [] => Some [] | x :: r => a <- x ;; b <- all_some r ;; Some (a :: b) end.

Definition cv_name (c v : bool) : str := match c, v with true, true => text "const volatile" | true, false => text "const" | false, true => text "volatile" | _, _ => [] end.
Definition bound (n : option num) : option str :=
  match n with None => Some (text "[]") | Some k => s <- int_to_str k ;; Some (text "[" ++ s ++ text "]") end.
(** type_name.h:526-562: the parameters of a function. *)
Definition fun_name (r : str) (ps : list str) (dots noexc : bool) : str :=
  r ++ (if dots then match ps with [] => text "(...)" | _ => text "(" ++ name_list ps ++ text ", ...)" end else text "(" ++ name_list ps ++ text ")")
    ++ (if noexc then text " noexcept" else []).
(** type_name.h:564-759: pointers and references to functions, [k] is [*], [*const], ..., [&]. *)
Definition fun_ptr_name (k r : str) (ps : list str) (dots noexc : bool) : str :=
  r ++ text "(" ++ k ++ text ")(" ++
    (if dots then match ps with [] => text "...)" | _ => text "(" ++ name_list ps ++ text ", ...)" end else name_list ps ++ text ")")
    ++ (if noexc then text " noexcept" else []).

Section Names.
  (** The compiler, the class names and templates that have a name of their own (lines 779-856 and impl/type_name_specializations.h; for these templates arguments that have their default value
      are left out), and how the
      compiler writes template arguments. *)
  Context (comp : compiler) (aliases templates : list str) (arguments : list ty -> option (list num) -> str).

  Definition mem (s : str) (l : list str) : bool := existsb (fun x => if list_eq_dec ascii_dec s x then true else false) l.
  Definition is_fun (t : ty) : bool := match t with Fun _ _ _ _ => true | _ => false end.

  (** type_name.h:209-759, the most specialised version for each type. *)
  Fixpoint type_name (t : ty) : option str :=
    let fun_ptr k u :=
      match u with
      | Fun r ps d x => rn <- type_name r ;; ns <- all_some (map type_name ps) ;; Some (fun_ptr_name k rn ns d x)
      | _ => None
      end in
    match t with
    | Named s => Some (if mem s aliases then s else source_string comp s)                                    (* 211-216, 765-770 *)
    | Qual c v u =>
        match u with
        | Ptr f => if is_fun f then fun_ptr (text "*" ++ cv_name c v) f                                      (* 603-719 *)
                   else n <- type_name f ;; Some (n ++ text "* " ++ cv_name c v)                             (* 246-262 *)
        | _ => n <- type_name u ;; Some (cv_name c v ++ text " " ++ n)                                       (* 220-236 *)
        end
    | Ptr u => if is_fun u then fun_ptr (text "*") u                                                         (* 564-601 *)
               else n <- type_name u ;; Some (n ++ text "*")                                                 (* 240-244 *)
    | LRef u =>
        match u with
        | Arr e b => n <- type_name e ;; k <- bound b ;; Some (n ++ text "(&)" ++ k)                         (* 304-308, 394-398 *)
        | _ => if is_fun u then fun_ptr (text "&") u                                                         (* 720-759 *)
               else n <- type_name u ;; Some (n ++ text "&")                                                 (* 266-270 *)
        end
    | RRef u =>
        match u with
        | Arr e b => n <- type_name e ;; k <- bound b ;; Some (n ++ text "(&&)" ++ k)                        (* 310-314, 400-404 *)
        | _ => n <- type_name u ;; Some (n ++ text "&&")                                                     (* 272-276 *)
        end
    | Arr e b => n <- type_name e ;; k <- bound b ;; Some (n ++ k)                                           (* 280-302, 370-392 *)
    | Fun r ps d x => rn <- type_name r ;; ns <- all_some (map type_name ps) ;; Some (fun_name rn ns d x)    (* 528-562 *)
    | Inst tmpl us ns =>
        names <- all_some (map type_name us) ;;
        let source := source_string comp (tmpl ++ text "<" ++ arguments us ns ++ text ">") in
        let base := trim_right_from_last source "<"%char in
        match ns with
        | None =>
            match mem tmpl templates, names with
            | true, [n] => Some (tmpl ++ text "<" ++ n ++ text ">")                                          (* 772-777 *)
            | _, _ => Some (base ++ text "<" ++ name_list names ++ text ">")                                 (* 463-472 *)
            end
        | Some l =>
            match names with
            | [] => nums <- all_some (map int_to_str l) ;; Some (base ++ text "<" ++ name_list nums ++ text ">")                                  (* 474-484 *)
            | [_] | [_; _] | [_; _; _] =>
                nums <- all_some (map int_to_str l) ;; Some (base ++ text "<" ++ name_list names ++ text ", " ++ name_list nums ++ text ">")        (* 486-524 *)
            | _ => Some source                                                                               (* 211-216 *)
            end
        end
    end.
End Names.
