(** Model of type_list.h, and of [index_of_type] and [type_at_index] in meta.h: template instantiation as evaluation. *)
From Coq Require Import PeanoNat.
From Verif Require Import Words.
Local Open Scope nat_scope.

(** A type: some other type, or a [type_list] of types. *)
Inductive ty : Type := Other (n : N) | TList (l : list ty).

(** The result of instantiating a template: ill-formed (no matching specialization, or a failed static_assert), or well-formed.
    [Fuel]: the recursion of the model ran out (never, by [C48_slice] and [C48_select]). *)
Inductive inst (A : Type) : Type := Ok (a : A) | Ill | Fuel.
Arguments Ok {A} a. Arguments Ill {A}. Arguments Fuel {A}.
Definition ibind {A B} (m : inst A) (f : A -> inst B) : inst B := match m with Ok a => f a | Ill => Ill | Fuel => Fuel end.
Definition of_opt {A} (m : option A) : inst A := match m with Some a => Ok a | None => Ill end.

(** type_list.h:14-42: the page size (8, 16, 32, 48 or 64), the jumbo pages, the compiler builtin. *)
Record config : Type := { page : nat; jumbo : bool; builtin : bool }.

Section Tlist.
  Context {A : Type} (c : config).

  (** type_list.h:78-82: without jumbo pages their size is SIZE_MAX, which no index reaches. *)
  Definition reaches_jumbo (n : nat) : bool := jumbo c && (128 <=? n).

  (** type_list.h:284-294: the types selected by the index sequence. *)
  Fixpoint gather (sel : nat -> inst A) (start n : nat) : inst (list A) :=
    match n with
    | 0 => Ok []
    | S n' => ibind (sel start) (fun a => ibind (gather sel (S start) n') (fun r => Ok (a :: r)))
    end.

  (** type_list.h:110-239 [type_list_selector_] and 255-668 [type_list_slicer_], with [select] and [slice] of the three
      specializations of [type_list] (746-750, 780-789, 816-825).  The generated specializations (157-234, 391-468, 485-561, 580-664)
      exist for the indices 1 .. page-1, the lengths 2 .. page and the skips 1 .. page. *)
  Section Bodies.
    Variables (sel : list A -> nat -> inst A) (sli : list A -> nat -> nat -> inst (list A)) (skip : list A -> nat -> nat -> inst (list A)).
    Definition select_body (l : list A) (n : nat) : inst A :=
    if builtin c then of_opt (nth_error l n)                                         (* 124-129 *)
    else if n =? 0 then match l with a :: _ => Ok a | [] => Ill end                  (* 134-138 *)
    else if reaches_jumbo n || (page c <=? n) then                                   (* 141-146 *)
      ibind (sli l n 1) (fun r => sel r 0)
    else if n <? page c then of_opt (nth_error l n)                                  (* 149-234 *)
    else Ill.
    Definition slice_body (l : list A) (start n : nat) : inst (list A) :=
    if (length l =? 0) || (n =? 0) || (length l <=? start) then Ok []                (* 259, 276-280 *)
    else if (n =? 1) && builtin c then ibind (of_opt (nth_error l start)) (fun a => Ok [a])  (* 260, 362-366 *)
    else if (start =? 0) && (n =? 1) then match l with a :: _ => Ok [a] | [] => Ill end      (* 261, 296-300 *)
    else if (start =? 0) && (length l =? n) then Ok l                                (* 262, 303-307 *)
    else if reaches_jumbo start then                                                 (* 263, 312-357 *)
      if 128 <=? length l then sli (skipn 128 l) (start - 128) n else Ill
    else if builtin c then gather (sel l) start n                               (* 264, 283-293 *)
    else if page c <=? start then                                                    (* 265, 371-380 *)
      ibind (skip l (page c) (length l - page c)) (fun r => sli r (start - page c) n)
    else if n =? 1 then                                                              (* 266, 383-468 *)
      if (1 <=? start) && (start <? page c) then ibind (of_opt (nth_error l start)) (fun a => Ok [a]) else Ill
    else if (start =? 0) && (n <=? page c) then                                      (* 267, 474-561 *)
      if (2 <=? n) && (n <=? length l) then Ok (firstn n l) else Ill
    else if 0 <? start then skip l start n                                   (* 268 *)
    else gather (sel l) start n                                                 (* 269 *).
    (** type_list.h:567-664: the pattern needs [k + 1] types at least. *)
    Definition skip_first_body (l : list A) (k n : nat) : inst (list A) :=
      if (1 <=? k) && (k <=? page c) && (k <? length l) then sli (skipn k l) 0 n else Ill.
  End Bodies.
  Fixpoint select (fuel : nat) (l : list A) (n : nat) {struct fuel} : inst A :=
    match fuel with
    | 0 => Fuel
    | S f => select_body (fun l n => select f l n) (fun l s n => slice f l s n) l n
    end
  with slice (fuel : nat) (l : list A) (start n : nat) {struct fuel} : inst (list A) :=
    match fuel with
    | 0 => Fuel
    | S f => slice_body (fun l n => select f l n) (fun l s n => slice f l s n) (fun l k n => skip_first f l k n) l start n
    end
  with skip_first (fuel : nat) (l : list A) (k n : nat) {struct fuel} : inst (list A) :=
    match fuel with
    | 0 => Fuel
    | S f => skip_first_body (fun l s n => slice f l s n) l k n
    end.

  (** type_list.h:748, 787, 823: the default length (computed with wrap-around when [start] exceeds the length). *)
  Definition slice_from (sw : N) (fuel : nat) (l : list A) (start : N) : inst (list A) :=
    let n := ((N.of_nat (length l) + 2 ^ sw - start) mod 2 ^ sw)%N in
    slice fuel l (N.to_nat start) (N.to_nat n).

  (** Enough fuel. *)
  Definition fuel_for (l : list A) : nat := length l + 10.
End Tlist.

(** meta.h:896-908 [type_at_index] without the builtin. *)
Fixpoint type_at_index {A} (i : nat) (l : list A) : inst A :=
  match l with
  | [] => Ill
  | t :: u => match i with 0 => Ok t | S i' => type_at_index i' u end
  end.

(** type_list.h:673-699 [type_list_concatenate_]. *)
Fixpoint concatenate_from {A} (acc : list A) (ls : list (list A)) : list A :=
  match ls with [] => acc | u :: v => concatenate_from (acc ++ u) v end.
Definition concatenate {A} (ls : list (list A)) : list A :=
  match ls with [] => [] | t :: u => concatenate_from t u end.

(** type_list.h:702-722 [type_list_flatten_] and [type_list_flatten]. *)
Fixpoint flatten1 (t : ty) : list ty :=
  match t with
  | Other _ => [t]
  | TList l => concatenate (map flatten1 l)
  end.
Definition flatten (l : list ty) : list ty := concatenate (map flatten1 l).

(** [std::is_same_v]. *)
Fixpoint same (a b : ty) {struct a} : bool :=
  match a, b with
  | Other n, Other m => (n =? m)%N
  | TList l, TList m =>
      (fix go l m := match l, m with [], [] => true | x :: l', y :: m' => same x y && go l' m' | _, _ => false end) l m
  | _, _ => false
  end.

(** type_list.h:725-738 [type_list_remove]. *)
Definition remove (r : ty) (l : list ty) : list ty := concatenate (map (fun t => if same r t then [] else [t]) l).
(** type_list.h:831: a fold expression. *)
Definition contains (u : ty) (l : list ty) : bool := fold_left (fun b t => b || same u t) l false.
(** meta.h:859-879 [index_of_type]; type_list.h:753: the index in the empty list is SIZE_MAX. *)
Fixpoint index_of_type (t : ty) (i : N) (l : list ty) : inst N :=
  match l with
  | [] => Ill
  | u :: r => if same t u then Ok i else index_of_type t (i + 1) r
  end.
Definition index_of (sw : N) (t : ty) (l : list ty) : inst N :=
  match l with [] => Ok (2 ^ sw - 1)%N | _ => index_of_type t 0 l end.
(** type_list.h:759-763, 803-807, 839-843. *)
Definition append {A} (l u : list A) : list A := l ++ u.
Definition prepend {A} (l u : list A) : list A := u ++ l.
