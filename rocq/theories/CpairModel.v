(** Model of include/muu/compressed_pair.h: which element becomes a base, where the elements are, when the accessors compile, how the
    elements are constructed.

    The layout rules are those of the Itanium C++ ABI (section 2.4), which GCC and Clang follow; a type is described by what these rules need. *)
From Coq Require Import Arith List Bool.
From Verif Require Import Words.
Import ListNotations.
Local Open Scope nat_scope.

(** Names of types: classes of the program (the level is there to say which types were complete before), and the pair templates. *)
Inductive cid := User (n : N) (level : nat) | PBase (a b : cid) | PPair (a b : cid).
Fixpoint cid_eqb (x y : cid) : bool :=
  match x, y with
  | User n l, User n' l' => N.eqb n n' && Nat.eqb l l'
  | PBase a b, PBase a' b' => cid_eqb a a' && cid_eqb b b'
  | PPair a b, PPair a' b' => cid_eqb a a' && cid_eqb b b'
  | _, _ => false
  end.

(** A type: [t_dsize] is its size without the padding at its end that others may use, [t_subs] the offsets of all its subobjects of class
    type, itself included, and [t_bases] the classes of its base subobjects, direct or not, one entry for each. *)
Record ty := {
  t_id : cid;
  t_empty : bool;
  t_final : bool;
  t_size : nat;
  t_dsize : nat;
  t_align : nat;
  t_subs : list (nat * cid);
  t_bases : list cid }.

(** compressed_pair.h:49-50: [std::is_empty_v<T> && !std::is_final_v<T>]. *)
Definition can_be_base (t : ty) : bool := t_empty t && negb (t_final t).

(* ------------------------------------------------------------------ the ABI *)

Definition up (a x : nat) : nat := ((x + (a - 1)) / a) * a.
Record state := { s_size : nat; s_dsize : nat; s_align : nat; s_subs : list (nat * cid) }.
Definition start : state := {| s_size := 0; s_dsize := 0; s_align := 1; s_subs := [] |}.
Definition at_offset (off : nat) (l : list (nat * cid)) : list (nat * cid) := map (fun p => (off + fst p, snd p)) l.
Definition occupied (subs : list (nat * cid)) (p : nat * cid) : bool := existsb (fun q => Nat.eqb (fst q) (fst p) && cid_eqb (snd q) (snd p)) subs.
(** Two subobjects of one type would have the same address. *)
Definition conflict (subs : list (nat * cid)) (off : nat) (t : ty) : bool := existsb (occupied subs) (at_offset off (t_subs t)).
Fixpoint find (fuel : nat) (subs : list (nat * cid)) (off : nat) (t : ty) : nat :=
  match fuel with
  | O => off
  | S k => if conflict subs off t then find k subs (off + t_align t) t else off
  end.
(** A base, or a data member, which may share its address and padding if it has the attribute. *)
Inductive kind := KBase | KMember.
Definition overlapping (nua : bool) (k : kind) : bool := match k with KBase => true | KMember => nua end.
Definition place (nua : bool) (st : state) (k : kind) (t : ty) : nat * state :=
  let next := find (S (s_size st)) (s_subs st) (up (t_align t) (s_dsize st)) t in
  let ov := overlapping nua k in
  let off := if ov && t_empty t then (if conflict (s_subs st) 0 t then next else 0) else next in
  (off,
   {| s_size := Nat.max (s_size st) (off + t_size t);
      s_dsize := if ov && t_empty t then s_dsize st else off + (if ov then t_dsize t else t_size t);
      s_align := Nat.max (s_align st) (t_align t);
      s_subs := s_subs st ++ at_offset off (t_subs t) |}).

(* ------------------------------------------------------------------ the pair *)

(** compressed_pair.h:46-151: what the four templates derive from and contain. The flag: the first component is the pair's first element. *)
Definition components (f s : ty) : list (bool * kind) :=
  match can_be_base f, can_be_base s with
  | false, false => [(true, KMember); (false, KMember)]
  | true, false => [(true, KBase); (false, KMember)]
  | false, true => [(false, KBase); (true, KMember)]
  | true, true => [(true, KBase); (false, KBase)]
  end.
Record layout := { l_first : nat; l_second : nat; l_state : state }.
Definition pick (f s : ty) (b : bool) : ty := if b then f else s.
Definition pair_layout (nua : bool) (f s : ty) : layout :=
  match components f s with
  | [(b1, k1); (b2, k2)] =>
      let '(o1, st1) := place nua start k1 (pick f s b1) in
      let '(o2, st2) := place nua st1 k2 (pick f s b2) in
      {| l_first := if b1 then o1 else o2; l_second := if b1 then o2 else o1; l_state := st2 |}
  | _ => {| l_first := 0; l_second := 0; l_state := start |}
  end.
Definition base_count (c : cid) (l : list cid) : nat := length (filter (cid_eqb c) l).
Definition pair_bases (f s : ty) : list cid :=
  (if can_be_base f then t_id f :: t_bases f else []) ++ (if can_be_base s then t_id s :: t_bases s else []).
(** The class [compressed_pair<F, S>] (compressed_pair.h:163-300, 46-151), whose only base is [compressed_pair_base<F, S>]. [None]: one class twice
    as a direct base does not compile. [nua]: the attribute exists (C++20). [tail]: the ABI lets others use the padding at the pair's end. A
    class is empty if it has no members besides empty ones that share their address. *)
Definition compressed_pair (nua tail : bool) (f s : ty) : option ty :=
  if can_be_base f && can_be_base s && cid_eqb (t_id f) (t_id s) then None
  else
    let st := l_state (pair_layout nua f s) in
    let size := up (s_align st) (s_size st) in
    let empty := (can_be_base f || (nua && t_empty f)) && (can_be_base s || (nua && t_empty s)) in
    Some {| t_id := PPair (t_id f) (t_id s);
            t_empty := empty;
            t_final := false;
            t_size := size;
            t_dsize := if empty then 0 else if tail then s_dsize st else size;
            t_align := s_align st;
            t_subs := (0, PPair (t_id f) (t_id s)) :: (0, PBase (t_id f) (t_id s)) :: s_subs st;
            t_bases := PBase (t_id f) (t_id s) :: pair_bases f s |}.
(** compressed_pair.h:23-44, 73-74, 99-100, 126-127, 149-150: the accessors cast the pair to the element if it is a base; the cast compiles if there is one such base. *)
Definition first_ok (f s : ty) : bool := if can_be_base f then Nat.eqb (base_count (t_id f) (pair_bases f s)) 1 else true.
Definition second_ok (f s : ty) : bool := if can_be_base s then Nat.eqb (base_count (t_id s) (pair_bases f s)) 1 else true.

(* ------------------------------------------------------------------ construction and the other operations *)

(** What the constructor needs to know about initialising an element with an argument: whether [T(arg)] is possible, what that would give,
    and what [T{ arg }] gives ([None]: an error); each runs a constructor, which may throw ([false]). *)
Record init (V : Type) := { i_paren : option (V * bool); i_brace : option (V * bool) }.
Arguments i_paren {V}. Arguments i_brace {V}.
(** The outcome: the constructor is not there; the program does not compile; elements built, in this order ([true]: the first one); or
    the constructor named last threw after these had been built. *)
Inductive built (V W : Type) :=
| NotThere
| IllFormed
| Built (v : V) (w : W) (order : list bool)
| Thrown (order : list bool).
Arguments NotThere {V W}. Arguments IllFormed {V W}. Arguments Built {V W}. Arguments Thrown {V W}.
(** compressed_pair.h:64-71, 90-97, 116-124, 140-147: the constraint asks for parentheses, the bodies use braces; bases come before members. *)
Definition construct {V W} (f s : ty) (i : init V) (j : init W) : built V W :=
  match i_paren i, i_paren j with
  | Some _, Some _ =>
      match i_brace i, i_brace j with
      | Some (v, ok1), Some (w, ok2) =>
          match map fst (components f s) with
          | true :: _ => if negb ok1 then Thrown [] else if negb ok2 then Thrown [true] else Built v w [true; false]
          | _ => if negb ok2 then Thrown [] else if negb ok1 then Thrown [false] else Built v w [false; true]
          end
      | _, _ => IllFormed
      end
  | _, _ => NotThere
  end.
(** compressed_pair.h:293-299: [swap] exchanges the first elements and then the second; the values of the two pairs. *)
Definition swap_pairs {V W} (a b : V * W) : (V * W) * (V * W) :=
  let a1 := (fst b, snd a) in let b1 := (fst a, snd b) in
  ((fst a1, snd b1), (fst b1, snd a1)).
