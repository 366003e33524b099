(** What a user expects of strong typedefs, in terms of the same program with plain typedefs. *)
From Verif Require Import Words StypeModel.
Import ListNotations.
Local Open Scope Z_scope.

(** The same variables with plain types: a strong typedef of a reference becomes that reference. *)
Definition plain_var (d : vdecl) : vdecl :=
  match v_ty d with
  | inl _ => d
  | inr t => Var (inl (base t)) (v_const d || refk_eqb (ref t) CRef) (v_loc d)
  end.
Definition plain (G : env) : env := map plain_var G.
Definition plain_ty (t : ety) : sty := match t with Raw s => s | Strong t _ => base t end.

(** No strong typedef of a reference. *)
Definition no_refs (G : env) : Prop :=
  forall x d t, nth_error G x = Some d -> v_ty d = inr t -> ref t = ByValue.

(** Every class with [==] has [!=] too, in its own right or by the rules of C++20. *)
Definition has_unequal (L : lang) : Prop :=
  cpp20 L = true \/ forall i, c_cmp (classes L i) Eq <> None -> c_cmp (classes L i) Ne <> None.

Fixpoint vars (e : expr) : list nat :=
  match e with
  | EVar x => [x]
  | ELit _ _ => []
  | EUn _ e => vars e
  | EArith _ a b => vars a ++ vars b
  | ECmp _ a b => vars a ++ vars b
  end.

Definition strong_var (G : env) (t : stype) (x : nat) : Prop := exists d, nth_error G x = Some d /\ v_ty d = inr t.
(** Two memories with the same values for all variables of the strong type [t]. *)
Definition same_for (G : env) (t : stype) (m m' : mem) : Prop :=
  forall x d, nth_error G x = Some d -> v_ty d = inr t -> m (v_loc d) = m' (v_loc d).
(** No variable of another type lives in a cell of a variable of type [t]. *)
Definition unshared (G : env) (t : stype) : Prop :=
  forall x y d d', nth_error G x = Some d -> nth_error G y = Some d' -> v_ty d = inr t -> v_ty d' <> inr t -> v_loc d <> v_loc d'.

(** Types whose sums and differences have their own type: integers at least as wide as [int], and classes. *)
Definition closed_arith (L : lang) (o : arith) (s : sty) : Prop :=
  match s with
  | SInt _ w => 32 <= w
  | SCls i => c_arith (classes L i) o <> None
  | _ => False
  end.
(** Types with some sum or difference. *)
Definition has_arith (L : lang) (o : arith) (s : sty) : Prop := arith_ty L o s s <> None.

(** The traits a type needs: [addable] for sums, [subtractable] for differences, and one each for the two directions of counting. *)
Inductive grants (t : traits) : arith -> Prop :=
| gr_add : t_add t = true -> grants t Add
| gr_sub : t_sub t = true -> grants t Sub.
Inductive counts (t : traits) : dir -> Prop :=
| co_inc : t_inc t = true -> counts t Inc
| co_dec : t_dec t = true -> counts t Dec.
