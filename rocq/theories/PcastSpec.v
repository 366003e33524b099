(** What pointer_cast should do, without the casts it is made of. *)
From Verif Require Import Words PcastModel.
Import ListNotations.
Local Open Scope N_scope.

(** Function types have no qualifiers of their own. *)
Definition proper (p : ptype) : Prop := match p with P q (Func _ _) => q = no_cv | _ => True end.

(** The pairs of types between which a cast is possible. *)
Definition sensible (h : hierarchy) (ptr : N) (from to : ptype) : Prop :=
  match from, to with
  | P _ (Func i _), P _ (Func j _) => i = j
  | P _ (Func _ _), P _ t => t = Void
  | P _ s, P _ (Func _ _) => s = Void
  | P _ (Class c), P _ (Class d) =>
      (derives h c d = true -> link_of h c d <> Ambiguous) /\
      (derives h d c = true -> polymorphic h c = true \/ exists x, link_of h d c = Fixed x)
  | P _ _, P _ _ => True
  | P _ _, I i | I i, P _ _ | Nullptr, I i => ptr <= bytes i
  | Nullptr, P _ _ => True
  | _, _ => False
  end.

(** It is a proper base or derived class. *)
Definition related (h : hierarchy) (s t : ty) : Prop :=
  match s, t with Class c, Class d => derives h c d = true \/ derives h d c = true | _, _ => False end.

(** There is a [c] at address [a], part of the complete object [e]. *)
Definition object_at (h : hierarchy) (m : memory) (e : N * nat) (c : nat) (a : N) : Prop :=
  exists o, In e m /\ In (c, o) (parts h (snd e)) /\ a = fst e + o.
(** The [d] at address [a] has, as a base, a [b] at address [a']. *)
Definition has_base (h : hierarchy) (m : memory) (d : nat) (a : N) (b : nat) (a' : N) : Prop :=
  exists e o o', In e m /\ In (d, o) (parts h (snd e)) /\ In (b, o') (within h (snd e) (d, o)) /\ a = fst e + o /\ a' = fst e + o'.

(** What C++ says of classes and of memory: inheritance has no cycles; the subobjects are listed once; the bases of a subobject are
    subobjects; the kind of a base tells where and how often it occurs; no object is at address 0; no two objects of one class are at
    one address. *)
Record lawful (h : hierarchy) (m : memory) : Prop := {
  acyclic : forall c d, derives h c d = true -> derives h d c = false;
  once : forall k, NoDup (parts h k);
  inside : forall k p b, In p (parts h k) -> In b (within h k p) -> In b (parts h k);
  fixed_base : forall k d o b x, derives h d b = true -> link_of h d b = Fixed x -> In (d, o) (parts h k) -> bases_in h k (d, o) b = [o + x];
  virtual_base : forall k d o b, derives h d b = true -> link_of h d b = Virtual -> In (d, o) (parts h k) -> exists o', bases_in h k (d, o) b = [o'];
  not_null : forall e, In e m -> 0 < fst e;
  apart : forall e e' c a, object_at h m e c a -> object_at h m e' c a -> e = e'
}.

(** The number a pointer-sized pattern stands for, and the same in another size. *)
Definition as_signed (w n : N) : Z := if n <? 2 ^ (w - 1) then Z.of_N n else (Z.of_N n - Z.of_N (2 ^ w))%Z.
Definition number (i : int_type) (n : N) : Z := if is_signed i then as_signed (8 * bytes i) n else Z.of_N n.
