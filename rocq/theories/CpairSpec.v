(** What is expected of a compressed pair, said without the layout algorithm. *)
From Coq Require Import Arith List Bool.
From Verif Require Import Words CpairModel.
Import ListNotations.
Local Open Scope nat_scope.

(** How deep a type is made of others. *)
Fixpoint depth (c : cid) : nat :=
  match c with User _ l => l | PBase a b => S (Nat.max (depth a) (depth b)) | PPair a b => S (Nat.max (depth a) (depth b)) end.

(** What every complete type of C++ satisfies. *)
Record good (t : ty) : Prop := {
  g_align : exists k, t_align t = 2 ^ k;
  g_size : 0 < t_size t;
  g_mult : Nat.divide (t_align t) (t_size t);
  g_data : t_dsize t <= t_size t;
  g_empty : t_empty t = true -> t_dsize t = 0;
  g_self : t_empty t = true -> In (0, t_id t) (t_subs t);
  g_in : forall o c, In (o, c) (t_subs t) -> o < t_size t;
  g_made : forall o c, In (o, c) (t_subs t) -> depth c <= depth (t_id t);
  g_unique : NoDup (t_subs t);
  g_bases : forall c, In c (t_bases t) -> exists o, In (o, c) (t_subs t) }.

(** Objects side by side: [struct { First a; Second b; }]. *)
Definition multiple_at_least (a x y : nat) : Prop := Nat.divide a y /\ x <= y /\ (forall z, Nat.divide a z -> x <= z -> y <= z).
Definition plain_struct (f s : ty) (size : nat) : Prop :=
  exists o, multiple_at_least (t_align s) (t_size f) o /\ multiple_at_least (Nat.max (t_align f) (t_align s)) (o + t_size s) size.

(** Whether an object at one offset and one at another would hold subobjects of one type at one address. *)
Definition clash (o1 : nat) (t1 : ty) (o2 : nat) (t2 : ty) : Prop :=
  exists a b c, In (a, c) (t_subs t1) /\ In (b, c) (t_subs t2) /\ o1 + a = o2 + b.

(** Memory: a map from addresses to bytes. An assignment to an object of the type writes its data and nothing else. *)
Definition writes_only (off len : nat) (m m' : nat -> N) : Prop := forall a, ~ (off <= a < off + len) -> m' a = m a.
Definition same_bytes (off len : nat) (m m' : nat -> N) : Prop := forall a, off <= a < off + len -> m' a = m a.
