(** What scope guards should do: each guard has a flag "dismissed", and when its scope is left its callable runs if it is not
    dismissed and the way the scope was left is the right one.  No exception counting. *)
From Verif Require Import Words GuardModel.

Definition due (m : gmode) (e : ending) : bool :=
  match m, e with
  | _, Terminated => false
  | Always, _ => true
  | OnFail, Thrown => true
  | OnSuccess, Normal => true
  | _, _ => false
  end.

Fixpoint ideal (c : cmd) (dismissed : list bool) : ending * list bool * list event :=
  match c with
  | Skip => (Normal, dismissed, [])
  | Act n => (Normal, dismissed, [Did n])
  | Throw => (Thrown, dismissed, [])
  | Dismiss i => (Normal, upd dismissed i (fun _ => true), [])
  | Ask i => (Normal, dismissed, match nth_error dismissed i with Some b => [Answer b] | None => [] end)
  | Seq a b =>
      let '(e, d1, t1) := ideal a dismissed in
      match e with
      | Normal => let '(e2, d2, t2) := ideal b d1 in (e2, d2, t1 ++ t2)
      | _ => (e, d1, t1)
      end
  | Guard m id body =>
      let '(e, d1, t1) := ideal body (false :: dismissed) in
      (e, tl d1, t1 ++ (if due m e && negb (hd true d1) then [Ran id] else []))
  | Defer d body =>
      let '(e, d1, t1) := ideal body dismissed in
      match e with
      | Terminated => (Terminated, d1, t1)
      | _ => let '(e2, d2, t2) := ideal d d1 in (match e2 with Normal => e | _ => Terminated end, d2, t1 ++ t2)
      end
  | Try body handler =>
      let '(e, d1, t1) := ideal body dismissed in
      match e with
      | Thrown => let '(e2, d2, t2) := ideal handler d1 in (e2, d2, t1 ++ t2)
      | _ => (e, d1, t1)
      end
  end.

(** The number of exceptions that can be in flight at once is at most the nesting of destructors. *)
Fixpoint depth (c : cmd) : N :=
  match c with
  | Seq a b | Try a b => N.max (depth a) (depth b)
  | Guard _ _ b => depth b
  | Defer d b => N.max (1 + depth d) (depth b)
  | _ => 0
  end%N.

(** Occurrences of a guard in a trace, and in a program. *)
Definition runs (id : N) (t : list event) : nat := length (filter (fun e => match e with Ran i => N.eqb i id | _ => false end) t).
Fixpoint declared (id : N) (c : cmd) : nat :=
  match c with
  | Seq a b | Try a b | Defer a b => declared id a + declared id b
  | Guard _ i b => (if N.eqb i id then 1 else 0) + declared id b
  | _ => 0
  end.
