(** Model of scope_guard.h: scope_guard, scope_fail and scope_success, in programs that may throw.
    Guards can be neither moved nor copied (MUU_DELETE_MOVE, MUU_DELETE_COPY), so each lives in exactly one scope. *)
From Verif Require Import Words.
Local Open Scope N_scope.

Inductive gmode : Type := Always | OnFail | OnSuccess.          (* scope_guard.h:241-246 [scope_guard_mode] *)

(** scope_guard.h:166-167 [scope_guard_dismissed_mask], [scope_guard_excount_mask] for a 32-bit [unsigned]. *)
Definition dismissed_mask : N := 2 ^ 31.
Definition excount_mask : N := 2 ^ 32 - 1 - 2 ^ 31.

(** What a guard keeps (scope_guard.h:34-239, the eight [scope_guard_storage]s).  Exception-aware guards
    pack the count and the flag in one [unsigned]; [Always] guards have a [bool].  Whether the callable is stored too makes no
    difference to the rest. *)
Inductive gstate : Type :=
| GFlag (dismissed : bool)
| GWord (data : N).

(** Construction; [ue] is [std::uncaught_exceptions()], an [int]. *)
Definition g_new (m : gmode) (ue : N) : gstate :=
  match m with Always => GFlag false | _ => GWord (trunc 32 ue) end.
Definition g_dismiss (g : gstate) : gstate :=
  match g with GFlag _ => GFlag true | GWord d => GWord (N.lor d dismissed_mask) end.
Definition g_dismissed (g : gstate) : bool :=
  match g with GFlag b => b | GWord d => negb (N.land d dismissed_mask =? 0) end.
Definition g_count (g : gstate) : N := match g with GFlag _ => 0 | GWord d => N.land d excount_mask end.

(** scope_guard.h:289-318 [~scope_guard_base]: whether the callable is invoked. *)
Definition g_runs (m : gmode) (g : gstate) (ue : N) : bool :=
  match m with
  | OnFail => if g_count g =? ue then false else negb (g_dismissed g)
  | OnSuccess => if negb (g_count g =? ue) then false else negb (g_dismissed g)
  | Always => negb (g_dismissed g)
  end.

(** Programs.  [Guard m id body] is a block that declares a guard and then runs [body]; [Dismiss i] and [Ask i] dismiss and
    query the [i]-th guard in scope, innermost first; [Defer d body] is a block with a local object whose destructor runs [d]
    (this is how guards come to be constructed while an exception is in flight). *)
Inductive cmd : Type :=
| Skip
| Act (n : N)
| Throw
| Dismiss (i : nat)
| Ask (i : nat)
| Seq (a b : cmd)
| Guard (m : gmode) (id : N) (body : cmd)
| Defer (d body : cmd)
| Try (body handler : cmd).

Inductive event : Type :=
| Did (n : N)              (* an action of the program *)
| Ran (id : N)             (* a guard's callable *)
| Answer (dismissed : bool).

(** How a statement ended; [Terminated] is an exception leaving a destructor. *)
Inductive ending : Type := Normal | Thrown | Terminated.

Definition upd {A} (l : list A) (i : nat) (f : A -> A) : list A :=
  match nth_error l i with Some x => firstn i l ++ f x :: skipn (S i) l | None => l end.

(** C++ execution with [ue] exceptions uncaught: how it ends, the guards in scope afterwards, the events. *)
Fixpoint exec (c : cmd) (ue : N) (env : list gstate) : ending * list gstate * list event :=
  match c with
  | Skip => (Normal, env, [])
  | Act n => (Normal, env, [Did n])
  | Throw => (Thrown, env, [])
  | Dismiss i => (Normal, upd env i g_dismiss, [])
  | Ask i => (Normal, env, match nth_error env i with Some g => [Answer (g_dismissed g)] | None => [] end)
  | Seq a b =>
      let '(e, env1, t1) := exec a ue env in
      match e with
      | Normal => let '(e2, env2, t2) := exec b ue env1 in (e2, env2, t1 ++ t2)
      | _ => (e, env1, t1)
      end
  | Guard m id body =>
      let '(e, env1, t1) := exec body ue (g_new m ue :: env) in
      match e, env1 with
      | Terminated, _ => (Terminated, tl env1, t1)
      | _, g :: env2 =>
          let ue' := match e with Thrown => ue + 1 | _ => ue end in
          (e, env2, t1 ++ (if g_runs m g ue' then [Ran id] else []))
      | _, [] => (e, [], t1)
      end
  | Defer d body =>
      let '(e, env1, t1) := exec body ue env in
      match e with
      | Terminated => (Terminated, env1, t1)
      | _ =>
          let '(e2, env2, t2) := exec d (match e with Thrown => ue + 1 | _ => ue end) env1 in
          (match e2 with Normal => e | _ => Terminated end, env2, t1 ++ t2)
      end
  | Try body handler =>
      let '(e, env1, t1) := exec body ue env in
      match e with
      | Thrown => let '(e2, env2, t2) := exec handler ue env1 in (e2, env2, t1 ++ t2)
      | _ => (e, env1, t1)
      end
  end.
