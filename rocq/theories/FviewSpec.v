(** What a view should do: it remembers a target, copies remember the same target, and a call is the call of the target as it was given. *)
From Coq Require Import List Bool Arith.
From Verif Require Import FviewModel.
Import ListNotations.

Section FviewSpec.
  Variable W A R : Type.
  Variable classes : nat -> class W A R.
  Variable functions : nat -> W -> A -> W * R.

  Inductive target := TNothing | TFunction (f : nat) | TObject (a : nat) (q : category).
  Inductive thing := SObject (k : nat) (s : nat) | SView (t : target).
  Record sstate := SState { things : list (option thing); sworld : W; slog : list (event R) }.

  Definition target_at (l : list (option thing)) (a : nat) : option target := match nth_error l a with Some (Some (SView t)) => Some t | _ => None end.
  Definition object_at (l : list (option thing)) (a : nat) : option (nat * nat) := match nth_error l a with Some (Some (SObject k s)) => Some (k, s) | _ => None end.
  Definition sadd (s : sstate) (o : thing) : sstate := SState (things s ++ [Some o]) (sworld s) (slog s).
  Definition sput (s : sstate) (a : nat) (o : option thing) : sstate := SState (upd (things s) a o) (sworld s) (slog s).
  Definition pointer_target (f : option nat) : target := match f with Some f => TFunction f | None => TNothing end.
  Definition sstep (s : sstate) (c : statement A) : option sstate :=
    match c with
    | NewObject k i => Some (sadd s (SObject k (if c_empty (classes k) then 0 else i)))
    | Destroy a => match nth_error (things s) a with Some (Some _) => Some (sput s a None) | _ => None end
    | NewNull => Some (sadd s (SView TNothing))
    | NewFromObject a q => match object_at (things s) a with Some _ => Some (sadd s (SView (TObject a q))) | None => None end
    | NewFromFunction f => Some (sadd s (SView (pointer_target f)))
    | NewFromView a _ => match target_at (things s) a with Some t => Some (sadd s (SView t)) | None => None end
    | Assign a b => match target_at (things s) a, target_at (things s) b with Some _, Some t => Some (sput s a (Some (SView t))) | _, _ => None end
    | AssignObject a b q => match target_at (things s) a, object_at (things s) b with Some _, Some _ => Some (sput s a (Some (SView (TObject b q)))) | _, _ => None end
    | AssignFunction a f => match target_at (things s) a with Some _ => Some (sput s a (Some (SView (pointer_target f)))) | None => None end
    | Call a x =>
        match target_at (things s) a with
        | Some (TFunction f) => let '(w, r) := functions f (sworld s) x in Some (SState (things s) w (slog s ++ [Returned r]))
        | Some (TObject b q) =>
            match object_at (things s) b with
            | Some (k, i) => let '(i', w, r) := c_call (classes k) q i (sworld s) x in Some (SState (upd (things s) b (Some (SObject k i'))) w (slog s ++ [Returned r]))
            | None => None
            end
        | _ => None
        end
    | Test a => match target_at (things s) a with Some t => Some (SState (things s) (sworld s) (slog s ++ [Tested match t with TNothing => false | _ => true end])) | None => None end
    end.
  Fixpoint srun (s : sstate) (p : list (statement A)) : option sstate :=
    match p with [] => Some s | c :: p => match sstep s c with Some s => srun s p | None => None end end.
  Definition sstart (w : W) : sstate := SState [] w [].

  (** Classes as lambdas are: without state nothing is remembered, the call operator is not overloaded, and unary plus gives a function that
      does what the call operator does. *)
  Definition like_a_lambda (k : nat) : Prop :=
    let c := classes k in
    c_empty c = true ->
    (forall q w x, fst (fst (c_call c q 0 w x)) = 0) /\
    (c_trivial c = true -> forall q q' w x, c_call c q 0 w x = c_call c q' 0 w x) /\
    (forall f, c_plus c = Some f -> forall q w x, functions f w x = (let '(_, w', r) := c_call c q 0 w x in (w', r))).
  Definition const_lvalue (q : category) : bool := is_const q && negb (is_rvalue q).
  (** Views are copied from const views only, and no null pointer is viewed. *)
  Definition plain (c : statement A) : Prop :=
    match c with
    | NewFromView _ q => const_lvalue q = true
    | NewFromFunction f | AssignFunction _ f => f <> None
    | _ => True
    end.
End FviewSpec.
Arguments SState {W R}. Arguments things {W R}. Arguments sworld {W R}. Arguments slog {W R}. Arguments sstart {W R}. Arguments sstep {W A R}. Arguments srun {W A R}.
Arguments like_a_lambda {W A R}. Arguments plain {A}. Arguments sadd {W R}. Arguments sput {W R}.
