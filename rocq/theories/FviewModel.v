(** Model of muu::function_view (include/muu/function_view.h). A view is one pointer to an invoker and one payload. Callables are free
    functions, objects of classes with a call operator, and views themselves. Arguments, results and the rest of the program's state are
    abstract. A call may change the object it is made on and the rest of the state, but no other object modelled here. *)
From Coq Require Import List Bool Arith.
Import ListNotations.

Section Fview.
  Variable W A R : Type.

  (** The expression a callable is given as: [U&&] of the constructor (function_view.h:75, 154). *)
  Record category := Category { is_const : bool; is_rvalue : bool }.
  (** A class with a call operator: whether it is empty; whether default constructor and destructor are trivial; what a call does to the state of an
      object, depending on the expression the object is given as (operators may be overloaded for const, & and &&); and the function that unary plus
      converts it to, if there is one. *)
  Record class := Class {
    c_empty : bool;
    c_trivial : bool;
    c_call : category -> nat -> W -> A -> nat * W * R;
    c_plus : option nat }.
  Variable classes : nat -> class.
  (** The free functions of the program. *)
  Variable functions : nat -> W -> A -> W * R.

  (** function_view.h:44-47 *)
  Inductive payload := PNull | PFunction (f : nat) | PObject (a : nat).
  (** The four lambdas of function_view.h:92-97, 115-120, 131-139; the last is used for classes and for views. *)
  Inductive invoker := IFresh (k : nat) | IFunction | IObject (k : nat) (q : category) | IView (q : category).
  (** function_view.h:70-71; [None] is the null invoker. *)
  Record view := View { v_invoker : option invoker; v_payload : payload }.
  Inductive object := OClass (k : nat) (state : nat) | OView (v : view).
  (** Objects by address; [None] once destroyed. Addresses are not used again. *)
  Definition memory := list (option object).
  Fixpoint upd {T} (l : list T) (i : nat) (x : T) : list T :=
    match l, i with [], _ => [] | _ :: l, O => x :: l | y :: l, S i => y :: upd l i x end.

  (** meta.h:2509-2514 *)
  Definition manifestable (k : nat) : bool := c_empty (classes k) && c_trivial (classes k).
  (** function_view.h:29-42: the function a class decays to. *)
  Definition decays (k : nat) : option nat := if c_empty (classes k) then c_plus (classes k) else None.

  (** function_view.h:145, 211: a null view. *)
  Definition null_view : view := View None PNull.
  (** function_view.h:107-121 for a function pointer, which may be null *)
  Definition bind_pointer (f : option nat) : view := View (Some IFunction) match f with Some f => PFunction f | None => PNull end.
  (** function_view.h:75-141 for an object of class [k] at address [a] *)
  Definition bind_object (k : nat) (q : category) (a : nat) : view :=
    if manifestable k then View (Some (IFresh k)) PNull
    else match decays k with
         | Some f => bind_pointer (Some f)
         | None => View (Some (IObject k q)) (PObject a)
         end.
  (** The same for a view at address [a]: views are not empty and have no unary plus. *)
  Definition bind_view (q : category) (a : nat) : view := View (Some (IView q)) (PObject a).
  (** Construction of a view from a view: function_view.h:215 (trivial copy) or 225-229 (the template). For any expression but a const lvalue the
      template is the better match, being generic. *)
  Definition construct_from_view (q : category) (a : nat) (v : view) : view :=
    if is_const q && negb (is_rvalue q) then v else bind_view q a.

  (** function_view.h:166-169 *)
  Definition is_bound (v : view) : bool := match v_invoker v with Some _ => true | None => false end.

  Inductive outcome := Done (m : memory) (w : W) (r : R) | Undefined | Endless.
  (** function_view.h:160-163; at most [n] nested calls of views. Calling null, or an object that does not exist, is undefined. *)
  Fixpoint call (n : nat) (m : memory) (w : W) (v : view) (x : A) : outcome :=
    match n with
    | O => Endless
    | S n =>
        match v_invoker v, v_payload v with
        | None, _ => Undefined
        | Some (IFresh k), _ => let '(_, w', r) := c_call (classes k) (Category false true) 0 w x in Done m w' r
        | Some IFunction, PFunction f => let '(w', r) := functions f w x in Done m w' r
        | Some (IObject k q), PObject a =>
            match nth_error m a with
            | Some (Some (OClass k' s)) =>
                if Nat.eqb k k' then let '(s', w', r) := c_call (classes k) q s w x in Done (upd m a (Some (OClass k s'))) w' r else Undefined
            | _ => Undefined
            end
        | Some (IView q), PObject a =>
            match nth_error m a with
            | Some (Some (OView v')) => call n m w v' x
            | _ => Undefined
            end
        | _, _ => Undefined
        end
    end.

  (** Statements of a program; every new object or view gets the next address. *)
  Inductive statement :=
  | NewObject (k : nat) (state : nat)
  | Destroy (a : nat)
  | NewNull                                    (* function_view<F> v; *)
  | NewFromObject (a : nat) (q : category)     (* function_view<F> v{object}; *)
  | NewFromFunction (f : option nat)           (* function_view<F> v{pointer}; *)
  | NewFromView (a : nat) (q : category)       (* function_view<F> v{other}; *)
  | Assign (a b : nat)                         (* v = other; *)
  | AssignObject (a b : nat) (q : category)    (* v = object; by way of a temporary view *)
  | AssignFunction (a : nat) (f : option nat)  (* v = pointer; *)
  | Call (a : nat) (x : A)                     (* v(x); *)
  | Test (a : nat).                            (* bool(v) *)
  Inductive event := Returned (r : R) | Tested (b : bool).
  Record state := State { mem : memory; world : W; log : list event }.

  Definition view_at (m : memory) (a : nat) : option view := match nth_error m a with Some (Some (OView v)) => Some v | _ => None end.
  Definition class_at (m : memory) (a : nat) : option nat := match nth_error m a with Some (Some (OClass k _)) => Some k | _ => None end.
  Definition add (s : state) (o : object) : state := State (mem s ++ [Some o]) (world s) (log s).
  Definition put (s : state) (a : nat) (o : option object) : state := State (upd (mem s) a o) (world s) (log s).
  (** One statement, with calls nested at most [n] deep; [None] is undefined behaviour, or a call deeper than that. Objects of empty classes have no state. *)
  Definition step (n : nat) (s : state) (c : statement) : option state :=
    match c with
    | NewObject k i => Some (add s (OClass k (if c_empty (classes k) then 0 else i)))
    | Destroy a => match nth_error (mem s) a with Some (Some _) => Some (put s a None) | _ => None end
    | NewNull => Some (add s (OView null_view))
    | NewFromObject a q => match class_at (mem s) a with Some k => Some (add s (OView (bind_object k q a))) | None => None end
    | NewFromFunction f => Some (add s (OView (bind_pointer f)))
    | NewFromView a q => match view_at (mem s) a with Some v => Some (add s (OView (construct_from_view q a v))) | None => None end
    | Assign a b => match view_at (mem s) a, view_at (mem s) b with Some _, Some v => Some (put s a (Some (OView v))) | _, _ => None end
    | AssignObject a b q => match view_at (mem s) a, class_at (mem s) b with Some _, Some k => Some (put s a (Some (OView (bind_object k q b)))) | _, _ => None end
    | AssignFunction a f => match view_at (mem s) a with Some _ => Some (put s a (Some (OView (bind_pointer f)))) | None => None end
    | Call a x =>
        match view_at (mem s) a with
        | Some v => match call n (mem s) (world s) v x with Done m w r => Some (State m w (log s ++ [Returned r])) | _ => None end
        | None => None
        end
    | Test a => match view_at (mem s) a with Some v => Some (State (mem s) (world s) (log s ++ [Tested (is_bound v)])) | None => None end
    end.
  Fixpoint run (n : nat) (s : state) (p : list statement) : option state :=
    match p with [] => Some s | c :: p => match step n s c with Some s => run n s p | None => None end end.
  Definition start (w : W) : state := State [] w [].
End Fview.
Arguments c_empty {W A R}. Arguments c_trivial {W A R}. Arguments c_call {W A R}. Arguments c_plus {W A R}. Arguments Class {W A R}.
Arguments mem {W R}. Arguments world {W R}. Arguments log {W R}. Arguments State {W R}. Arguments start {W R}.
Arguments Returned {R}. Arguments Tested {R}. Arguments Done {W R}. Arguments Undefined {W R}. Arguments Endless {W R}.
Arguments NewObject {A}. Arguments Destroy {A}. Arguments NewNull {A}. Arguments NewFromObject {A}. Arguments NewFromFunction {A}. Arguments NewFromView {A}.
Arguments Assign {A}. Arguments AssignObject {A}. Arguments AssignFunction {A}. Arguments Call {A}. Arguments Test {A}.
Arguments manifestable {W A R}. Arguments decays {W A R}. Arguments bind_object {W A R}. Arguments call {W A R}. Arguments step {W A R}. Arguments run {W A R}.
Arguments add {W R}. Arguments put {W R}.
