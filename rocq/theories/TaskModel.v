(** Model of how thread_pool.h keeps tasks: [thread_pool_task], its traits and their life in the queues and in the hands of the
    workers. Locks, waking and the choice of a queue are the subject of PoolModel.v: here each operation is one step. *)
From Coq Require Import ZArith List Bool Arith.
Import ListNotations.
Local Open Scope nat_scope.

(** What the traits ask of the type of a callable. [c_from r]: nothrow constructible from an rvalue ([true]) or an lvalue ([false]);
    [c_set r]: nothrow assignable. Ref-qualified call operators are not modelled. *)
Inductive shape := Function | FunctionPointer | Class.
Record cty := { c_shape : shape; c_empty : bool; c_trivial_default : bool; c_trivial_destructor : bool; c_stateless_lambda : bool;
  c_size : nat; c_align : nat; c_nothrow_destructible : bool; c_trivially_copyable : bool; c_default : bool;
  c_from : bool -> bool; c_set : bool -> bool; c_index : bool; c_plain : bool }.

(** thread_pool.h:24, 80-87 with pointers of eight bytes *)
Definition alignment : nat := 64.
Definition buffer_capacity : nat := alignment - 8.
(** meta.h:2510-2514 *)
Definition manifestable (c : cty) : bool := match c_shape c with Class => c_empty c && c_trivial_default c && c_trivial_destructor c | _ => false end.
(** thread_pool.h:206-237: [thread_pool_task_store_ok] without a penalty *)
Definition store_ok (c : cty) (r : bool) : bool :=
  match c_shape c with
  | Class => (c_size c <=? buffer_capacity) && (c_align c <=? alignment) && c_nothrow_destructible c &&
      (c_trivially_copyable c || ((c_from c r || (c_default c && c_set c r)) && (c_from c true || c_from c false || (c_default c && (c_set c true || c_set c false)))))
  | _ => false
  end.
(** How a task is kept: made anew for each call, as a pointer to a function, in the buffer, or as a pointer to the object of the caller. *)
Inductive kind := KFresh | KFunction | KStored | KCaller.
(** thread_pool.h:396-485: [None] if a static_assert fails; the traits of stored callables ask once more as if for an rvalue (243). *)
Definition select (c : cty) (r : bool) : option kind :=
  if manifestable c then Some KFresh
  else match c_shape c with
  | Function | FunctionPointer => Some KFunction
  | Class => if store_ok c r then (if store_ok c true then Some KStored else None)
             else if c_stateless_lambda c then Some KFunction
             else if r then None else Some KCaller
  end.
(** thread_pool.h:129, 248, 369: [requires_destruction] *)
Definition requires_destruction (k : kind) (c : cty) : bool := match k with KStored => negb (c_trivial_destructor c) | _ => false end.
(** thread_pool.h:807-813, 172-192, 316-334, 374-391: [None] if the callable fits no call *)
Definition call_form (c : cty) : option bool := if c_index c then Some true else if c_plain c then Some false else None.

(** What happens to objects, for observers. Tasks are numbered in the order of being enqueued, objects in the order of being made. *)
Inductive source := Fresh | Static | Object (o : nat) | Caller.
Inductive event :=
  | Enqueued (who : nat) (c : cty) (r : bool)
  | Built (o who : nat)
  | Moved (o o' : nat)
  | Destroyed (o : nat)
  | Invoked (who by_worker : nat) (index : option nat) (s : source)
  | Discarded (who : nat).

(** thread_pool.h:80-111: the buffer and the function that knows what is in it *)
Record task := { t_who : nat; t_cty : cty; t_kind : kind; t_object : option nat }.
(** Where a task is: in a queue, or with a worker before the call, after it, and after the monitor was told. *)
Inductive place := Queued (q : nat) | Popped (w : nat) | Done (w : nat) | Counted (w : nat).
Record state := { held : list (place * task); monitor : Z; made : nat; objects : nat; trace : list event }.
Definition initial : state := {| held := []; monitor := 0; made := 0; objects := 0; trace := [] |}.

(** The first task at a place, what is before it and what after it. *)
Definition same (p p' : place) : bool :=
  match p, p' with Queued q, Queued q' => q =? q' | Popped w, Popped w' => w =? w' | Done w, Done w' => w =? w' | Counted w, Counted w' => w =? w' | _, _ => false end.
Fixpoint first (p : place) (l : list (place * task)) : option (list (place * task) * task * list (place * task)) :=
  match l with
  | [] => None
  | (p', t) :: l => if same p p' then Some ([], t, l) else match first p l with None => None | Some (a, x, b) => Some ((p', t) :: a, x, b) end
  end.
Definition busy (w : nat) (l : list (place * task)) : bool := existsb (fun x => match fst x with Queued _ => false | Popped v | Done v | Counted v => v =? w end) l.

(** thread_pool.h:534-541: the destructor of a task *)
Definition destroy (t : task) : list event := if requires_destruction (t_kind t) (t_cty t) then match t_object t with Some o => [Destroyed o] | None => [] end else [].
(** thread_pool.h:511-519: a task made from another, [o'] being the next object *)
Definition move (t : task) (o' : nat) : task * list event :=
  match t_object t with
  | Some o => ({| t_who := t_who t; t_cty := t_cty t; t_kind := t_kind t; t_object := Some o' |}, [Moved o o'])
  | None => (t, [])
  end.
(** thread_pool.h:521-532 *)
Definition source_of (t : task) : source := match t_kind t with KFresh => Fresh | KFunction => Static | KCaller => Caller | KStored => match t_object t with Some o => Object o | None => Static end end.
Definition invoke (w : nat) (t : task) : list event := [Invoked (t_who t) w (match call_form (t_cty t) with Some true => Some w | _ => None end) (source_of t)].

Inductive op := Enqueue (q : nat) (c : cty) (r : bool) | Pop (q w : nat) | Call (w : nat) | Tell (w : nat) | Finish (w : nat) | Drop (q : nat).
(** [None]: not possible in this state, or does not compile. *)
Definition step (workers : nat) (o : op) (s : state) : option state :=
  match o with
  | Enqueue q c r =>                                             (* thread_pool.h:493-548, 646-652, 807-820 *)
      match select c r, call_form c with
      | Some k, Some _ =>
          let stored := match k with KStored => true | _ => false end in
          Some {| held := held s ++ [(Queued q, {| t_who := made s; t_cty := c; t_kind := k; t_object := if stored then Some (objects s) else None |})];
                  monitor := monitor s + 1; made := S (made s); objects := if stored then S (objects s) else objects s;
                  trace := trace s ++ Enqueued (made s) c r :: (if stored then [Built (objects s) (made s)] else []) |}
      | _, _ => None
      end
  | Pop q w =>                                                   (* src/thread_pool.cpp:161-173, 284-305, 353-364 *)
      if negb (w <? workers) || busy w (held s) then None
      else match first (Queued q) (held s) with
      | None => None
      | Some (a, t, b) => let m := move t (objects s) in
          Some {| held := a ++ (Popped w, fst m) :: b; monitor := monitor s; made := made s; objects := S (objects s); trace := trace s ++ snd m ++ destroy t |}
      end
  | Call w =>                                                    (* src/thread_pool.cpp:367 *)
      match first (Popped w) (held s) with
      | None => None
      | Some (a, t, b) => Some {| held := a ++ (Done w, t) :: b; monitor := monitor s; made := made s; objects := objects s; trace := trace s ++ invoke w t |}
      end
  | Tell w =>                                                    (* src/thread_pool.cpp:368 *)
      match first (Done w) (held s) with
      | None => None
      | Some (a, t, b) => Some {| held := a ++ (Counted w, t) :: b; monitor := monitor s - 1; made := made s; objects := objects s; trace := trace s |}
      end
  | Finish w =>                                                  (* src/thread_pool.cpp:369 *)
      match first (Counted w) (held s) with
      | None => None
      | Some (a, t, b) => Some {| held := a ++ b; monitor := monitor s; made := made s; objects := objects s; trace := trace s ++ destroy t |}
      end
  | Drop q =>                                                    (* src/thread_pool.cpp:186-195: the destructor of a queue *)
      match first (Queued q) (held s) with
      | None => None
      | Some (a, t, b) => Some {| held := a ++ b; monitor := monitor s - 1; made := made s; objects := objects s; trace := trace s ++ Discarded (t_who t) :: destroy t |}
      end
  end.
Fixpoint run (workers : nat) (l : list op) (s : state) : option state :=
  match l with [] => Some s | o :: l => match step workers o s with None => None | Some s => run workers l s end end.
