(** C117, C118: function_view. *)
From Coq Require Import List Bool Arith Lia.
From Verif Require Import FviewModel FviewSpec FviewProofs.
Import ListNotations.

(* ------------------------------------------------------------------ C117: a view calls what it views *)
(** Programs that copy views only from const views and view no null pointer: if the program is well-defined when every view simply remembers
    its target, it is well-defined, and all results, answers of operator bool and effects are the same, for objects with state, empty objects, lambdas and
    functions, whatever is assigned, called and destroyed in between. *)
Theorem C117_calls_target (W A R : Type) (classes : nat -> class W A R) (functions : nat -> W -> A -> W * R) (depth : nat) (p : list (statement A)) (w : W) (t : sstate W R) :
  (forall k, like_a_lambda classes functions k) -> (forall c, In c p -> plain c) -> srun classes functions (sstart w) p = Some t ->
  exists s, run classes functions (S depth) (start w) p = Some s /\ log s = slog t /\ world s = sworld t.
Proof.
  intros L P E. destruct (run_refines W A R classes functions L depth p (start w) (sstart w) t) as (s & S & Ew & El & _); [|exact P|exact E|exists s; auto].
  split; [reflexivity|]. split; [reflexivity|]. split; [reflexivity|]. intros [|a] o h H; discriminate H.
Qed.
Print Assumptions C117_calls_target.

(** The state of the examples is a list of numbers to which calls add. Class 0 counts its calls; class 1 is a lambda without captures; class 2
    is empty, cannot be made by default, and converts to function 1; class 3 is empty and has two call operators, one for const objects. *)
Definition add_to (k : nat) (w : list nat) (x : nat) : list nat * nat := (w ++ [k + x], k + x).
Definition ex_functions (f : nat) : list nat -> nat -> list nat * nat := match f with 0 => add_to 10 | 1 => add_to 20 | _ => add_to 30 end.
Definition ex_classes (k : nat) : class (list nat) nat nat :=
  match k with
  | 0 => Class false true (fun _ s w x => (S s, w ++ [s + x], s + x)) None
  | 1 => Class true true (fun _ s w x => (s, w ++ [40 + x], 40 + x)) (Some 3)
  | 2 => Class true false (fun _ s w x => (s, w ++ [20 + x], 20 + x)) (Some 1)
  | _ => Class true true (fun q s w x => let k := if is_const q then 50 else 60 in (s, w ++ [k + x], k + x)) None
  end.
Definition ex_lambda_functions (f : nat) := match f with 3 => add_to 40 | _ => ex_functions f end.
Definition lv : category := Category false false.
Definition clv : category := Category true false.
Definition ex_program : list (statement nat) :=
  [NewObject 0 5; NewObject 1 0; NewObject 2 0; NewFromObject 0 lv; NewFromObject 1 clv; NewFromObject 2 lv; NewFromView 3 clv; NewNull; Test 7; Assign 7 5; Test 7;
   Call 3 100; Call 6 100; Call 4 1; Call 5 1; Call 7 2; AssignFunction 7 (Some 0); Call 7 3; AssignObject 4 0 lv; Destroy 3; Call 4 200].
Definition ex_three (k : nat) := ex_classes (match k with 0 => 0 | 1 => 1 | _ => 2 end).
Example C117_calls_target_ex :
  (forall k, like_a_lambda ex_three ex_lambda_functions k) /\ (forall c, In c ex_program -> plain c) /\
  option_map slog (srun ex_three ex_lambda_functions (sstart []) ex_program) =
    Some [Tested false; Tested true; Returned 105; Returned 106; Returned 41; Returned 21; Returned 22; Returned 13; Returned 207].
Proof.
  split.
  { intros [|[|k]] E; cbn in E |- *; [discriminate E| |]; (split; [reflexivity|]; split; [reflexivity|]; intros f F; injection F as <-; reflexivity). }
  split; [|reflexivity]. intros c H. unfold ex_program in H. cbn [In] in H.
  repeat (destruct H as [<-|H]; [cbn; try reflexivity; try exact I; try discriminate|]). contradiction.
Qed.

(** If the call operator of an empty class is overloaded, the view calls another overload than the object would: it makes a new object that is neither const
    nor named. *)
Theorem C117_overloads_refuted : exists (p : list (statement nat)) (t : sstate (list nat) nat) (s : state (list nat) nat),
  (forall c, In c p -> plain c) /\ srun ex_classes ex_functions (sstart []) p = Some t /\ run ex_classes ex_functions 1 (start []) p = Some s /\
  slog t = [Returned 51] /\ log s = [Returned 61].
Proof.
  exists [NewObject 3 0; NewFromObject 0 clv; Call 1 1]. eexists. eexists. split; [|split; [reflexivity|split; [reflexivity|split; reflexivity]]].
  intros c H. cbn in H. repeat (destruct H as [<-|H]; [exact I|]). contradiction.
Qed.
Print Assumptions C117_overloads_refuted.
(** A view of a null function pointer is not null, and calling it is undefined. *)
Theorem C117_null_pointer_refuted (W A R : Type) (classes : nat -> class W A R) (functions : nat -> W -> A -> W * R) (depth : nat) (w : W) (x : A) :
  option_map (@log W R) (run classes functions depth (start w) [NewFromFunction None; Test 0]) = Some [Tested true] /\
  option_map (@slog W R) (srun classes functions (sstart w) [NewFromFunction None; Test 0]) = Some [Tested false] /\
  run classes functions depth (start w) [NewFromFunction None; Call 0 x] = None.
Proof. split; [reflexivity|]. split; [reflexivity|]. destruct depth; reflexivity. Qed.
Print Assumptions C117_null_pointer_refuted.
(** A null view cannot be called, and says so. *)
Theorem C117_null (W A R : Type) (classes : nat -> class W A R) (functions : nat -> W -> A -> W * R) (depth : nat) (m : memory) (w : W) (v : view) (x : A) :
  is_bound v = false -> match call classes functions depth m w v x with Done _ _ _ => False | _ => True end.
Proof. unfold is_bound. destruct depth as [|n]; [easy|]. cbn [call]. destruct (v_invoker v); [discriminate|easy]. Qed.
Print Assumptions C117_null.
Example C117_null_ex : is_bound null_view = false. Proof. reflexivity. Qed.

(* ------------------------------------------------------------------ C118: copies *)
Section C118.
  Variable W A R : Type.
  Variable classes : nat -> class W A R.
  Variable functions : nat -> W -> A -> W * R.
  (** A view constructed from a view that is not const, or from an expression with std::move, is a view of that view: calling it is calling
      whatever the original views at the time of the call; it is never null ... *)
  Theorem C118_copy_follows (q : category) (a : nat) (v v' : view) (n : nat) (m : memory) (w : W) (x : A) :
    const_lvalue q = false -> nth_error m a = Some (Some (OView v')) ->
    call classes functions (S n) m w (construct_from_view q a v) x = call classes functions n m w v' x /\ is_bound (construct_from_view q a v) = true.
  Proof using All. unfold const_lvalue, construct_from_view. intros -> H. split; [|reflexivity]. cbn [call bind_view v_invoker v_payload]. now rewrite H. Qed.
  (** ... and calling it after the original is gone is undefined. *)
  Theorem C118_dangling_refuted (q : category) (a : nat) (v : view) (n : nat) (m : memory) (w : W) (x : A) :
    const_lvalue q = false -> nth_error m a = Some None -> call classes functions (S n) m w (construct_from_view q a v) x = Undefined.
  Proof using All. unfold const_lvalue, construct_from_view. intros -> H. cbn [call bind_view v_invoker v_payload]. now rewrite H. Qed.
  (** A copy of a const view, or an assignment, gives a view with the same behaviour. *)
  Theorem C118_const_copy (a : nat) (v : view) (n : nat) (m : memory) (w : W) (x : A) :
    call classes functions n m w (construct_from_view (Category true false) a v) x = call classes functions n m w v x /\ is_bound (construct_from_view (Category true false) a v) = is_bound v.
  Proof using All. split; reflexivity. Qed.
End C118.
Print Assumptions C118_copy_follows.
Print Assumptions C118_dangling_refuted.
Print Assumptions C118_const_copy.
(** A copy calls the new target after the original is assigned to; it is undefined once the original is destroyed; a copy of a null view is not null; a view
    assigned a copy of itself calls itself for ever. *)
Theorem C118_copies_refuted :
  (let p q := [NewFromFunction (Some 0); NewFromView 0 q; AssignFunction 0 (Some 1); Call 1 1] in
   forall q, option_map (@slog _ _) (srun ex_classes ex_functions (sstart []) (p q)) = Some [Returned 11] /\
             (const_lvalue q = false -> option_map (@log _ _) (run ex_classes ex_functions 2 (start []) (p q)) = Some [Returned 21])) /\
  (let p q := [NewFromFunction (Some 0); NewFromView 0 q; Destroy 0; Call 1 1] in
   forall q, option_map (@slog _ _) (srun ex_classes ex_functions (sstart []) (p q)) = Some [Returned 11] /\
             (const_lvalue q = false -> forall depth, run ex_classes ex_functions depth (start []) (p q) = None)) /\
  (let p q := [NewNull; NewFromView 0 q; Test 1] in
   forall q, option_map (@slog _ _) (srun ex_classes ex_functions (sstart []) (p q)) = Some [Tested false] /\
             (const_lvalue q = false -> option_map (@log _ _) (run ex_classes ex_functions 2 (start []) (p q)) = Some [Tested true])) /\
  (let p q := [NewFromFunction (Some 0); NewFromView 0 q; Assign 0 1; Call 0 1] in
   forall q, option_map (@slog _ _) (srun ex_classes ex_functions (sstart []) (p q)) = Some [Returned 11] /\
             (const_lvalue q = false -> forall depth, run ex_classes ex_functions depth (start []) (p q) = None)).
Proof.
  split; [|split; [|split]]; intros p [[] []]; (split; [reflexivity|]); intros Q; try discriminate Q; try reflexivity; intros depth; try (destruct depth as [|depth]; reflexivity).
  all: unfold p; cbn [run step start add put mem world log app view_at nth_error construct_from_view is_const is_rvalue andb negb upd].
  all: match goal with |- match ?o with Some _ => _ | None => _ end = None => assert (E : o = None); [|now rewrite E] end.
  all: match goal with |- match call _ _ _ ?m ?w ?v ?x with _ => _ end = None => assert (E : call ex_classes ex_functions depth m w v x = Endless); [|now rewrite E] end.
  all: induction depth as [|depth IH]; [reflexivity|exact IH].
Qed.
Print Assumptions C118_copies_refuted.
Example C118_ex : const_lvalue lv = false /\ const_lvalue (Category false true) = false /\ nth_error [Some (OView null_view); None] 0 = Some (Some (OView null_view)) /\ nth_error [Some (OView null_view); None] 1 = Some None.
Proof. repeat split. Qed.
