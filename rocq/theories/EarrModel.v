(** Model of emplacement_array.h. *)
From Verif Require Import Words.

Section Earr.
  Context {V : Type}.

  (** Storage: each block is a list of cells, which hold a live object or raw memory; [None] is a freed block. *)
  Inductive cell : Type := Raw | Live (v : V).
  Definition heap : Type := list (option (list cell)).
  Inductive event : Type := Built (v : V) | Gone (v : V).

  (** emplacement_array.h:35-36. *)
  Record earr : Type := { e_count : nat; e_cap : nat; e_stor : option nat }.

  Fixpoint upd {A} (l : list A) (i : nat) (x : A) : list A :=
    match l, i with
    | [], _ => []
    | _ :: l', O => x :: l'
    | y :: l', S i' => y :: upd l' i' x
    end.

  (** Whether [T] is trivially destructible, in which case its objects need not be destroyed before their memory is reused. *)
  Variable triv : bool.

  (** Placement new at element [k] of block [b]; overwriting a live object that needs destruction counts as an error. *)
  Definition construct (h : heap) (b k : nat) (v : V) : option heap :=
    match nth_error h b with
    | Some (Some c) =>
        match nth_error c k with
        | Some Raw => Some (upd h b (Some (upd c k (Live v))))
        | Some (Live _) => if triv then Some (upd h b (Some (upd c k (Live v)))) else None
        | None => None
        end
    | _ => None
    end.
  (** The destructor call. *)
  Definition destroy (h : heap) (b k : nat) : option (heap * V) :=
    match nth_error h b with
    | Some (Some c) =>
        match nth_error c k with
        | Some (Live v) => Some (upd h b (Some (upd c k Raw)), v)
        | _ => None
        end
    | _ => None
    end.
  (** [aligned_free]: undefined on a block that is not allocated. *)
  Definition free (h : heap) (b : nat) : option heap :=
    match nth_error h b with Some (Some _) => Some (upd h b None) | _ => None end.

  (** emplacement_array.h:52-67 [destroy_all_elements]. *)
  Fixpoint destroy_loop (b n : nat) (h : heap) (log : list event) : option (heap * list event) :=
    match n with
    | O => Some (h, log)
    | S i => r <- destroy h b i ;; destroy_loop b i (fst r) (log ++ [Gone (snd r)])
    end.
  Definition destroy_all (o : earr) (h : heap) (log : list event) : option (earr * heap * list event) :=
    let o' := {| e_count := 0; e_cap := e_cap o; e_stor := e_stor o |} in
    if triv then Some (o', h, log)
    else match e_stor o with
         | None => match e_count o with O => Some (o', h, log) | S _ => None end
         | Some b => r <- destroy_loop b (e_count o) h log ;; Some (o', fst r, snd r)
         end.
  (** emplacement_array.h:69-77 [release]. *)
  Definition release (o : earr) (h : heap) (log : list event) : option (earr * heap * list event) :=
    match e_stor o with
    | None => Some (o, h, log)
    | Some b =>
        r <- destroy_all o h log ;;
        let '(o', h', log') := r in
        h'' <- free h' b ;;
        Some ({| e_count := e_count o'; e_cap := e_cap o'; e_stor := None |}, h'', log')
    end.

  (** Programs over any number of array variables; a destroyed variable is [None]. *)
  Record state : Type := { vars : list (option earr); mem : heap; log : list event }.
  Inductive op : Type :=
  | New (cap : nat)                       (* a new variable *)
  | MoveNew (j : nat)                     (* a new variable, move-constructed from variable [j] *)
  | MoveAssign (i j : nat)
  | Emplace (i : nat) (v : V) (nothrow : bool) (throws : bool)
  | Clear (i : nat)
  | Destroy (i : nat).
  Definition var (s : state) (i : nat) : option earr := match nth_error (vars s) i with Some (Some o) => Some o | _ => None end.
  Definition gone : earr := {| e_count := 0; e_cap := 0; e_stor := None |}.

  (** Sizes do not overflow [size_t] and allocation does not fail (both assumed, see DESIGN.md). *)
  Definition step (s : state) (o : op) : option state :=
    match o with
    | New cap =>                                                        (* emplacement_array.h:112-126 *)
        if Nat.eqb cap 0 then Some {| vars := vars s ++ [Some {| e_count := 0; e_cap := cap; e_stor := None |}]; mem := mem s; log := log s |}
        else Some {| vars := vars s ++ [Some {| e_count := 0; e_cap := cap; e_stor := Some (length (mem s)) |}];
                     mem := mem s ++ [Some (repeat Raw cap)]; log := log s |}
    | MoveNew j =>                                                      (* 128-138 *)
        a <- var s j ;;
        Some {| vars := upd (vars s) j (Some gone) ++ [Some a]; mem := mem s; log := log s |}
    | MoveAssign i j =>                                                 (* 140-151 *)
        a <- var s i ;;
        r <- release a (mem s) (log s) ;;
        let '(a', h, lg) := r in
        let s1 := {| vars := upd (vars s) i (Some a'); mem := h; log := lg |} in
        rhs <- var s1 j ;;
        let vs := upd (vars s1) i (Some {| e_count := e_count rhs; e_cap := e_cap rhs; e_stor := e_stor rhs |}) in
        Some {| vars := upd vs j (Some gone); mem := h; log := lg |}
    | Emplace i v nothrow throws =>                                     (* 161-184, and 186-209 with a well-behaved functor *)
        a <- var s i ;;
        if Nat.ltb (e_count a) (e_cap a) then
          match e_stor a with
          | None => None
          | Some b =>
              let a' := {| e_count := S (e_count a); e_cap := e_cap a; e_stor := e_stor a |} in
              if nothrow then
                h <- construct (mem s) b (e_count a) v ;;
                Some {| vars := upd (vars s) i (Some a'); mem := h; log := log s ++ [Built v] |}
              else if throws then Some s
              else
                h <- construct (mem s) b (e_count a) v ;;
                Some {| vars := upd (vars s) i (Some a'); mem := h; log := log s ++ [Built v] |}
          end
        else None
    | Clear i =>                                                        (* 382-386 *)
        a <- var s i ;;
        r <- destroy_all a (mem s) (log s) ;;
        let '(a', h, lg) := r in
        Some {| vars := upd (vars s) i (Some a'); mem := h; log := lg |}
    | Destroy i =>                                                      (* 153-157 *)
        a <- var s i ;;
        r <- release a (mem s) (log s) ;;
        let '(_, h, lg) := r in
        Some {| vars := upd (vars s) i None; mem := h; log := lg |}
    end.
  Fixpoint run (s : state) (os : list op) : option state :=
    match os with [] => Some s | o :: os' => s' <- step s o ;; run s' os' end.
  Definition start : state := {| vars := []; mem := []; log := [] |}.

  (** Element access: lines 38-50 and 211-272.  The result of [ptr] is declared never null, so asking an array without
      storage for one is undefined. *)
  Definition e_ptr (a : earr) (k : nat) : option (nat * nat) := match e_stor a with Some b => Some (b, k) | None => None end.
  Definition e_at (h : heap) (a : earr) (k : nat) : option V :=
    p <- e_ptr a k ;;
    match nth_error h (fst p) with
    | Some (Some c) => match nth_error c (snd p) with Some (Live v) => Some v | _ => None end
    | _ => None
    end.
  Definition e_front (h : heap) (a : earr) : option V := e_at h a 0.
  Definition e_back (h : heap) (a : earr) : option V := e_at h a (e_count a - 1).
  Definition e_empty (a : earr) : bool := Nat.eqb (e_count a) 0.
  (** Range-for: [begin()] to [end()] (lines 277-303). *)
  Fixpoint e_walk (h : heap) (b k n : nat) : option (list V) :=
    match n with
    | O => Some []
    | S n' =>
        x <- e_at h {| e_count := 0; e_cap := 0; e_stor := Some b |} k ;;
        r <- e_walk h b (S k) n' ;;
        Some (x :: r)
    end.
  Definition e_iterate (h : heap) (a : earr) : option (list V) :=
    p <- e_ptr a 0 ;;
    q <- e_ptr a (e_count a) ;;
    e_walk h (fst p) (snd p) (snd q - snd p).
End Earr.
Arguments cell : clear implicits.
Arguments event : clear implicits.
Arguments op : clear implicits.
Arguments state : clear implicits.
