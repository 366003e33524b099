(** Model of string_param.h and src/string_param.cpp, built with char8_t support. *)
From Verif Require Import Words UtfModel.
From Verif Require EarrModel.
Local Open Scope nat_scope.
Notation upd := EarrModel.upd.

(** string_param.cpp:15-30: the character types; [mode] is one of them, owned or viewed, or none. *)
Inductive kind : Type := Narrow | Wide | U8 | U16 | U32.
Definition kind_eqb (a b : kind) : bool :=
  match a, b with Narrow, Narrow | Wide, Wide | U8, U8 | U16, U16 | U32, U32 => true | _, _ => false end.

(** string_param.h:56-86: [mode_] and what is in [storage_]: a std::basic_string (the string object of that number), or a
    std::basic_string_view into a string of the user. *)
Inductive param : Type := PNone | POwn (k : kind) (o : nat) | PView (k : kind) (u off len : nat).

(** The user's strings and the string objects the library has made; [None]: destroyed. *)
Definition str : Type := (kind * list N)%type.
Record state : Type := { users : list (option str); objs : list (option str); pars : list (option param) }.

Definition set_objs (s : state) (o : list (option str)) : state := {| users := users s; objs := o; pars := pars s |}.
Definition set_par (s : state) (i : nat) (p : option param) : state := {| users := users s; objs := objs s; pars := upd (pars s) i p |}.
Definition add_par (s : state) (p : param) : state := {| users := users s; objs := objs s; pars := pars s ++ [Some p] |}.

(** Accesses; [None]: undefined (a destroyed object, or one of another type). *)
Definition get (l : list (option str)) (k : kind) (i : nat) : option (list N) :=
  match nth_error l i with Some (Some (k', u)) => if kind_eqb k k' then Some u else None | _ => None end.
Definition get_par (s : state) (i : nat) : option param := match nth_error (pars s) i with Some (Some p) => Some p | _ => None end.
Definition slice (u : list N) (off len : nat) : option (list N) :=
  if off + len <=? length u then Some (firstn len (skipn off u)) else None.

(** Where a view returned to the user points. *)
Inductive src : Type := InUser (k : kind) (u off len : nat) | InObj (k : kind) (o off len : nat).
Definition look (s : state) (v : src) : option (list N) :=
  match v with
  | InUser k u off len => l <- get (users s) k u ;; slice l off len
  | InObj k o off len => l <- get (objs s) k o ;; slice l off len
  end.

(** Destructor of a string object. *)
Definition destroy_obj (s : state) (k : kind) (o : nat) : option state :=
  _ <- get (objs s) k o ;; Some (set_objs s (upd (objs s) o None)).
(** Move constructor of a string object: the source stays alive, and is empty. *)
Definition move_obj (s : state) (k : kind) (o : nat) : option (state * nat) :=
  l <- get (objs s) k o ;;
  Some (set_objs s (upd (objs s) o (Some (k, [])) ++ [Some (k, l)]), length (objs s)).

Section Sparam.
  (** Byte order, signedness of [char], bytes of [wchar_t], and the whitespace predicate. *)
  Variables (be schar : bool) (wsz : N) (ws : N -> bool).

  Definition size_of (k : kind) : N := match k with Narrow => 1 | Wide => wsz | U8 => 1 | U16 => 2 | U32 => 4 end%N.

  (** strings.h:461-525 [transcode<Char>]. *)
  Definition transcode (from to : kind) (u : list N) : option (list N) := utf_transcode be schar (size_of from) (size_of to) u.

  (** string_param.cpp:147-156, 169-178: [initialize] from a view, or from a pointer and a length (null: length 0). *)
  Definition init_view (k : kind) (u off len : nat) : param := if len =? 0 then PNone else PView k u off len.
  (** string_param.cpp:195-204: [initialize] from a string to be moved from; the second result is whether the returned pointer is null. *)
  Definition init_move (s : state) (k : kind) (o : nat) : option (state * param * bool) :=
    l <- get (objs s) k o ;;
    match l with
    | [] => Some (s, PNone, true)
    | _ => r <- move_obj s k o ;; Some (fst r, POwn k (snd r), false)
    end.

  (** string_param.cpp:275-291 [destroy]; [visit] assumes a value (line 217). *)
  Definition destroy (s : state) (p : param) : option state :=
    match p with
    | PNone => None
    | POwn k o => destroy_obj s k o
    | PView _ _ _ _ => Some s
    end.

  (** string_param.cpp:428-457: move assignment of different objects, of values [p] := [q]. *)
  Definition move_assign (s : state) (p q : param) : option (state * param) :=
    match p, q with
    | PNone, PNone => None                                            (* visit with mode none: line 246 *)
    | POwn k o, POwn k' o' =>
        if kind_eqb k k' then
          l <- get (objs s) k' o' ;;                                  (* lhs = std::move(rhs), 442 *)
          _ <- get (objs s) k o ;;
          s' <- destroy_obj (set_objs s (upd (upd (objs s) o' (Some (k', []))) o (Some (k, l)))) k' o' ;; (* 443 *)
          Some (s', POwn k o)
        else s1 <- destroy s p ;; r <- init_move s1 k' o' ;; Some (fst (fst r), snd (fst r))
    | PView k _ _ _, PView k' u off len =>
        if kind_eqb k k' then Some (s, PView k' u off len)
        else Some (s, init_view k' u off len)
    | _, PNone => s1 <- destroy s p ;; None                           (* visit with mode none: 452 *)
    | _, POwn k' o' =>
        s1 <- match p with PNone => Some s | _ => destroy s p end ;;  (* 449-450 *)
        r <- init_move s1 k' o' ;; Some (fst (fst r), snd (fst r))
    | _, PView k' u off len =>
        s1 <- match p with PNone => Some s | _ => destroy s p end ;;
        Some (s1, init_view k' u off len)
    end.

  (** The text of a value. *)
  Definition payload (s : state) (p : param) : option (kind * list N) :=
    match p with
    | PNone => None
    | POwn k o => l <- get (objs s) k o ;; Some (k, l)
    | PView k u off len => l <- get (users s) k u ;; t <- slice l off len ;; Some (k, t)
    end.

  (** string_param.cpp:471-479 [empty]. *)
  Definition is_empty (s : state) (p : param) : option bool :=
    match p with PNone => Some true | _ => t <- payload s p ;; Some (length (snd t) =? 0) end.
  (** string_param.cpp:486-489 [owning]. *)
  Definition owning (p : param) : bool := match p with POwn _ _ => true | _ => false end.

  (** string_param.cpp:493-519 [get_view<Char>]. *)
  Definition get_view (s : state) (p : param) (to : kind) : option (state * param * src) :=
    t <- payload s p ;;
    if kind_eqb (fst t) to then
      match p with
      | POwn k o => Some (s, p, InObj k o 0 (length (snd t)))
      | PView k u off len => Some (s, p, InUser k u off len)
      | PNone => None
      end
    else
      new <- transcode (fst t) to (snd t) ;;
      let s1 := set_objs s (objs s ++ [Some (to, new)]) in             (* auto new_str, 512 *)
      let tmp := length (objs s) in
      s2 <- match p with POwn k o => destroy_obj s1 k o | _ => Some s1 end ;;  (* 513 *)
      r <- init_move s2 to tmp ;;                                      (* 514 *)
      match r with
      | (s3, POwn k o, false) => s4 <- destroy_obj s3 to tmp ;; Some (s4, POwn k o, InObj k o 0 (length new))
      | _ => None                                                      (* null pointer dereferenced *)
      end.

  (** string_param.cpp:565-594 [move_into_string<Char>]. *)
  Definition move_into (s : state) (p : param) (to : kind) : option (state * param * list N) :=
    t <- payload s p ;;
    if kind_eqb (fst t) to then
      match p with
      | POwn k o => s' <- destroy_obj s k o ;; Some (s', PNone, snd t)
      | _ => Some (s, p, snd t)
      end
    else new <- transcode (fst t) to (snd t) ;; Some (s, p, new).

  (** strings.h:207-222 [predicated_trim], with the position of the result in the argument. *)
  Definition trim_range (sz : N) (u : list N) : option (nat * nat) :=
    match u with
    | [] => Some (0, 0)
    | _ =>
        first <- utf_find be schar sz u false (fun c => negb (ws c)) ;;
        match first with
        | None => Some (0, 0)
        | Some (fi, _) =>
            lastr <- utf_find be schar sz u true (fun c => negb (ws c)) ;;
            match lastr with
            | None => None
            | Some (li, ln) => Some (fi, length (substr u fi (li + ln - fi)))
            end
        end
    end.
  (** string_param.cpp:652-690 [trim]. *)
  Definition trim (s : state) (p : param) : option (state * param) :=
    match p with
    | PNone => None                                                    (* visit with mode none *)
    | POwn k o =>
        l <- get (objs s) k o ;;
        r <- trim_range (size_of k) l ;;
        if snd r =? 0 then s' <- destroy_obj s k o ;; Some (s', PNone)
        else
          let l1 := if fst r =? 0 then l else skipn (fst r) l in       (* erase, 672-676 *)
          let l2 := if snd r =? length l1 then l1 else firstn (snd r) l1 ++ repeat 0%N (snd r - length l1) in (* resize, 679-680 *)
          Some (set_objs s (upd (objs s) o (Some (k, l2))), p)
    | PView k u off len =>
        l <- get (users s) k u ;; t <- slice l off len ;;
        r <- trim_range (size_of k) t ;;
        if snd r =? 0 then Some (s, PNone) else Some (s, PView k u (off + fst r) (snd r))
    end.

  Inductive op : Type :=
  | UserNew (k : kind) (l : list N)       (* the user makes a string *)
  | UserDrop (u : nat)                    (* and destroys one *)
  | New                                   (* the constructors: string_param.h:120-344 *)
  | FromView (k : kind) (u off len : nat)
  | FromString (k : kind) (u : nat)
  | FromCstr (k : kind) (u off : nat)
  | FromMoved (k : kind) (u : nat)
  | MoveNew (j : nat)
  | MoveAssign (i j : nat)
  | Destroy (i : nat)
  | Empty (i : nat)
  | Owning (i : nat)
  | Trim (i : nat)
  | View (i : nat) (k : kind)
  | Into (i : nat) (k : kind).
  Inductive out : Type := ODone | OBool (b : bool) | OView (v : src) | OText (l : list N).

  Definition step (s : state) (c : op) : option (state * out) :=
    match c with
    | UserNew k l => Some ({| users := users s ++ [Some (k, l)]; objs := objs s; pars := pars s |}, ODone)
    | UserDrop u =>
        match nth_error (users s) u with
        | Some (Some _) => Some ({| users := upd (users s) u None; objs := objs s; pars := pars s |}, ODone)
        | _ => None
        end
    | New => Some (add_par s PNone, ODone)
    | FromView k u off len =>                                          (* 306-309, 316-319 *)
        l <- get (users s) k u ;; _ <- slice l off len ;; Some (add_par s (init_view k u off len), ODone)
    | FromString k u =>                                                (* 158-167: const std::basic_string& *)
        l <- get (users s) k u ;; Some (add_par s (init_view k u 0 (length l)), ODone)
    | FromCstr k u off =>                                              (* 180-193: strlen reads to the terminator behind the string *)
        l <- get (users s) k u ;; t <- slice l off (length l - off) ;;
        Some (add_par s (init_view k u off (length (c_str (t ++ [0%N])))), ODone)
    | FromMoved k u =>
        l <- get (users s) k u ;;
        match l with
        | [] => Some (add_par s PNone, ODone)
        | _ => Some ({| users := upd (users s) u (Some (k, [])); objs := objs s ++ [Some (k, l)];
                        pars := pars s ++ [Some (POwn k (length (objs s)))] |}, ODone)
        end
    | MoveNew j =>                                                     (* 459-462: *this = std::move(other) *)
        q <- get_par s j ;; r <- move_assign s PNone q ;;
        Some (add_par (set_par (fst r) j (Some PNone)) (snd r), ODone)
    | MoveAssign i j =>
        p <- get_par s i ;; q <- get_par s j ;;
        if i =? j then Some (s, ODone)
        else r <- move_assign s p q ;; Some (set_par (set_par (fst r) i (Some (snd r))) j (Some PNone), ODone)
    | Destroy i =>                                                     (* 464-468 *)
        p <- get_par s i ;; s' <- match p with PNone => Some s | _ => destroy s p end ;; Some (set_par s' i None, ODone)
    | Empty i => p <- get_par s i ;; b <- is_empty s p ;; Some (s, OBool b)
    | Owning i => p <- get_par s i ;; Some (s, OBool (owning p))
    | Trim i => p <- get_par s i ;; r <- trim s p ;; Some (set_par (fst r) i (Some (snd r)), ODone)
    | View i k =>                                                      (* 521-559: empty: an empty view *)
        p <- get_par s i ;; b <- is_empty s p ;;
        if b then Some (s, OText [])
        else r <- get_view s p k ;; Some (set_par (fst (fst r)) i (Some (snd (fst r))), OView (snd r))
    | Into i k =>                                                      (* 616-650 *)
        p <- get_par s i ;; b <- is_empty s p ;;
        if b then Some (s, OText [])
        else r <- move_into s p k ;; Some (set_par (fst (fst r)) i (Some (snd (fst r))), OText (snd r))
    end.

  Fixpoint run (s : state) (prog : list op) : option (state * list out) :=
    match prog with
    | [] => Some (s, [])
    | c :: prog' => r <- step s c ;; r' <- run (fst r) prog' ;; Some (fst r', snd r :: snd r')
    end.
  Definition start : state := {| users := []; objs := []; pars := [] |}.
End Sparam.
