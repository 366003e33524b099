(** What string parameters should do: each is empty or a piece of text of its own. *)
From Verif Require Import Words UtfModel SparamModel.
Local Open Scope nat_scope.

(** The text with its character type, and the user's string it is a view of, if any. *)
Definition value : Type := option (kind * list N * option nat).
Record world : Type := { w_users : list (option str); w_pars : list (option value) }.

Section SparamSpec.
  Variables (be schar : bool) (wsz : N) (ws : N -> bool).

  Definition user (w : world) (k : kind) (u : nat) : option (list N) :=
    match nth_error (w_users w) u with Some (Some (k', l)) => if kind_eqb k k' then Some l else None | _ => None end.
  Definition par (w : world) (i : nat) : option value := match nth_error (w_pars w) i with Some (Some v) => Some v | _ => None end.
  Definition put (w : world) (i : nat) (v : option value) : world := {| w_users := w_users w; w_pars := upd (w_pars w) i v |}.
  Definition add (w : world) (v : value) : world := {| w_users := w_users w; w_pars := w_pars w ++ [Some v] |}.
  Definition mk (k : kind) (l : list N) (o : option nat) : value := match l with [] => None | _ => Some (k, l, o) end.
  (** No string parameter refers to the user's string [u]. *)
  Definition unviewed (w : world) (u : nat) : bool :=
    forallb (fun p => match p with Some (Some (_, _, Some u')) => negb (u' =? u) | _ => true end) (w_pars w).

  Definition ans : Type := option (list N + bool).

  (** [None]: the user is at fault, or (moving from, or trimming, an empty one, and converting to an empty text) the library
      would be. *)
  Definition wstep (w : world) (c : op) : option (world * ans) :=
    match c with
    | UserNew k l => Some ({| w_users := w_users w ++ [Some (k, l)]; w_pars := w_pars w |}, None)
    | UserDrop u =>
        match nth_error (w_users w) u with
        | Some (Some _) => if unviewed w u then Some ({| w_users := upd (w_users w) u None; w_pars := w_pars w |}, None) else None
        | _ => None
        end
    | New => Some (add w None, None)
    | FromView k u off len =>
        l <- user w k u ;; if off + len <=? length l then Some (add w (mk k (firstn len (skipn off l)) (Some u)), None) else None
    | FromString k u => l <- user w k u ;; Some (add w (mk k l (Some u)), None)
    | FromCstr k u off =>
        l <- user w k u ;; if off <=? length l then Some (add w (mk k (c_str (skipn off l)) (Some u)), None) else None
    | FromMoved k u =>
        l <- user w k u ;;
        if unviewed w u then Some (add {| w_users := upd (w_users w) u (Some (k, [])); w_pars := w_pars w |} (mk k l None), None) else None
    | MoveNew j => q <- par w j ;; match q with None => None | Some _ => Some (add (put w j (Some None)) q, None) end
    | MoveAssign i j =>
        _ <- par w i ;; q <- par w j ;;
        if i =? j then Some (w, None)
        else match q with None => None | Some _ => Some (put (put w i (Some q)) j (Some None), None) end
    | Destroy i => _ <- par w i ;; Some (put w i None, None)
    | Empty i => v <- par w i ;; Some (w, Some (inr match v with None => true | _ => false end))
    | Owning i => v <- par w i ;; Some (w, Some (inr match v with Some (_, _, None) => true | _ => false end))
    | Trim i =>
        v <- par w i ;;
        match v with
        | None => None
        | Some (k, l, o) =>
            t <- predicated_trim be schar (size_of wsz k) (fun c => negb (ws c)) l ;; Some (put w i (Some (mk k t o)), None)
        end
    | View i k =>
        v <- par w i ;;
        match v with
        | None => Some (w, Some (inl []))
        | Some (k', l, o) =>
            if kind_eqb k' k then Some (w, Some (inl l))
            else t <- transcode be schar wsz k' k l ;;
                 match t with [] => None | _ => Some (put w i (Some (Some (k, t, None))), Some (inl t)) end
        end
    | Into i k =>
        v <- par w i ;;
        match v with
        | None => Some (w, Some (inl []))
        | Some (k', l, o) =>
            if kind_eqb k' k then Some (match o with None => put w i (Some None) | Some _ => w end, Some (inl l))
            else t <- transcode be schar wsz k' k l ;; Some (w, Some (inl t))
        end
    end.
  Fixpoint wrun (w : world) (prog : list op) : option (world * list ans) :=
    match prog with
    | [] => Some (w, [])
    | c :: prog' => r <- wstep w c ;; r' <- wrun (fst r) prog' ;; Some (fst r', snd r :: snd r')
    end.
  Definition wstart : world := {| w_users := []; w_pars := [] |}.
End SparamSpec.

(** The answers agree; a view is looked at in the state the operation leaves. *)
Definition same_answer (s : state) (o : out) (a : ans) : Prop :=
  match o, a with
  | ODone, None => True
  | OBool b, Some (inr b') => b = b'
  | OText l, Some (inl l') => l = l'
  | OView v, Some (inl l) => look s v = Some l
  | _, _ => False
  end.

(** A string parameter denotes a value: nothing, a live string of its own, or a part of a live string of the user; never an empty text. *)
Definition denotes (s : state) (p : option param) (v : option value) : Prop :=
  match p, v with
  | None, None => True
  | Some PNone, Some None => True
  | Some (POwn k o), Some (Some (k', l, None)) => k = k' /\ get (objs s) k o = Some l /\ l <> []
  | Some (PView k u off len), Some (Some (k', l, Some u')) =>
      k = k' /\ u = u' /\ l <> [] /\ exists whole, get (users s) k u = Some whole /\ slice whole off len = Some l
  | _, _ => False
  end.

(** Running the program step by step never goes wrong and gives these answers, ending in the state [e]. *)
Fixpoint conforms (be schar : bool) (wsz : N) (ws : N -> bool) (s : state) (prog : list op) (answers : list ans) (e : state) : Prop :=
  match prog, answers with
  | [], [] => s = e
  | c :: prog', a :: answers' =>
      exists s' o, step be schar wsz ws s c = Some (s', o) /\ same_answer s' o a /\ conforms be schar wsz ws s' prog' answers' e
  | _, _ => False
  end.
