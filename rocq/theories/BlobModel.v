(** Model of blob.h and of the allocation functions of aligned_alloc.h it uses. *)
From Verif Require Import Words BitsModel.
From Verif Require EarrModel.
Local Open Scope N_scope.

(** A byte of memory; [None] is not initialised. *)
Definition byte : Type := option N.
(** Allocated blocks have their bytes and the alignment of their address; [None] is a freed block. *)
Record block : Type := { k_bytes : list byte; k_align : N }.
Definition heap : Type := list (option block).
(** blob.h:28-30. *)
Record blob : Type := { b_align : N; b_size : N; b_data : option nat }.
(** Where bytes are copied from: memory that no blob owns, a position in a block, or nowhere. *)
Inductive source : Type := Null | Outside (l : list byte) | At (b : nat) (off : N).

Notation upd := EarrModel.upd.

Section Blob.
  (** The width of [size_t] and impl::aligned_alloc_min_align (aligned_alloc.h:22-23). *)
  Variables (sw ma : N).

  (** aligned_alloc.h:33-46; std::aligned_alloc is assumed to succeed and to return memory of the alignment asked for. *)
  Definition aligned_alloc (h : heap) (size align : N) : option (heap * nat) :=
    if (size =? 0) || (align =? 0) then None
    else
      let al := if ma <? align then align else ma in
      let sz := N.land (trunc sw (size + al - 1)) (compl sw (al - 1)) in
      Some (h ++ [Some {| k_bytes := repeat None (N.to_nat sz); k_align := al |}], length h).
  (** aligned_alloc.h:52-60. *)
  Definition aligned_free (h : heap) (b : nat) : option heap :=
    match nth_error h b with Some (Some _) => Some (upd h b None) | _ => None end.
  (** Reading [n] bytes: undefined out of bounds and after the block was freed. *)
  Definition peek (h : heap) (s : source) (n : N) : option (list byte) :=
    match s with
    | Null => None
    | Outside l => if n <=? N.of_nat (length l) then Some (firstn (N.to_nat n) l) else None
    | At b off =>
        match nth_error h b with
        | Some (Some k) => if off + n <=? N.of_nat (length (k_bytes k)) then Some (firstn (N.to_nat n) (skipn (N.to_nat off) (k_bytes k))) else None
        | _ => None
        end
    end.
  Definition poke (h : heap) (b : nat) (off : N) (l : list byte) : option heap :=
    match nth_error h b with
    | Some (Some k) =>
        if off + N.of_nat (length l) <=? N.of_nat (length (k_bytes k)) then
          Some (upd h b (Some {| k_bytes := firstn (N.to_nat off) (k_bytes k) ++ l ++ skipn (N.to_nat off + length l) (k_bytes k); k_align := k_align k |}))
        else None
    | _ => None
    end.
  (** [memcpy]: undefined when the regions overlap. *)
  Definition memcpy (h : heap) (b : nat) (s : source) (n : N) : option heap :=
    match s with
    | At b' off => if Nat.eqb b b' && (off <? n) then None else l <- peek h s n ;; poke h b 0 l
    | _ => l <- peek h s n ;; poke h b 0 l
    end.

  (** blob.h:32-40. *)
  Definition big_align : N := if 64 <? ma then ma else 64.
  Definition actual_alignment (size align : N) : N :=
    if size <? 2048 then (if ma <? align then align else ma) else (if big_align <? align then align else big_align).

  Definition is_null (s : source) : bool := match s with Null => true | _ => false end.
  Definition blob_empty : blob := {| b_align := ma; b_size := 0; b_data := None |}.                    (* 44-48 *)
  (** blob.h:56-64. *)
  Definition blob_new (h : heap) (size : N) (src : source) (align : N) : option (blob * heap) :=
    let al := actual_alignment size align in
    if size =? 0 then Some ({| b_align := al; b_size := size; b_data := None |}, h)
    else
      r <- aligned_alloc h size al ;;
      let b := {| b_align := al; b_size := size; b_data := Some (snd r) |} in
      if is_null src then Some (b, fst r) else h' <- memcpy (fst r) (snd r) src size ;; Some (b, h').
  (** The blob's data pointer as a source. *)
  Definition data_of (b : blob) : source := match b_data b with Some k => At k 0 | None => Null end.
  Definition blob_copy (h : heap) (o : blob) : option (blob * heap) := blob_new h (b_size o) (data_of o) (b_align o).   (* 66-70 *)
  Definition blob_copy_align (h : heap) (o : blob) (align : N) : option (blob * heap) :=                                (* 77-80 *)
    blob_new h (b_size o) (data_of o) (if align =? 0 then b_align o else align).
  (** blob.h:90-95. *)
  Definition blob_destroy (h : heap) (b : blob) : option heap := match b_data b with Some k => aligned_free h k | None => Some h end.
  (** blob.h:174-212. *)
  Definition blob_resize (h : heap) (b : blob) (sz : N) : option (blob * heap) :=
    if b_size b =? sz then Some (b, h)
    else if negb (b_size b =? 0) then
      match b_data b with
      | None => None
      | Some k =>
          if sz =? 0 then h' <- aligned_free h k ;; Some ({| b_align := b_align b; b_size := sz; b_data := None |}, h')
          else
            r <- aligned_alloc h sz (b_align b) ;;
            h1 <- memcpy (fst r) (snd r) (At k 0) (N.min sz (b_size b)) ;;
            h2 <- aligned_free h1 k ;;
            Some ({| b_align := b_align b; b_size := sz; b_data := Some (snd r) |}, h2)
      end
    else
      r <- aligned_alloc h sz (b_align b) ;;
      Some ({| b_align := b_align b; b_size := sz; b_data := Some (snd r) |}, fst r).
  (** [src != data_]. *)
  Definition same_place (s : source) (d : option nat) : bool :=
    match s, d with At b off, Some k => Nat.eqb b k && (off =? 0) | Null, None => true | _, _ => false end.
  (** blob.h:105-132. *)
  Definition blob_assign (h : heap) (b : blob) (sz : N) (src : source) (align : N) : option (blob * heap) :=
    let al := actual_alignment sz align in
    if al <=? b_align b then
      r <- blob_resize h b sz ;;
      let '(b', h') := r in
      match b_data b' with
      | Some k => if negb (is_null src) && negb (same_place src (b_data b')) then h'' <- memcpy h' k src (b_size b') ;; Some (b', h'') else Some (b', h')
      | None => Some (b', h')
      end
    else
      h1 <- match b_data b with Some k => aligned_free h k | None => Some h end ;;
      if sz =? 0 then Some ({| b_align := al; b_size := sz; b_data := None |}, h1)
      else
        r <- aligned_alloc h1 sz al ;;
        let b' := {| b_align := al; b_size := sz; b_data := Some (snd r) |} in
        if is_null src then Some (b', fst r) else h2 <- memcpy (fst r) (snd r) src sz ;; Some (b', h2).

  (** Programs over any number of blobs.  A user's source pointer is given by the variable it points into. *)
  Inductive usource : Type := UNull | UOutside (l : list byte) | UBlob (j : nat) (off : N).
  Inductive op : Type :=
  | New
  | NewSized (size : N) (src : usource) (align : N)
  | Copy (j : nat)
  | CopyAlign (j : nat) (align : N)
  | MoveNew (j : nat)
  | Destroy (i : nat)
  | Assign (i : nat) (size : N) (src : usource) (align : N)
  | CopyAssign (i j : nat)
  | MoveAssign (i j : nat)
  | Resize (i : nat) (size : N)
  | Write (i : nat) (k : N) (v : N).            (* [data()[k] = v], the user *)
  Record state : Type := { vars : list (option blob); mem : heap }.
  Definition var (s : state) (i : nat) : option blob := match nth_error (vars s) i with Some (Some b) => Some b | _ => None end.
  Definition resolve (s : state) (u : usource) : option source :=
    match u with
    | UNull => Some Null
    | UOutside l => Some (Outside l)
    | UBlob j off => b <- var s j ;; match b_data b with Some k => Some (At k off) | None => Some Null end
    end.
  Definition add_var (s : state) (r : blob * heap) : state := {| vars := vars s ++ [Some (fst r)]; mem := snd r |}.
  Definition set_var (s : state) (i : nat) (r : blob * heap) : state := {| vars := upd (vars s) i (Some (fst r)); mem := snd r |}.
  Definition step (s : state) (o : op) : option state :=
    match o with
    | New => Some (add_var s (blob_empty, mem s))
    | NewSized size src align => p <- resolve s src ;; r <- blob_new (mem s) size p align ;; Some (add_var s r)
    | Copy j => o <- var s j ;; r <- blob_copy (mem s) o ;; Some (add_var s r)
    | CopyAlign j align => o <- var s j ;; r <- blob_copy_align (mem s) o align ;; Some (add_var s r)
    | MoveNew j =>                                                                    (* 82-88 *)
        o <- var s j ;; Some {| vars := upd (vars s) j (Some blob_empty) ++ [Some o]; mem := mem s |}
    | Destroy i => b <- var s i ;; h <- blob_destroy (mem s) b ;; Some {| vars := upd (vars s) i None; mem := h |}
    | Assign i size src align => b <- var s i ;; p <- resolve s src ;; r <- blob_assign (mem s) b size p align ;; Some (set_var s i r)
    | CopyAssign i j =>                                                               (* 142-145 *)
        b <- var s i ;; o <- var s j ;; r <- blob_assign (mem s) b (b_size o) (data_of o) (b_align o) ;; Some (set_var s i r)
    | MoveAssign i j =>                                                               (* 148-160 *)
        b <- var s i ;;
        if Nat.eqb i j then Some s
        else
          h <- blob_destroy (mem s) b ;;
          o <- var s j ;;
          Some {| vars := upd (upd (vars s) i (Some o)) j (Some blob_empty); mem := h |}
    | Resize i size => b <- var s i ;; r <- blob_resize (mem s) b size ;; Some (set_var s i r)
    | Write i k v =>
        b <- var s i ;;
        if k <? b_size b then
          match b_data b with Some d => h <- poke (mem s) d k [Some v] ;; Some {| vars := vars s; mem := h |} | None => None end
        else None
    end.
  Fixpoint run (s : state) (os : list op) : option state :=
    match os with [] => Some s | o :: os' => s' <- step s o ;; run s' os' end.
  Definition start : state := {| vars := []; mem := [] |}.

  (** What can be read through [data()]: the first [size()] bytes. *)
  Definition contents (s : state) (b : blob) : option (list byte) :=
    match b_data b with None => if b_size b =? 0 then Some [] else None | Some k => peek (mem s) (At k 0) (b_size b) end.
  (** The alignment of the address of [data()]. *)
  Definition data_align (s : state) (b : blob) : option N :=
    match b_data b with None => None | Some k => match nth_error (mem s) k with Some (Some d) => Some (k_align d) | _ => None end end.
End Blob.
