(** What blobs should do: each holds a string of bytes, some of them unspecified, and was promised an alignment. *)
From Verif Require Import Words BlobModel.
Local Open Scope N_scope.

Section Spec.
  (** The default alignment. *)
  Variable ma : N.
  Record sblob : Type := { s_promise : N; s_bytes : list byte }.
  Definition sstate : Type := list (option sblob).
  Definition svar (t : sstate) (i : nat) : option sblob := match nth_error t i with Some (Some b) => Some b | _ => None end.
  (** The bytes behind a source pointer. *)
  Definition sread (t : sstate) (u : usource) (n : N) : option (list byte) :=
    match u with
    | UNull => Some (repeat None (N.to_nat n))
    | UOutside l => if n <=? N.of_nat (length l) then Some (firstn (N.to_nat n) l) else None
    | UBlob j off => b <- svar t j ;; if off + n <=? N.of_nat (length (s_bytes b)) then Some (firstn (N.to_nat n) (skipn (N.to_nat off) (s_bytes b))) else None
    end.
  Definition resized (l : list byte) (n : N) : list byte := firstn (N.to_nat n) l ++ repeat None (N.to_nat n - length l).
  Definition sstep (t : sstate) (o : op) : option sstate :=
    match o with
    | New => Some (t ++ [Some {| s_promise := ma; s_bytes := [] |}])
    | NewSized size src align => l <- sread t src size ;; Some (t ++ [Some {| s_promise := N.max ma align; s_bytes := l |}])
    | Copy j => b <- svar t j ;; Some (t ++ [Some b])
    | CopyAlign j align => b <- svar t j ;; Some (t ++ [Some {| s_promise := (if align =? 0 then s_promise b else N.max ma align); s_bytes := s_bytes b |}])
    | MoveNew j => b <- svar t j ;; Some (upd t j (Some {| s_promise := ma; s_bytes := [] |}) ++ [Some b])
    | Destroy i => b <- svar t i ;; Some (upd t i None)
    | Assign i size src align => b <- svar t i ;; l <- sread t src size ;; Some (upd t i (Some {| s_promise := N.max ma align; s_bytes := l |}))
    | CopyAssign i j => b <- svar t i ;; o <- svar t j ;; Some (upd t i (Some o))
    | MoveAssign i j =>
        b <- svar t i ;; o <- svar t j ;;
        Some (if Nat.eqb i j then t else upd (upd t i (Some o)) j (Some {| s_promise := ma; s_bytes := [] |}))
    | Resize i size => b <- svar t i ;; Some (upd t i (Some {| s_promise := s_promise b; s_bytes := resized (s_bytes b) size |}))
    | Write i k v => b <- svar t i ;; if k <? N.of_nat (length (s_bytes b)) then Some (upd t i (Some {| s_promise := s_promise b; s_bytes := upd (s_bytes b) (N.to_nat k) (Some v) |})) else None
    end.
  Fixpoint srun (t : sstate) (os : list op) : option sstate :=
    match os with [] => Some t | o :: os' => t' <- sstep t o ;; srun t' os' end.

  (** The blob's bytes are these wherever they are specified. *)
  Definition agrees (m l : list byte) : Prop := Forall2 (fun x y => y = None \/ x = y) m l.

  (** Alignments are powers of two, and sizes leave room for rounding up; a blob is not assigned from its own bytes. *)
  Definition pow2 (a : N) : Prop := exists k, a = 2 ^ k.
  Definition fits (sw size align : N) : Prop := (align = 0 \/ pow2 align) /\ align + 128 < 2 ^ (sw - 1) /\ size + 128 < 2 ^ (sw - 1).
  Definition sane (sw : N) (o : op) : Prop :=
    match o with
    | NewSized size _ align => fits sw size align
    | CopyAlign _ align => fits sw 0 align
    | Assign i size src align => fits sw size align /\ match src with UBlob j _ => j <> i | _ => True end
    | CopyAssign i j => i <> j
    | Resize _ size => fits sw size 0
    | _ => True
    end.
End Spec.
