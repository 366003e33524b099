(** What emplacement arrays should do: each variable holds a capacity and a list of at most that many values. *)
From Verif Require Import Words EarrModel.

Section Spec.
  Context {V : Type}.
  Variable triv : bool.
  Record sstate : Type := { svars : list (option (nat * list V)); slog : list (event V) }.
  Definition svar (s : sstate) (i : nat) : option (nat * list V) := match nth_error (svars s) i with Some (Some x) => Some x | _ => None end.
  (** Values are destroyed last first; values that need no destruction just vanish. *)
  Definition goodbye (l : list V) : list (event V) := if triv then [] else map Gone (rev l).
  Definition sstep (s : sstate) (o : op V) : option sstate :=
    match o with
    | New cap => Some {| svars := svars s ++ [Some (cap, [])]; slog := slog s |}
    | MoveNew j => x <- svar s j ;; Some {| svars := upd (svars s) j (Some (0%nat, [])) ++ [Some x]; slog := slog s |}
    | MoveAssign i j =>
        x <- svar s i ;;
        y <- svar s j ;;
        Some {| svars := upd (upd (svars s) i (Some y)) j (Some (0%nat, [])); slog := slog s ++ goodbye (snd x) |}
    | Emplace i v nothrow throws =>
        x <- svar s i ;;
        if Nat.ltb (length (snd x)) (fst x) then
          if negb nothrow && throws then Some s
          else Some {| svars := upd (svars s) i (Some (fst x, snd x ++ [v])); slog := slog s ++ [Built v] |}
        else None
    | Clear i => x <- svar s i ;; Some {| svars := upd (svars s) i (Some (fst x, [])); slog := slog s ++ goodbye (snd x) |}
    | Destroy i => x <- svar s i ;; Some {| svars := upd (svars s) i None; slog := slog s ++ goodbye (snd x) |}
    end.
  Fixpoint srun (s : sstate) (os : list (op V)) : option sstate :=
    match os with [] => Some s | o :: os' => s' <- sstep s o ;; srun s' os' end.
  Definition sstart : sstate := {| svars := []; slog := [] |}.

  Definition builts (l : list (event V)) : list V := flat_map (fun e => match e with Built v => [v] | Gone _ => [] end) l.
  Definition gones (l : list (event V)) : list V := flat_map (fun e => match e with Gone v => [v] | Built _ => [] end) l.
  Definition alive (l : list (option (nat * list V))) : list V := flat_map (fun x => match x with Some (_, vs) => vs | None => [] end) l.
End Spec.
Arguments sstate : clear implicits.
