(** How vectors, matrices and compound objects are meant to be written. *)
From Coq Require Import Ascii String.
From Verif Require Import Words PrintModel.
Local Open Scope nat_scope.

Fixpoint separate {A} (sep : list A) (l : list (list A)) : list A :=
  match l with
  | [] => []
  | [x] => x
  | x :: r => x ++ sep ++ separate sep r
  end.

Section PrintSpec.
  Context {T G F : Type}.

  (** Decimal, to the right, in the caller's width and fill. *)
  Definition number_format (precision : option nat) (f : @format G F) : format :=
    {| f_base := Dec; f_adjust := Right; f_other := f_other f;
       f_precision := match precision with Some p => p | None => f_precision f end; f_width := f_width f; f_fill := f_fill f |}.

  (** A list of numbers: "1, 2, 3". *)
  Definition numbers (nf : @format G F) (l : list T) : list piece := separate [Text ", "] (map (fun x => [Number x nf]) l).
  Definition braces (l : list (@piece T G F)) : list piece := [Text "{ "] ++ l ++ [Text " }"].
  (** A table: one line for each row. *)
  Definition table (nf : @format G F) (rows : list (list T)) : list piece :=
    braces (separate [Text (String "," (String "010" EmptyString)); Text "  "] (map (numbers nf) rows)).

  (** The characters of the pieces without numbers, one after the other. *)
  Definition texts (l : list (@piece T G F)) : list ascii := flat_map (fun p => match p with Number _ _ => [] | Text s => list_ascii_of_string s end) l.

  (** The numbers in a text. *)
  Definition printed (l : list (@piece T G F)) : list T := flat_map (fun p => match p with Number x _ => [x] | Text _ => [] end) l.

  (** Only the width may have changed, to zero, as after printing anything. *)
  Definition consumed (f f' : @format G F) : Prop :=
    f_base f' = f_base f /\ f_adjust f' = f_adjust f /\ f_other f' = f_other f /\ f_precision f' = f_precision f /\ f_fill f' = f_fill f /\ f_width f' = 0.
End PrintSpec.
