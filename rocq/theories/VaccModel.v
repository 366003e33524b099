(** Model of accumulators of integer vectors: [accumulator<vector<S, D>>] (accumulator.h with vector.h:3302-3384). *)
From Verif Require Import Words CoreModel AccumModel.
Local Open Scope Z_scope.

(** vector.h:3305-3311 and the sample count (accumulator.h:49); the counts of the components are not used: [basic_accumulator] has none. *)
Record vaccum : Type := { v_parts : list accum; v_count : Z }.
Definition part (l : list accum) (i : nat) : accum := nth i l accum_empty.
Definition elem (s : list Z) (i : nat) : Z := nth i s 0.
Definition vaccum_empty (dims : nat) : vaccum := {| v_parts := repeat accum_empty dims; v_count := 0 |}.

Section Vaccum.
  (** [vt] is the scalar type, [sw] the width of [size_t], [dims] the number of components. *)
  Variables (sw : Z) (vt : ity) (dims : nat).
  (** vector.h:3313-3327 *)
  Definition vimpl_start (l : list accum) (s : list Z) : list accum := map (fun i => impl_start vt (part l i) (elem s i)) (seq 0 dims).
  (** One component after the other; undefined if one of the steps is. *)
  Fixpoint each (f : nat -> option accum) (is : list nat) : option (list accum) :=
    match is with [] => Some [] | i :: is => a <- f i ;; l <- each f is ;; Some (a :: l) end.
  (** vector.h:3329-3343 *)
  Definition vimpl_add (l : list accum) (s : list Z) : option (list accum) := each (fun i => impl_add vt (part l i) (elem s i)) (seq 0 dims).
  (** vector.h:3345-3349 *)
  Definition vimpl_merge (l o : list accum) : option (list accum) := each (fun i => impl_merge vt (part l i) (part o i)) (seq 0 dims).
  (** accumulator.h:117-130 *)
  Definition vaccum_add (a : vaccum) (s : list Z) : option vaccum :=
    let n := (v_count a + 1) mod 2 ^ sw in
    if v_count a =? 0 then Some {| v_parts := vimpl_start (v_parts a) s; v_count := n |}
    else l <- vimpl_add (v_parts a) s ;; Some {| v_parts := l; v_count := n |}.
  (** accumulator.h:139-146 *)
  Fixpoint vaccum_add_all (a : vaccum) (l : list (list Z)) : option vaccum := match l with [] => Some a | s :: l => a <- vaccum_add a s ;; vaccum_add_all a l end.
  (** accumulator.h:153-169 *)
  Definition vaccum_merge (a o : vaccum) : option vaccum :=
    if v_count o =? 0 then Some a
    else if v_count a =? 0 then l <- vimpl_merge (v_parts a) (v_parts o) ;; Some {| v_parts := l; v_count := (v_count a + v_count o) mod 2 ^ sw |}
    else Some {| v_parts := v_parts o; v_count := v_count o |}.
  (** vector.h:3354-3381 *)
  Definition vmin (a : vaccum) : list Z := map (fun i => a_min (part (v_parts a) i)) (seq 0 dims).
  Definition vmax (a : vaccum) : list Z := map (fun i => a_max (part (v_parts a) i)) (seq 0 dims).
  Definition vsum (a : vaccum) : list Z := map (fun i => a_sum (part (v_parts a) i)) (seq 0 dims).
End Vaccum.
