(** Model of src/stream_printer.h and of the printing functions of src/vector_types_common.cpp.

    A stream is its format state and what has been written. What [operator<<] of the standard library writes for a number
    is not modelled; the number is recorded with the format state it is written in. From the standard library: writing a
    number sets the width to zero, [write] does not look at the format state, [std::dec] and [std::right] set their flag
    and clear the flags that exclude it. *)
From Coq Require Import Ascii String.
From Verif Require Import Words EarrModel.
Local Open Scope nat_scope.

Inductive base := Dec | Oct | Hex | NoBase.
Inductive adjust := Left | Right | Internal | NoAdjust.

Section Print.
  Context {T G F : Type}.   (* numbers, the other format flags, fill characters *)

  Record format := { f_base : base; f_adjust : adjust; f_other : G; f_precision : nat; f_width : nat; f_fill : F }.
  Inductive piece := Text (s : string) | Number (x : T) (f : format).
  Record stream := { s_format : format; s_out : list piece }.

  Definition with_base (f : format) (b : base) : format :=
    {| f_base := b; f_adjust := f_adjust f; f_other := f_other f; f_precision := f_precision f; f_width := f_width f; f_fill := f_fill f |}.
  Definition with_adjust (f : format) (a : adjust) : format :=
    {| f_base := f_base f; f_adjust := a; f_other := f_other f; f_precision := f_precision f; f_width := f_width f; f_fill := f_fill f |}.
  Definition with_precision (f : format) (n : nat) : format :=
    {| f_base := f_base f; f_adjust := f_adjust f; f_other := f_other f; f_precision := n; f_width := f_width f; f_fill := f_fill f |}.
  Definition with_width (f : format) (n : nat) : format :=
    {| f_base := f_base f; f_adjust := f_adjust f; f_other := f_other f; f_precision := f_precision f; f_width := n; f_fill := f_fill f |}.

  (** The standard library's part. *)
  Definition write (o : stream) (s : string) : stream := {| s_format := s_format o; s_out := s_out o ++ [Text s] |}.
  Definition put_number (o : stream) (x : T) : stream := {| s_format := with_width (s_format o) 0; s_out := s_out o ++ [Number x (s_format o)] |}.
  Definition set_format (o : stream) (f : format) : stream := {| s_format := f; s_out := s_out o |}.

  (** stream_printer.h:189-205 [print_number]. The cast of narrow and of 128-bit integers is not modelled. *)
  Definition print_number (o : stream) (x : T) : stream :=
    let w := f_width (s_format o) in
    let o := set_format o (with_adjust (s_format o) Right) in
    let o := put_number o x in
    set_format o (with_width (s_format o) w).

  (** stream_printer.h:350-362, [indent]; [max] is [indent_max], [width] is [indent_width] (139-141). The loop runs until
      the count has been used up. *)
  Definition spaces (n : nat) : string := string_of_list_ascii (repeat " "%char n).
  Definition indent_width := 2.
  Definition indent_max := 25.
  Fixpoint indent_loop (fuel : nat) (o : stream) (i : nat) : stream :=
    match fuel with
    | O => o
    | S fuel => if 0 <? i then indent_loop fuel (write o (spaces (Nat.min i indent_max * indent_width))) (i - indent_max) else o
    end.
  Definition indent (o : stream) (i : nat) : stream := indent_loop i o i.

  (** stream_printer.h:368-383. *)
  Definition object_open (o : stream) : stream := write o "{ ".
  Definition object_close (o : stream) : stream := write o " }".
  Definition next_list_item (o : stream) : stream := write o ", ".
  Definition breaking_list_item (i : nat) (o : stream) : stream := indent (write o (String "," (String "010" EmptyString))) i.

  (** stream_printer.h:386-395. [None]: a read outside the array. *)
  Fixpoint list_items (l : list T) (from i n : nat) (o : stream) : option stream :=
    match n with
    | O => Some o
    | S n => x <- nth_error l (from + i) ;;
             list_items l from (S i) n (print_number (if 0 <? i then next_list_item o else o) x)
    end.

  (** vector_types_common.cpp:18-35 (the same in all three functions): the saver, the precision of floating-point numbers
      ([None] for integers), decimal. *)
  Definition setup (precision : option nat) (o : stream) : stream :=
    let f := s_format o in
    set_format o (with_base (match precision with Some p => with_precision f p | None => f end) Dec).
  (** stream_printer.h:37-43, [saver.width] being 0. *)
  Definition restore (saved : format) (o : stream) : stream := set_format o (with_width saved 0).

  (** vector_types_common.cpp:18-44. *)
  Definition print_vector (precision : option nat) (o : stream) (l : list T) (dims : nat) : option stream :=
    let saved := s_format o in
    o <- list_items l 0 0 dims (object_open (setup precision o)) ;;
    Some (restore saved (object_close o)).

  (** vector_types_common.cpp:275-290. *)
  Fixpoint print_columns (m : list T) (rows r c n : nat) (o : stream) : option stream :=
    match n with
    | O => Some o
    | S n => x <- nth_error m (c * rows + r) ;;
             print_columns m rows r (S c) n (print_number (if 0 <? c then next_list_item o else o) x)
    end.
  Fixpoint print_rows (m : list T) (rows cols r n : nat) (o : stream) : option stream :=
    match n with
    | O => Some o
    | S n => o <- print_columns m rows r 0 cols (if 0 <? r then breaking_list_item 1 o else o) ;;
             print_rows m rows cols (S r) n o
    end.
  (** vector_types_common.cpp:249-295. *)
  Definition print_matrix (precision : option nat) (o : stream) (m : list T) (rows cols : nat) : option stream :=
    if rows =? 1 then print_vector precision o m cols
    else
      let saved := s_format o in
      o <- print_rows m rows cols 0 rows (object_open (setup precision o)) ;;
      Some (restore saved (object_close o)).

  (** vector_types_common.cpp:500-543. An element is an array and how much of it to print. *)
  Fixpoint print_elems (first : bool) (l : list (list T * nat)) (o : stream) : option stream :=
    match l with
    | [] => Some o
    | (a, n) :: l =>
        let o := if first then o else next_list_item o in
        let o := if 1 <? n then object_open o else o in
        o <- list_items a 0 0 n o ;;
        print_elems false l (if 1 <? n then object_close o else o)
    end.
  Definition print_compound (precision : option nat) (o : stream) (l : list (list T * nat)) : option stream :=
    let saved := s_format o in
    o <- print_elems true l (object_open (setup precision o)) ;;
    Some (restore saved (object_close o)).
End Print.
