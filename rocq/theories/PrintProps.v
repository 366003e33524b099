(** C53: printing vectors, matrices and compound objects. *)
From Coq Require Import Ascii String.
From Verif Require Import Words PrintModel PrintSpec PrintProofs.
Local Open Scope nat_scope.

(** A matrix is stored column after column; it is printed as the table of its rows, one line for each, whatever is
    already in the stream, and the format state is as before except for the width, which is used up. [cols] are the
    stored columns, [tab] the rows of the same matrix. *)
Theorem C53_matrix_is_printed_by_rows (T G F : Type) p (o : @stream T G F) (cols tab : list (list T)) :
  0 < List.length tab ->
  (forall row, In row tab -> List.length row = List.length cols) -> (forall col, In col cols -> List.length col = List.length tab) ->
  (forall r c row col, nth_error tab r = Some row -> nth_error cols c = Some col -> nth_error row c = nth_error col r) ->
  exists o', print_matrix p o (List.concat cols) (List.length tab) (List.length cols) = Some o' /\
    s_out o' = s_out o ++ table (number_format p (s_format o)) tab /\ consumed (s_format o) (s_format o').
Proof. intros H1 H2 H3 H4. exact (print_matrix_ok p o cols (List.length tab) tab H1 eq_refl H2 H3 H4). Qed.

(** So the numbers written are the elements, row by row, each exactly once. *)
Theorem C53_matrix_elements_in_reading_order (T G F : Type) p (o o' : @stream T G F) (cols tab : list (list T)) :
  0 < List.length tab ->
  (forall row, In row tab -> List.length row = List.length cols) -> (forall col, In col cols -> List.length col = List.length tab) ->
  (forall r c row col, nth_error tab r = Some row -> nth_error cols c = Some col -> nth_error row c = nth_error col r) ->
  print_matrix p o (List.concat cols) (List.length tab) (List.length cols) = Some o' ->
  printed (s_out o') = printed (s_out o) ++ List.concat tab.
Proof.
  intros H1 H2 H3 H4 E. destruct (C53_matrix_is_printed_by_rows T G F p o cols tab H1 H2 H3 H4) as (o2 & E1 & E2 & _).
  assert (X : o2 = o') by congruence. rewrite <- X, E2, printed_app, printed_table. reflexivity.
Qed.

(** A vector is printed in braces, its elements in order. *)
Theorem C53_vector (T G F : Type) p (o : @stream T G F) (l : list T) :
  exists o', print_vector p o l (List.length l) = Some o' /\
    s_out o' = s_out o ++ braces (numbers (number_format p (s_format o)) l) /\ printed (s_out o') = printed (s_out o) ++ l /\
    consumed (s_format o) (s_format o').
Proof.
  destruct (print_vector_ok p o l (List.length l) (le_n _)) as (o' & E1 & E2 & E3). rewrite firstn_all in E2. exists o'. repeat (split; [assumption|]). split; [|exact E3].
  rewrite E2, printed_app. unfold braces. rewrite !printed_app, printed_numbers. cbn. rewrite app_nil_r. reflexivity.
Qed.

(** Planes, segments, boxes and so on: their parts in order, those of several elements in braces of their own. *)
Theorem C53_compound (T G F : Type) p (o : @stream T G F) (l : list (list T)) :
  exists o', print_compound p o (map (fun e => (e, List.length e)) l) = Some o' /\
    s_out o' = s_out o ++ braces (separate [Text ", "] (map (fun e => let ns := numbers (number_format p (s_format o)) e in if 1 <? List.length e then braces ns else ns) l)) /\
    printed (s_out o') = printed (s_out o) ++ List.concat l /\ consumed (s_format o) (s_format o').
Proof.
  destruct (print_compound_ok p o (map (fun e => (e, List.length e)) l)) as (o' & E1 & E2 & E3).
  { intros e He. apply in_map_iff in He. destruct He as (x & <- & _). apply le_n. }
  exists o'. split; [exact E1|]. rewrite map_map in E2. unfold elem_pieces in E2. cbn [fst snd] in E2.
  assert (X : map (fun x => let ns := numbers (number_format p (s_format o)) (firstn (List.length x) x) in if 1 <? List.length x then braces ns else ns) l =
              map (fun e => let ns := numbers (number_format p (s_format o)) e in if 1 <? List.length e then braces ns else ns) l) by (apply map_ext; intros e; rewrite firstn_all; reflexivity).
  cbn zeta in E2, X. rewrite X in E2. split; [exact E2|]. split; [|exact E3]. rewrite E2, printed_app. f_equal. rewrite printed_braces, printed_separate by reflexivity.
  clear. induction l as [|x l IH]; [reflexivity|]. cbn [map flat_map List.concat]. rewrite IH. f_equal. destruct (1 <? List.length x); [rewrite printed_braces|]; apply printed_numbers.
Qed.

(** Indenting by [i] levels writes [2 * i] spaces and nothing else, whatever [i], and leaves the format alone. *)
Theorem C53_indent (T G F : Type) (o : @stream T G F) i :
  texts (s_out (indent o i)) = texts (s_out o) ++ repeat " "%char (2 * i) /\ printed (s_out (indent o i)) = printed (s_out o) /\ s_format (indent o i) = s_format o.
Proof.
  unfold indent.
  enough (G0 : forall fuel o i, i <= fuel -> let o' := indent_loop fuel o i in
    texts (s_out o') = texts (s_out o) ++ repeat " "%char (2 * i) /\ printed (s_out o') = printed (s_out o) /\ s_format o' = s_format o) by exact (G0 i o i (le_n i)).
  clear o i. cbv zeta. induction fuel as [|fuel IH]; intros o i H; cbn [indent_loop].
  - assert (i = 0) by lia. subst i. rewrite app_nil_r. repeat split.
  - destruct (Nat.ltb_spec 0 i) as [H0|H0]; [|assert (i = 0) by lia; subst i; rewrite app_nil_r; repeat split].
    edestruct (IH (write o (spaces (Nat.min i indent_max * indent_width))) (i - indent_max)) as (E1 & E2 & E3); [unfold indent_max; lia|].
    rewrite E1, E2, E3. cbn [write s_out s_format]. unfold texts, printed. rewrite !flat_map_app. cbn [flat_map]. rewrite !app_nil_r. unfold spaces.
    rewrite list_ascii_of_string_of_list_ascii, <- app_assoc, <- repeat_app. split; [|split; reflexivity]. do 2 f_equal. unfold indent_max, indent_width. lia.
Qed.

(* ------------------------------------------------------------------ witnesses *)
Definition start : @stream nat unit ascii :=
  {| s_format := {| f_base := Hex; f_adjust := Left; f_other := tt; f_precision := 4; f_width := 7; f_fill := "*"%char |}; s_out := [] |}.
(** Two rows, three columns. *)
Example C53_witness : option_map (fun o => printed (s_out o)) (print_matrix (Some 6) start [1; 4; 2; 5; 3; 6] 2 3) = Some [1; 2; 3; 4; 5; 6] /\
  option_map (fun o => s_format o) (print_matrix (Some 6) start [1; 4; 2; 5; 3; 6] 2 3) = Some (with_width (s_format start) 0).
Proof. split; vm_compute; reflexivity. Qed.
Example C53_witness_hypotheses : let cols := [[1; 4]; [2; 5]; [3; 6]] in let tab := [[1; 2; 3]; [4; 5; 6]] in
  (forall row, In row tab -> List.length row = List.length cols) /\ (forall col, In col cols -> List.length col = List.length tab) /\
  (forall r c row col, nth_error tab r = Some row -> nth_error cols c = Some col -> nth_error row c = nth_error col r).
Proof.
  cbn. split; [intros row H; repeat (destruct H as [<-|H]; [reflexivity|]); contradiction|]. split; [intros row H; repeat (destruct H as [<-|H]; [reflexivity|]); contradiction|].
  intros [|[|r]] [|[|[|c]]] row col H1 H2; cbn in H1, H2; try (destruct r; discriminate H1); try (destruct c; discriminate H2); injection H1 as <-; injection H2 as <-; reflexivity.
Qed.
Example C53_witness_plane : option_map (fun o => s_out o) (print_compound (@None nat) start [([1; 2], 2); ([3], 1)]) =
  let nf := number_format (@None nat) (s_format start) in Some [Text "{ "; Text "{ "; Number 1 nf; Text ", "; Number 2 nf; Text " }"; Text ", "; Number 3 nf; Text " }"].
Proof. vm_compute. reflexivity. Qed.

Print Assumptions C53_matrix_is_printed_by_rows.
Print Assumptions C53_matrix_elements_in_reading_order.
Print Assumptions C53_vector.
Print Assumptions C53_compound.
Print Assumptions C53_indent.
