From Coq Require Import Ascii String.
From Verif Require Import Words PrintModel PrintSpec.
Local Open Scope nat_scope.

Section Proofs.
  Context {T G F : Type}.
  Notation stream := (@stream T G F).
  Notation format := (@format G F).
  Notation piece := (@piece T G F).

  Definition like (nf f : format) : Prop := with_adjust f Right = nf.
  (** [o'] is [o] with [ps] written to it. *)
  Definition wrote (nf : format) (o : stream) (ps : list piece) (o' : stream) : Prop := s_out o' = s_out o ++ ps /\ like nf (s_format o').

  Lemma write_wrote nf (o : stream) s : like nf (s_format o) -> wrote nf o [Text s] (write o s).
  Proof. intros L. split; [reflexivity|exact L]. Qed.
  Lemma number_wrote nf (o : stream) x : like nf (s_format o) -> wrote nf o [Number x nf] (print_number o x).
  Proof. intros L. unfold wrote, like in *. rewrite <- L. destruct o as [[b a ot p w fi] out]. split; reflexivity. Qed.
  Lemma wrote_trans nf (o o1 o2 : stream) p q : wrote nf o p o1 -> wrote nf o1 q o2 -> wrote nf o (p ++ q) o2.
  Proof. intros [E1 L1] [E2 L2]. split; [rewrite E2, E1, app_assoc; reflexivity|exact L2]. Qed.
  Lemma wrote_nil nf (o : stream) : like nf (s_format o) -> wrote nf o [] o.
  Proof. intros L. split; [rewrite app_nil_r; reflexivity|exact L]. Qed.

  Definition seps {A} (sep : list A) (l : list (list A)) : list A := flat_map (fun x => sep ++ x) l.
  Lemma separate_seps {A} (sep : list A) l x : separate sep (x :: l) = x ++ seps sep l.
  Proof. revert x. induction l as [|y l IH]; intros x; [cbn; rewrite app_nil_r; reflexivity|]. cbn [separate seps flat_map]. cbn [separate] in IH. rewrite IH. unfold seps. rewrite <- app_assoc. reflexivity. Qed.

  (** What a loop over [get] writes, from position [i] on. *)
  Lemma list_items_wrote nf l from : forall n i (o : stream), like nf (s_format o) -> from + i + n <= List.length l ->
    exists o', list_items l from i n o = Some o' /\
      wrote nf o (if i =? 0 then numbers nf (firstn n (skipn (from + i) l)) else seps [Text ", "] (map (fun x => [Number x nf]) (firstn n (skipn (from + i) l)))) o'.
  Proof.
    induction n as [|n IH]; intros i o L H.
    - exists o. split; [reflexivity|]. cbn [firstn map]. destruct (i =? 0); apply wrote_nil, L.
    - cbn [list_items]. destruct (nth_error l (from + i)) as [x|] eqn:E; [|apply nth_error_None in E; lia]. cbn.
      assert (ES : skipn (from + i) l = x :: skipn (from + S i) l).
      { clear -E. replace (from + S i) with (S (from + i)) by lia. revert E. generalize (from + i). clear. intros n. revert l. induction n as [|n IH]; intros [|y l] E; try discriminate; [cbn in E; injection E as ->; reflexivity|exact (IH l E)]. }
      set (o1 := if 0 <? i then next_list_item o else o).
      assert (W1 : wrote nf o (if i =? 0 then [] else [Text ", "]) o1) by (unfold o1; destruct i; cbn; [apply wrote_nil, L|apply write_wrote, L]).
      pose proof (number_wrote nf o1 x (proj2 W1)) as W2. destruct (IH (S i) (print_number o1 x) (proj2 W2)) as (o' & E' & W3); [lia|]. exists o'. split; [exact E'|].
      pose proof (wrote_trans _ _ _ _ _ _ (wrote_trans _ _ _ _ _ _ W1 W2) W3) as W. cbn [Nat.eqb] in W. rewrite ES. cbn [firstn map].
      destruct (i =? 0); cbn [app] in W.
      + unfold numbers. cbn [map]. rewrite separate_seps. exact W.
      + cbn [seps flat_map app]. exact W.
  Qed.

  Lemma columns_wrote nf m rows r : forall n c (o : stream) row, like nf (s_format o) -> List.length row = n ->
    (forall k, k < n -> nth_error m ((c + k) * rows + r) = nth_error row k) ->
    exists o', print_columns m rows r c n o = Some o' /\
      wrote nf o (if c =? 0 then numbers nf row else seps [Text ", "] (map (fun x => [Number x nf]) row)) o'.
  Proof.
    induction n as [|n IH]; intros c o row L HL H.
    - destruct row; [|discriminate]. exists o. split; [reflexivity|]. destruct (c =? 0); apply wrote_nil, L.
    - destruct row as [|x row]; [discriminate|]. cbn [print_columns]. assert (E := H 0 ltac:(lia)). rewrite Nat.add_0_r in E. cbn [nth_error] in E. rewrite E. cbn [option_bind].
      set (o1 := if 0 <? c then next_list_item o else o).
      assert (W1 : wrote nf o (if c =? 0 then [] else [Text ", "]) o1) by (unfold o1; destruct c; cbn; [apply wrote_nil, L|apply write_wrote, L]).
      pose proof (number_wrote nf o1 x (proj2 W1)) as W2. destruct (IH (S c) (print_number o1 x) row (proj2 W2)) as (o' & E' & W3).
      + cbn in HL. lia.
      + intros k Hk. replace (S c + k) with (c + S k) by lia. apply (H (S k)). lia.
      + exists o'. split; [exact E'|]. pose proof (wrote_trans _ _ _ _ _ _ (wrote_trans _ _ _ _ _ _ W1 W2) W3) as W. cbn [Nat.eqb] in W.
        destruct (c =? 0); cbn [app] in W.
        * unfold numbers. cbn [map]. rewrite separate_seps. exact W.
        * cbn [seps flat_map map app]. exact W.
  Qed.

  Definition line : list piece := [Text (String "," (String "010" EmptyString)); Text "  "].
  Lemma breaking_wrote nf (o : stream) : like nf (s_format o) -> wrote nf o line (breaking_list_item 1 o).
  Proof. intros L. split; [cbn; rewrite <- app_assoc; reflexivity|exact L]. Qed.

  Lemma rows_wrote nf m rows cols : forall n r (o : stream) tab, like nf (s_format o) -> List.length tab = n ->
    (forall k row, nth_error tab k = Some row -> List.length row = cols /\ forall c, c < cols -> nth_error m (c * rows + (r + k)) = nth_error row c) ->
    exists o', print_rows m rows cols r n o = Some o' /\
      wrote nf o (if r =? 0 then separate line (map (numbers nf) tab) else seps line (map (numbers nf) tab)) o'.
  Proof.
    induction n as [|n IH]; intros r o tab L HL H.
    - destruct tab; [|discriminate]. exists o. split; [reflexivity|]. destruct (r =? 0); apply wrote_nil, L.
    - destruct tab as [|row tab]; [discriminate|]. cbn [print_rows]. destruct (H 0 row eq_refl) as [H1 H2]. rewrite Nat.add_0_r in H2.
      set (o1 := if 0 <? r then breaking_list_item 1 o else o).
      assert (W1 : wrote nf o (if r =? 0 then [] else line) o1) by (unfold o1; destruct r; [apply wrote_nil, L|apply breaking_wrote, L]).
      destruct (columns_wrote nf m rows r cols 0 o1 row (proj2 W1) H1 H2) as (o2 & E2 & W2). cbn [Nat.eqb] in W2. rewrite E2. cbn [option_bind].
      destruct (IH (S r) o2 tab (proj2 W2)) as (o' & E' & W3).
      + cbn in HL. lia.
      + intros k row' Hk. replace (S r + k) with (r + S k) by lia. apply (H (S k) row'). exact Hk.
      + exists o'. split; [exact E'|]. pose proof (wrote_trans _ _ _ _ _ _ (wrote_trans _ _ _ _ _ _ W1 W2) W3) as W. cbn [Nat.eqb] in W. cbn [map].
        destruct (r =? 0); [rewrite separate_seps; exact W|]. cbn [seps flat_map]. rewrite <- app_assoc. rewrite <- app_assoc in W. exact W.
  Qed.

  Lemma setup_like p (o : stream) : like (number_format p (s_format o)) (s_format (setup p o)).
  Proof. destruct o as [[b a ot pr w fi] out], p; reflexivity. Qed.
  Lemma restore_consumed (f : format) (o : stream) : consumed f (s_format (restore f o)).
  Proof. repeat split. Qed.

  (** The frame common to all three functions. *)
  Lemma framed p (o : stream) ps (body : stream -> option stream) :
    (forall o1 : stream, like (number_format p (s_format o)) (s_format o1) -> exists o2, body o1 = Some o2 /\ wrote (number_format p (s_format o)) o1 ps o2) ->
    exists o', (o2 <- body (object_open (setup p o)) ;; Some (restore (s_format o) (object_close o2))) = Some o' /\
      s_out o' = s_out o ++ braces ps /\ consumed (s_format o) (s_format o').
  Proof.
    intros B. pose proof (write_wrote _ _ "{ " (setup_like p o)) as W0. destruct (B (object_open (setup p o)) (proj2 W0)) as (o2 & E & W1). rewrite E. cbn [option_bind].
    pose proof (write_wrote _ _ " }" (proj2 W1)) as W2. eexists. split; [reflexivity|]. split; [|apply restore_consumed].
    change (s_out (restore (s_format o) (object_close o2))) with (s_out (write o2 " }")). rewrite (proj1 (wrote_trans _ _ _ _ _ _ (wrote_trans _ _ _ _ _ _ W0 W1) W2)).
    cbn [setup set_format s_out]. unfold braces. rewrite <- app_assoc. reflexivity.
  Qed.

  Lemma print_vector_ok p (o : stream) l n : n <= List.length l -> exists o', print_vector p o l n = Some o' /\
    s_out o' = s_out o ++ braces (numbers (number_format p (s_format o)) (firstn n l)) /\ consumed (s_format o) (s_format o').
  Proof. intros H. apply framed. intros o1 L. apply (list_items_wrote _ l 0 n 0 o1 L). lia. Qed.

  Lemma nth_concat {A} (n : nat) : forall (ll : list (list A)) c r, (forall x, In x ll -> List.length x = n) -> r < n ->
    nth_error (List.concat ll) (c * n + r) = match nth_error ll c with Some x => nth_error x r | None => None end.
  Proof.
    induction ll as [|x ll IH]; intros c r H Hr; [destruct c; [destruct r|destruct (S c * n + r)]; reflexivity|]. cbn [List.concat].
    assert (Hx := H x (or_introl eq_refl)). destruct c as [|c].
    - cbn [Nat.mul Nat.add nth_error]. apply nth_error_app1. lia.
    - rewrite nth_error_app2 by (cbn; lia). cbn [nth_error]. rewrite <- (IH c r); [f_equal; cbn; lia|intros y Hy; apply H; right; exact Hy|exact Hr].
  Qed.

  Lemma print_matrix_ok p (o : stream) cols_ rows (tab : list (list T)) :
    0 < rows -> List.length tab = rows -> (forall row, In row tab -> List.length row = List.length cols_) -> (forall col, In col cols_ -> List.length col = rows) ->
    (forall r c row col, nth_error tab r = Some row -> nth_error cols_ c = Some col -> nth_error row c = nth_error col r) ->
    exists o', print_matrix p o (List.concat cols_) rows (List.length cols_) = Some o' /\
      s_out o' = s_out o ++ table (number_format p (s_format o)) tab /\ consumed (s_format o) (s_format o').
  Proof.
    intros Hr HL HW HC HE. unfold print_matrix. destruct (Nat.eqb_spec rows 1) as [E|N].
    - destruct tab as [|row [|]]; cbn in HL; try lia. unfold table. cbn [map separate].
      assert (X : row = List.concat cols_).
      { assert (HR := HW row (or_introl eq_refl)). assert (Q : forall c col, nth_error cols_ c = Some col -> nth_error row c = nth_error col 0) by (intros c col Hc; apply (HE 0 c row col eq_refl Hc)).
        clear -HR Q HC E. subst rows. revert row HR Q. induction cols_ as [|col cs IH]; intros [|x row] HR Q; try discriminate; [reflexivity|]. cbn [List.concat].
        assert (L1 := HC col (or_introl eq_refl)). pose proof (Q 0 col eq_refl) as Q0. destruct col as [|y [|]]; try discriminate L1. cbn in Q0. injection Q0 as <-. cbn [app]. f_equal.
        apply IH; [intros c Hc; apply HC; right; exact Hc|cbn in HR; lia|intros c col Hc; exact (Q (S c) col Hc)]. }
      assert (Y : List.length (List.concat cols_) = List.length cols_) by (rewrite <- X; apply HW; left; reflexivity).
      destruct (print_vector_ok p o (List.concat cols_) (List.length cols_)) as (o' & E1 & E2 & E3); [lia|]. exists o'. split; [exact E1|]. split; [|exact E3].
      rewrite E2, <- Y, firstn_all, X. reflexivity.
    - apply framed. intros o1 L. apply (rows_wrote _ (List.concat cols_) rows (List.length cols_) rows 0 o1 tab L HL).
      intros k row Hk. split; [apply HW; exact (nth_error_In _ _ Hk)|]. intros c Hc. cbn [Nat.add].
      assert (Hk' : k < rows) by (rewrite <- HL; apply nth_error_Some; rewrite Hk; discriminate). rewrite (nth_concat rows cols_ c k HC Hk').
      destruct (nth_error cols_ c) as [col|] eqn:EC; [|apply nth_error_None in EC; lia]. symmetry. exact (HE k c row col Hk EC).
  Qed.

  Definition elem_pieces (nf : format) (e : list T * nat) : list piece :=
    let l := numbers nf (firstn (snd e) (fst e)) in if 1 <? snd e then braces l else l.
  Lemma elems_wrote nf : forall (l : list (list T * nat)) first (o : stream), like nf (s_format o) -> (forall e, In e l -> snd e <= List.length (fst e)) ->
    exists o', print_elems first l o = Some o' /\ wrote nf o (if first then separate [Text ", "] (map (elem_pieces nf) l) else seps [Text ", "] (map (elem_pieces nf) l)) o'.
  Proof.
    induction l as [|[a n] l IH]; intros first o L H.
    - exists o. split; [reflexivity|]. destruct first; apply wrote_nil, L.
    - cbn [print_elems]. set (o1 := if first then o else next_list_item o).
      assert (W1 : wrote nf o (if first then [] else [Text ", "]) o1) by (unfold o1; destruct first; [apply wrote_nil, L|apply write_wrote, L]).
      set (o2 := if 1 <? n then object_open o1 else o1).
      assert (W2 : wrote nf o1 (if 1 <? n then [Text "{ "] else []) o2) by (unfold o2; destruct (1 <? n); [apply write_wrote, (proj2 W1)|apply wrote_nil, (proj2 W1)]).
      destruct (list_items_wrote nf a 0 n 0 o2 (proj2 W2)) as (o3 & E3 & W3); [specialize (H _ (or_introl eq_refl)); cbn in H; lia|]. rewrite E3. cbn [option_bind]. cbn [Nat.eqb Nat.add skipn] in W3.
      set (o4 := if 1 <? n then object_close o3 else o3).
      assert (W4 : wrote nf o3 (if 1 <? n then [Text " }"] else []) o4) by (unfold o4; destruct (1 <? n); [apply write_wrote, (proj2 W3)|apply wrote_nil, (proj2 W3)]).
      destruct (IH false o4 (proj2 W4)) as (o' & E' & W5); [intros e He; apply H; right; exact He|]. exists o'. split; [exact E'|].
      assert (WE : wrote nf o1 (elem_pieces nf (a, n)) o4).
      { pose proof (wrote_trans _ _ _ _ _ _ (wrote_trans _ _ _ _ _ _ W2 W3) W4) as W. unfold elem_pieces. cbn [fst snd]. destruct (1 <? n); [unfold braces; rewrite <- app_assoc in W; exact W|cbn [app] in W; rewrite app_nil_r in W; exact W]. }
      pose proof (wrote_trans _ _ _ _ _ _ (wrote_trans _ _ _ _ _ _ W1 WE) W5) as W. cbn [map]. destruct first; [rewrite separate_seps; exact W|exact W].
  Qed.

  Lemma print_compound_ok p (o : stream) (l : list (list T * nat)) : (forall e, In e l -> snd e <= List.length (fst e)) ->
    exists o', print_compound p o l = Some o' /\ s_out o' = s_out o ++ braces (separate [Text ", "] (map (elem_pieces (number_format p (s_format o))) l)) /\ consumed (s_format o) (s_format o').
  Proof. intros H. apply framed. intros o1 L. apply (elems_wrote _ l true o1 L H). Qed.

  (* ------------------------------------------------------------------ the numbers of a text *)
  Lemma printed_app (a b : list piece) : printed (a ++ b) = printed a ++ printed b.
  Proof. apply flat_map_app. Qed.
  Lemma printed_separate sep (l : list (list piece)) : printed sep = [] -> printed (separate sep l) = flat_map printed l.
  Proof.
    intros E. induction l as [|x l IH]; [reflexivity|]. rewrite separate_seps, printed_app. cbn [flat_map]. f_equal.
    clear IH. induction l as [|y l IH]; [reflexivity|]. cbn [seps flat_map]. rewrite !printed_app, E. cbn [app]. f_equal. exact IH.
  Qed.
  Lemma printed_braces (l : list piece) : printed (braces l) = printed l.
  Proof. unfold braces. rewrite !printed_app. cbn. apply app_nil_r. Qed.
  Lemma printed_numbers (nf : format) (l : list T) : printed (numbers nf l) = l.
  Proof. unfold numbers. rewrite printed_separate by reflexivity. induction l as [|x l IH]; [reflexivity|]. cbn. f_equal. exact IH. Qed.
  Lemma printed_table (nf : format) (tab : list (list T)) : printed (table nf tab) = List.concat tab.
  Proof.
    unfold table, braces. rewrite !printed_app, printed_separate by reflexivity. cbn [printed flat_map app]. rewrite app_nil_r.
    induction tab as [|x l IH]; [reflexivity|]. cbn [map flat_map List.concat]. rewrite printed_numbers, IH. reflexivity.
  Qed.
End Proofs.
