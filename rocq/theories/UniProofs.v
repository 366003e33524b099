(** A predicate is constant on long runs of code units; [scan] finds the runs, and the lemmas say that it is right. *)
From Verif Require Import Words WordsProofs UniModel UniSpec.
From Coq Require Import ZifyBool ZifyN.
Local Open Scope N_scope.

Definition far : N := 0x100000000.

(** How many bits from the lowest one on are the same. *)
Fixpoint ones (p : positive) : N := match p with xI q => N.succ (ones q) | xH => 1 | xO _ => 0 end.
Fixpoint zeros (p : positive) : N := match p with xO q => N.succ (zeros q) | _ => 0 end.
Definition run_length (x b : N) : N :=
  match N.shiftr x b with
  | 0 => 64 - b
  | Npos p => N.min (64 - b) (match p with xO _ => zeros p | _ => ones p end)
  end.

Definition block_end (k d c : N) : N := if k <=? c then k + ((c - k) / d + 1) * d else c + 1.
(** The value at [c], and a point up to which it stays the same. *)
Fixpoint htest (e : cond) (c : N) : option bool * N :=
  match e with
  | Yes => (Some true, far)
  | No => (Some false, far)
  | Lt n => if c <? n then (Some true, n) else (Some false, far)
  | Le n => if c <=? n then (Some true, n + 1) else (Some false, far)
  | Gt n => if n <? c then (Some true, far) else (Some false, n + 1)
  | Ge n => if n <=? c then (Some true, far) else (Some false, n)
  | Eq n => if c <? n then (Some false, n) else if c =? n then (Some true, n + 1) else (Some false, far)
  | BlockIs w k d n =>
      if (k <=? c) && (0 <? d) && (32 <=? w) && (k <? 2 ^ w) then
        let lo := k + n * d in if c <? lo then (Some false, lo) else if c <? lo + d then (Some true, lo + d) else (Some false, far)
      else (test e c, c + 1)
  | BlockIn w k d mask =>
      if (k <=? c) && (0 <? d) && (32 <=? w) && (k <? 2 ^ w) then
        let i := (c - k) / d in ((if i <? w then Some (N.testbit mask i) else None), k + (i + 1) * d)
      else (test e c, c + 1)
  | MaskIs m n => (test e c, c + 1)
  | RemIs w a m n => (test e c, c + 1)
  | TableBit k k2 l =>
      if (k <=? c) && (k2 <=? c) then
        let i := (c - k) / 64 in
        match word_at l i with
        | Some x => let b := (c - k2) mod 64 in (Some (N.testbit x b), N.min (k + (i + 1) * 64) (c + run_length x b))
        | None => (None, c + 1)
        end
      else (test e c, c + 1)
  | Not a => let (v, h) := htest a c in (option_map negb v, h)
  | And a b => match htest a c with (Some true, h) => let (v, h2) := htest b c in (v, N.min h h2) | r => r end
  | Or a b => match htest a c with (Some false, h) => let (v, h2) := htest b c in (v, N.min h h2) | r => r end
  end.
Fixpoint hrun (s : stmt) (c : N) : option bool * N :=
  match s with
  | Return e => htest e c
  | If e s t =>
      match htest e c with
      | (Some true, h) => let (v, h2) := hrun s c in (v, N.min h h2)
      | (Some false, h) => let (v, h2) := hrun t c in (v, N.min h h2)
      | (None, h) => (None, h)
      end
  | Assume e s => match htest e c with (Some true, h) => let (v, h2) := hrun s c in (v, N.min h h2) | (_, h) => (None, h) end
  | Unreachable => (None, far)
  | Call f s t =>
      match hrun f c with
      | (Some true, h) => let (v, h2) := hrun s c in (v, N.min h h2)
      | (Some false, h) => let (v, h2) := hrun t c in (v, N.min h h2)
      | (None, h) => (None, h)
      end
  end.

(** [h] is beyond [c], and [f] stays at [v] up to there. *)
Definition steady (f : N -> option bool) (c : N) (r : option bool * N) : Prop := c < snd r /\ forall c', c <= c' < snd r -> c' < far -> f c' = fst r.

Lemma steady_self : forall f c, steady f c (f c, c + 1).
Proof. intros f c. split; cbn; [lia|]. intros c' H _. f_equal. lia. Qed.
Lemma steady_far : forall f c v, c < far -> (forall c', c <= c' -> f c' = v) -> steady f c (v, far).
Proof. intros f c v L H. split; cbn; [assumption|]. intros c' B _. apply H. lia. Qed.

Lemma block_ge : forall w k d c, k <= c -> 0 < d -> 32 <= w -> k < 2 ^ w -> c < far -> block w k d c = Some ((c - k) / d).
Proof.
  intros w k d c K D W KW C. unfold block. replace (d =? 0) with false by lia. do 2 f_equal.
  assert (2 ^ 32 <= 2 ^ w) by (apply N.pow_le_mono_r; lia). change (2 ^ 32) with far in H.
  replace (c + 2 ^ w - k) with ((c - k) + 1 * 2 ^ w) by lia. rewrite N.mod_add by lia. apply N.mod_small. lia.
Qed.
Lemma div_block : forall x d i, 0 < d -> (x / d = i <-> i * d <= x < (i + 1) * d).
Proof.
  intros x d i D. split.
  - intros <-. assert (H := N.div_mod' x d). assert (K := N.mod_lt x d ltac:(lia)). nia.
  - intros [A B]. symmetry. apply N.div_unique with (x - i * d); nia.
Qed.
Lemma has_bit_testbit : forall w x b, has_bit w x b = if b <? w then Some (N.testbit x b) else None.
Proof.
  intros w x b. unfold has_bit. destruct (b <? w); [|reflexivity]. f_equal. destruct (N.testbit x b) eqn:E.
  - destruct (N.land x (N.shiftl 1 b) =? 0) eqn:Z; [|reflexivity]. apply N.eqb_eq in Z. apply (f_equal (fun y => N.testbit y b)) in Z.
    rewrite N.land_spec, E, N.shiftl_spec_high', N.sub_diag, N.bits_0 in Z by lia. discriminate.
  - replace (N.land x (N.shiftl 1 b)) with 0; [reflexivity|]. symmetry. apply N.bits_inj. intros i. rewrite N.land_spec, N.bits_0.
    destruct (N.eq_dec i b) as [->|Ne]; [rewrite E; reflexivity|]. rewrite N.shiftl_1_l, N.pow2_bits_false by lia. apply andb_false_r.
Qed.
Lemma ones_spec : forall p i, i < ones p -> N.testbit (Npos p) i = true.
Proof.
  induction p; intros i H; cbn [ones] in H; try lia.
  - destruct (N.eq_dec i 0) as [->|Ne]; [reflexivity|]. replace i with (N.succ (N.pred i)) by lia. change (N.pos p~1) with (2 * N.pos p + 1). rewrite N.testbit_odd_succ by lia. apply IHp. lia.
  - replace i with 0 by lia. reflexivity.
Qed.
Lemma zeros_spec : forall p i, i < zeros p -> N.testbit (Npos p) i = false.
Proof.
  induction p; intros i H; cbn [zeros] in H; try lia.
  destruct (N.eq_dec i 0) as [->|Ne]; [reflexivity|]. replace i with (N.succ (N.pred i)) by lia. change (N.pos p~0) with (2 * N.pos p). rewrite N.testbit_even_succ by lia. apply IHp. lia.
Qed.
Lemma run_length_spec : forall x b, b < 64 -> 0 < run_length x b /\ b + run_length x b <= 64 /\ forall i, i < run_length x b -> N.testbit x (b + i) = N.testbit x b.
Proof.
  intros x b B. unfold run_length. assert (G : forall i, N.testbit x (b + i) = N.testbit (N.shiftr x b) i) by (intros i; rewrite N.shiftr_spec', N.add_comm; reflexivity).
  assert (G0 := G 0). rewrite N.add_0_r in G0. rewrite G0. destruct (N.shiftr x b) as [|p].
  - split; [lia|]. split; [lia|]. intros i _. rewrite G, !N.bits_0. reflexivity.
  - destruct p as [p|p|]; (split; [|split; [lia|]]).
    + cbn [ones]. lia.
    + intros i I. rewrite G, !ones_spec; [reflexivity|cbn [ones]; lia|lia].
    + cbn [zeros]. lia.
    + intros i I. rewrite G, !zeros_spec; [reflexivity|cbn [zeros]; lia|lia].
    + cbn [ones]. lia.
    + intros i I. rewrite G, !ones_spec; [reflexivity|cbn [ones]; lia|lia].
Qed.

Lemma htest_steady : forall e c, c < far -> steady (test e) c (htest e c).
Proof.
  induction e as [| |n|n|n|n|n|w k d n|w k d mask|m n|w a m n|k k2 l|a IHa|a IHa b IHb|a IHa b IHb]; intros c C.
  - apply steady_far; auto.
  - apply steady_far; auto.
  - cbn [htest]. destruct (c <? n) eqn:E; (split; cbn [fst snd test]; [lia|]; intros c' B _; f_equal; lia).
  - cbn [htest]. destruct (c <=? n) eqn:E; (split; cbn [fst snd test]; [lia|]; intros c' B _; f_equal; lia).
  - cbn [htest]. destruct (n <? c) eqn:E; (split; cbn [fst snd test]; [lia|]; intros c' B _; f_equal; lia).
  - cbn [htest]. destruct (n <=? c) eqn:E; (split; cbn [fst snd test]; [lia|]; intros c' B _; f_equal; lia).
  - cbn [htest]. destruct (c <? n) eqn:E; [|destruct (c =? n) eqn:E2]; (split; cbn [fst snd test]; [lia|]; intros c' B _; f_equal; lia).
  - cbn [htest]. destruct ((k <=? c) && (0 <? d) && (32 <=? w) && (k <? 2 ^ w)) eqn:G; [|apply steady_self].
    assert (K : k <= c /\ 0 < d /\ 32 <= w /\ k < 2 ^ w) by (clear - G; lia). clear G. destruct K as (K & D & W & KW).
    assert (T : forall c', c <= c' -> c' < far -> test (BlockIs w k d n) c' = Some ((c' - k) / d =? n)) by (intros c' L F; cbn [test]; rewrite block_ge by lia; reflexivity).
    cbv zeta. assert (Y : forall c', c <= c' -> ((c' - k) / d =? n) = (k + n * d <=? c') && (c' <? k + n * d + d)).
    { intros c' L. assert (H := div_block (c' - k) d n D). destruct ((c' - k) / d =? n) eqn:Q.
      - apply N.eqb_eq in Q. apply H in Q. symmetry. apply andb_true_iff. nia.
      - apply N.eqb_neq in Q. symmetry. apply not_true_iff_false. intro Z. apply Q, H. apply andb_true_iff in Z. nia. }
    destruct (c <? k + n * d) eqn:E1; [|destruct (c <? k + n * d + d) eqn:E2]; (split; cbn [fst snd]; [lia|]; intros c' B F; rewrite T, Y by lia; f_equal; lia).
  - cbn [htest]. destruct ((k <=? c) && (0 <? d) && (32 <=? w) && (k <? 2 ^ w)) eqn:G; [|apply steady_self].
    assert (K : k <= c /\ 0 < d /\ 32 <= w /\ k < 2 ^ w) by (clear - G; lia). clear G. destruct K as (K & D & W & KW).
    cbv zeta. assert (H := proj1 (div_block (c - k) d _ D) eq_refl). set (i := (c - k) / d) in *. clearbody i. split; cbn [fst snd]; [nia|]. intros c' B F.
    cbn [test]. rewrite block_ge by lia. cbn. rewrite has_bit_testbit. replace ((c' - k) / d) with i; [reflexivity|]. symmetry. apply div_block; [assumption|]. nia.
  - apply steady_self.
  - apply steady_self.
  - cbn [htest]. destruct ((k <=? c) && (k2 <=? c)) eqn:G; [|apply steady_self].
    assert (K : k <= c /\ k2 <= c) by (clear - G; lia). clear G. destruct K as [K K2]. cbv zeta.
    assert (F64 : far < 2 ^ 64) by (vm_compute; reflexivity).
    assert (H := proj1 (div_block (c - k) 64 _ ltac:(lia)) eq_refl).
    assert (T : forall c', c <= c' -> c' < far -> test (TableBit k k2 l) c' = match word_at l ((c' - k) / 64) with Some x => Some (N.testbit x ((c' - k2) mod 64)) | None => None end).
    { intros c' L F. cbn [test]. rewrite (block_ge 64 k 64), (block_ge 64 k2 1) by lia. cbn [option_bind]. destruct (word_at l ((c' - k) / 64)); [|reflexivity]. cbn.
      rewrite has_bit_testbit, N.div_1_r. replace (_ <? 64) with true; [reflexivity|]. symmetry. apply N.ltb_lt, N.mod_lt. discriminate. }
    destruct (word_at l ((c - k) / 64)) as [x|] eqn:Wd.
    + assert (Bb : (c - k2) mod 64 < 64) by (apply N.mod_lt; discriminate). destruct (run_length_spec x _ Bb) as (R0 & R1 & R2).
      assert (M := N.div_mod' (c - k2) 64). set (b := (c - k2) mod 64) in *. set (i := (c - k) / 64) in *. clearbody i.
      set (q := (c - k2) / 64) in *. clearbody q. clearbody b. set (r := run_length x b) in *. clearbody r. split; cbn [fst snd]; [lia|]. intros c' B F. rewrite T by lia.
      replace ((c' - k) / 64) with i by (symmetry; apply div_block; lia). rewrite Wd. f_equal.
      replace ((c' - k2) mod 64) with (b + (c' - c)); [apply R2; lia|]. apply N.mod_unique with q; lia.
    + split; cbn [fst snd]; [lia|]. intros c' B F. replace c' with c by lia. rewrite T by lia. rewrite Wd. reflexivity.
  - cbn [htest]. specialize (IHa c C). destruct (htest a c) as [v h]. destruct IHa as [L S]. cbn [fst snd] in *. split; cbn [fst snd]; [lia|].
    intros c' B F. cbn [test]. rewrite S by lia. destruct v; reflexivity.
  - cbn [htest]. specialize (IHa c C). specialize (IHb c C). destruct (htest a c) as [v h], (htest b c) as [v2 h2]. destruct IHa as [L S], IHb as [L2 S2]. cbn [fst snd] in *.
    destruct v as [[|]|]; (split; cbn [fst snd]; [lia|]; intros c' B F; cbn [test]; rewrite S by lia; try reflexivity). apply S2; lia.
  - cbn [htest]. specialize (IHa c C). specialize (IHb c C). destruct (htest a c) as [v h], (htest b c) as [v2 h2]. destruct IHa as [L S], IHb as [L2 S2]. cbn [fst snd] in *.
    destruct v as [[|]|]; (split; cbn [fst snd]; [lia|]; intros c' B F; cbn [test]; rewrite S by lia; try reflexivity). apply S2; lia.
Qed.
Lemma hrun_steady : forall s c, c < far -> steady (run s) c (hrun s c).
Proof.
  induction s as [e|e s IHs t IHt|e s IHs| |f IHf s IHs t IHt]; intros c C.
  - apply htest_steady, C.
  - assert (He := htest_steady e c C). specialize (IHs c C). specialize (IHt c C). cbn [hrun]. destruct (htest e c) as [v h], (hrun s c) as [v1 h1], (hrun t c) as [v2 h2].
    destruct He as [L S], IHs as [L1 S1], IHt as [L2 S2]. cbn [fst snd] in *.
    destruct v as [[|]|]; (split; cbn [fst snd]; [lia|]; intros c' B F; cbn [run]; rewrite S by lia; try reflexivity); [apply S1|apply S2]; lia.
  - assert (He := htest_steady e c C). specialize (IHs c C). cbn [hrun]. destruct (htest e c) as [v h], (hrun s c) as [v1 h1].
    destruct He as [L S], IHs as [L1 S1]. cbn [fst snd] in *.
    destruct v as [[|]|]; (split; cbn [fst snd]; [lia|]; intros c' B F; cbn [run]; rewrite S by lia; try reflexivity). apply S1; lia.
  - apply steady_far; auto.
  - specialize (IHf c C). specialize (IHs c C). specialize (IHt c C). cbn [hrun]. destruct (hrun f c) as [v h], (hrun s c) as [v1 h1], (hrun t c) as [v2 h2].
    destruct IHf as [L S], IHs as [L1 S1], IHt as [L2 S2]. cbn [fst snd] in *.
    destruct v as [[|]|]; (split; cbn [fst snd]; [lia|]; intros c' B F; cbn [run]; rewrite S by lia; try reflexivity); [apply S1|apply S2]; lia.
Qed.

(* ------------------------------------------------------------------ comparison with sets *)
Fixpoint drop (l : list (N * N)) (c : N) : list (N * N) := match l with r :: t => if snd r <? c then drop t c else l | [] => [] end.
(** Ranges in increasing order, none empty. *)
Fixpoint sorted (from : N) (l : list (N * N)) : bool := match l with r :: t => (from <=? fst r) && (fst r <=? snd r) && sorted (snd r + 1) t | [] => true end.
(** Whether all code units from [c] up to [h] are in the set, or none; the first range is the first that does not end before [c]. *)
Definition constant (l : list (N * N)) (c h : N) : option bool :=
  match l with
  | [] => Some false
  | r :: _ => if h <=? fst r then Some false else if (fst r <=? c) && (h <=? snd r + 1) then Some true else None
  end.
Definition fits (v : option bool) (u l : list (N * N)) (c h : N) : bool :=
  match v, constant u c h with
  | None, Some true => true
  | Some b, Some false => match constant l c h with Some b' => Bool.eqb b b' | None => false end
  | _, _ => false
  end.
Fixpoint check (fuel : nat) (s : stmt) (c top : N) (u l : list (N * N)) : bool :=
  match fuel with
  | O => false
  | S fuel =>
      if top <=? c then true else
      let (v, h) := hrun s c in let h := N.min h top in let u := drop u c in let l := drop l c in
      if fits v u l c h then check fuel s h top u l else false
  end.

Lemma drop_in : forall l c c', c <= c' -> in_ranges (drop l c) c' = in_ranges l c'.
Proof.
  induction l as [|r t IH]; intros c c' H; [reflexivity|]. cbn [drop]. destruct (snd r <? c) eqn:E; [|reflexivity].
  rewrite IH by assumption. unfold in_ranges at 2. cbn [existsb]. replace (c' <=? snd r) with false by lia. rewrite andb_false_r. reflexivity.
Qed.
Lemma sorted_le : forall l a b, b <= a -> sorted a l = true -> sorted b l = true.
Proof. intros [|r t] a b H S; [reflexivity|]. cbn [sorted] in *. rewrite !andb_true_iff in *. repeat split; try tauto. lia. Qed.
Lemma drop_sorted : forall l c a, sorted a l = true -> sorted 0 (drop l c) = true.
Proof.
  induction l as [|r t IH]; intros c a S; [reflexivity|]. cbn [drop]. destruct (snd r <? c).
  - cbn [sorted] in S. rewrite !andb_true_iff in S. apply IH with (snd r + 1). tauto.
  - apply sorted_le with a; [lia|assumption].
Qed.
Lemma sorted_before : forall l a c, sorted a l = true -> c < a -> in_ranges l c = false.
Proof.
  induction l as [|r t IH]; intros a c S L; [reflexivity|]. cbn [sorted] in S. rewrite !andb_true_iff in S. unfold in_ranges. cbn [existsb].
  replace (fst r <=? c) with false by lia. cbn [andb orb]. apply (IH (snd r + 1)); [tauto|lia].
Qed.
Lemma constant_in : forall l c h b, sorted 0 l = true -> constant l c h = Some b -> forall c', c <= c' < h -> in_ranges l c' = b.
Proof.
  intros [|r t] c h b S H c' B; cbn [constant] in H; [inversion H; reflexivity|].
  destruct (h <=? fst r) eqn:E; [|destruct ((fst r <=? c) && (h <=? snd r + 1)) eqn:E2; [|discriminate]]; inversion H; subst b; clear H.
  - apply sorted_before with (fst r); [|lia]. cbn [sorted] in *. rewrite !andb_true_iff in *. repeat split; try tauto. lia.
  - unfold in_ranges. cbn [existsb]. replace (fst r <=? c') with true by lia. replace (c' <=? snd r) with true by lia. reflexivity.
Qed.
Lemma check_sound : forall fuel s c top u l, check fuel s c top u l = true -> top <= far -> sorted 0 u = true -> sorted 0 l = true ->
  forall c', c <= c' < top -> run s c' = answer u l c'.
Proof.
  induction fuel as [|fuel IH]; intros s c top u l H T Su Sl c' B; [discriminate|]. cbn [check] in H.
  replace (top <=? c) with false in H by lia. assert (St := hrun_steady s c ltac:(lia)). destruct (hrun s c) as [v h]. destruct St as [L St]. cbn [fst snd] in *. cbv zeta in H.
  destruct (fits v (drop u c) (drop l c) c (N.min h top)) eqn:F; [|discriminate].
  assert (A : answer (drop u c) (drop l c) c' = answer u l c') by (unfold answer; rewrite !drop_in by lia; reflexivity).
  destruct (N.lt_ge_cases c' (N.min h top)) as [Lt|Ge].
  - rewrite St, <- A by lia. unfold fits in F. unfold answer.
    destruct (constant (drop u c) c (N.min h top)) as [bu|] eqn:Cu; [|destruct v; discriminate].
    rewrite (constant_in _ _ _ _ (drop_sorted _ _ _ Su) Cu) by lia.
    destruct v as [b|], bu; try discriminate; [|reflexivity].
    destruct (constant (drop l c) c (N.min h top)) as [b'|] eqn:Cl; [|discriminate]. rewrite (constant_in _ _ _ _ (drop_sorted _ _ _ Sl) Cl) by lia.
    f_equal. apply Bool.eqb_prop, F.
  - rewrite <- A. apply (IH _ _ _ _ _ H T (drop_sorted _ _ _ Su) (drop_sorted _ _ _ Sl)). lia.
Qed.

(** The same for two predicates. *)
Definition same (a b : option bool) : bool := match a, b with Some x, Some y => Bool.eqb x y | None, None => true | _, _ => false end.
Fixpoint check_same (fuel : nat) (s t : stmt) (c top : N) : bool :=
  match fuel with
  | O => false
  | S fuel => if top <=? c then true else let (v, h) := hrun s c in let (w, k) := hrun t c in if same v w then check_same fuel s t (N.min h k) top else false
  end.
Lemma check_same_sound : forall fuel s t c top, check_same fuel s t c top = true -> top <= far -> forall c', c <= c' < top -> run s c' = run t c'.
Proof.
  induction fuel as [|fuel IH]; intros s t c top H T c' B; [discriminate|]. cbn [check_same] in H. replace (top <=? c) with false in H by lia.
  assert (Ss := hrun_steady s c ltac:(lia)). assert (St := hrun_steady t c ltac:(lia)). destruct (hrun s c) as [v h], (hrun t c) as [w k]. destruct Ss as [L1 S1], St as [L2 S2]. cbn [fst snd] in *.
  destruct (same v w) eqn:E; [|discriminate]. destruct (N.lt_ge_cases c' (N.min h k)) as [Lt|Ge].
  - rewrite S1, S2 by lia. destruct v as [a|], w as [b|]; try discriminate E; [f_equal; apply Bool.eqb_prop, E|reflexivity].
  - apply (IH _ _ _ _ H T). lia.
Qed.

(** The ranges up to [top], when none crosses it. *)
Definition below (top : N) (l : list (N * N)) : list (N * N) := filter (fun r => fst r <? top) l.
Lemma below_in : forall top l c, forallb (fun r => (snd r <? top) || (top <=? fst r)) l = true -> in_ranges (below top l) c = in_ranges l c && (c <? top).
Proof.
  intros top l c. induction l as [|r t IH]; intros H; [reflexivity|]. cbn [forallb] in H. apply andb_true_iff in H. destruct H as [H1 H2]. specialize (IH H2).
  unfold below. cbn [filter]. fold (below top t). unfold in_ranges in *. destruct (fst r <? top) eqn:E; cbn [existsb].
  - rewrite IH. destruct ((fst r <=? c) && (c <=? snd r)) eqn:Q; cbn [orb andb]; [symmetry; lia|reflexivity].
  - rewrite IH. destruct ((fst r <=? c) && (c <=? snd r)) eqn:Q; cbn [orb andb]; [|reflexivity]. replace (c <? top) with false by lia. rewrite andb_false_r. reflexivity.
Qed.
