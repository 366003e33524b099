(** Views refine their targets. *)
From Coq Require Import List Bool Arith Lia.
From Verif Require Import FviewModel FviewSpec.
Import ListNotations.

Lemma upd_length {T} (l : list T) i x : length (upd l i x) = length l.
Proof. revert i. induction l as [|y l IH]; intros [|i]; cbn; [reflexivity|reflexivity|reflexivity|now rewrite IH]. Qed.
Lemma upd_same {T} (l : list T) i x : i < length l -> nth_error (upd l i x) i = Some x.
Proof. revert i. induction l as [|y l IH]; intros [|i] H; cbn in *; [lia|lia|reflexivity|apply IH; lia]. Qed.
Lemma upd_other {T} (l : list T) i j x : i <> j -> nth_error (upd l i x) j = nth_error l j.
Proof. revert i j. induction l as [|y l IH]; intros [|i] [|j] H; cbn; try reflexivity; [lia|apply IH; lia]. Qed.
Lemma nth_lt {T} (l : list T) i x : nth_error l i = Some x -> i < length l.
Proof. intros H. apply nth_error_Some. now rewrite H. Qed.

Section Refine.
  Variable W A R : Type.
  Variable classes : nat -> class W A R.
  Variable functions : nat -> W -> A -> W * R.
  Hypothesis lambdas : forall k, like_a_lambda classes functions k.

  Definition views (l : list (option thing)) (t : target) (v : view) : Prop :=
    match t with
    | TNothing => v = null_view
    | TFunction f => v = bind_pointer (Some f)
    | TObject a q => exists k, v = bind_object classes k q a /\ a < length l /\ forall k' s, nth_error l a = Some (Some (SObject k' s)) -> k' = k
    end.
  Definition cell (l : list (option thing)) (o : option object) (h : option thing) : Prop :=
    match o, h with
    | None, None => True
    | Some (OClass k s), Some (SObject k' s') => k = k' /\ s = s' /\ (c_empty (classes k) = true -> s = 0)
    | Some (OView v), Some (SView t) => views l t v
    | _, _ => False
    end.
  Definition cells (m : memory) (l : list (option thing)) : Prop :=
    length m = length l /\ forall a o h, nth_error m a = Some o -> nth_error l a = Some h -> cell l o h.
  Definition related (s : state W R) (t : sstate W R) : Prop := world s = sworld t /\ log s = slog t /\ cells (mem s) (things t).

  (** Later lists: no address gets an object of another class. *)
  Definition later (l l' : list (option thing)) : Prop :=
    length l <= length l' /\ forall a k s, a < length l -> nth_error l' a = Some (Some (SObject k s)) -> exists s', nth_error l a = Some (Some (SObject k s')).
  Lemma views_later l l' t v : later l l' -> views l t v -> views l' t v.
  Proof.
    intros [L H]. destruct t as [|f|a q]; [auto|auto|]. intros (k & V & B & K). exists k. split; [exact V|]. split; [lia|]. intros k' s N. destruct (H a k' s B N) as [s' N']. exact (K _ _ N').
  Qed.
  Lemma cell_later l l' o h : later l l' -> cell l o h -> cell l' o h.
  Proof. intros L. destruct o as [[k s|v]|], h as [[k' s'|t]|]; cbn; try tauto. now apply views_later. Qed.
  Lemma later_add l h : later l (l ++ [h]).
  Proof. split; [rewrite app_length; cbn; lia|]. intros a k s B N. rewrite nth_error_app1 in N by exact B. now exists s. Qed.
  Lemma later_put l a h : (forall k s, h = Some (SObject k s) -> exists s', nth_error l a = Some (Some (SObject k s'))) -> later l (upd l a h).
  Proof.
    intros H. split; [now rewrite upd_length|]. intros b k s B N. destruct (Nat.eq_dec a b) as [<-|D].
    - rewrite upd_same in N by exact B. injection N as N. exact (H k s N).
    - rewrite upd_other in N by exact D. now exists s.
  Qed.
  Lemma cells_add m l o h : cells m l -> cell (l ++ [h]) o h -> cells (m ++ [o]) (l ++ [h]).
  Proof.
    intros [L H] C. split; [now rewrite !app_length, L|]. intros a o' h' M N. destruct (Nat.lt_ge_cases a (length l)) as [B|B].
    - rewrite nth_error_app1 in M by lia. rewrite nth_error_app1 in N by lia. apply cell_later with l; [apply later_add|]. now apply (H a).
    - rewrite nth_error_app2 in M by lia. rewrite nth_error_app2 in N by lia. rewrite L in M. destruct (a - length l) as [|[|i]]; [|discriminate|discriminate]. injection M as <-. injection N as <-. exact C.
  Qed.
  Lemma cells_put m l a o h : cells m l -> a < length l -> (forall k s, h = Some (SObject k s) -> exists s', nth_error l a = Some (Some (SObject k s'))) -> cell (upd l a h) o h -> cells (upd m a o) (upd l a h).
  Proof.
    intros [L H] B K C. split; [now rewrite !upd_length|]. intros b o' h' M N. destruct (Nat.eq_dec a b) as [<-|D].
    - rewrite upd_same in M by lia. rewrite upd_same in N by lia. injection M as <-. injection N as <-. exact C.
    - rewrite upd_other in M by exact D. rewrite upd_other in N by exact D. apply cell_later with l; [now apply later_put|]. now apply (H b).
  Qed.
  Lemma cells_at m l a h : cells m l -> nth_error l a = Some h -> exists o, nth_error m a = Some o /\ cell l o h.
  Proof.
    intros [L H] N. destruct (nth_error m a) as [o|] eqn:M; [exists o; split; [reflexivity|now apply (H a)]|]. apply nth_error_None in M. apply nth_lt in N. lia.
  Qed.
  Lemma view_found m l a t : cells m l -> target_at l a = Some t -> exists v, view_at m a = Some v /\ views l t v /\ a < length l.
  Proof.
    intros C H. unfold target_at in H. destruct (nth_error l a) as [[[k s|t']|]|] eqn:N; try discriminate. injection H as ->. destruct (cells_at m l a _ C N) as (o & M & O). destruct o as [[k s|v]|]; try contradiction. exists v. unfold view_at. rewrite M. split; [reflexivity|]. split; [exact O|]. exact (nth_lt _ _ _ N).
  Qed.
  Lemma object_found m l a k s : cells m l -> object_at l a = Some (k, s) -> nth_error m a = Some (Some (OClass k s)) /\ nth_error l a = Some (Some (SObject k s)) /\ a < length l /\ (c_empty (classes k) = true -> s = 0).
  Proof.
    intros C H. unfold object_at in H. destruct (nth_error l a) as [[[k' s'|t']|]|] eqn:N; try discriminate. injection H as -> ->. destruct (cells_at m l a _ C N) as (o & M & O). destruct o as [[k' s'|v]|]; try contradiction. destruct O as (-> & -> & E).
    repeat split; try assumption. exact (nth_lt _ _ _ N).
  Qed.

  Theorem step_refines n s t c t' : related s t -> plain c -> sstep classes functions t c = Some t' -> exists s', step classes functions (S n) s c = Some s' /\ related s' t'.
  Proof using lambdas.
    intros (Ew & El & C) P H. destruct s as [m w g], t as [l w' g']. cbn in Ew, El, C. subst w' g'. destruct c as [k i|a| |a q|f|a q|a b|a b q|a f|a x|a]; cbn [sstep step mem world log things sworld slog] in *.
    - injection H as <-. eexists. split; [reflexivity|]. split; [reflexivity|]. split; [reflexivity|]. apply cells_add; [exact C|]. cbn. split; [reflexivity|]. split; [reflexivity|]. now intros ->.
    - destruct (nth_error l a) as [[h|]|] eqn:N; [|discriminate|discriminate]. injection H as <-. destruct (cells_at m l a _ C N) as (o & M & O). rewrite M. destruct o as [o|]; [|contradiction]. eexists. split; [reflexivity|]. split; [reflexivity|]. split; [reflexivity|].
      apply cells_put; [exact C|exact (nth_lt _ _ _ N)|discriminate|exact I].
    - injection H as <-. eexists. split; [reflexivity|]. split; [reflexivity|]. split; [reflexivity|]. apply cells_add; [exact C|]. reflexivity.
    - destruct (object_at l a) as [[k i]|] eqn:O; [|discriminate]. injection H as <-. destruct (object_found m l a k i C O) as (M & N & B & E). unfold class_at. rewrite M. eexists. split; [reflexivity|]. split; [reflexivity|]. split; [reflexivity|].
      apply cells_add; [exact C|]. cbn. exists k. split; [reflexivity|]. split; [rewrite app_length; lia|]. intros k' s'. rewrite nth_error_app1 by exact B. rewrite N. congruence.
    - injection H as <-. eexists. split; [reflexivity|]. split; [reflexivity|]. split; [reflexivity|]. apply cells_add; [exact C|]. destruct f as [f|]; [reflexivity|contradiction].
    - destruct (target_at l a) as [t|] eqn:T; [|discriminate]. injection H as <-. destruct (view_found m l a t C T) as (v & -> & V & B). eexists. split; [reflexivity|]. split; [reflexivity|]. split; [reflexivity|].
      apply cells_add; [exact C|]. cbn in P. unfold construct_from_view, const_lvalue in *. rewrite P. apply (views_later l); [apply later_add|exact V].
    - destruct (target_at l a) as [t|] eqn:T; [|discriminate]. destruct (target_at l b) as [u|] eqn:U; [|discriminate]. injection H as <-. destruct (view_found m l a t C T) as (v & -> & V & B). destruct (view_found m l b u C U) as (v' & -> & V' & B').
      eexists. split; [reflexivity|]. split; [reflexivity|]. split; [reflexivity|]. apply cells_put; [exact C|exact B|discriminate|]. apply (views_later l); [apply later_put; discriminate|exact V'].
    - destruct (target_at l a) as [t|] eqn:T; [|discriminate]. destruct (object_at l b) as [[k i]|] eqn:O; [|discriminate]. injection H as <-. destruct (view_found m l a t C T) as (v & -> & V & B). destruct (object_found m l b k i C O) as (M & N & B' & E). unfold class_at. rewrite M.
      eexists. split; [reflexivity|]. split; [reflexivity|]. split; [reflexivity|]. apply cells_put; [exact C|exact B|discriminate|]. apply (views_later l (upd l a (Some (SView (TObject b q)))) (TObject b q)); [apply later_put; discriminate|]. cbn. exists k. split; [reflexivity|]. split; [exact B'|]. intros k' s'. rewrite N. congruence.
    - destruct (target_at l a) as [t|] eqn:T; [|discriminate]. injection H as <-. destruct (view_found m l a t C T) as (v & -> & V & B). eexists. split; [reflexivity|]. split; [reflexivity|]. split; [reflexivity|]. apply cells_put; [exact C|exact B|discriminate|]. destruct f as [f|]; [reflexivity|contradiction].
    - destruct (target_at l a) as [t|] eqn:T; [|discriminate]. destruct (view_found m l a t C T) as (v & -> & V & B). destruct t as [|f|b q]; [discriminate| |].
      + cbn in V. subst v. cbn [call bind_pointer v_invoker v_payload]. destruct (functions f w x) as [w' r]. injection H as <-. eexists. split; [reflexivity|]. split; [reflexivity|]. split; [reflexivity|]. exact C.
      + destruct V as (k0 & -> & B' & K). destruct (object_at l b) as [[k i]|] eqn:O; [|discriminate]. destruct (object_found m l b k i C O) as (M & N & _ & E). specialize (K k i N). subst k0.
        destruct (c_call (classes k) q i w x) as [[i' w'] r] eqn:Q. injection H as <-. unfold bind_object. unfold manifestable, decays. destruct (c_empty (classes k)) eqn:Ce; cbn [andb].
        * destruct (lambdas k Ce) as (L0 & L1 & L2). rewrite (E eq_refl) in *. assert (I0 : i' = 0) by (rewrite <- (L0 q w x), Q; reflexivity). subst i'.
          assert (S0 : cells m (upd l b (Some (SObject k 0)))).
          { replace m with (upd m b (Some (OClass k 0))). { apply cells_put; [exact C|exact B'|intros k' s' Z; injection Z as <- <-; now exists 0|]. cbn. auto. }
            clear - M. revert b M. induction m as [|o m IH]; intros [|b] M; cbn in *; [discriminate|discriminate|injection M as ->; reflexivity|]. now rewrite IH. }
          destruct (c_trivial (classes k)) eqn:Ct.
          -- cbn [call v_invoker v_payload]. rewrite (L1 eq_refl (Category false true) q w x), Q. eexists. split; [reflexivity|]. split; [reflexivity|]. split; [reflexivity|]. exact S0.
          -- destruct (c_plus (classes k)) as [f|] eqn:Cp.
             ++ cbn [call bind_pointer v_invoker v_payload]. rewrite (L2 f eq_refl q w x), Q. eexists. split; [reflexivity|]. split; [reflexivity|]. split; [reflexivity|]. exact S0.
             ++ cbn [call v_invoker v_payload]. rewrite M, Nat.eqb_refl, Q. eexists. split; [reflexivity|]. split; [reflexivity|]. split; [reflexivity|]. apply cells_put; [exact C|exact B'|intros k' s' Z; injection Z as <- <-; now exists 0|]. cbn. auto.
        * cbn [call v_invoker v_payload]. rewrite M, Nat.eqb_refl, Q. eexists. split; [reflexivity|]. split; [reflexivity|]. split; [reflexivity|]. apply cells_put; [exact C|exact B'|intros k' s' Z; injection Z as <- <-; now exists i|]. cbn. rewrite Ce. repeat split; discriminate.
    - destruct (target_at l a) as [t|] eqn:T; [|discriminate]. injection H as <-. destruct (view_found m l a t C T) as (v & -> & V & B).
      replace (is_bound v) with (match t with TNothing => false | _ => true end). { eexists. split; [reflexivity|]. split; [reflexivity|]. split; [reflexivity|]. exact C. }
      destruct t as [|f|b q]; [cbn in V; subst v; reflexivity|cbn in V; subst v; reflexivity|]. destruct V as (k & -> & _). unfold bind_object. destruct (manifestable classes k); [reflexivity|]. destruct (decays classes k); reflexivity.
  Qed.
  Theorem run_refines n p : forall s t t', related s t -> (forall c, In c p -> plain c) -> srun classes functions t p = Some t' -> exists s', run classes functions (S n) s p = Some s' /\ related s' t'.
  Proof using lambdas.
    induction p as [|c p IH]; intros s t t' H P E; cbn [srun run] in *.
    - injection E as <-. now exists s.
    - destruct (sstep classes functions t c) as [t1|] eqn:E1; [|discriminate]. destruct (step_refines n s t c t1 H (P c (or_introl eq_refl)) E1) as (s1 & -> & H1). apply (IH s1 t1 t' H1); [intros d D; apply P; now right|exact E].
  Qed.
End Refine.
