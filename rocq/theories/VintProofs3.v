(** Lemmas for VintProps3.v: sums and products over the components. *)
From Coq Require Import ZArith List Bool Lia.
From Verif Require Import Words CoreModel VintModel VintSpec VintProofs VintProofs2.
Import ListNotations.
Local Open Scope Z_scope.

Lemma fold_add l : forall a, fold_left Z.add l a = a + total l.
Proof. induction l as [|x l IH]; intros a; [cbn; lia|]. cbn [fold_left]. rewrite IH. unfold total. cbn [fold_right]. lia. Qed.
Lemma fold_mul l : forall a, fold_left Z.mul l a = a * factors l.
Proof. induction l as [|x l IH]; intros a; [cbn; lia|]. cbn [fold_left]. rewrite IH. unfold factors. cbn [fold_right]. ring. Qed.

Lemma map_component v : forall n, List.length v = n -> map (component v) (seq 0 n) = v.
Proof.
  intros n L. apply (nth_ext _ _ 0 0); [rewrite map_length, seq_length; lia|]. intros i I. rewrite map_length, seq_length in I.
  rewrite nth_map_seq by exact I. reflexivity.
Qed.
Lemma map_component_firstn v n m : List.length v = n -> (m <= n)%nat -> map (component v) (seq 0 m) = firstn m v.
Proof.
  intros L M. rewrite <- (map_component v n L) at 2. rewrite firstn_map. f_equal. replace n with (m + (n - m))%nat by lia.
  rewrite seq_app, firstn_app, seq_length, Nat.sub_diag, firstn_all2 by (rewrite seq_length; lia). cbn. rewrite app_nil_r. reflexivity.
Qed.
Lemma inner_total v : forall w n, List.length v = n -> List.length w = n ->
  inner v w = total (map (fun i => component v i * component w i) (seq 0 n)).
Proof.
  induction v as [|x v IH]; intros w n L M; destruct w as [|y w]; cbn [List.length] in *; subst n; [reflexivity|lia|lia|].
  cbn [inner seq map]. rewrite <- seq_shift, map_map. change (x * y + inner v w = x * y + total (map (fun i => component v i * component w i) (seq 0 (List.length v)))).
  rewrite <- (IH w (List.length v)); [reflexivity|reflexivity|lia].
Qed.
Lemma inner_firstn v w n m : List.length v = n -> List.length w = n -> (m <= n)%nat ->
  inner (firstn m v) (firstn m w) = total (map (fun i => component v i * component w i) (seq 0 m)).
Proof.
  intros L M H. rewrite (inner_total _ _ m); [|rewrite firstn_length; lia|rewrite firstn_length; lia]. f_equal. apply map_ext_in.
  intros i I. apply in_seq in I.
  assert (E : forall u, List.length u = n -> component (firstn m u) i = component u i).
  { intros u U. unfold component. rewrite <- (firstn_skipn m u) at 2. rewrite app_nth1; [reflexivity|]. rewrite firstn_length. lia. }
  rewrite !E by assumption. reflexivity.
Qed.

Section Acc.
Context (p : ity) (g : Z -> Z -> Z) (y : nat -> Z).
Context (P : a_type p).

Lemma arith_signed r z : isigned p = true -> arith p r = Some z <-> z = r /\ holds p r.
Proof.
  intros S. unfold arith. rewrite S. destruct (fits p r) eqn:F.
  - apply (fits_holds p r P) in F. split; [intros E; injection E as <-; split; [reflexivity|exact F]|]. intros [-> _]. reflexivity.
  - split; [discriminate|]. intros [_ H]. apply (fits_holds p r P) in H. congruence.
Qed.

Lemma acc_signed (S : isigned p = true) todo : forall a z,
  acc_loop (fun a b => arith p (g a b)) (fun i => arith p (y i)) todo a = Some z <->
  z = fold_left g (map y todo) a /\ (forall i, In i todo -> holds p (y i)) /\
  forall m, (1 <= m <= List.length todo)%nat -> holds p (fold_left g (map y (firstn m todo)) a).
Proof.
  induction todo as [|i todo IH]; intros a z.
  - cbn. split; [intros E; injection E as <-; split; [reflexivity|]; split; [tauto|lia]|]. intros [-> _]. reflexivity.
  - cbn [acc_loop]. split.
    + intros E. destruct (arith p (y i)) as [x|] eqn:X; [|discriminate E]. cbn [option_bind] in E. apply (arith_signed _ _ S) in X as [-> X].
      destruct (arith p (g a (y i))) as [b|] eqn:B; [|discriminate E]. cbn [option_bind] in E. apply (arith_signed _ _ S) in B as [-> B].
      apply IH in E as (-> & F & G). split; [reflexivity|]. split; [intros j [<-|J]; [exact X|apply F, J]|]. intros m M. cbn [List.length] in M.
      destruct m as [|m]; [lia|]. cbn [firstn map fold_left]. destruct m as [|m]; [exact B|]. apply G. lia.
    + intros (-> & F & G). rewrite (proj2 (arith_signed (y i) _ S) (conj eq_refl (F i (or_introl eq_refl)))). cbn [option_bind].
      rewrite (proj2 (arith_signed (g a (y i)) _ S) (conj eq_refl (G 1%nat ltac:(cbn [List.length]; lia)))). cbn [option_bind]. apply IH.
      split; [reflexivity|]. split; [intros j J; apply F; right; exact J|]. intros m M. apply (G (Datatypes.S m)). cbn [List.length]. lia.
Qed.

Lemma firstn_seq k : forall n m, (m <= n)%nat -> firstn m (seq k n) = seq k m.
Proof.
  intros n m M. replace n with (m + (n - m))%nat by lia.
  rewrite seq_app, firstn_app, seq_length, Nat.sub_diag, firstn_all2 by (rewrite seq_length; lia). cbn. rewrite app_nil_r. reflexivity.
Qed.
Lemma accumulate_signed (S : isigned p = true) n z : (1 <= n)%nat ->
  accumulate (fun a b => arith p (g a b)) n (fun i => arith p (y i)) = Some z <->
  z = fold_left g (map y (seq 1 (n - 1))) (y 0%nat) /\ (forall i, (i < n)%nat -> holds p (y i)) /\
  forall m, (1 <= m <= n)%nat -> holds p (fold_left g (map y (seq 1 (m - 1))) (y 0%nat)).
Proof.
  intros N. rewrite accumulate_fold by exact N. split.
  - intros E. destruct (arith p (y 0%nat)) as [x|] eqn:X; [|discriminate E]. cbn [option_bind] in E. apply (arith_signed _ _ S) in X as [-> X].
    apply (acc_signed S) in E as (-> & F & G). split; [reflexivity|]. split.
    + intros i I. destruct i as [|i]; [exact X|]. apply F. apply in_seq. lia.
    + intros m M. rewrite seq_length in G. destruct m as [|[|m]]; [lia|exact X|]. specialize (G (Datatypes.S m) ltac:(lia)).
      rewrite firstn_seq in G by lia. replace (Datatypes.S (Datatypes.S m) - 1)%nat with (Datatypes.S m) by lia. exact G.
  - intros (-> & F & G). rewrite (proj2 (arith_signed (y 0%nat) _ S) (conj eq_refl (F 0%nat ltac:(lia)))). cbn [option_bind].
    apply (acc_signed S). split; [reflexivity|]. split; [intros i I; apply in_seq in I; apply F; lia|]. rewrite seq_length. intros m M.
    rewrite firstn_seq by lia. specialize (G (m + 1)%nat ltac:(lia)). replace (m + 1 - 1)%nat with m in G by lia. exact G.
Qed.

(** Unsigned: every partial result wraps. *)
Context (G : forall a a' b, (exists k, a = a' + k * 2 ^ ibits p) -> exists k, g a b = g a' b + k * 2 ^ ibits p).
Lemma acc_unsigned (S : isigned p = false) todo : forall a a', holds p a -> (exists k, a = a' + k * 2 ^ ibits p) ->
  exists z, acc_loop (fun a b => arith p (g a b)) (fun i => Some (y i)) todo a = Some z /\ wrapped p (fold_left g (map y todo) a') z.
Proof.
  induction todo as [|i todo IH]; intros a a' H K.
  - exists a. split; [reflexivity|]. split; [exact H|exact K].
  - cbn [acc_loop option_bind map fold_left]. unfold arith at 1. rewrite S. cbn [option_bind].
    destruct (conv_wrapped p (g a (y i)) P) as [H' [k E]]. destruct (G a a' (y i) K) as [j J].
    apply IH; [exact H'|]. exists (k + j). rewrite E, J. ring.
Qed.
Lemma accumulate_unsigned (S : isigned p = false) n : (1 <= n)%nat -> holds p (y 0%nat) ->
  exists z, accumulate (fun a b => arith p (g a b)) n (fun i => Some (y i)) = Some z /\
            wrapped p (fold_left g (map y (seq 1 (n - 1))) (y 0%nat)) z.
Proof.
  intros N H. rewrite accumulate_fold by exact N. cbn [option_bind]. apply (acc_unsigned S); [exact H|exists 0; lia].
Qed.
End Acc.

Lemma seq_head (m : nat) (y : nat -> Z) : (1 <= m)%nat -> map y (seq 0 m) = y 0%nat :: map y (seq 1 (m - 1)).
Proof. intros M. destruct m as [|m]; [lia|]. cbn [seq map]. replace (S m - 1)%nat with m by lia. reflexivity. Qed.
Lemma fold_total m y : (1 <= m)%nat -> fold_left Z.add (map y (seq 1 (m - 1))) (y 0%nat) = total (map y (seq 0 m)).
Proof. intros M. rewrite fold_add, (seq_head m y M). reflexivity. Qed.
Lemma fold_factors m y : (1 <= m)%nat -> fold_left Z.mul (map y (seq 1 (m - 1))) (y 0%nat) = factors (map y (seq 0 m)).
Proof. intros M. rewrite fold_mul, (seq_head m y M). reflexivity. Qed.

(** Accumulating the components of a vector in the promoted type, for + and *. *)
Lemma accumulate_ext op op' n f f' : (forall a b, op a b = op' a b) -> (forall i, (i < n)%nat -> f i = f' i) -> (1 <= n)%nat ->
  accumulate op n f = accumulate op' n f'.
Proof.
  intros O F N. rewrite !accumulate_fold by exact N. rewrite (F 0%nat) by lia. destruct (f' 0%nat) as [a|]; [|reflexivity]. cbn [option_bind].
  assert (X : forall l a, (forall i, In i l -> (i < n)%nat) -> acc_loop op f l a = acc_loop op' f' l a).
  { induction l as [|i l IH]; intros b B; [reflexivity|]. cbn [acc_loop]. rewrite (F i) by (apply B; left; reflexivity).
    destruct (f' i) as [x|]; [|reflexivity]. cbn [option_bind]. rewrite O. destruct (op' b x) as [c|]; [|reflexivity]. cbn [option_bind].
    apply IH. intros j J. apply B. right. exact J. }
  apply X. intros i I. apply in_seq in I. lia.
Qed.
Lemma accumulate_vector p g h n v z : a_type p -> (1 <= n)%nat -> is_vector p n v ->
  (forall m y, (1 <= m)%nat -> fold_left g (map y (seq 1 (m - 1))) (y 0%nat) = h (map y (seq 0 m))) ->
  (forall a a' b, (exists k, a = a' + k * 2 ^ ibits p) -> exists k, g a b = g a' b + k * 2 ^ ibits p) ->
  accumulate (fun a b => arith p (g a b)) n (fun i => Some (at_ v i)) = Some z <->
  wrapped p (h v) z /\ (isigned p = true -> forall m, (1 <= m <= n)%nat -> holds p (h (firstn m v))).
Proof.
  intros P N V HG GG. pose proof (proj1 V) as L. destruct (isigned p) eqn:S.
  - assert (E : accumulate (fun a b => arith p (g a b)) n (fun i => Some (at_ v i)) = accumulate (fun a b => arith p (g a b)) n (fun i => arith p (component v i))).
    { apply accumulate_ext; [reflexivity| |exact N]. intros i I. symmetry. apply (arith_signed p P _ _ S). split; [reflexivity|exact (component_holds p n v i V I)]. }
    rewrite E, (accumulate_signed p g (component v) P S n z N). rewrite (HG n (component v) N), (map_component v n L).
    assert (Q : (forall m, (1 <= m <= n)%nat -> holds p (fold_left g (map (component v) (seq 1 (m - 1))) (component v 0))) <->
                (forall m, (1 <= m <= n)%nat -> holds p (h (firstn m v)))).
    { split; intros F m M; specialize (F m M); rewrite (HG m (component v)), (map_component_firstn v n m L) in * by lia; exact F. }
    rewrite Q. split.
    + intros (-> & _ & F). split; [|intros _; exact F]. apply holds_wrapped. specialize (F n ltac:(lia)). rewrite firstn_all2 in F by lia. exact F.
    + intros [W F]. specialize (F eq_refl). split; [|split; [intros i I; exact (component_holds p n v i V I)|exact F]].
      apply (wrapped_unique p (h v)); [exact P|exact W|]. apply holds_wrapped. specialize (F n ltac:(lia)). rewrite firstn_all2 in F by lia. exact F.
  - destruct (accumulate_unsigned p g (component v) P GG S n N) as (z' & E & W); [apply (component_holds p n v 0%nat V); lia|].
    rewrite (HG n (component v) N), (map_component v n L) in W.
    change (accumulate (fun a b => arith p (g a b)) n (fun i => Some (at_ v i)) = Some z') in E. rewrite E. split.
    + intros Q. injection Q as <-. split; [exact W|discriminate].
    + intros [W' _]. f_equal. apply (wrapped_unique p (h v)); assumption.
Qed.
