(** Lists of threads: replacing one, and adding up. *)
From Coq Require Import List ZArith Lia.
From Verif Require Import MonModel.
Import ListNotations.

Section U.
Context {T : Type}.
Lemma nth_upd_eq (l : list T) i x y : nth_error l i = Some y -> nth_error (upd l i x) i = Some x.
Proof. revert i. induction l as [ | z l IH]; intros [ | i]; cbn; auto; discriminate. Qed.
Lemma nth_upd_ne (l : list T) i j x : i <> j -> nth_error (upd l i x) j = nth_error l j.
Proof. revert i j. induction l as [ | z l IH]; intros [ | i] [ | j] H; cbn; auto; try congruence. Qed.
Lemma nth_upd_inv (l : list T) i j x p : nth_error (upd l i x) j = Some p -> (i = j /\ p = x) \/ (i <> j /\ nth_error l j = Some p).
Proof.
  intro H. destruct (Nat.eq_dec i j) as [E | E].
  - subst j. left. split; [reflexivity | ]. destruct (nth_error l i) as [y | ] eqn:F.
    + rewrite (nth_upd_eq l i x y F) in H. congruence.
    + exfalso. revert i H F. induction l as [ | z l IH]; intros [ | i]; cbn; try discriminate; eauto.
  - right. split; [exact E | ]. rewrite nth_upd_ne in H by exact E. exact H.
Qed.
Definition zsum (f : T -> Z) (l : list T) : Z := fold_right (fun x a => (f x + a)%Z) 0%Z l.
Definition nsum (f : T -> nat) (l : list T) : nat := fold_right (fun x a => (f x + a)) 0 l.
Lemma zsum_upd f (l : list T) i x y : nth_error l i = Some y -> zsum f (upd l i x) = (zsum f l - f y + f x)%Z.
Proof.
  revert i. induction l as [ | z l IH]; intros [ | i] H; cbn [nth_error] in H; try discriminate; cbn [upd zsum fold_right]; unfold zsum in *.
  - injection H as H. subst. lia.
  - rewrite (IH i H). lia.
Qed.
Lemma nsum_upd f (l : list T) i x y : nth_error l i = Some y -> nsum f (upd l i x) + f y = nsum f l + f x.
Proof.
  revert i. induction l as [ | z l IH]; intros [ | i] H; cbn [nth_error] in H; try discriminate; cbn [upd nsum fold_right]; unfold nsum in *.
  - injection H as H. subst. lia.
  - generalize (IH i H). lia.
Qed.
Lemma nsum_map f g (l : list T) : (forall x, f (g x) <= f x) -> nsum f (map g l) <= nsum f l.
Proof. intro H. induction l as [ | x l IH]; cbn; [lia | ]. generalize (H x). unfold nsum in *. lia. Qed.
Lemma zsum_map f g (l : list T) : (forall x, f (g x) = f x) -> zsum f (map g l) = zsum f l.
Proof. intro H. induction l as [ | x l IH]; cbn; [reflexivity | ]. rewrite H. unfold zsum in *. rewrite IH. reflexivity. Qed.
Lemma zsum_zero f (l : list T) : (forall i x, nth_error l i = Some x -> f x = 0%Z) -> zsum f l = 0%Z.
Proof.
  intro H. induction l as [ | x l IH]; cbn; [reflexivity | ]. rewrite (H 0 x eq_refl). unfold zsum in IH. rewrite IH; [reflexivity | ].
  intros i y E. exact (H (S i) y E).
Qed.
Lemma nth_repeat n (x : T) i p : nth_error (repeat x n) i = Some p -> p = x.
Proof. intro H. apply nth_error_In in H. apply repeat_spec in H. exact H. Qed.
End U.
