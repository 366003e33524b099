(** Theorems about for_sequence and for_product (C133), integer and size literals (C134) and file_name_tail (C135). *)
From Coq Require Import ZArith List Lia Bool.
From Verif Require Import Words SeqModel SeqSpec SeqProofs.
Import ListNotations.
Local Open Scope Z_scope.

(* ------------------------------------------------------------------ C133 *)

(** [for_sequence<n>(f)] is the loop over [0, n), with [f] in the value category it was passed in: same calls, same order, same exceptions,
    and it never ends the program itself. A negative [n] does not compile. *)
Theorem C133_sequence : forall S n (f : callable Z S) l s,
  (n < 0 -> for_sequence n f l s = None) /\
  (0 <= n -> exists o, for_sequence n f l s = Some o /\ loop f l n 0 s o /\ forall o', loop f l n 0 s o' -> o' = o).
Proof.
  intros S n f l s. split; intros H.
  - unfold for_sequence, for_sequence_noexcept. rewrite (make_negative n H). reflexivity.
  - exists (comma_fold (fun i => call f l i) (range 0 (Z.to_nat n)) s). split; [exact (for_sequence_ok n f l s H)|].
    assert (L := loop_fold f l (Z.to_nat n) 0 s). replace (0 + Z.of_nat (Z.to_nat n)) with n in L by lia. split; [exact L|].
    intros o' L'. exact (loop_det _ _ _ _ _ _ L' _ L).
Qed.
Print Assumptions C133_sequence.
(** It is noexcept exactly if every one of its calls is. *)
Theorem C133_sequence_noexcept : forall S n (f : callable Z S) l,
  (n < 0 -> for_sequence_noexcept n f l = None) /\
  (0 <= n -> exists b, for_sequence_noexcept n f l = Some b /\ (b = true <-> forall i, 0 <= i < n -> c_noexcept f l i = true)).
Proof.
  intros S n f l. unfold for_sequence_noexcept. split; intros H; [rewrite (make_negative n H); reflexivity|].
  rewrite (make_range n H). eexists. split; [reflexivity|]. rewrite seq_noexcept. split; intros Q i Hi; apply Q.
  - apply range_in. lia.
  - apply range_in in Hi. lia.
Qed.
Print Assumptions C133_sequence_noexcept.

(** [for_product<n1, n2>(f)] is the nested loop, the second index running faster; without pairs there are no calls. *)
Theorem C133_product : forall S n1 n2 (f : callable (Z * Z) S) l s,
  (n1 < 0 \/ n2 < 0 -> for_product n1 n2 f l s = None) /\
  (0 <= n1 -> 0 <= n2 -> exists o, for_product n1 n2 f l s = Some o /\ loop2 f l n1 n2 0 0 s o /\ forall o', loop2 f l n1 n2 0 0 s o' -> o' = o).
Proof.
  intros S n1 n2 f l s. split.
  - intros H. unfold for_product, for_product_noexcept. destruct H as [H | H]; rewrite (make_negative _ H); [reflexivity|].
    destruct (make_sequence n1); reflexivity.
  - intros H1 H2. exists (rows f l (range 0 (Z.to_nat n1)) (range 0 (Z.to_nat n2)) s). split; [exact (for_product_ok n1 n2 f l s H1 H2)|].
    assert (L := loop2_rows f l (Z.to_nat n2) (Z.to_nat n1) 0 s).
    replace (0 + Z.of_nat (Z.to_nat n1)) with n1 in L by lia. replace (Z.of_nat (Z.to_nat n2)) with n2 in L by lia. split; [exact L|].
    intros o' L'. exact (loop2_det _ _ _ _ _ _ _ _ L' _ L).
Qed.
Print Assumptions C133_product.
Theorem C133_product_noexcept : forall S n1 n2 (f : callable (Z * Z) S) l, 0 <= n1 -> 0 <= n2 ->
  exists b, for_product_noexcept n1 n2 f l = Some b /\ (b = true <-> forall i j, 0 <= i < n1 -> 0 <= j < n2 -> c_noexcept f l (i, j) = true).
Proof.
  intros S n1 n2 f l H1 H2. unfold for_product_noexcept. rewrite (make_range n1 H1), (make_range n2 H2). eexists. split; [reflexivity|].
  rewrite product_noexcept. split; intros Q i j Hi Hj; apply Q; try apply range_in; try apply range_in in Hi; try apply range_in in Hj; lia.
Qed.
Print Assumptions C133_product_noexcept.
(** A callable that notes its arguments and throws at 7 and, as an rvalue, in every call but the first. *)
Definition noting : callable Z (list Z) :=
  {| c_body := fun l i s => (s ++ [i], if (i =? 7) || (negb l && (0 <? Z.of_nat (length s))) then Some 5%N else None);
     c_noexcept := fun _ i => i <? 3 |}.
Example C133_example :
  for_sequence 6 noting true [] = Some (Returned [0; 1; 2; 3; 4; 5]) /\
  for_sequence 9 noting true [] = Some (Threw 5%N [0; 1; 2; 3; 4; 5; 6; 7]) /\
  for_sequence 2 noting false [] = Some (Terminated [0; 1]) /\
  for_sequence_noexcept 3 noting true = Some true /\ for_sequence_noexcept 4 noting true = Some false /\
  for_product 2 3 {| c_body := fun _ p s => (s ++ [p], None); c_noexcept := fun _ _ => false |} true [] =
    Some (Returned [(0, 0); (0, 1); (0, 2); (1, 0); (1, 1); (1, 2)]).
Proof. repeat split. Qed.

(* ------------------------------------------------------------------ C134 *)

(** A literal is the number written exactly if the type holds that number; [n] is what the compiler accepts as [unsigned long long]. *)
Theorem C134_literals : forall sign w n, 0 < w -> 0 <= n < 2 ^ 64 ->
  (int_literal sign w n = n <-> n < (if sign then 2 ^ (w - 1) else 2 ^ w)) /\
  (if sign then - 2 ^ (w - 1) <= int_literal sign w n < 2 ^ (w - 1) else 0 <= int_literal sign w n < 2 ^ w) /\
  (int_literal sign w n) mod 2 ^ w = n mod 2 ^ w.
Proof.
  intros [|] w n W H; unfold int_literal.
  - split; [apply to_signed_ok; lia|]. exact (to_signed_range w n W).
  - split; [apply to_unsigned_ok; lia|]. unfold to_unsigned. assert (P : 0 < 2 ^ w) by (apply Z.pow_pos_nonneg; lia).
    split; [apply Z.mod_pos_bound; exact P | apply Z.mod_mod; lia].
Qed.
Print Assumptions C134_literals.
Theorem C134_sizes : forall w n, 0 < w <= 64 -> 0 <= n < 2 ^ 64 ->
  (lit_sz w n = n <-> n < 2 ^ w) /\ lit_b w n = lit_sz w n /\
  (lit_kb w n = n * 2 ^ 10 <-> n * 2 ^ 10 < 2 ^ w) /\ (lit_mb w n = n * 2 ^ 20 <-> n * 2 ^ 20 < 2 ^ w) /\
  (lit_gb w n = n * 2 ^ 30 <-> n * 2 ^ 30 < 2 ^ w).
Proof.
  intros w n W H. destruct (lit_mul w n W) as (A & B & C). rewrite A, B, C.
  assert (G : forall k, 0 <= k -> (n * 2 ^ k) mod 2 ^ w = n * 2 ^ k <-> n * 2 ^ k < 2 ^ w).
  { intros k K. apply (to_unsigned_ok w (n * 2 ^ k)); [|lia]. apply Z.mul_nonneg_nonneg; [lia | apply Z.pow_nonneg; lia]. }
  split; [apply to_unsigned_ok; lia|]. split; [reflexivity|]. split; [apply G; lia|]. split; apply G; lia.
Qed.
Print Assumptions C134_sizes.
(** Nothing warns of a literal that does not fit: it is another number. *)
Theorem C134_overflow_refuted :
  int_literal false 8 300 = 44 /\ int_literal true 8 200 = -56 /\ int_literal true 64 (2 ^ 63) = - 2 ^ 63 /\
  lit_gb 32 4 = 0 /\ lit_kb 64 (2 ^ 54 + 1) = 1024.
Proof. repeat split. Qed.
Print Assumptions C134_overflow_refuted.
Example C134_example : int_literal true 16 32767 = 32767 /\ lit_mb 32 42 = 44040192 /\ int_literal true 128 (2 ^ 64 - 1) = 2 ^ 64 - 1.
Proof. repeat split. Qed.

(* ------------------------------------------------------------------ C135 *)

(** The tail of a path is what follows its last slash or backslash, or all of it if there is none. *)
Theorem C135_tail : forall path,
  (file_name_tail path <= length path)%nat /\
  exists dir, path = dir ++ skipn (file_name_tail path) path /\
    (forall x, In x (skipn (file_name_tail path) path) -> ~ slash x) /\
    (dir = [] \/ exists a c, dir = a ++ [c] /\ slash c).
Proof.
  intros path. split.
  - unfold file_name_tail. assert (H := find_slash_ok path (length path)). destruct (find_slash path (length path)); [|lia]. destruct H. lia.
  - destruct (tail_split path) as [(a & c & b & E & Sl & N & ->) | [N ->]].
    + exists (a ++ [c]). split; [rewrite <- app_assoc; exact E|]. split; [exact N|]. right. exists a, c. auto.
    + exists []. split; [reflexivity|]. split; [exact N|]. left. reflexivity.
Qed.
Print Assumptions C135_tail.
(** "/a\b/c.h" *)
Example C135_example :
  skipn (file_name_tail [47; 97; 92; 98; 47; 99; 46; 104]%N) [47; 97; 92; 98; 47; 99; 46; 104]%N = [99; 46; 104]%N /\
  skipn (file_name_tail [99; 46; 104]%N) [99; 46; 104]%N = [99; 46; 104]%N /\ file_name_tail [97; 47]%N = 2%nat.
Proof. repeat split. Qed.
