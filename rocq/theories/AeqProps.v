(** Property C177. *)
From Coq Require Import ZArith Reals Lra Lia Bool List.
From Flocq Require Import Core BinarySingleNaN.
From Verif Require Import FpModel FpProofs SqrtModel SqrtProofs4 OeqModel OeqProps AeqModel.
Import ListNotations.
Local Open Scope R_scope.

(** Two numbers less than [eps] apart; infinities and NaN are close to nothing. *)
Definition close (eps : R) (v w : number) : Prop := match v, w with Real r, Real s => Rabs (s - r) < eps | _, _ => False end.
(** At most [y] apart. *)
Definition within (y : R) (v w : number) : Prop := match v, w with Real r, Real s => Rabs (s - r) <= y | _, _ => False end.
(** The functions of objects of one and of two types, with what the scalars and epsilon stand for; [T] is the type of epsilon. *)
Inductive approx : forall A B p e : _, binary_float p e -> (object A -> object B -> option bool) -> (A -> number) -> (B -> number) -> Prop :=
| Two_floats eps : approx _ _ 24%Z 128%Z eps (fun i j => Some (approx_equal_object (near32 eps) i j)) value value
| Two_doubles eps : approx _ _ 53%Z 1024%Z eps (fun i j => Some (approx_equal_object (near64 eps) i j)) value value
| Float_and_double eps : approx _ _ 53%Z 1024%Z eps (approx_equal_mixed (near32_64 eps)) value value
| Double_and_float eps : approx _ _ 53%Z 1024%Z eps (approx_equal_mixed (near64_32 eps)) value value.

Lemma real_value p e (x : binary_float p e) r : value x = Real r <-> is_finite x = true /\ B2R x = r.
Proof. destruct x; cbn; split; try discriminate; try (intros [? ?]; discriminate); try (intros H; injection H as H; split; [reflexivity|exact H]); intros [_ H]; rewrite H; reflexivity. Qed.
Lemma finite_value p e (x : binary_float p e) : is_finite x = true -> value x = Real (B2R x).
Proof. intros F. apply real_value. split; [exact F|reflexivity]. Qed.
Lemma close_real eps v w : close eps v w -> exists r s, v = Real r /\ w = Real s /\ Rabs (s - r) < eps.
Proof. destruct v, w; cbn; try contradiction. intros H. do 2 eexists. repeat split. exact H. Qed.
Lemma within_real y v w : within y v w -> exists r s, v = Real r /\ w = Real s /\ Rabs (s - r) <= y.
Proof. destruct v, w; cbn; try contradiction. intros H. do 2 eexists. repeat split. exact H. Qed.

Section Scalars.
  Variables p e : Z.
  Context (Hp : Prec_gt_0 p) (He : Prec_lt_emax p e).
  Lemma near_close (eps x y : binary_float p e) : is_finite eps = true -> approx_equal p e _ _ x y eps = true -> close (B2R eps) (value x) (value y).
  Proof. intros F H. destruct (approx_equal_sound p e Hp He x y eps F H) as (Fx & Fy & L). rewrite (finite_value _ _ x Fx), (finite_value _ _ y Fy). exact L. Qed.
  Lemma within_near (eps z x y : binary_float p e) : is_finite eps = true -> is_finite z = true -> B2R z < B2R eps -> within (B2R z) (value x) (value y) -> approx_equal p e _ _ x y eps = true.
  Proof. intros F Fz L H. apply within_real in H. destruct H as (r & s & Vx & Vy & H). apply real_value in Vx, Vy. destruct Vx as [Fx <-], Vy as [Fy <-]. apply (approx_equal_complete p e Hp He x y eps z); assumption. Qed.
End Scalars.

(** What the object functions are about: a test of the scalars. *)
Lemma approx_scalars A B p e eps f va vb : approx A B p e eps f va vb -> exists near : A -> B -> bool, (forall i j b, f i j = Some b -> b = eq_object near i j) /\
  (forall x y, is_finite eps = true -> near x y = true -> close (B2R eps) (va x) (vb y)) /\
  (forall (z : binary_float p e) x y, is_finite eps = true -> is_finite z = true -> B2R z < B2R eps -> within (B2R z) (va x) (vb y) -> near x y = true).
Proof.
  intros [eps'|eps'|eps'|eps'].
  - exists (near32 eps'). split; [intros i j b G; injection G as <-; reflexivity|]. split; [exact (near_close 24 128 p24 e128 eps')|exact (within_near 24 128 p24 e128 eps')].
  - exists (near64 eps'). split; [intros i j b G; injection G as <-; reflexivity|]. split; [exact (near_close 53 1024 p53 e1024 eps')|exact (within_near 53 1024 p53 e1024 eps')].
  - exists (near32_64 eps'). split; [intros i j b G; unfold approx_equal_mixed in G; destruct i; try discriminate G; injection G as <-; reflexivity|].
    split; [intros x y F H; rewrite <- (cast_value x); exact (near_close 53 1024 p53 e1024 eps' _ _ F H)|intros z x y F Fz L H; rewrite <- (cast_value x) in H; exact (within_near 53 1024 p53 e1024 eps' z _ y F Fz L H)].
  - exists (near64_32 eps'). split; [intros i j b G; unfold approx_equal_mixed in G; destruct i; try discriminate G; injection G as <-; reflexivity|].
    split; [intros x y F H; rewrite <- (cast_value y); exact (near_close 53 1024 p53 e1024 eps' _ _ F H)|intros z x y F Fz L H; rewrite <- (cast_value y) in H; exact (within_near 53 1024 p53 e1024 eps' z x _ F Fz L H)].
Qed.
Lemma all_pairs {A B} (near : A -> B -> bool) i j : shape i = shape j -> (eq_object near i j = true <-> Forall2 (fun x y => near x y = true) (scalars i) (scalars j)).
Proof. intros S. apply object_each; [intros x y; reflexivity|exact S]. Qed.
Lemma Forall2_sub {A B} (P Q : A -> B -> Prop) l m : (forall x y, P x y -> Q x y) -> Forall2 P l m -> Forall2 Q l m.
Proof. intros H F. induction F; constructor; auto. Qed.

(** If it says yes, all scalars are finite and each differs from the corresponding one by less than epsilon, exactly. *)
Theorem C177_sound : forall A B p e (eps : binary_float p e) f va vb i j, approx A B p e eps f va vb -> is_finite eps = true -> shape i = shape j ->
  f i j = Some true -> Forall2 (fun x y => close (B2R eps) (va x) (vb y)) (scalars i) (scalars j).
Proof.
  intros A B p e eps f va vb i j H F S G. destruct (approx_scalars _ _ _ _ _ _ _ _ H) as (near & N & C & _). apply N in G. symmetry in G. apply (all_pairs near i j S) in G. revert G. apply Forall2_sub. intros x y. apply C, F.
Qed.
Print Assumptions C177_sound.
(** If each differs by at most some number of the type that is less than epsilon, it does not say no. *)
Theorem C177_complete : forall A B p e (eps z : binary_float p e) f va vb i j b, approx A B p e eps f va vb -> is_finite eps = true -> is_finite z = true -> B2R z < B2R eps -> shape i = shape j ->
  Forall2 (fun x y => within (B2R z) (va x) (vb y)) (scalars i) (scalars j) -> f i j = Some b -> b = true.
Proof.
  intros A B p e eps z f va vb i j b H F Fz L S W G. destruct (approx_scalars _ _ _ _ _ _ _ _ H) as (near & N & _ & C). apply N in G. subst b. apply (all_pairs near i j S). revert W. apply Forall2_sub. intros x y. apply C; assumption.
Qed.
Print Assumptions C177_complete.
(** It is there for all pairs of objects, but not for planes and spheres of different types of scalars. *)
Definition plane_or_sphere {A} (i : object A) : Prop := match i with Plane _ _ | Sphere _ _ => True | _ => False end.
Theorem C177_mixed : forall A B (near : A -> B -> bool) i j, approx_equal_mixed near i j = None <-> plane_or_sphere i.
Proof. intros A B near i j. unfold approx_equal_mixed, plane_or_sphere. destruct i; split; try discriminate; try contradiction; trivial. Qed.
Print Assumptions C177_mixed.
(** So an object with finite scalars is approximately equal to itself for every positive epsilon; one with an infinity or NaN is not. *)
Theorem C177_itself : forall A p e (eps : binary_float p e) f va i b, approx A A p e eps f va va -> is_finite eps = true -> 0 < B2R eps -> f i i = Some b ->
  (b = true <-> Forall (fun x => exists r, va x = Real r) (scalars i)).
Proof.
  intros A p e eps f va i b H F P G. split.
  - intros ->. pose proof (C177_sound _ _ _ _ _ _ _ _ i i H F eq_refl G) as C. clear G. induction (scalars i) as [|x l IH]; constructor; inversion C as [|? ? ? ? C1 C2]; [|apply IH, C2]. apply close_real in C1. destruct C1 as (r & _ & V & _). exists r. exact V.
  - intros L. refine (C177_complete _ _ _ _ eps (B754_zero false) _ _ _ i i b H F eq_refl P eq_refl _ G). clear G. induction L as [|x l (r & V) L IH]; constructor; [|exact IH].
    rewrite V. cbn [within B2R]. rewrite Rminus_diag_eq, Rabs_R0 by reflexivity. apply Rle_refl.
Qed.
Print Assumptions C177_itself.
(** The order does not matter. *)
Theorem C177_either_way : forall (i j : object float32) (k l : object float64) e32 e64, shape i = shape j -> shape k = shape l -> shape i = shape k ->
  approx_equal_object (near32 e32) i j = approx_equal_object (near32 e32) j i /\ approx_equal_object (near64 e64) k l = approx_equal_object (near64 e64) l k /\ approx_equal_mixed (near32_64 e64) i k = approx_equal_mixed (near64_32 e64) k i.
Proof.
  assert (K : forall A B (n1 : A -> B -> bool) (n2 : B -> A -> bool) i j, (forall x y, n1 x y = n2 y x) -> shape i = shape j -> eq_object n1 i j = eq_object n2 j i).
  { intros A B n1 n2 i j E S. apply eq_true_iff_eq. rewrite (all_pairs n1 i j S), (all_pairs n2 j i (eq_sym S)). split; intros F; induction F; constructor; try assumption; [rewrite <- E|rewrite E]; assumption. }
  intros i j k l e32 e64 S1 S2 S3. split; [|split].
  - apply K; [intros x y; apply approx_equal_sym|exact S1].
  - apply K; [intros x y; apply approx_equal_sym|exact S2].
  - assert (E : eq_object (near32_64 e64) i k = eq_object (near64_32 e64) k i) by (apply K; [intros x y; apply approx_equal_sym|exact S3]). unfold approx_equal_mixed. destruct i, k; try discriminate S3; rewrite ?E; reflexivity.
Qed.
Print Assumptions C177_either_way.
(** [approx_zero]: every scalar is finite and of a magnitude less than epsilon. *)
Definition small (eps : R) (v : number) : Prop := match v with Real r => Rabs r < eps | _ => False end.
Lemma small_ok p e (Hp : Prec_gt_0 p) (He : Prec_lt_emax p e) (eps x : binary_float p e) : is_finite eps = true -> (approx_zero p e _ _ x eps = true <-> small (B2R eps) (value x)).
Proof.
  intros F. destruct (is_finite x) eqn:Fx.
  - rewrite (finite_value _ _ x Fx). cbn [small]. unfold approx_zero. split; intros H.
    + apply approx_equal_sound in H; [|exact F]. destruct H as (_ & _ & H). cbn in H. rewrite Rminus_0_l, Rabs_Ropp in H. exact H.
    + apply (approx_equal_complete p e Hp He x (zero p e) eps (Babs x)); auto; rewrite ?is_finite_Babs, ?B2R_Babs; auto. cbn. rewrite Rminus_0_l, Rabs_Ropp. apply Rle_refl.
  - split.
    + intros H. unfold approx_zero in H. apply approx_equal_sound in H; [|exact F]. destruct H as [H _]. congruence.
    + destruct x; try discriminate Fx; contradiction.
Qed.
Theorem C177_zero_float : forall eps (i : object float32) b, is_finite eps = true -> approx_zero_object (near_zero32 eps) i = Some b -> (b = true <-> Forall (fun x => small (B2R eps) (value x)) (scalars i)).
Proof.
  intros eps i b F G. assert (G' : zero_object (near_zero32 eps) i = Some b) by (destruct i; try discriminate G; exact G). apply (object_nought (near_zero32 eps)); [|exact G']. intros x. apply small_ok, F.
Qed.
Print Assumptions C177_zero_float.
Theorem C177_zero_double : forall eps (i : object float64) b, is_finite eps = true -> approx_zero_object (near_zero64 eps) i = Some b -> (b = true <-> Forall (fun x => small (B2R eps) (value x)) (scalars i)).
Proof.
  intros eps i b F G. assert (G' : zero_object (near_zero64 eps) i = Some b) by (destruct i; try discriminate G; exact G). apply (object_nought (near_zero64 eps)); [|exact G']. intros x. apply small_ok, F.
Qed.
Print Assumptions C177_zero_double.
(** It is missing for rays, and cannot be used for spheres. *)
Definition ray_or_sphere {A} (i : object A) : Prop := match i with Ray _ _ | Sphere _ _ => True | _ => False end.
Theorem C177_zero_missing : forall A (z : A -> bool) i, approx_zero_object z i = None <-> ray_or_sphere i.
Proof. intros A z i. unfold approx_zero_object, ray_or_sphere, zero_object. destruct i; split; try discriminate; try contradiction; trivial. Qed.
Print Assumptions C177_zero_missing.
Example C177_witness :
  let i := Segment [f_of 1; f_of 2; f_of 3] [f_of 4; f_of 5; f_of 6] in let k := Segment [d_of 1; d_of 2; d_of 3] [d_of 4; d_of 6; d_of 6] in
  approx_equal_mixed (near32_64 (d_of 2)) i k = Some true /\ approx_equal_mixed (near32_64 (d_of 1)) i k = Some false /\ shape i = shape k /\
  approx_equal_object (near32 (f_of 1)) i i = true /\ approx_equal_object (near32 (f_of 0)) i i = false /\ approx_zero_object (near_zero32 (f_of 7)) i = Some true /\ approx_zero_object (near_zero32 (f_of 6)) i = Some false.
Proof. vm_compute. repeat split. Qed.
