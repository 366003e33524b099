(** Model of the range splitting in muu/thread_pool.h: [impl::batch_size_generator] and both forms of
    [thread_pool::for_each]. Which queue a batch goes to and when it runs is the subject of PoolModel.v; here
    a batch is its index, start and end. *)
From Verif Require Import Words CoreModel.
Local Open Scope Z_scope.

(* --------------------------------------------------- impl::batch_size_generator *)

(** thread_pool.h:551-563: the members [remaining], [constant], [overflow] and the constructor
    (the divisor is the number of workers, never 0). *)
Record gen := { g_remaining : Z; g_constant : Z; g_overflow : Z }.
Definition gen_init (job_count batch_count : Z) : gen :=
  {| g_remaining := job_count; g_constant := job_count / batch_count; g_overflow := job_count mod batch_count |}.

(** thread_pool.h:565-579 [operator()], in the arithmetic of the unsigned type [st]. *)
Definition gen_next (st : ity) (g : gen) : Z * gen :=
  if g_remaining g =? 0 then (0, g)                                                          (* 569-570 *)
  else
    let i := if g_overflow g =? 0 then g_constant g else conv st (g_constant g + 1) in       (* 571-574 *)
    let o := if g_overflow g =? 0 then 0 else conv st (g_overflow g - 1) in                  (* 575 *)
    (i, {| g_remaining := conv st (g_remaining g - i); g_constant := g_constant g; g_overflow := o |}).

(* ------------------------------------------------------- for_each(start, end, task) *)

(** thread_pool.h:917-919: [offset_type] and [size_type]; [sw] is the width of [size_t]. [T] is an integer type or
    the type underlying an enum. *)
Definition offset_type (T : ity) : ity := {| isigned := isigned T; ibits := Z.max (ibits T) 32 |}.
Definition size_type (sw : Z) (T : ity) : ity := {| isigned := false; ibits := Z.max (ibits (offset_type T)) sw |}.

(** [x + T{1}] converted back to [T] (lines 926-927): types narrower than [int] are promoted, so only
    [int] and wider signed types overflow. *)
Definition plus_one (T : ity) (x : Z) : option Z :=
  if isigned T && (32 <=? ibits T) && (ity_max T <=? x) then None else Some (conv T (x + 1)).

(** [a - b] in [ot] (line 932); signed overflow is undefined. *)
Definition subtract (ot : ity) (a b : Z) : option Z :=
  let d := a - b in
  if isigned ot then (if (ity_min ot <=? d) && (d <=? ity_max ot) then Some d else None) else Some (conv ot d).

(** thread_pool.h:947-973: the dispatch loop. Every pass hands out one batch (index, start, end). [fuel] bounds
    the number of passes. [start + size] is computed in the unsigned [st] and converted to [ot] (line 952). *)
Fixpoint dispatch (st ot : ity) (fuel : nat) (index start size : Z) (g : gen) : option (list (Z * Z * Z)) :=
  match fuel with
  | O => None
  | S fuel =>
      let stop := conv ot (conv st (conv st start + size)) in
      let n := gen_next st g in
      if fst n =? 0 then Some [(index, start, stop)]
      else rest <- dispatch st ot fuel (index + 1) stop (fst n) (snd n) ;; Some ((index, start, stop) :: rest)
  end.

(** thread_pool.h:906-980 [for_each(T start, T end, task)]: the batches handed to the queues. [None]: undefined
    behaviour. *)
Definition for_each (sw : Z) (T : ity) (workers start stop : Z) : option (list (Z * Z * Z)) :=
  if start =? stop then Some []                                                              (* 914-915 *)
  else
    se <- (if stop <? start                                                                  (* 922-928 *)
           then (e <- plus_one T start ;; s <- plus_one T stop ;; Some (s, e))
           else Some (start, stop)) ;;
    let ot := offset_type T in let st := size_type sw T in
    d <- subtract ot (conv ot (snd se)) (conv ot (fst se)) ;;                                (* 931-932 *)
    let job_count := conv st d in
    let n := gen_next st (gen_init job_count workers) in                                     (* 935-937 *)
    dispatch st ot (S (Z.to_nat workers)) 0 (conv ot (fst se)) (fst n) (snd n).

(** thread_pool.h:939: how many slots the queue is asked for. *)
Definition batch_count (job_count workers : Z) : Z := min2 Z.ltb job_count workers.

(** thread_pool.h:859-868: the values one batch passes to the task, in [T]. *)
Fixpoint count_up (fuel : nat) (s e : Z) : list Z :=
  match fuel with O => [] | S fuel => if s <? e then s :: count_up fuel (s + 1) e else [] end.
Definition run_batch (T : ity) (b : Z * Z * Z) : list Z :=
  let s := snd (fst b) in let e := snd b in map (conv T) (count_up (Z.to_nat (e - s)) s e).

(* ----------------------------------------------- for_each over iterators / collections *)

(** thread_pool.h:1062-1128 [for_each_with_iterators]: iterators are positions relative to [begin]. *)
Fixpoint dispatch_it (st : ity) (fuel : nat) (index start stop : Z) (g : gen) : option (list (Z * Z * Z)) :=
  match fuel with
  | O => None
  | S fuel =>
      let n := gen_next st g in                                                              (* 1094 *)
      if fst n =? 0 then Some [(index, start, stop)]                                         (* 1105-1113 *)
      else rest <- dispatch_it st fuel (index + 1) stop (stop + fst n) (snd n) ;; Some ((index, start, stop) :: rest)
  end.
Definition for_each_it (sw workers job_count : Z) : option (list (Z * Z * Z)) :=
  if job_count <=? 0 then Some []                                                            (* 1160-1178 *)
  else
    let st := {| isigned := false; ibits := sw |} in
    let n := gen_next st (gen_init job_count workers) in
    dispatch_it st (S (Z.to_nat workers)) 0 0 (fst n) (snd n).

(** thread_pool.h:1044-1053: [while (batch_start != batch_end)]: [None] if it never ends. *)
Definition run_batch_it (b : Z * Z * Z) : option (list Z) :=
  let s := snd (fst b) in let e := snd b in
  if e <? s then None else Some (count_up (Z.to_nat (e - s)) s e).
