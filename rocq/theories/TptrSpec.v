(** What tagged_ptr is for: a pointer and a small number, kept apart. *)
From Verif Require Import Words TptrModel.
Local Open Scope N_scope.

(** A platform and an alignment muu supports: 32- or 64-bit pointers, a power of two as alignment, room for both. *)
Definition cfg_ok (c : tcfg) (k : N) : Prop :=
  (t_w c = 32 \/ t_w c = 64) /\ t_align c = 2 ^ k /\ k + t_free c < t_w c.

(** The addresses a program can hold: on AMD64 with [free] bits given up, the canonical ones. *)
Definition address (c : tcfg) (p : N) : Prop :=
  p < 2 ^ t_w c /\
  (t_free c = 0 \/
   if t_amd64 c then p < 2 ^ (t_used c - 1) \/ 2 ^ t_w c - 2 ^ (t_used c - 1) <= p
   else p < 2 ^ t_used c).
Definition pointer (c : tcfg) (k p : N) : Prop := address c p /\ p mod 2 ^ k = 0.

(** The number a tag stands for. *)
Definition tag_value (c : tcfg) (t : tag) : N :=
  match t with TInt _ _ v | TEnum _ v => v | TPod b => of_le_bytes b end.

(** Tags that can be kept in [n] bits: numbers below [2^n] (not negative ones), and objects no larger than that. *)
Definition storable (c : tcfg) (n : N) (t : tag) : Prop :=
  match t with
  | TInt sgn w v => 0 < w /\ v < 2 ^ w /\ v < 2 ^ n /\ (sgn = true -> v < 2 ^ (w - 1))
  | TEnum w v => 0 < w /\ v < 2 ^ w /\ v < 2 ^ n
  | TPod b => Forall (fun x => x < 256) b /\ 8 * N.of_nat (length b) <= n /\ t_be c = false
  end /\ 0 < n.

(** The abstract object: pointer and tag. *)
Definition op_ok (c : tcfg) (k : N) (o : top) : Prop :=
  let n := k + t_free c in
  match o with
  | OReset | OClearPtr | OClearTag => True
  | OResetPtr p | OSetPtr p => pointer c k p
  | OResetBoth p t => pointer c k p /\ storable c n t
  | OSetTag t => storable c n t
  | OSetBit i _ => i < n
  end.
Definition set_bit (t i : N) (b : bool) : N :=
  if b then (if N.testbit t i then t else t + 2 ^ i) else (if N.testbit t i then t - 2 ^ i else t).
Definition spec_step (c : tcfg) (s : N * N) (o : top) : N * N :=
  let '(p, t) := s in
  match o with
  | OReset => (0, 0)
  | OResetPtr q => (q, 0)
  | OResetBoth q u => (q, tag_value c u)
  | OSetPtr q => (q, t)
  | OClearPtr => (0, t)
  | OSetTag u => (p, tag_value c u)
  | OSetBit i b => (p, set_bit t i b)
  | OClearTag => (p, 0)
  end.
