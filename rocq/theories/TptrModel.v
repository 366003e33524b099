(** Model of tagged_ptr.h.  [c] describes the platform and the template argument: [t_w] bits in a [uintptr_t],
    [t_free] the number of high pointer bits given up ([tptr_free_bits], lines 51-52; zero unless MUU_TAGGED_PTR_BITS is
    set), [t_amd64], [t_be] big-endian, [t_align] the template argument [Align].  [None] is a failed assertion. *)
From Verif Require Import Words BitsModel.
Local Open Scope N_scope.

Record tcfg : Type := { t_w : N; t_free : N; t_amd64 : bool; t_be : bool; t_align : N }.
Definition t_used (c : tcfg) : N := t_w c - t_free c.                                      (* lines 51-52 *)

(** A tag argument: an integer of [w] bits (its bit pattern [v] below [2^w]), an enumerator of an underlying type of
    [w] bits, or an object of some other trivial type given by its bytes in memory. *)
Inductive tag : Type :=
| TInt (sgn : bool) (w v : N)
| TEnum (w v : N)
| TPod (bytes : list N).

(** tagged_ptr.h:111-118 [pack_ptr_unchecked]. *)
Definition pack_ptr_unchecked (c : tcfg) (ptr : N) : N := trunc (t_w c) (N.shiftl ptr (t_free c)).

(** tagged_ptr.h:129 [tag_bits]. *)
Definition tag_bits (c : tcfg) : option N :=
  b <- bit_width Naive (t_w c) (t_align c) ;; Some (N.max b 1 - 1 + t_free c).
(** tagged_ptr.h:130-131 [tag_mask], [ptr_mask]. *)
Definition tag_mask (c : tcfg) : option N := tb <- tag_bits c ;; bit_fill_right (t_w c) tb.
Definition ptr_mask (c : tcfg) : option N := m <- tag_mask c ;; Some (compl (t_w c) m).

(** tagged_ptr.h:141-152 [can_store_ptr]. *)
Definition can_store_ptr (c : tcfg) (ptr : N) : option bool :=
  tb <- tag_bits c ;;
  m <- tag_mask c ;;
  Some (if tb =? 0 then true else N.land (pack_ptr_unchecked c ptr) m =? 0).

Definition tag_size (t : tag) : N :=
  match t with TInt _ w _ | TEnum w _ => w | TPod b => 8 * N.of_nat (length b) end.

(** tagged_ptr.h:154-177 [can_store_tag]; the integer is converted to its unsigned type and then to the common type
    with [uintptr_t]. *)
Definition can_store_tag (c : tcfg) (t : tag) : option bool :=
  tb <- tag_bits c ;;
  pm <- ptr_mask c ;;
  Some (if tb =? 0 then false
        else if tag_size t <=? tb then true
        else match t with TInt _ _ v | TEnum _ v => N.land v pm =? 0 | TPod _ => false end).

(** tagged_ptr.h:179-186 [pack_ptr], with its assertion. *)
Definition pack_ptr (c : tcfg) (ptr : N) : option N :=
  f <- bit_floor Naive (t_w c) ptr ;;
  if (ptr =? 0) || (t_align c <=? f) then Some (pack_ptr_unchecked c ptr) else None.

(** [static_cast<uintptr_t>(tag)] for an integer of [w] bits: sign extension or truncation. *)
Definition to_uintptr (c : tcfg) (sgn : bool) (w v : N) : N :=
  trunc (t_w c) (if sgn && N.testbit v (w - 1) then v + (2 ^ N.max (t_w c) w - 2 ^ w) else v).

(** [memcpy(&bits, &tag, sizeof(tag))]. *)
Definition overwrite (c : tcfg) (bits : N) (bytes : list N) : N :=
  let n := N.to_nat (t_w c / 8) in
  let mem x := if t_be c then rev (le_bytes n x) else le_bytes n x in
  let m := bytes ++ skipn (length bytes) (mem bits) in
  of_le_bytes (if t_be c then rev m else m).

(** The integral case of [set_tag] and [pack_both] (lines 195-206, 246-256): the bits or'ed in. *)
Definition int_tag_bits (c : tcfg) (sgn : bool) (w v : N) : option N :=
  tb <- tag_bits c ;;
  m <- tag_mask c ;;
  if tb <? w then
    ok <- can_store_tag c (TInt sgn w v) ;;
    if ok : bool then Some (N.land (to_uintptr c sgn w v) m) else None
  else Some (to_uintptr c sgn w v).

(** The POD case (lines 208-224, 258-270); a tag type that does not fit is rejected at compile time. *)
Definition pod_tag (c : tcfg) (bits : N) (b : list N) : option N :=
  tb <- tag_bits c ;;
  pm <- ptr_mask c ;;
  if tb <? tag_size (TPod b) then None
  else Some (overwrite c (if tag_size (TPod b) <? tb then N.land bits pm else bits) b).

(** tagged_ptr.h:188-226 [pack_both]; an enumerator is converted to the unsigned underlying type first. *)
Definition pack_both (c : tcfg) (ptr : N) (t : tag) : option N :=
  p <- pack_ptr c ptr ;;
  match t with
  | TInt s w v => x <- int_tag_bits c s w v ;; Some (N.lor p x)
  | TEnum w v => x <- int_tag_bits c false w v ;; Some (N.lor p x)
  | TPod b => pod_tag c p b
  end.

(** tagged_ptr.h:228-239 [set_ptr]. *)
Definition set_ptr (c : tcfg) (bits ptr : N) : option N :=
  tb <- tag_bits c ;;
  m <- tag_mask c ;;
  p <- pack_ptr c ptr ;;
  Some (if tb =? 0 then p else N.lor p (N.land bits m)).

(** tagged_ptr.h:241-270 [set_tag]. *)
Definition set_tag (c : tcfg) (bits : N) (t : tag) : option N :=
  pm <- ptr_mask c ;;
  match t with
  | TInt s w v => x <- int_tag_bits c s w v ;; Some (N.lor (N.land bits pm) x)
  | TEnum w v => x <- int_tag_bits c false w v ;; Some (N.lor (N.land bits pm) x)
  | TPod b => pod_tag c bits b
  end.

(** tagged_ptr.h:272-283 [get_tag] (and 633-647 [tag<Tag>()] for integers, a type at least [tag_bits] wide). *)
Definition get_tag (c : tcfg) (bits : N) : option N :=
  tb <- tag_bits c ;;
  m <- tag_mask c ;;
  Some (if tb =? 0 then 0 else N.land bits m).

(** tagged_ptr.h:307-316 [get_tag_as_object]. *)
Definition get_tag_object (c : tcfg) (bits : N) (size : nat) : option (list N) :=
  tb <- tag_bits c ;;
  if tb <? 8 * N.of_nat size then None
  else
    let n := N.to_nat (t_w c / 8) in
    Some (firstn size (if t_be c then rev (le_bytes n bits) else le_bytes n bits)).

(** tagged_ptr.h:285-304 [get_tag_bit], [set_tag_bit]. *)
Definition get_tag_bit (c : tcfg) (bits index : N) : option bool :=
  tb <- tag_bits c ;;
  if index <? tb then Some (negb (N.land bits (trunc (t_w c) (N.shiftl 1 index)) =? 0)) else None.
Definition set_tag_bit (c : tcfg) (bits index : N) (state : bool) : option N :=
  tb <- tag_bits c ;;
  if index <? tb then
    let m := trunc (t_w c) (N.shiftl 1 index) in
    Some (if state then N.lor bits m else N.land bits (compl (t_w c) m))
  else None.

(** tagged_ptr.h:325-359 [get_ptr]: canonical addresses on AMD64. *)
Definition get_ptr (c : tcfg) (bits : N) : option N :=
  pm <- ptr_mask c ;;
  let b := N.land bits pm in
  if 0 <? t_free c then
    let b := N.shiftr b (t_free c) in
    if t_amd64 c && negb (N.land b (N.shiftl 1 (t_used c - 1)) =? 0) then
      fill <- bit_fill_right (t_w c) (t_free c) ;;
      Some (N.lor b (trunc (t_w c) (N.shiftl fill (t_used c))))
    else Some b
  else Some b.

(** tagged_ptr.h:803-807 [operator bool]. *)
Definition tptr_bool (c : tcfg) (bits : N) : option bool := pm <- ptr_mask c ;; Some (negb (N.land bits pm =? 0)).

(** The modifying members (lines 540-582, 603-655, 731-800); [operator=(pointer)] is [OSetPtr]. *)
Inductive top : Type :=
| OReset                        (* reset(), tagged_ptr() *)
| OResetPtr (p : N)             (* reset(p), tagged_ptr(p) *)
| OResetBoth (p : N) (t : tag)  (* reset(p, t), tagged_ptr(p, t) *)
| OSetPtr (p : N)               (* ptr(p) *)
| OClearPtr                     (* clear_ptr() *)
| OSetTag (t : tag)             (* tag(t) *)
| OSetBit (i : N) (b : bool)    (* tag_bit(i, b) *)
| OClearTag.                    (* clear_tag() *)

Definition tptr_step (c : tcfg) (bits : N) (o : top) : option N :=
  match o with
  | OReset => Some 0
  | OResetPtr p => pack_ptr c p
  | OResetBoth p t => pack_both c p t
  | OSetPtr p => set_ptr c bits p
  | OClearPtr => m <- tag_mask c ;; Some (N.land bits m)
  | OSetTag t => set_tag c bits t
  | OSetBit i b => set_tag_bit c bits i b
  | OClearTag => m <- ptr_mask c ;; Some (N.land bits m)
  end.
Fixpoint tptr_run (c : tcfg) (bits : N) (ops : list top) : option N :=
  match ops with [] => Some bits | o :: r => b <- tptr_step c bits o ;; tptr_run c b r end.
