(** Model of uuid.h and src/uuid.cpp.  A uuid is the list of its sixteen bytes ([bytes.value]); [be] is the byte order
    of the machine. *)
From Verif Require Import Words BitsModel CoreModel UtfModel HashModel.
Local Open Scope N_scope.

Definition byte_of (id : list N) (i : nat) : N := nth i id 0.

(** [bit_pack] of single bytes into an unsigned type of as many bits (uuid.h:58, 72, 86-93: always 2, 4, 8 or 16). *)
Definition pack_bytes (l : list N) : option N := bit_pack (8 * N.of_nat (length l)) (map (fun b => (8, b)) l).

(** uuid.h:46-104 [uuid_slicer<n>::slice(bytes, first)]. *)
Definition slice (be : bool) (id : list N) (n first : nat) : option N :=
  if (16 <? first + n)%nat then None
  else let l := firstn n (skipn first id) in pack_bytes (if be then rev l else l).

(** uuid.h:405-448, the field accessors. *)
Definition time_low be id := slice be id 4 0.
Definition time_mid be id := slice be id 2 4.
Definition time_high_and_version be id := slice be id 2 6.
Definition clock_seq_high_and_reserved (id : list N) := byte_of id 8.
Definition clock_seq_low (id : list N) := byte_of id 9.
Definition node be id := x <- slice be id 8 8 ;; Some (N.land x 0x0000FFFFFFFFFFFF).

(** Several [byte_select<i>(x)]. *)
Fixpoint selects (w x : N) (is : list N) : option (list N) :=
  match is with [] => Some [] | i :: r => b <- byte_select_static w i x ;; l <- selects w x r ;; Some (b :: l) end.

(** uuid.h:229-253 [uuid(time_low, time_mid, time_high_and_version, clock_seq_high_and_reserved, clock_seq_low, node)]. *)
Definition uuid_fields (be : bool) (tl tm th ch cl nd : N) : option (list N) :=
  a <- selects 32 tl (if be then [0; 1; 2; 3] else [3; 2; 1; 0]) ;;
  b <- selects 16 tm (if be then [0; 1] else [1; 0]) ;;
  c <- selects 16 th (if be then [0; 1] else [1; 0]) ;;
  d <- selects 64 nd (if be then [2; 3; 4; 5; 6; 7] else [5; 4; 3; 2; 1; 0]) ;;
  Some (a ++ b ++ c ++ [ch; cl] ++ d).

(** uuid.h:264-286, the constructor with a 16-bit [clock_seq]. *)
Definition uuid_fields16 (be : bool) (tl tm th cs nd : N) : option (list N) :=
  a <- selects 32 tl (if be then [0; 1; 2; 3] else [3; 2; 1; 0]) ;;
  b <- selects 16 tm (if be then [0; 1] else [1; 0]) ;;
  c <- selects 16 th (if be then [0; 1] else [1; 0]) ;;
  c2 <- selects 16 cs (if be then [0; 1] else [1; 0]) ;;
  d <- selects 64 nd (if be then [2; 3; 4; 5; 6; 7] else [5; 4; 3; 2; 1; 0]) ;;
  Some (a ++ b ++ c ++ c2 ++ d).

(** Memory representation of a 128-bit integer, and back ([bit_cast]). *)
Definition mem128 (be : bool) (x : N) : list N := if be then rev (le_bytes 16 x) else le_bytes 16 x.
Definition of_mem128 (be : bool) (l : list N) : N := of_le_bytes (if be then rev l else l).

(** uuid.h:295-315 [uuid(uint128_t)]. *)
Definition uuid_of_u128 (be : bool) (x : N) : option (list N) :=
  v <- (if be then Some x else byte_reverse 128 x) ;; Some (mem128 be v).

(** uuid.h:454-503 [operator uint128_t]; [cast]: does the compiler have a constexpr bit_cast. *)
Definition uuid_to_u128 (cast be : bool) (id : list N) : option N :=
  if cast then if be then Some (of_mem128 be id) else byte_reverse 128 (of_mem128 be id)
  else pack_bytes (if be then rev id else id).

(** uuid.h:506-523 [operator bool]: with or without the 128-bit comparison. *)
Definition uuid_bool (cast be : bool) (id : list N) : bool :=
  if cast then negb (of_mem128 be id =? 0) else existsb (fun b => negb (b =? 0)) id.

(** uuid.h:526-549 [operator==] for distinct objects ([&lhs == &rhs] returns true, and then the bytes are the same). *)
Fixpoint bytes_eqb (a b : list N) : bool :=
  match a, b with
  | [], [] => true
  | x :: a', y :: b' => if negb (x =? y) then false else bytes_eqb a' b'
  | _, _ => false
  end.
Definition uuid_eqb (cast be : bool) (a b : list N) : bool :=
  if cast then of_mem128 be a =? of_mem128 be b else bytes_eqb a b.

(** uuid.h:560-587 [compare]; [int128]: is there a 128-bit integer type. *)
Fixpoint bytes_compare (a b : list N) : Z :=
  match a, b with
  | x :: a', y :: b' => if negb (x =? y) then (if x <? y then (-1)%Z else 1%Z) else bytes_compare a' b'
  | _, _ => 0%Z
  end.
Definition uuid_compare (int128 cast be : bool) (a b : list N) : option Z :=
  if int128 then
    l <- uuid_to_u128 cast be a ;;
    r <- uuid_to_u128 cast be b ;;
    Some (if negb (l =? r) then (if l <? r then (-1)%Z else 1%Z) else 0%Z)
  else Some (bytes_compare a b).

(** uuid.h:590-616, the relational operators. *)
Definition uuid_lt c := (c <? 0)%Z.
Definition uuid_le c := (c <=? 0)%Z.
Definition uuid_gt c := (0 <? c)%Z.
Definition uuid_ge c := (0 <=? c)%Z.

(** uuid.h:128-135 and 364-388 [variant()]. *)
Inductive variant : Type := VNone | VStandard | VNcs | VMicrosoft | VFuture.
Definition uuid_variant (id : list N) : variant :=
  let v := N.shiftr (N.land (byte_of id 8) 0xE0) 5 in
  if v =? 0 then VNone
  else if v <=? 3 then VNcs
  else if N.lor v 5 =? 5 then VStandard
  else if v =? 6 then VMicrosoft
  else VFuture.

(** uuid.h:142-151 and 391-399 [version()]. *)
Definition uuid_version (id : list N) : N :=
  let v := N.shiftr (N.land (byte_of id 6) 0xF0) 4 in if 5 <? v then 0xF else v.

(** src/uuid.cpp:125-139: bytes 6 and 8 get the version number and the variant bits. *)
Definition stamp (version : N) (id : list N) : list N :=
  let id := upd id 6 (N.lor (N.land (byte_of id 6) 0x0F) version) in
  upd id 8 (N.lor (N.land (byte_of id 8) 0x3F) 0x80).

(** src/uuid.cpp:104-140 [muu_impl_uuid_generate], the portable branch; [rnd] are the sixteen numbers drawn from the
    distribution over 0..255. *)
Definition uuid_generate (rnd : list N) : list N := stamp 0x40 (map (trunc 8) rnd).

(** src/uuid.cpp:142-168 [muu_impl_uuid_generate_named]; [name] is empty for a null pointer or zero size; [junk] is the
    hasher's uninitialised block buffer. *)
Definition uuid_named (be : bool) (junk ns name : list N) : option (list N) :=
  h <- sha_data be (sha_init junk) ns ;;
  h <- (match name with [] => Some h | _ => sha_data be h name end) ;;
  h <- sha_finish be h ;;
  Some (stamp 0x50 (firstn 16 (sha_hash h))).

(** src/uuid.cpp:23-65 [print]: the characters written. *)
Definition hex2 (cw b : N) : list N := let '(h, l) := byte_to_hex cw b 0x41 in [h; l].
Definition uuid_print (cw : N) (id : list N) : list N :=
  let w a b := flat_map (fun i => hex2 cw (byte_of id i)) (seq a (b - a)) in
  w 0%nat 4%nat ++ [0x2D] ++ w 4%nat 6%nat ++ [0x2D] ++ w 6%nat 8%nat ++ [0x2D] ++ w 8%nat 10%nat ++ [0x2D] ++ w 10%nat 16%nat.

(* --------------------------------------------------------------------- parsing *)

(** impl/unicode_char32_t.h:1495-1498, 46-49, 106-109, 34-37. *)
Definition is_hex (c : N) : bool :=
  (0x30 <=? c) && (c <=? 0x66) && negb (N.land (trunc 64 (N.shiftl 1 (c - 0x30))) 0x7E0000007E03FF =? 0).
Definition is_ascii_hyphen (c : N) : bool := c =? 0x2D.
Definition is_ascii_ws (c : N) : bool := ((0x09 <=? c) && (c <=? 0x0D)) || (c =? 0x20).
Definition is_ascii (c : N) : bool := c <=? 0x7F.

(** uuid.h:697-711 [uuid_parser], the members. *)
Inductive pstate : Type := SInitial | SParsing | SFinished | SError.
Record parser : Type := { p_value : list N; p_brack : bool; p_digits : N; p_rsh : N; p_state : pstate }.
Definition parser_init : parser := {| p_value := repeat 0 16; p_brack := false; p_digits := 0; p_rsh := 4; p_state := SInitial |}.

Definition p_set (p : parser) (st : pstate) : parser :=
  {| p_value := p_value p; p_brack := p_brack p; p_digits := p_digits p; p_rsh := p_rsh p; p_state := st |}.
Definition p_bracket (p : parser) (b : bool) : parser :=
  {| p_value := p_value p; p_brack := b; p_digits := p_digits p; p_rsh := p_rsh p; p_state := p_state p |}.

(** uuid.h:753-769, [case s_parsing]; an index beyond the sixteen bytes is undefined. *)
Definition p_parsing (p : parser) (c : N) : option parser :=
  if is_hex c then
    let i := N.to_nat (p_digits p / 2) in
    if (16 <=? i)%nat then None
    else
      let digits := p_digits p + 1 in
      Some {| p_value := upd (p_value p) i (N.lor (byte_of (p_value p) i) (trunc 8 (N.shiftl (hex_to_dec c) (p_rsh p))));
              p_brack := p_brack p; p_digits := digits; p_rsh := ((digits + 1) mod 2) * 4;
              p_state := if digits =? 32 then SFinished else p_state p |}
  else if is_ascii_hyphen c || is_ascii_ws c then
    Some (if p_digits p mod 2 =? 1 then p_set p SError else p)
  else Some (p_set p SError).

(** uuid.h:721-788 [operator()(char32_t)]; the boolean returned is [state != s_error]. *)
Definition p_step (p : parser) (c : N) : option parser :=
  if negb (is_ascii c) then Some (p_set p SError)
  else
    match p_state p with
    | SInitial =>
        if c =? 0x7B then Some (p_bracket (if p_brack p then p_set p SError else p) true)
        else if is_ascii_ws c then Some p
        else if is_hex c then p_parsing (p_set p SParsing) c
        else Some (p_set p SError)
    | SParsing => p_parsing p c
    | SFinished =>
        if c =? 0x7D then Some (if p_brack p then p_bracket p false else p_set p SError)
        else if is_ascii_ws c then Some p
        else Some (p_set p SError)
    | SError => Some p
    end.
Definition p_error (p : parser) : bool := match p_state p with SError => true | _ => false end.
Definition p_ok (p : parser) : bool := negb (p_brack p) && match p_state p with SFinished => true | _ => false end.

(** uuid.h:787-798 [parse_impl]: outer [None] is undefined behaviour, inner [None] the empty optional.  [utf_decode]
    is given the parser itself as callback. *)
Definition uuid_parse (be schar : bool) (sz : N) (str : list N) : option (option (list N)) :=
  if (length str <? 32)%nat then Some None
  else
    r <- utf_decode (fun (o : option parser) cp _ _ =>
           match o with
           | None => (None, false)
           | Some p => match p_step p cp with None => (None, false) | Some p' => (Some p', negb (p_error p')) end
           end) be schar sz str false (Some parser_init) ;;
    p <- r ;;
    Some (if p_ok p then Some (p_value p) else None).
