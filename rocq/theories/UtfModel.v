(** Model of muu's UTF decoders, encoders, [utf_decode], trimming and transcoding.
    A string is the list of its code units as unsigned numbers; the parameter [sz] is [sizeof(T)]
    (1: UTF-8, 2: UTF-16, 4: UTF-32).  [None] is undefined behaviour or a failed [MUU_ASSERT]. *)
From Verif Require Import Words BitsModel.

(* ---------------------------------------------------------- utf8_decoder.h *)

(** utf8_decoder.h:23-37 [state_table], copied mechanically: 256 byte classes, then 9 rows of 12
    transitions. *)
Definition state_table : list N :=
  [0; 0; 0; 0; 0; 0; 0; 0; 0; 0; 0; 0; 0; 0; 0; 0; 0; 0; 0; 0; 0; 0; 0; 0; 0; 0; 0; 0;
   0; 0; 0; 0; 0; 0; 0; 0; 0; 0; 0; 0; 0; 0; 0; 0; 0; 0; 0; 0; 0; 0; 0; 0; 0; 0; 0; 0;
   0; 0; 0; 0; 0; 0; 0; 0; 0; 0; 0; 0; 0; 0; 0; 0; 0; 0; 0; 0; 0; 0; 0; 0; 0; 0; 0; 0;
   0; 0; 0; 0; 0; 0; 0; 0; 0; 0; 0; 0; 0; 0; 0; 0; 0; 0; 0; 0; 0; 0; 0; 0; 0; 0; 0; 0;
   0; 0; 0; 0; 0; 0; 0; 0; 0; 0; 0; 0; 0; 0; 0; 0; 1; 1; 1; 1; 1; 1; 1; 1; 1; 1; 1; 1;
   1; 1; 1; 1; 9; 9; 9; 9; 9; 9; 9; 9; 9; 9; 9; 9; 9; 9; 9; 9; 7; 7; 7; 7; 7; 7; 7; 7;
   7; 7; 7; 7; 7; 7; 7; 7; 7; 7; 7; 7; 7; 7; 7; 7; 7; 7; 7; 7; 7; 7; 7; 7; 8; 8; 2; 2;
   2; 2; 2; 2; 2; 2; 2; 2; 2; 2; 2; 2; 2; 2; 2; 2; 2; 2; 2; 2; 2; 2; 2; 2; 2; 2; 2; 2;
   10; 3; 3; 3; 3; 3; 3; 3; 3; 3; 3; 3; 3; 4; 3; 3; 11; 6; 6; 6; 5; 8; 8; 8; 8; 8; 8; 8;
   8; 8; 8; 8; 0; 12; 24; 36; 60; 96; 84; 12; 12; 12; 48; 72; 12; 12; 12; 12; 12; 12; 12; 12; 12; 12; 12; 12;
   12; 0; 12; 12; 12; 12; 12; 0; 12; 0; 12; 12; 12; 24; 12; 12; 12; 12; 12; 24; 12; 24; 12; 12; 12; 12; 12; 12;
   12; 12; 12; 24; 12; 12; 12; 12; 12; 24; 12; 12; 12; 12; 12; 12; 12; 24; 12; 12; 12; 12; 12; 12; 12; 12; 12; 36;
   12; 36; 12; 12; 12; 36; 12; 12; 12; 12; 12; 36; 12; 36; 12; 12; 12; 36; 12; 12; 12; 12; 12; 12; 12; 12; 12; 12].

(** A decoder object: [state] and [codepoint] (utf8_decoder.h:22,38; utf16_decoder.h:22-30). *)
Record dec := { d_state : N; d_cp : N }.
Definition dec_init : dec := {| d_state := 0; d_cp := 0 |}.

Definition d8_error (d : dec) : bool := d_state d =? 12.        (* utf8_decoder.h:43-46 *)
Definition d8_has_value (d : dec) : bool := d_state d =? 0.     (* utf8_decoder.h:57-60 *)
Definition d8_needs_more (d : dec) : bool := (0 <? d_state d) && negb (d_state d =? 12). (* 71-74 *)

(** utf8_decoder.h:49-53 [clear_error]. *)
Definition d8_clear (d : dec) : option dec :=
  if d8_error d then Some {| d_state := 0; d_cp := d_cp d |} else None.

(** utf8_decoder.h:77-88 [operator()(uint8_t)]; an out-of-range table index is undefined. *)
Definition d8_feed (d : dec) (code_unit : N) : option dec :=
  if d8_error d then None
  else
    type <- nth_error state_table (N.to_nat code_unit) ;;
    let cp := if d8_has_value d then N.land (N.shiftr 255 type) code_unit
              else N.lor (N.land code_unit 63) (trunc 32 (N.shiftl (d_cp d) 6)) in
    st <- nth_error state_table (N.to_nat (d_state d + 256 + type)) ;;
    Some {| d_state := st; d_cp := cp |}.

(* --------------------------------------------------------- utf16_decoder.h *)

(** utf16_decoder.h:21-27: ds_initial 0, ds_expecting_low_surrogate 1, ds_has_codepoint 2, ds_error 3. *)
Definition d16_error (d : dec) : bool := d_state d =? 3.        (* utf16_decoder.h:34-37 *)
Definition d16_has_value (d : dec) : bool := d_state d =? 2.    (* utf16_decoder.h:48-51 *)
Definition d16_needs_more (d : dec) : bool := d_state d =? 1.   (* utf16_decoder.h:62-65 *)
Definition d16_clear (d : dec) : option dec :=                  (* utf16_decoder.h:40-44 *)
  if d16_error d then Some {| d_state := 0; d_cp := d_cp d |} else None.

Definition low_surrogate (u : N) : bool := (0xDC00 <=? u) && (u <=? 0xDFFF).
Definition high_surrogate (u : N) : bool := (0xD800 <=? u) && (u <=? 0xDBFF).

(** utf16_decoder.h:68-106 [operator()(uint16_t)]: the [switch] on [code_unit_class | state].  The classes are
    16 for a low, 32 for a high surrogate and 0 otherwise. *)
Definition d16_feed (d : dec) (code_unit : N) : option dec :=
  if d16_error d then None
  else
    let class := N.lor (N.shiftl (N.b2n (low_surrogate code_unit)) 4)
                       (N.shiftl (N.b2n (high_surrogate code_unit)) 5) in
    let key := N.lor class (d_state d) in
    if (key =? 0) || (key =? 2) then Some {| d_state := 2; d_cp := code_unit |}            (* 87-91 *)
    else if (key =? 32) || (key =? 34) then Some {| d_state := 2; d_cp := code_unit |}     (* 93-97 *)
    else if key =? 17 then                                                                 (* 99-103 *)
      Some {| d_state := 2;
              d_cp := trunc 32 (trunc 32 (N.shiftl (trunc 32 (d_cp d + 2 ^ 32 - 0xD800)) 10)
                                + (code_unit - 0xDC00) + 0x10000) |}
    else Some {| d_state := 3; d_cp := d_cp d |}.                                          (* 105 *)

(* -------------------------------------------------- strings.h code point encoders *)

(** strings.h:85-109 [utf8_code_point]: the four-element array. *)
Definition utf8_code_point (cp : N) : list N :=
  if cp <=? 0x7F then [trunc 8 cp; 0; 0; 0]
  else if cp <=? 0x7FF then
    [trunc 8 (N.lor (N.shiftr cp 6) 0xC0); trunc 8 (N.lor (N.land cp 0x3F) 0x80); 0; 0]
  else if cp <=? 0xFFFF then
    [trunc 8 (N.lor (N.shiftr cp 12) 0xE0); trunc 8 (N.lor (N.land (N.shiftr cp 6) 0x3F) 0x80);
     trunc 8 (N.lor (N.land cp 0x3F) 0x80); 0]
  else if cp <=? 0x10FFFF then
    [trunc 8 (N.lor (N.shiftr cp 18) 0xF0); trunc 8 (N.lor (N.land (N.shiftr cp 12) 0x3F) 0x80);
     trunc 8 (N.lor (N.land (N.shiftr cp 6) 0x3F) 0x80); trunc 8 (N.lor (N.land cp 0x3F) 0x80)]
  else [0; 0; 0; 0].

(** strings.h:139-151 [utf16_code_point]. *)
Definition utf16_code_point (cp : N) : list N :=
  if cp <? 0x10000 then [trunc 16 cp; 0]
  else let c := cp - 0x10000 in
       [trunc 16 (N.lor 0xD800 (N.shiftr c 10)); trunc 16 (N.lor 0xDC00 (N.land c 0x3FF))].

(** The length of a NUL-terminated string ([std::basic_string_view<T>{ code_units }]). *)
Fixpoint c_str (l : list N) : list N :=
  match l with [] => [] | c :: r => if c =? 0 then [] else c :: c_str r end.

(** strings.h:117-121 and 159-163 [view()]: all elements if the last is non-zero, else up to the first NUL. *)
Definition code_point_view (units : list N) : list N :=
  if last units 0 =? 0 then c_str units else units.

(** The units [utf_transcode] appends for one code point (strings.h:443-451). *)
Definition encode (sz cp : N) : list N :=
  if sz =? 1 then code_point_view (utf8_code_point cp)
  else if sz =? 2 then code_point_view (utf16_code_point cp)
  else [cp].

(* --------------------------------------------------------------- utf_decode.h *)

(** impl/unicode_unsigned_char.h:305-308 and impl/unicode_char16_t.h:1079-1082. *)
Definition is_code_point_boundary (sz c : N) : bool :=
  if sz =? 1 then negb (N.land c 0xC0 =? 0x80) else (c <=? 0xDBFF) || (0xE000 <=? c).

Definition dec_feed (sz : N) : dec -> N -> option dec := if sz =? 1 then d8_feed else d16_feed.
Definition dec_error (sz : N) : dec -> bool := if sz =? 1 then d8_error else d16_error.
Definition dec_has_value (sz : N) : dec -> bool := if sz =? 1 then d8_has_value else d16_has_value.
Definition dec_clear (sz : N) : dec -> option dec := if sz =? 1 then d8_clear else d16_clear.

(** A client feeding a whole string to a decoder object and collecting the value whenever one is complete. *)
Fixpoint feed_list (sz : N) (d : dec) (l : list N) : option (list N * dec) :=
  match l with
  | [] => Some ([], d)
  | u :: r =>
      d' <- dec_feed sz d u ;;
      res <- feed_list sz d' r ;;
      Some ((if dec_has_value sz d' then [d_cp d'] else []) ++ fst res, snd res)
  end.

(** How many of the units have a zero byte at [index]. *)
Fixpoint zero_bytes (w index : N) (l : list N) : option N :=
  match l with
  | [] => Some 0
  | u :: r => b <- byte_select_static w index u ;; n <- zero_bytes w index r ;; Some (N.b2n (b =? 0) + n)
  end.

(** utf_decode.h:52-65 [utf_detect_platform_endian]; [be] is [build::is_big_endian]. *)
Definition detect_platform_endian (be : bool) (sz : N) (l : list N) : option bool :=
  low <- zero_bytes (8 * sz) 0 l ;;
  high <- zero_bytes (8 * sz) (sz - 1) l ;;
  Some (if be then high <? low else low <? high).

Section Decode.
  (** The callback [func]: it updates some state [S] and returns [true] to go on, [false] to stop; a callback not
      returning [bool] always goes on (utf_decode.h:84-108). *)
  Context {S : Type} (cb : S -> N -> nat -> nat -> S * bool).
  (** [be]: big-endian platform; [schar]: is [T] a signed character type ([char] on most platforms). *)
  Context (be schar : bool) (sz : N) (str : list N).

  (** utf_decode.h:113-123 [get]. *)
  Definition get (requires_bswap : bool) (idx : nat) : option N :=
    u <- nth_error str idx ;;
    if (sz =? 1) || negb requires_bswap then Some u else byte_reverse (8 * sz) u.

  (** [static_cast<char32_t>(get(j))]: sign-extends when [T] is a signed [char]. *)
  Definition to_char32 (u : N) : N :=
    if schar && (sz =? 1) && (128 <=? u) then u + (2 ^ 32 - 256) else u.

  (** utf_decode.h:220-221 (and 146-147): emit the units [j .. j+n-1] one by one, until told to stop.
      The result is the callback state and the flag [stop]. *)
  Fixpoint emit_up (sw : bool) (n j : nat) (s : S) : option (S * bool) :=
    match n with
    | O => Some (s, false)
    | Datatypes.S m =>
        u <- get sw j ;;
        let '(s', go) := cb s (to_char32 u) j 1 in
        if go then emit_up sw m (Datatypes.S j) s' else Some (s', true)
    end.

  (** utf_decode.h:197-199 (and 141-142): emit [j+n-1 .. j], downwards. *)
  Fixpoint emit_down (sw : bool) (n j : nat) (s : S) : option (S * bool) :=
    match n with
    | O => Some (s, false)
    | Datatypes.S m =>
        u <- get sw (j + m)%nat ;;
        let '(s', go) := cb s (to_char32 u) (j + m)%nat 1 in
        if go then emit_down sw m j s' else Some (s', true)
    end.

  (** utf_decode.h:207-225, the forward loop; [n] is [e - i]. *)
  Fixpoint forward (sw : bool) (n i cp_start cu_count : nat) (d : dec) (s : S) : option (S * bool) :=
    match n with
    | O => Some (s, false)
    | Datatypes.S m =>
        u <- get sw i ;;
        d <- dec_feed sz d u ;;
        if dec_has_value sz d then
          let '(s', go) := cb s (d_cp d) cp_start (Datatypes.S cu_count) in
          if go then forward sw m (Datatypes.S i) (Datatypes.S i) 0 d s' else Some (s', true)
        else if dec_error sz d then
          d <- dec_clear sz d ;;
          r <- emit_up sw (Datatypes.S cu_count) cp_start s ;;
          let '(s', stop) := r in
          if stop : bool then Some (s', true) else forward sw m (Datatypes.S i) (Datatypes.S i) 0 d s'
        else forward sw m (Datatypes.S i) cp_start (Datatypes.S cu_count) d s
    end.

  (** utf_decode.h:185-190: feed the units [i .. i+n-1], stopping at an error. *)
  Fixpoint feed_group (sw : bool) (n i : nat) (d : dec) : option dec :=
    match n with
    | O => Some d
    | Datatypes.S m =>
        u <- get sw i ;;
        d <- dec_feed sz d u ;;
        if dec_error sz d then Some d else feed_group sw m (Datatypes.S i) d
    end.

  (** utf_decode.h:180-203, the reverse loop; [p] is [cp_start] before the decrement. *)
  Fixpoint backward (sw : bool) (data_start p cu_count : nat) (d : dec) (s : S) : option (S * bool) :=
    match p with
    | O => Some (s, false)
    | Datatypes.S q =>
        if (q <? data_start)%nat then Some (s, false)
        else
          u <- get sw q ;;
          let cu := Datatypes.S cu_count in
          if (N.of_nat cu =? 4 / sz) || is_code_point_boundary sz u then
            d <- feed_group sw cu q d ;;
            if dec_has_value sz d then
              let '(s', go) := cb s (d_cp d) q cu in
              if go then backward sw data_start q 0 d s' else Some (s', true)
            else if dec_error sz d then
              d <- dec_clear sz d ;;
              r <- emit_down sw cu q s ;;
              let '(s', stop) := r in
              if stop : bool then Some (s', true) else backward sw data_start q 0 d s'
            else backward sw data_start q 0 d s
          else backward sw data_start q cu d s
    end.

  (** utf_decode.h:125-172, the choice of [data_start] and [requires_bswap]. *)
  Definition detect : option (nat * bool) :=
    if sz =? 1 then
      match str with
      | a :: b :: c :: _ =>
          packed <- bit_pack 32 [(8, a); (8, b); (8, c)] ;;
          Some (if packed =? 0x00EFBBBF then 3%nat else 0%nat, false)
      | _ => Some (0%nat, false)
      end
    else
      match str with
      | [] => None
      | u :: _ =>
          if u =? (if sz =? 4 then 0xFFFE0000 else 0xFFFE) then Some (1%nat, true)
          else if u =? 0xFEFF then Some (1%nat, false)
          else native <- detect_platform_endian be sz (firstn 16 str) ;; Some (0%nat, negb native)
      end.

  (** utf_decode.h:72-228 [utf_decode(str, reverse, func)]: the final callback state. *)
  Definition utf_decode (reverse : bool) (s : S) : option S :=
    match str with
    | [] => Some s
    | _ =>
        det <- detect ;;
        let '(data_start, sw) := det in
        let n := (length str - data_start)%nat in
        r <- (if sz =? 4 then
                if reverse then emit_down sw n data_start s else emit_up sw n data_start s
              else if reverse then backward sw data_start (length str) 0 dec_init s
              else forward sw n data_start data_start 0 dec_init s) ;;
        Some (fst r)
    end.
End Decode.

(* ------------------------------------------------------------------ strings.h *)

(** strings.h:55-74 [utf_find]: the position and length of the first code point (in the given direction) that
    satisfies the predicate; [None] inside the result is the "not found" value. *)
Definition utf_find (be schar : bool) (sz : N) (str : list N) (reverse : bool) (pred : N -> bool)
    : option (option (nat * nat)) :=
  utf_decode (fun r cp i n => if pred cp then (Some (i, n), false) else (r, true)) be schar sz str reverse None.

(** [std::basic_string_view::substr]. *)
Definition substr (l : list N) (pos n : nat) : list N := firstn n (skipn pos l).

(** strings.h:207-222 [predicated_trim]. *)
Definition predicated_trim (be schar : bool) (sz : N) (pred : N -> bool) (str : list N) : option (list N) :=
  match str with
  | [] => Some []
  | _ =>
      first <- utf_find be schar sz str false pred ;;
      match first with
      | None => Some []
      | Some (fi, _) =>
          lastr <- utf_find be schar sz str true pred ;;
          match lastr with
          | None => None (* [last.end()] of the not-found value: [highest + 0], a wrapped length *)
          | Some (li, ln) => Some (substr str fi (li + ln - fi))
          end
      end
  end.

(** strings.h:278-291 [predicated_trim_left]. *)
Definition predicated_trim_left (be schar : bool) (sz : N) (pred : N -> bool) (str : list N) : option (list N) :=
  match str with
  | [] => Some []
  | _ =>
      first <- utf_find be schar sz str false pred ;;
      match first with
      | None => Some []
      | Some (fi, _) => Some (skipn fi str)
      end
  end.

(** strings.h:347-360 [predicated_trim_right]. *)
Definition predicated_trim_right (be schar : bool) (sz : N) (pred : N -> bool) (str : list N) : option (list N) :=
  match str with
  | [] => Some []
  | _ =>
      lastr <- utf_find be schar sz str true pred ;;
      match lastr with
      | None => Some []
      | Some (li, ln) => Some (substr str 0 (li + ln))
      end
  end.

(** strings.h:416-456 [utf_transcode<To>(std::basic_string_view<From>)] between types of [from] and [to] bytes; equal
    sizes copy the bytes (lines 423-431).  [std::basic_string] growth is not modelled. *)
Definition utf_transcode (be schar : bool) (from to : N) (str : list N) : option (list N) :=
  match str with
  | [] => Some []
  | _ =>
      if from =? to then Some str
      else utf_decode (fun out cp _ _ => (out ++ encode to cp, true)) be schar from str false []
  end.
