(** Model of [muu::trim], [trim_left] and [trim_right] with the library's own whitespace predicate.

    UtfModel.v models the three algorithms for any total predicate. The predicate that the functions really use
    (UniTables.v) is undefined on some code points, so here it may have no answer, and then neither has the trimming:
    [None] is undefined behaviour, as everywhere. *)
From Verif Require Import Words UniModel UniTables UtfModel.
Import ListNotations.
Local Open Scope N_scope.

(** strings.h:55-74 [utf_find]. The callback calls the predicate on every code point it is given until one satisfies it;
    once it has called it on one where it is undefined, nothing more is known ([None] as the state). *)
Definition utf_find_lib (be schar : bool) (sz : N) (str : list N) (reverse : bool) (pred : N -> option bool)
    : option (option (nat * nat)) :=
  r <- utf_decode (fun r cp i n =>
         match pred cp with
         | Some true => (Some (Some (i, n)), false)
         | Some false => (r, true)
         | None => (None, false)
         end) be schar sz str reverse (Some None) ;;
  r.

(** impl/unicode_char32_t.h:1190-1193 [is_not_whitespace(char32_t)], translated in UniTables.v. *)
Definition is_not_whitespace (c : N) : option bool := UniModel.run is_not_whitespace_32 c.

(** strings.h:207-222 [predicated_trim] as called by [trim] (strings.h:228-261, the same for every character type). *)
Definition trim (be schar : bool) (sz : N) (str : list N) : option (list N) :=
  match str with
  | [] => Some []
  | _ =>
      first <- utf_find_lib be schar sz str false is_not_whitespace ;;
      match first with
      | None => Some []
      | Some (fi, _) =>
          lastr <- utf_find_lib be schar sz str true is_not_whitespace ;;
          match lastr with
          | None => None (* [last.end()] of the not-found value: [highest + 0], a wrapped length *)
          | Some (li, ln) => Some (substr str fi (li + ln - fi))
          end
      end
  end.

(** strings.h:278-291 [predicated_trim_left] as called by [trim_left] (strings.h:297-330). *)
Definition trim_left (be schar : bool) (sz : N) (str : list N) : option (list N) :=
  match str with
  | [] => Some []
  | _ =>
      first <- utf_find_lib be schar sz str false is_not_whitespace ;;
      match first with
      | None => Some []
      | Some (fi, _) => Some (skipn fi str)
      end
  end.

(** strings.h:347-360 [predicated_trim_right] as called by [trim_right] (strings.h:366-399). *)
Definition trim_right (be schar : bool) (sz : N) (str : list N) : option (list N) :=
  match str with
  | [] => Some []
  | _ =>
      lastr <- utf_find_lib be schar sz str true is_not_whitespace ;;
      match lastr with
      | None => Some []
      | Some (li, ln) => Some (substr str 0 (li + ln))
      end
  end.
