(** What atan2 should return. *)
From Coq Require Import Reals.
From Flocq Require Import Core.
Local Open Scope R_scope.

(** [t] is the angle of the point (x, y). *)
Definition angle_of (x y t : R) : Prop := - PI < t <= PI /\ exists r, 0 < r /\ x = r * cos t /\ y = r * sin t.
(** To the nearest x87 long double *)
Definition rounded64 (x : R) : R := round radix2 (FLT_exp (-16445) 64) ZnearestE x.
