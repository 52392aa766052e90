(** The American zone names and two-digit years of Date.parse; independent of
    the model. *)

From Coq Require Import ZArith List Bool String.
From Verif Require Import TextSpec DateSpec.
Import ListNotations.
Open Scope string_scope.
Open Scope list_scope.
Open Scope Z_scope.

(** The zones of North America, in minutes west of Greenwich: standard time
    and, an hour less, daylight saving time. *)
Definition american : list (list Z * Z) := [
  (T "est", 5 * 60); (T "edt", 4 * 60); (T "cst", 6 * 60); (T "cdt", 5 * 60);
  (T "mst", 7 * 60); (T "mdt", 6 * 60); (T "pst", 8 * 60); (T "pdt", 7 * 60) ].
Definition american_zone (w : list Z) (west : Z) : Prop := exists name, In (name, west) american /\ Forall2 letter_of w name.
(** The year meant by two digits: within 80 years before and 19 years after
    the present year. *)
Definition two_digit_year (present yy year : Z) : Prop := 0 <= yy <= 99 /\ present - 80 <= year <= present + 19 /\ year mod 100 = yy.
