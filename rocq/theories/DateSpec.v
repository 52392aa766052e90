(** The Gregorian calendar and what the date functions have to compute;
    independent of the model. *)

From Coq Require Import ZArith List Bool.
Import ListNotations.
Open Scope Z_scope.

(** ** The calendar; months are numbered 0 to 11, years as usual. *)

Definition leap (y : Z) : bool := (y mod 4 =? 0) && (negb (y mod 100 =? 0) || (y mod 400 =? 0)).
Definition year_length (y : Z) : Z := if leap y then 366 else 365.
Definition month_length (y m : Z) : Z :=
  if m =? 1 then (if leap y then 29 else 28)
  else if (m =? 3) || (m =? 5) || (m =? 8) || (m =? 10) then 30 else 31.

(** Days from 1 January of year 1 to 1 January of year [y]. *)
Definition days_before_year (y : Z) : Z := 365 * (y - 1) + (y - 1) / 4 - (y - 1) / 100 + (y - 1) / 400.
(** Days from 1 January to the first of the month. *)
Fixpoint days_before_month_nat (y : Z) (m : nat) : Z :=
  match m with O => 0 | S k => days_before_month_nat y k + month_length y (Z.of_nat k) end.
Definition days_before_month (y m : Z) : Z := days_before_month_nat y (Z.to_nat m).
(** Days from 1 January 1970. *)
Definition epoch_day (y m d : Z) : Z :=
  days_before_year y + days_before_month y m + (d - 1) - days_before_year 1970.

(** A broken-down time; the year is counted from 1900 as in struct tm. *)
Record fields : Type := {
  f_year : Z; f_month : Z; f_day : Z; f_hour : Z; f_minute : Z; f_second : Z
}.
(** The instant it denotes: seconds since the epoch of a clock whose local
    time is UTC + [off] seconds; months and days outside their range carry over. *)
Definition instant (off : Z) (f : fields) : Z :=
  epoch_day (f_year f + 1900 + f_month f / 12) (f_month f mod 12) (f_day f) * 86400
  + f_hour f * 3600 + f_minute f * 60 + f_second f - off.
(** The fields a calendar shows. *)
Definition proper (f : fields) : Prop :=
  0 <= f_month f <= 11 /\ 1 <= f_day f <= month_length (f_year f + 1900) (f_month f) /\
  0 <= f_hour f <= 23 /\ 0 <= f_minute f <= 59 /\ 0 <= f_second f <= 59.

(** ** Texts *)

(** The English names of the months and days of the week. *)
Definition month_names : list (list Z) := [
  [106;97;110;117;97;114;121]; [102;101;98;114;117;97;114;121]; [109;97;114;99;104]; [97;112;114;105;108];
  [109;97;121]; [106;117;110;101]; [106;117;108;121]; [97;117;103;117;115;116];
  [115;101;112;116;101;109;98;101;114]; [111;99;116;111;98;101;114]; [110;111;118;101;109;98;101;114]; [100;101;99;101;109;98;101;114] ].
Definition day_names : list (list Z) := [
  [109;111;110;100;97;121]; [116;117;101;115;100;97;121]; [119;101;100;110;101;115;100;97;121]; [116;104;117;114;115;100;97;121];
  [102;114;105;100;97;121]; [115;97;116;117;114;100;97;121]; [115;117;110;100;97;121] ].
(** A text is an abbreviation of a name: at least its first three letters,
    capital or not. *)
Definition letter_of (c l : Z) : Prop := c = l \/ c = l - 32.
Definition abbreviates (name w : list Z) : Prop :=
  exists n, (3 <= n <= length name)%nat /\ Forall2 letter_of w (firstn n name).
Definition month_word (k : Z) (w : list Z) : Prop :=
  exists name, nth_error month_names (Z.to_nat k) = Some name /\ abbreviates name w.
Definition day_word (w : list Z) : Prop := exists name, In name day_names /\ abbreviates name w.
(** The names of Greenwich time: GMT, UT, UTC. *)
Definition greenwich (w : list Z) : Prop :=
  Forall2 letter_of w [103;109;116] \/ Forall2 letter_of w [117;116] \/ Forall2 letter_of w [117;116;99].

(** am and pm *)
Definition half_day_word (pm : bool) (w : list Z) : Prop :=
  Forall2 letter_of w (if pm then [112;109] else [97;109]).
Definition on_clock (pm : bool) (h : Z) : Z := h mod 12 + if pm then 12 else 0.
(** A zone offset is a number of hours when it is below 24, else hhmm. *)
Definition zone_minutes (n : Z) : Z := if n <? 24 then 60 * n else 60 * (n / 100) + n mod 100.
(** Dates from the year 100 on whose time in milliseconds is a long. *)
Definition common (f : fields) : Prop := proper f /\ 100 <= f_year f + 1900 <= 290000000.
