(** The texts of dates. *)

From Coq Require Import ZArith List.
From Verif Require Import TextSpec DateSpec.
Import ListNotations.
Open Scope Z_scope.

(** A number from 0 to 99 in two digits. *)
Definition two_digits (s : list Z) (n : Z) : Prop := numeral 10 s n /\ List.length s = 2%nat.
(** The first three letters of a name, the first of them a capital. *)
Definition short_name (name s : list Z) : Prop :=
  exists a b c r, name = a :: b :: c :: r /\ s = [a - 32; b; c].
(** 1 January 1970 was a Thursday; the names start with Monday. *)
Definition short_day (f : fields) (s : list Z) : Prop :=
  exists name, nth_error day_names (Z.to_nat ((epoch_day (f_year f + 1900) (f_month f) (f_day f) + 3) mod 7)) = Some name /\
    short_name name s.
Definition short_month (f : fields) (s : list Z) : Prop :=
  exists name, nth_error month_names (Z.to_nat (f_month f)) = Some name /\ short_name name s.
(** hh:mm:ss *)
Definition clock (f : fields) (s : list Z) : Prop :=
  exists h m c, two_digits h (f_hour f) /\ two_digits m (f_minute f) /\ two_digits c (f_second f) /\
    s = h ++ [58] ++ m ++ [58] ++ c.

(** What a pattern of directives stands for at the time [f] in a zone named
    [z]: %Y year, %m month, %d day of the month, %H %M %S time of day, %y year
    of the century, %F = %Y-%m-%d, %T = %H:%M:%S,
    %I and %p hour of the half day and AM or PM, %a and %b short names, %Z
    zone, %% the percent sign. *)
Inductive written (f : fields) (z : list Z) : list Z -> list Z -> Prop :=
| w_end : written f z [] []
| w_char c p s : c <> 37 -> written f z p s -> written f z (c :: p) (c :: s)
| w_percent p s : written f z p s -> written f z (37 :: 37 :: p) (37 :: s)
| w_year p s y : canonical_unsigned 10 y (f_year f + 1900) -> written f z p s -> written f z (37 :: 89 :: p) (y ++ s)
| w_month p s n : two_digits n (f_month f + 1) -> written f z p s -> written f z (37 :: 109 :: p) (n ++ s)
| w_day p s n : two_digits n (f_day f) -> written f z p s -> written f z (37 :: 100 :: p) (n ++ s)
| w_hour p s n : two_digits n (f_hour f) -> written f z p s -> written f z (37 :: 72 :: p) (n ++ s)
| w_minute p s n : two_digits n (f_minute f) -> written f z p s -> written f z (37 :: 77 :: p) (n ++ s)
| w_second p s n : two_digits n (f_second f) -> written f z p s -> written f z (37 :: 83 :: p) (n ++ s)
| w_short_year p s n : two_digits n ((f_year f + 1900) mod 100) -> written f z p s -> written f z (37 :: 121 :: p) (n ++ s)
| w_date p s y n d : canonical_unsigned 10 y (f_year f + 1900) -> two_digits n (f_month f + 1) -> two_digits d (f_day f) ->
    written f z p s -> written f z (37 :: 70 :: p) (y ++ [45] ++ n ++ [45] ++ d ++ s)
| w_clock p s c : clock f c -> written f z p s -> written f z (37 :: 84 :: p) (c ++ s)
| w_day_name p s n : short_day f n -> written f z p s -> written f z (37 :: 97 :: p) (n ++ s)
| w_month_name p s n : short_month f n -> written f z p s -> written f z (37 :: 98 :: p) (n ++ s)
| w_half_hour p s n h : 1 <= h <= 12 -> f_hour f = on_clock (12 <=? f_hour f) h -> two_digits n h ->
    written f z p s -> written f z (37 :: 73 :: p) (n ++ s)
| w_half_day p s : written f z p s -> written f z (37 :: 112 :: p) ((if f_hour f <? 12 then [65; 77] else [80; 77]) ++ s)
| w_zone p s : written f z p s -> written f z (37 :: 90 :: p) (z ++ s).
