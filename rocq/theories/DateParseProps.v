(** * C60: Date.parse *)

From Coq Require Import ZArith List Lia Bool String.
From Verif Require Import Base Bits CppText TextSpec TextLemmas StringModel StringProofs DateSpec DateModel DateProofs DateParseProofs DateParseProofs2.
Import ListNotations.
Open Scope string_scope.
Open Scope list_scope.
Open Scope Z_scope.

(** [parse m off now s]: [off] is the local time's offset from UTC in seconds,
    [now] the current time. Strings are shorter than 2^31. *)

(** Every string is either given a time or rejected with the exception of
    parse; in particular the loops end and no character outside the string is read. *)
Theorem C60_total off now s :
  -86400 <= off <= 86400 -> sane_now now -> small s ->
  (exists t, parse HW off now s = Ok t) \/ parse HW off now s = Throw InterruptedException.
Proof. apply parse_done. Qed.
Print Assumptions C60_total.

(** In ISO C++ the same, except that int arithmetic on long digit runs is undefined. *)
Theorem C60_iso off now s :
  parse ISO off now s = parse HW off now s \/ parse ISO off now s = UB SignedOverflow.
Proof. apply parse_ref. Qed.
Print Assumptions C60_iso.
Theorem C60_iso_refuted : parse ISO 0 1700000000 (T "1 Jan 4294969309") = UB SignedOverflow.
Proof. vm_compute. reflexivity. Qed.
Print Assumptions C60_iso_refuted.

(** "day month year hour:minute:second": the local time. *)
Theorem C60_local m off now f dt mt yt ht it st :
  -86400 <= off <= 86400 -> sane_now now -> common f ->
  numeral 10 dt (f_day f) -> month_word (f_month f) mt -> numeral 10 yt (f_year f + 1900) ->
  numeral 10 ht (f_hour f) -> numeral 10 it (f_minute f) -> numeral 10 st (f_second f) ->
  let text := dt ++ T " " ++ mt ++ T " " ++ yt ++ T " " ++ ht ++ T ":" ++ it ++ T ":" ++ st in
  small text -> parse m off now text = Ok (1000 * instant off f).
Proof. exact (parse_local m off now f dt mt yt ht it st). Qed.
Print Assumptions C60_local.

(** the same followed by GMT, UT or UTC (the format of toGMTString): UTC *)
Theorem C60_gmt m off now f dt mt yt ht it st zt :
  -86400 <= off <= 86400 -> sane_now now -> common f ->
  numeral 10 dt (f_day f) -> month_word (f_month f) mt -> numeral 10 yt (f_year f + 1900) ->
  numeral 10 ht (f_hour f) -> numeral 10 it (f_minute f) -> numeral 10 st (f_second f) -> greenwich zt ->
  let text := (dt ++ T " " ++ mt ++ T " " ++ yt ++ T " " ++ ht ++ T ":" ++ it ++ T ":" ++ st) ++ T " " ++ zt in
  small text -> parse m off now text = Ok (1000 * instant 0 f).
Proof. exact (parse_gmt m off now f dt mt yt ht it st zt). Qed.
Print Assumptions C60_gmt.

(** and an offset: "+" is east of Greenwich, "-" west. *)
Theorem C60_offset m off now f dt mt yt ht it st zt q nt n :
  -86400 <= off <= 86400 -> sane_now now -> common f ->
  numeral 10 dt (f_day f) -> month_word (f_month f) mt -> numeral 10 yt (f_year f + 1900) ->
  numeral 10 ht (f_hour f) -> numeral 10 it (f_minute f) -> numeral 10 st (f_second f) -> greenwich zt ->
  [q] = T "+" \/ [q] = T "-" -> numeral 10 nt n -> 0 <= n <= 9999 ->
  let text := (dt ++ T " " ++ mt ++ T " " ++ yt ++ T " " ++ ht ++ T ":" ++ it ++ T ":" ++ st) ++ T " " ++ zt ++ [q] ++ nt in
  small text ->
  parse m off now text = Ok (1000 * (instant 0 f + (if q =? 43 then - 60 * zone_minutes n else 60 * zone_minutes n))).
Proof.
  intros O N C DT MT YT HT IT ST ZT Q NT NB text SM.
  assert (Q' : q = 43 \/ q = 45) by (destruct Q as [Q|Q]; [left|right]; change (T "+") with [43] in Q; change (T "-") with [45] in Q; congruence).
  etransitivity; [exact (parse_offset m off now f dt mt yt ht it st zt q nt n O N C DT MT YT HT IT ST ZT Q' NT NB SM)|].
  destruct (q =? 43); f_equal; lia.
Qed.
Print Assumptions C60_offset.

(** "weekday month day hour:minute:second [GMT] year" (the format of toString) *)
Theorem C60_asctime m off now f wt mt dt ht it st yt :
  -86400 <= off <= 86400 -> sane_now now -> common f ->
  day_word wt -> month_word (f_month f) mt -> numeral 10 dt (f_day f) ->
  numeral 10 ht (f_hour f) -> numeral 10 it (f_minute f) -> numeral 10 st (f_second f) -> numeral 10 yt (f_year f + 1900) ->
  let text := wt ++ T " " ++ mt ++ T " " ++ dt ++ T " " ++ ht ++ T ":" ++ it ++ T ":" ++ st ++ [] ++ T " " ++ yt in
  small text -> parse m off now text = Ok (1000 * instant off f).
Proof. exact (parse_asctime m off now f wt mt dt ht it st yt). Qed.
Print Assumptions C60_asctime.
Theorem C60_toString m off now f wt mt dt ht it st zt yt :
  -86400 <= off <= 86400 -> sane_now now -> common f ->
  day_word wt -> month_word (f_month f) mt -> numeral 10 dt (f_day f) ->
  numeral 10 ht (f_hour f) -> numeral 10 it (f_minute f) -> numeral 10 st (f_second f) -> greenwich zt -> numeral 10 yt (f_year f + 1900) ->
  let text := wt ++ T " " ++ mt ++ T " " ++ dt ++ T " " ++ ht ++ T ":" ++ it ++ T ":" ++ st ++ (T " " ++ zt) ++ T " " ++ yt in
  small text -> parse m off now text = Ok (1000 * instant 0 f).
Proof. exact (parse_toString m off now f wt mt dt ht it st zt yt). Qed.
Print Assumptions C60_toString.

(** "month/day/year hour:minute:second" *)
Theorem C60_slash m off now f nt dt yt ht it st :
  -86400 <= off <= 86400 -> sane_now now -> common f ->
  numeral 10 nt (f_month f + 1) -> numeral 10 dt (f_day f) -> numeral 10 yt (f_year f + 1900) ->
  numeral 10 ht (f_hour f) -> numeral 10 it (f_minute f) -> numeral 10 st (f_second f) ->
  let text := nt ++ T "/" ++ dt ++ T "/" ++ yt ++ T " " ++ ht ++ T ":" ++ it ++ T ":" ++ st in
  small text -> parse m off now text = Ok (1000 * instant off f).
Proof. exact (parse_slash m off now f nt dt yt ht it st). Qed.
Print Assumptions C60_slash.

(** am and pm *)
Theorem C60_half_day m off now f pm h dt mt yt ht it st zt :
  -86400 <= off <= 86400 -> sane_now now -> common f ->
  1 <= h <= 12 -> f_hour f = on_clock pm h ->
  numeral 10 dt (f_day f) -> month_word (f_month f) mt -> numeral 10 yt (f_year f + 1900) ->
  numeral 10 ht h -> numeral 10 it (f_minute f) -> numeral 10 st (f_second f) -> half_day_word pm zt ->
  let text := (dt ++ T " " ++ mt ++ T " " ++ yt ++ T " " ++ ht ++ T ":" ++ it ++ T ":" ++ st) ++ T " " ++ zt in
  small text -> parse m off now text = Ok (1000 * instant off f).
Proof. exact (parse_half m off now f pm h dt mt yt ht it st zt). Qed.
Print Assumptions C60_half_day.

(** Text in parentheses is ignored ... *)
Theorem C60_comment m off now a c b :
  ~ In 40 a -> ~ In 41 a -> ~ In 41 c ->
  parse m off now (a ++ T "(" ++ c ++ T ")" ++ b) = parse m off now (a ++ b).
Proof. apply parse_comment. Qed.
Print Assumptions C60_comment.

(** Defects. ... but nested parentheses are not; the text toString produces in
    a zone that has no letters in its name is rejected; a year is reduced
    modulo 2^32. *)
Theorem C60_comment_refuted :
  parse HW 0 1700000000 (T "Thu Jan 9 (a (b) c) 2014") = Throw InterruptedException /\
  parse HW 0 1700000000 (T "Thu Jan 9 2014") = Ok 1389225600000.
Proof. split; vm_compute; reflexivity. Qed.
Print Assumptions C60_comment_refuted.
Theorem C60_round_trip_refuted :
  parse HW 25200 1700000000 (T "Wed Feb 20 03:21:05 +07 2019") = Throw InterruptedException.
Proof. vm_compute. reflexivity. Qed.
Print Assumptions C60_round_trip_refuted.
Theorem C60_wrap_refuted :
  parse HW 0 1700000000 (T "1 Jan 4294969309") = parse HW 0 1700000000 (T "1 Jan 2013") /\
  parse HW 0 1700000000 (T "1 Jan 2013") = Ok 1356998400000.
Proof. split; vm_compute; reflexivity. Qed.
Print Assumptions C60_wrap_refuted.
(** Days, hours, minutes and seconds out of range carry over, as in Java. *)
Example lenient :
  parse HW 0 1700000000 (T "31 Feb 2001 25:61:61") = parse HW 0 1700000000 (T "4 Mar 2001 02:02:01").
Proof. vm_compute. reflexivity. Qed.

(** Non-vacuity: 12 August 1995, 13:30:05. *)
Definition sample : fields := {| f_year := 95; f_month := 7; f_day := 12; f_hour := 13; f_minute := 30; f_second := 5 |}.
Example sample_common : common sample.
Proof. unfold common, proper, sample, month_length. cbn. lia. Qed.
Ltac decimal ds := split; [discriminate|]; exists ds; split; [repeat constructor; reflexivity|reflexivity].
Example sample_words : month_word 7 (T "Aug") /\ month_word 7 (T "AUGUST") /\ day_word (T "Sat") /\ greenwich (T "GMT") /\ half_day_word true (T "Pm").
Proof.
  split; [exists (T "august"); split; [reflexivity|exists 3%nat; split; [cbn; lia|repeat constructor; unfold letter_of; lia]]|].
  split; [exists (T "august"); split; [reflexivity|exists 6%nat; split; [cbn; lia|repeat constructor; unfold letter_of; lia]]|].
  split; [exists (T "saturday"); split; [cbn; tauto|exists 3%nat; split; [cbn; lia|repeat constructor; unfold letter_of; lia]]|].
  split; [left; repeat constructor; unfold letter_of; lia|]. repeat constructor; unfold letter_of; lia.
Qed.
Example sample_gmt m : parse m 25200 1700000000 (T "12 Aug 1995 13:30:05 GMT") = Ok 808234205000.
Proof.
  destruct sample_words as (A & _ & _ & G & _).
  exact (C60_gmt m 25200 1700000000 sample (T "12") (T "Aug") (T "1995") (T "13") (T "30") (T "05") (T "GMT")
    ltac:(lia) ltac:(unfold sane_now; lia) sample_common ltac:(decimal [1;2]) A ltac:(decimal [1;9;9;5]) ltac:(decimal [1;3])
    ltac:(decimal [3;0]) ltac:(decimal [0;5]) G ltac:(unfold small, int_max; cbn; lia)).
Qed.
