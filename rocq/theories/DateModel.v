(** Model of /repo/library/Java/Util/Date/Date.cpp.

    The C library is modelled by contract, for a time zone with a constant
    offset of [off] seconds from UTC (no daylight saving time):
    - [localtime] stores the local broken-down time in one static buffer,
      shared by all calls of localtime and gmtime, and returns its address
      (null when the year does not fit an int);
    - [mktime] returns the instant of possibly non-normalised fields and
      normalises them in place, or returns -1 and changes nothing when the
      resulting year does not fit an int.
    Not modelled: tm_yday, tm_isdst, the text produced by strftime (toString,
    toLocaleString, toGMTString return a function of the broken-down time
    recorded here as [backUp]), hashCode. *)

From Coq Require Import ZArith List Lia Bool String.
From Verif Require Import Base CppText TextSpec StringModel DateSpec.
Import ListNotations.
Open Scope string_scope.
Open Scope list_scope.
Open Scope Z_scope.

(** ** The C library *)

(** The civil date of a day number (days since 1970-01-01): years are taken
    to start in March, 400-year cycles have 146097 days. *)
Definition civil (z : Z) : Z * Z * Z :=
  let z := z + 719468 in
  let era := z / 146097 in
  let doe := z mod 146097 in
  let yoe := (doe - doe / 1460 + doe / 36524 - doe / 146096) / 365 in
  let doy := doe - (365 * yoe + yoe / 4 - yoe / 100) in
  let mp := (5 * doy + 2) / 153 in
  let d := doy - (153 * mp + 2) / 5 + 1 in
  let m := if mp <? 10 then mp + 2 else mp - 10 in
  (yoe + era * 400 + (if mp <? 10 then 0 else 1), m, d).

(** The fields of the local time at an instant. *)
Definition broken_down (off t : Z) : fields :=
  let u := t + off in
  let day := u / 86400 in
  let s := u mod 86400 in
  let '(y, m, d) := civil day in
  {| f_year := y - 1900; f_month := m; f_day := d;
     f_hour := s / 3600; f_minute := s / 60 mod 60; f_second := s mod 60 |}.
Definition year_fits (f : fields) : bool := (int_min <=? f_year f) && (f_year f <=? int_max).
(** localtime: null when the year does not fit *)
Definition localtime (off t : Z) : option fields :=
  let f := broken_down off t in if year_fits f then Some f else None.
(** mktime: the result and the fields left in the structure *)
Definition mktime (off : Z) (f : fields) : Z * fields :=
  let t := instant off f in
  let g := broken_down off t in
  if year_fits g then (t, g) else (-1, f).

(** ** Objects *)

(** A Date has a timer and a text (here: the fields it was formatted from).
    Its third member [localTimer] always is the address of the static buffer,
    so it is not part of the object but of the world: [buf]. *)
Record Date : Type := { timer : Z; backUp : fields }.

(** Date.cpp:488-513 on the buffer the object points to *)
Definition updateDateStatus (off : Z) (buf : fields) : Date * fields :=
  let '(t, b) := mktime off buf in ({| timer := t; backUp := b |}, b).
(** Date.cpp:531-535: a null result of localtime is dereferenced by mktime. *)
Definition initializeDate (off ts : Z) : outcome (Date * fields) :=
  match localtime off ts with
  | Some b => Ok (updateDateStatus off b)
  | None => UB NullDeref
  end.
(** Date.cpp:515-529 *)
Definition initializeDate_fields (off : Z) (f : fields) : outcome (Date * fields) :=
  initializeDate off (fst (mktime off f)).
(** Date.cpp:53-56, 94-96 (the constructor and setTime); the division truncates. *)
Definition Date_ms (off millisec : Z) : outcome (Date * fields) :=
  initializeDate off (Z.quot millisec 1000).
(** Date.cpp:41-51 *)
Definition Date_fields (off year month date hour minute second : Z) : outcome (Date * fields) :=
  initializeDate_fields off {| f_year := year; f_month := month; f_day := date;
                               f_hour := hour; f_minute := minute; f_second := second |}.
(** Date.cpp:558-565, 171-174 (copy constructor, assignment, clone) *)
Definition Date_copy (off : Z) (d : Date) : outcome (Date * fields) := initializeDate off (timer d).

(** Date.cpp:69-92, 98-102: a setter writes one field of the shared buffer. *)
Inductive field : Type := Fyear | Fmonth | Fday | Fhour | Fminute | Fsecond.
Definition put_field (b : fields) (k : field) (v : Z) : fields :=
  match k with
  | Fyear => {| f_year := v; f_month := f_month b; f_day := f_day b; f_hour := f_hour b; f_minute := f_minute b; f_second := f_second b |}
  | Fmonth => {| f_year := f_year b; f_month := v; f_day := f_day b; f_hour := f_hour b; f_minute := f_minute b; f_second := f_second b |}
  | Fday => {| f_year := f_year b; f_month := f_month b; f_day := v; f_hour := f_hour b; f_minute := f_minute b; f_second := f_second b |}
  | Fhour => {| f_year := f_year b; f_month := f_month b; f_day := f_day b; f_hour := v; f_minute := f_minute b; f_second := f_second b |}
  | Fminute => {| f_year := f_year b; f_month := f_month b; f_day := f_day b; f_hour := f_hour b; f_minute := v; f_second := f_second b |}
  | Fsecond => {| f_year := f_year b; f_month := f_month b; f_day := f_day b; f_hour := f_hour b; f_minute := f_minute b; f_second := v |}
  end.
Definition set_field (off : Z) (buf : fields) (d : Date) (k : field) (v : Z) : Date * fields :=
  updateDateStatus off (put_field buf k v).
(** Date.cpp:104-130: the getters read the shared buffer, whatever the object. *)
Definition get_fields (buf : fields) (d : Date) : fields := buf.
(** Date.cpp:132-134 *)
Definition getTime (m : cpp) (d : Date) : outcome Z := smul m 64 (timer d) 1000.
(** Date.cpp:140-146: the argument is passed by value, so a copy is
    constructed (overwriting the shared buffer). *)
Definition after (off : Z) (d e : Date) : outcome (bool * fields) :=
  let* p := Date_copy off e in Ok (timer (fst p) <? timer d, snd p).
Definition before (off : Z) (d e : Date) : outcome (bool * fields) :=
  let* p := Date_copy off e in Ok (timer d <? timer (fst p), snd p).
(** Date.cpp:148-160 *)
Definition compareTo (m : cpp) (d e : Date) : outcome Z :=
  let* timeOffset := ssub m 64 (timer d) (timer e) in
  Ok (if timeOffset <? 0 then -1 else if 0 <? timeOffset then 1 else 0).
(** Date.cpp:554-556, argument by value *)
Definition equals (m : cpp) (off : Z) (d e : Date) : outcome (bool * fields) :=
  let* p := Date_copy off e in
  let* a := getTime m d in
  let* b := getTime m (fst p) in
  Ok (a =? b, snd p).
(** Date.cpp:548-552: gmtime_r fills a local structure (null result passed to
    mktime when the year does not fit). *)
Definition getUTCTime (off t : Z) : outcome Z :=
  match localtime 0 t with Some b => Ok (fst (mktime off b)) | None => UB NullDeref end.
(** Date.cpp:166-169 *)
Definition UTC (m : cpp) (off year month date hour minute second : Z) : outcome Z :=
  let* p := Date_fields off year month date hour minute second in
  let* t := getTime m (fst p) in
  getUTCTime off t.

(** ** Parsing *)

(** Date.cpp:195-206; every iteration shortens the string, fuel = its length. *)
Fixpoint removeBracket (fuel : nat) (s : str) : outcome str :=
  let close := indexOf_char s 41 in
  let op := indexOf_char s 40 in
  if negb (op =? -1) && (op <? close) then
    match fuel with
    | O => OutOfFuel
    | S k =>
        let* a := subString s 0 op in
        let* b := subString1 s (close + 1) in
        removeBracket k (a ++ b)
    end
  else Ok s.

(** Date.cpp:442-461: do-while from [index]; [isNumber] is false at the end
    only when a non-digit was met. Fuel = the remaining characters. *)
Fixpoint getSequenceNumber (m : cpp) (fuel : nat) (s : str) (index currentNumber : Z) : outcome (Z * Z) :=
  match fuel with
  | O => OutOfFuel
  | S k =>
      let* c := charAt s index in
      if (48 <=? schar c) && (schar c <=? 57) then
        let* n10 := smul m 32 currentNumber 10 in
        let* n := sadd m 32 n10 (schar c - 48) in
        if index + 1 <? zlen s then getSequenceNumber m k s (index + 1) n else Ok (n, index + 1)
      else Ok (currentNumber, index)
  end.
(** Date.cpp:463-486 *)
Definition is_letter (c : Z) : bool := ((65 <=? c) && (c <=? 90)) || ((97 <=? c) && (c <=? 122)).
Fixpoint getSequenceChar (fuel : nat) (s : str) (index : Z) (word : str) : outcome (str * Z) :=
  match fuel with
  | O => OutOfFuel
  | S k =>
      let* c := charAt s index in
      if is_letter (schar c) then
        if index + 1 <? zlen s then getSequenceChar k s (index + 1) (word ++ [c]) else Ok (word ++ [c], index + 1)
      else Ok (word, index)
  end.

(** Date.cpp:217-235 *)
Definition wordTable : list (str * Z) := [
  (T "am", 14); (T "pm", 1);
  (T "monday", 0); (T "tuesday", 0); (T "wednesday", 0); (T "thursday", 0); (T "friday", 0);
  (T "saturday", 0); (T "sunday", 0);
  (T "january", 2); (T "february", 3); (T "march", 4); (T "april", 5); (T "may", 6); (T "june", 7);
  (T "july", 8); (T "august", 9); (T "september", 10); (T "october", 11); (T "november", 12); (T "december", 13);
  (T "gmt", 10000); (T "ut", 10000); (T "utc", 10000);
  (T "est", 10300); (T "edt", 10240); (T "cst", 10360); (T "cdt", 10300);
  (T "mst", 10420); (T "mdt", 10360); (T "pst", 10480); (T "pdt", 10420) ].
(** Date.cpp:335-337: the table is searched from the end. *)
Fixpoint lookup (m : cpp) (word : str) (table : list (str * Z)) : outcome (option Z) :=
  match table with
  | [] => Ok None
  | (w, action) :: r =>
      let* b := regionMatches m true w 0 word 0 (zlen word) in
      if b then Ok (Some action) else lookup m word r
  end.

(** The local variables of parse. *)
Record pstate : Type := {
  p_year : Z; p_month : Z; p_day : Z; p_hour : Z; p_minute : Z; p_second : Z;
  p_zone : Z; p_prev : Z
}.
(** Date.cpp:209-215, 237 *)
Definition p_init : pstate :=
  {| p_year := int_min; p_month := -1; p_day := -1; p_hour := -1; p_minute := -1; p_second := -1;
     p_zone := -1; p_prev := 0 |}.
(** [(byte) n] *)
Definition to_byte (n : Z) : Z := uwrap 8 n.
Definition Fail {A} : outcome A := Throw InterruptedException.
(** assignments to one variable; a number or a word resets [previousChar] *)
Definition w_year p v := {| p_year := v; p_month := p_month p; p_day := p_day p; p_hour := p_hour p; p_minute := p_minute p; p_second := p_second p; p_zone := p_zone p; p_prev := 0 |}.
Definition w_month p v := {| p_year := p_year p; p_month := v; p_day := p_day p; p_hour := p_hour p; p_minute := p_minute p; p_second := p_second p; p_zone := p_zone p; p_prev := 0 |}.
Definition w_day p v := {| p_year := p_year p; p_month := p_month p; p_day := v; p_hour := p_hour p; p_minute := p_minute p; p_second := p_second p; p_zone := p_zone p; p_prev := 0 |}.
Definition w_hour p v := {| p_year := p_year p; p_month := p_month p; p_day := p_day p; p_hour := v; p_minute := p_minute p; p_second := p_second p; p_zone := p_zone p; p_prev := 0 |}.
Definition w_minute p v := {| p_year := p_year p; p_month := p_month p; p_day := p_day p; p_hour := p_hour p; p_minute := v; p_second := p_second p; p_zone := p_zone p; p_prev := 0 |}.
Definition w_second p v := {| p_year := p_year p; p_month := p_month p; p_day := p_day p; p_hour := p_hour p; p_minute := p_minute p; p_second := v; p_zone := p_zone p; p_prev := 0 |}.
Definition w_zone p v := {| p_year := p_year p; p_month := p_month p; p_day := p_day p; p_hour := p_hour p; p_minute := p_minute p; p_second := p_second p; p_zone := v; p_prev := 0 |}.
Definition w_prev p v := {| p_year := p_year p; p_month := p_month p; p_day := p_day p; p_hour := p_hour p; p_minute := p_minute p; p_second := p_second p; p_zone := p_zone p; p_prev := v |}.

(** Date.cpp:261-321: what is done with a number; [c] is the character after
    it (or, at the end of the string, the first digit of the number), [ended]
    is [index >= stringLength]. *)
Definition number (m : cpp) (p : pstate) (n c : Z) (ended : bool) : outcome pstate :=
  if ((p_prev p =? 43) || (p_prev p =? 45)) && negb (p_year p =? int_min) then
    let* n1 := (if n <? 24 then smul m 32 n 60
                else let* h := smul m 32 (Z.quot n 100) 60 in sadd m 32 (Z.rem n 100) h) in
    let* n2 := (if p_prev p =? 43 then sneg m 32 n1 else Ok n1) in
    if negb (p_zone p =? 0) && negb (p_zone p =? -1) then Fail else Ok (w_zone p n2)
  else if 70 <=? n then
    if negb (p_year p =? int_min) then Fail
    else if (c <=? 32) || (c =? 44) || (c =? 47) || ended then Ok (w_year p n)
    else Fail
  else if c =? 58 then
    if p_hour p <? 0 then Ok (w_hour p (to_byte n))
    else if p_minute p <? 0 then Ok (w_minute p (to_byte n))
    else Fail
  else if c =? 47 then
    if p_month p <? 0 then let* n1 := ssub m 32 n 1 in Ok (w_month p (to_byte n1))
    else if p_day p <? 0 then Ok (w_day p (to_byte n))
    else Fail
  else if negb ended && negb (c =? 44) && (32 <? c) && negb (c =? 45) then Fail
  else if (0 <=? p_hour p) && (p_minute p <? 0) then Ok (w_minute p (to_byte n))
  else if (0 <=? p_minute p) && (p_second p <? 0) then Ok (w_second p (to_byte n))
  else if p_day p <? 0 then Ok (w_day p (to_byte n))
  else if (p_year p =? int_min) && (0 <=? p_month p) && (0 <=? p_day p) then Ok (w_year p n)
  else Fail.

(** Date.cpp:339-370: what is done with a word found in the table. *)
Definition word_action (p : pstate) (action : Z) : outcome pstate :=
  if action =? 0 then Ok (w_prev p 0)
  else if action =? 1 then
    if (12 <? p_hour p) || (p_hour p <? 1) then Fail
    else if p_hour p <? 12 then Ok (w_hour p (p_hour p + 12)) else Ok (w_prev p 0)
  else if action =? 14 then
    if (12 <? p_hour p) || (p_hour p <? 1) then Fail
    else if p_hour p =? 12 then Ok (w_hour p 0) else Ok (w_prev p 0)
  else if action <=? 13 then
    if p_month p <? 0 then Ok (w_month p (to_byte (action - 2))) else Fail
  else Ok (w_zone p (action - 10000)).

(** Date.cpp:249-372; every iteration moves [index] forward, fuel = the
    remaining characters. *)
Fixpoint parse_loop (m : cpp) (fuel : nat) (s : str) (index : Z) (p : pstate) : outcome pstate :=
  if zlen s <=? index then Ok p
  else match fuel with
  | O => OutOfFuel
  | S k =>
      let* b := charAt s index in
      let c := schar b in
      if (c <=? 32) || (c =? 44) then parse_loop m k s (index + 1) p
      else if (48 <=? c) && (c <=? 57) then
        let* r := getSequenceNumber m (S (List.length s)) s index 0 in
        let '(n, i) := r in
        let* b2 := (if i <? zlen s then charAt s i else Ok b) in
        let* p' := number m p n (schar b2) (zlen s <=? i) in
        parse_loop m k s i p'
      else if (c =? 47) || (c =? 58) || (c =? 43) || (c =? 45) then parse_loop m k s (index + 1) (w_prev p c)
      else
        let* r := getSequenceChar (S (List.length s)) s index [] in
        let '(w, i) := r in
        if i <=? index then Fail
        else
          let* a := lookup m w (rev wordTable) in
          match a with
          | None => Fail
          | Some action => let* p' := word_action p action in parse_loop m k s i p'
          end
  end.

(** Date.cpp:374-425. [now] is the current time; getOffsetFromUTC (428-440)
    is [mktime(gmtime(now)) - mktime(localtime(now))]; a null result of
    localtime/gmtime is dereferenced. tm_year of the current date does not
    overflow when increased by 1900 (current time within the years below 2^31 - 1900). *)
Definition getOffsetFromUTC (off now : Z) : outcome Z :=
  match localtime 0 now, localtime off now with
  | Some g, Some l => Ok (fst (mktime off g) - fst (mktime off l))
  | _, _ => UB NullDeref
  end.
Definition default_century (m : cpp) (off now year : Z) : outcome Z :=
  if year <? 100 then
    match localtime off now with
    | None => UB NullDeref
    | Some l =>
        let* y := sadd m 32 (f_year l) 1900 in
        let* start := ssub m 32 y 80 in
        let* year1 := sadd m 32 year (Z.quot start 100 * 100) in
        if year1 <? start then sadd m 32 year1 100 else Ok year1
    end
  else Ok year.
Definition nonneg (x : Z) : Z := if x <? 0 then 0 else x.
Definition finish (m : cpp) (off now : Z) (p : pstate) : outcome Z :=
  if (p_year p =? int_min) || (p_month p <? 0) || (p_day p <? 0) then Fail
  else
    let* year := default_century m off now (p_year p) in
    let* ty := ssub m 32 year 1900 in
    let result := fst (mktime off {| f_year := ty; f_month := p_month p; f_day := p_day p;
                                     f_hour := nonneg (p_hour p); f_minute := nonneg (p_minute p);
                                     f_second := nonneg (p_second p) |}) in
    if p_zone p =? -1 then smul m 64 result 1000
    else
      let* offsetFromUTC := getOffsetFromUTC off now in
      let* z := smul m 32 (p_zone p) 60 in
      let* r1 := sadd m 64 result z in
      let* r2 := ssub m 64 r1 offsetFromUTC in
      smul m 64 r2 1000.
(** Date.cpp:208-426 *)
Definition parse (m : cpp) (off now : Z) (s : str) : outcome Z :=
  if zlen s =? 0 then Fail
  else
    let* s1 := removeBracket (List.length s) s in
    let* p := parse_loop m (List.length s1) s1 0 p_init in
    finish m off now p.
(** Date.cpp:58-61 *)
Definition Date_string (m : cpp) (off now : Z) (s : str) : outcome (Date * fields) :=
  let* t := parse m off now s in initializeDate off (Z.quot t 1000).
