(** Model of the texts of Date (/repo/library/Java/Util/Date/Date.cpp), of
    TimeZone, SimpleDateFormat and System.getenv.

    strftime is modelled by contract in the C locale; the part of a pattern
    from the first directive that is not modelled (other letters, flags,
    widths) is given by the parameter [other]. The result of localtime
    depends on the environment variable TZ; a zone has a constant offset and
    one name. *)

From Coq Require Import ZArith List Lia Bool String.
From Verif Require Import Base CppText TextSpec StringModel DateSpec DateModel.
Import ListNotations.
Open Scope string_scope.
Open Scope list_scope.
Open Scope Z_scope.

(** ** The C library *)
Record clib : Type := {
  other : str -> fields -> str;
  zone_offset : option str -> Z;
  zone_name : option str -> str
}.
Definition pad2 (n : Z) : str := [48 + n / 10 mod 10; 48 + n mod 10].
Definition day_abbreviations : list str := [T "Sun"; T "Mon"; T "Tue"; T "Wed"; T "Thu"; T "Fri"; T "Sat"].
Definition month_abbreviations : list str :=
  [T "Jan"; T "Feb"; T "Mar"; T "Apr"; T "May"; T "Jun"; T "Jul"; T "Aug"; T "Sep"; T "Oct"; T "Nov"; T "Dec"].
(** tm_wday as localtime and mktime set it *)
Definition tm_wday (f : fields) : Z := (epoch_day (f_year f + 1900) (f_month f) (f_day f) + 4) mod 7.
Definition pick (l : list str) (i : Z) : str := nth (Z.to_nat i) l (T "?").
Definition directive (zn : str) (f : fields) (c : Z) : option str :=
  if c =? 37 then Some [37] (* %% *)
  else if c =? 89 then Some (itoa (f_year f + 1900)) (* Y *)
  else if c =? 109 then Some (pad2 (f_month f + 1)) (* m *)
  else if c =? 100 then Some (pad2 (f_day f)) (* d *)
  else if c =? 72 then Some (pad2 (f_hour f)) (* H *)
  else if c =? 77 then Some (pad2 (f_minute f)) (* M *)
  else if c =? 83 then Some (pad2 (f_second f)) (* S *)
  else if c =? 73 then Some (pad2 (if f_hour f mod 12 =? 0 then 12 else f_hour f mod 12)) (* I *)
  else if c =? 112 then Some (if f_hour f <? 12 then T "AM" else T "PM") (* p *)
  else if c =? 121 then Some (pad2 ((f_year f + 1900) mod 100)) (* y *)
  else if c =? 70 then Some (itoa (f_year f + 1900) ++ T "-" ++ pad2 (f_month f + 1) ++ T "-" ++ pad2 (f_day f)) (* F *)
  else if c =? 84 then Some (pad2 (f_hour f) ++ T ":" ++ pad2 (f_minute f) ++ T ":" ++ pad2 (f_second f)) (* T *)
  else if c =? 97 then Some (pick day_abbreviations (tm_wday f)) (* a *)
  else if c =? 98 then Some (pick month_abbreviations (f_month f)) (* b *)
  else if c =? 90 then Some zn (* Z *)
  else None.
Fixpoint expand (L : clib) (zn : str) (f : fields) (p : str) {struct p} : str :=
  match p with
  | [] => []
  | c :: r =>
      if c =? 37 then
        match r with
        | [] => [37]
        | k :: r' => match directive zn f k with Some s => s ++ expand L zn f r' | None => other L p f end
        end
      else c :: expand L zn f r
  end.
(** strftime into a buffer of [size] bytes, then reading it as a C string: a
    text that does not fit leaves the contents of the buffer unspecified. *)
Definition strftime (L : clib) (size : Z) (zn : str) (p : str) (f : fields) : outcome str :=
  let s := expand L zn f (cstr p) in
  if zlen s <? size then Ok (cstr s) else UB Uninitialised.

(** ** Date *)

(** Date.cpp:537-546 *)
Definition timeToString (L : clib) (zn p : str) (f : fields) : outcome str := strftime L 100 zn p f.
(** Date.cpp:488-513, 162-164: the text is made when the date is. *)
Definition date_toString (L : clib) (zn : str) (d : Date) : outcome str :=
  timeToString L zn (T "%a %b %d %T %Z %Y") (backUp d).
(** Date.cpp:176-179: the shared buffer *)
Definition toLocaleString (L : clib) (zn : str) (buf : fields) (d : Date) : outcome str :=
  timeToString L zn (T "%b %d, %Y %I:%M:%S %p") (get_fields buf d).
(** Date.cpp:181-188, 548-552 *)
Definition toGMTString (L : clib) (off : Z) (zn : str) (d : Date) : outcome (str * fields) :=
  let* u := getUTCTime off (timer d) in
  match localtime off u with
  | Some b => let* s := timeToString L zn (T "%d %b %Y %T GMT") b in Ok (s, b)
  | None => UB NullDeref
  end.

(** ** TimeZone (/repo/library/Java/Util/TimeZone/TimeZone.cpp)

    A program holds zones by reference or by value; getTimeZone returns a
    reference to the one static object. *)
Inductive zoneref : Type := Shared | Own (id : str).
(** TimeZone.cpp:39-43: the static object gets the new id. *)
Definition getTimeZone (shared id : str) : zoneref * str := (Shared, id).
(** TimeZone.cpp:35-37 *)
Definition getID (shared : str) (z : zoneref) : str := match z with Shared => shared | Own id => id end.

(** ** The environment *)
Definition env : Type := list (str * str).
Fixpoint c_getenv (e : env) (name : str) : option str :=
  match e with [] => None | (n, v) :: r => if str_eqb n name then Some v else c_getenv r name end.
Definition c_unsetenv (e : env) (name : str) : env := filter (fun p => negb (str_eqb (fst p) name)) e.
Definition c_putenv (e : env) (name value : str) : env := (name, value) :: c_unsetenv e name.
(** /repo/library/Java/Lang/System/System.cpp:43-45: the String is made from a null pointer when there is none. *)
Definition System_getenv (e : env) (name : str) : outcome str :=
  match c_getenv e (cstr name) with Some v => Ok v | None => UB NullDeref end.

(** ** SimpleDateFormat (/repo/library/Java/Text/SimpleDateFormat/SimpleDateFormat.cpp) *)
Record sdf : Type := { datePattern : str; timeZone : str }.
(** SimpleDateFormat.cpp:31-37; TimeZone.hpp:40 *)
Definition sdf_new (p : str) : sdf := {| datePattern := p; timeZone := T "UTC" |}.
(** SimpleDateFormat.cpp:39-41: copies the zone *)
Definition setTimeZone (s : sdf) (shared : str) (z : zoneref) : sdf :=
  {| datePattern := datePattern s; timeZone := getID shared z |}.
(** SimpleDateFormat.cpp:43-58: the text, the environment and the buffer of
    localtime afterwards. tm_gmtoff after gmtime is 0. *)
Definition format (m : cpp) (L : clib) (s : sdf) (e : env) (d : Date) : outcome (str * env * fields) :=
  let e1 := c_putenv e (T "TZ") (cstr (timeZone s)) in
  let tz := c_getenv e1 (T "TZ") in
  let offset := 0 in
  let* ms := getTime m d in
  let* timestamp := sadd m 64 (Z.quot ms 1000) offset in
  match localtime (zone_offset L tz) timestamp with
  | None => UB NullDeref
  | Some b =>
      let* text := strftime L 80 (zone_name L tz) (datePattern s) b in
      let e2 := c_unsetenv e1 (T "TZ") in
      let* t := trim text in
      Ok (t, e2, b)
  end.
