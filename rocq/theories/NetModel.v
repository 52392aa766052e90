(** Model of URL and URLConnection
    (/repo/library/Java/Net/URL/URL.cpp, URL.hpp:46-108,
    /repo/library/Java/Net/URLConnection/URLConnection.cpp).

    A member of a built-in type in which nothing has been stored is None.
    Copying such a member is not counted as undefined here, reading it is.
    Not modelled: the functions URL.hpp declares for URLConnection that have no
    definition (getContentEncoding, getRequestProperty, ...). *)

From Coq Require Import ZArith List Lia Bool String.
From Verif Require Import Base CppText TextSpec.
Import ListNotations.
Open Scope string_scope.
Open Scope list_scope.
Open Scope Z_scope.

(** URL.hpp:46-51 *)
Record URL : Type := { protocol : str; host : str; port : option Z; path : str; query : str }.
(** URL.cpp:31-37 *)
Definition URL_default : URL := {| protocol := []; host := []; port := Some (-1); path := []; query := [] |}.
(** URL.cpp:47-67: everything that would parse the text is commented out. *)
Definition URL_spec (spec : str) : URL := {| protocol := []; host := []; port := None; path := []; query := [] |}.
(** URL.cpp:39-45 *)
Definition URL_copy (u : URL) : URL :=
  {| protocol := protocol u; host := host u; port := port u; path := path u; query := query u |}.
(** URL.cpp:73-91 *)
Definition getHost (u : URL) : str := host u.
Definition getPath (u : URL) : str := path u.
Definition getProtocol (u : URL) : str := protocol u.
Definition getQuery (u : URL) : str := query u.
Definition getPort (u : URL) : outcome Z :=
  match port u with Some p => Ok p | None => UB Uninitialised end.
(** URL.cpp:93-117; the last line copies a C string. *)
Definition url_toString (u : URL) : outcome str :=
  let* p := getPort u in
  let url := protocol u ++ T "://" ++ host u in
  let url := if -1 <? p then url ++ T ":" ++ itoa p else url in
  let url := if negb (str_eqb (path u) (T "/")) then url ++ path u else url in
  let url := if negb (str_eqb (query u) []) then url ++ T "?" else url in
  Ok (cstr (url ++ query u)).

(** URL.hpp:67-79 *)
Record connection : Type := {
  c_url : URL; doInput : bool; doOutput : bool; connected : bool;
  ifModifiedSince : option Z; allowUserInteraction : option bool; useCaches : option bool;
  readTimeout : option Z; connectTimeout : option Z }.
(** URLConnection.cpp:37-39 *)
Definition connection_of (u : URL) : connection :=
  {| c_url := URL_copy u; doInput := true; doOutput := false; connected := false;
     ifModifiedSince := None; allowUserInteraction := None; useCaches := None;
     readTimeout := None; connectTimeout := None |}.

(** URLConnection.cpp:48-102: the settings *)
Inductive setting : Type :=
| SInput (b : bool) | SOutput (b : bool) | SCaches (b : bool) | SInteraction (b : bool)
| SModified (t : Z) | SRead (t : Z) | SConnect (t : Z).
Definition set (c : connection) (s : setting) : connection :=
  match s with
  | SInput b => {| c_url := c_url c; doInput := b; doOutput := doOutput c; connected := connected c;
                   ifModifiedSince := ifModifiedSince c; allowUserInteraction := allowUserInteraction c;
                   useCaches := useCaches c; readTimeout := readTimeout c; connectTimeout := connectTimeout c |}
  | SOutput b => {| c_url := c_url c; doInput := doInput c; doOutput := b; connected := connected c;
                   ifModifiedSince := ifModifiedSince c; allowUserInteraction := allowUserInteraction c;
                   useCaches := useCaches c; readTimeout := readTimeout c; connectTimeout := connectTimeout c |}
  | SCaches b => {| c_url := c_url c; doInput := doInput c; doOutput := doOutput c; connected := connected c;
                   ifModifiedSince := ifModifiedSince c; allowUserInteraction := allowUserInteraction c;
                   useCaches := Some b; readTimeout := readTimeout c; connectTimeout := connectTimeout c |}
  | SInteraction b => {| c_url := c_url c; doInput := doInput c; doOutput := doOutput c; connected := connected c;
                   ifModifiedSince := ifModifiedSince c; allowUserInteraction := Some b;
                   useCaches := useCaches c; readTimeout := readTimeout c; connectTimeout := connectTimeout c |}
  | SModified t => {| c_url := c_url c; doInput := doInput c; doOutput := doOutput c; connected := connected c;
                   ifModifiedSince := Some t; allowUserInteraction := allowUserInteraction c;
                   useCaches := useCaches c; readTimeout := readTimeout c; connectTimeout := connectTimeout c |}
  | SRead t => {| c_url := c_url c; doInput := doInput c; doOutput := doOutput c; connected := connected c;
                   ifModifiedSince := ifModifiedSince c; allowUserInteraction := allowUserInteraction c;
                   useCaches := useCaches c; readTimeout := Some t; connectTimeout := connectTimeout c |}
  | SConnect t => {| c_url := c_url c; doInput := doInput c; doOutput := doOutput c; connected := connected c;
                   ifModifiedSince := ifModifiedSince c; allowUserInteraction := allowUserInteraction c;
                   useCaches := useCaches c; readTimeout := readTimeout c; connectTimeout := Some t |}
  end.
(** URLConnection.cpp:52-102: the getters *)
Definition read {A} (x : option A) : outcome A := match x with Some a => Ok a | None => UB Uninitialised end.
Definition getDoInput (c : connection) : outcome bool := Ok (doInput c).
Definition getDoOutput (c : connection) : outcome bool := Ok (doOutput c).
Definition getUseCaches (c : connection) : outcome bool := read (useCaches c).
Definition getAllowUserInteraction (c : connection) : outcome bool := read (allowUserInteraction c).
Definition getIfModifiedSince (c : connection) : outcome Z := read (ifModifiedSince c).
Definition getReadTimeout (c : connection) : outcome Z := read (readTimeout c).
Definition getConnectTimeout (c : connection) : outcome Z := read (connectTimeout c).
(** URLConnection.cpp:104-106 *)
Definition connection_toString (c : connection) : outcome str := url_toString (c_url c).
