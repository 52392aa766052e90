(** Model of the request method and the response of HttpURLConnection,
    library/Java/Net/HttpURLConnection/HttpURLConnection.cpp and .hpp. The class is
    abstract: the response members are protected and only a subclass writes them.
    (The destructor, hpp:221, is declared and defined nowhere, so a subclass has
    to be linked with one.) *)

From Coq Require Import ZArith List.
From Verif Require Import Base CppText.
Import ListNotations.
Open Scope Z_scope.

(** HttpURLConnection.hpp:216-218; [None] is an int that was never written. *)
Record http := { method : str; responseCode : option Z; responseMessage : str }.

(** HttpURLConnection.cpp:31-33 with the initialiser "GET" of hpp:216; the
    response code has no initialiser. *)
Definition http_new : http := {| method := [71; 69; 84]; responseCode := None; responseMessage := [] |}.

(** What can happen to the members: setMethod (cpp:39-41), and a subclass that
    stores a response. *)
Inductive event := SetMethod (t : str) | Response (code : Z) (message : str).
Definition http_step (h : http) (e : event) : http :=
  match e with
  | SetMethod t => {| method := t; responseCode := responseCode h; responseMessage := responseMessage h |}
  | Response c t => {| method := method h; responseCode := Some c; responseMessage := t |}
  end.
Definition http_run (l : list event) : http := fold_left http_step l http_new.

(** HttpURLConnection.cpp:35-37, 43-45, 47-49 *)
Definition getMethod (h : http) : outcome str := Ok (method h).
Definition getResponseCode (h : http) : outcome Z :=
  match responseCode h with Some c => Ok c | None => UB Uninitialised end.
Definition getResponseMessage (h : http) : outcome str := Ok (responseMessage h).
