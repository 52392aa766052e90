(** Specification of media types. *)

From Coq Require Import ZArith List Bool.
From Verif Require Import Base CppText TextSpec StringSpec MediaTypeModel.
Import ListNotations.
Open Scope Z_scope.

(** What the constructors accept. *)
Definition legal (m : mediatype) : Prop := mtype m <> [] /\ msub m <> [] /\ (mtype m = STAR -> msub m = STAR).

(** The text [s] denotes the media type [m]: what precedes the first ';', without surrounding blanks,
    is "*" or type "/" subtype, where the '/' is the first one. *)
Definition denotes (s : str) (m : mediatype) : Prop :=
  exists part full, (part = s \/ exists rest, s = part ++ [59] ++ rest) /\ ~ In 59 part /\ trimmed part full /\
  ((full = STAR /\ m = mkM STAR STAR) \/ (full = mtype m ++ [47] ++ msub m /\ ~ In 47 (mtype m) /\ legal m)).

(** Compatibility, as the tests of the project and JAX-RS have it: a wildcard type matches all;
    otherwise the types are equal and the subtypes are equal, or one is a wildcard,
    or one is a wildcard with the suffix of the other ("*+xml", "atom+xml"). *)
Definition covers (a b : str) : Prop := a = STAR \/ a = b \/ exists p x, a = [42; 43] ++ x /\ ~ In 43 p /\ b = p ++ [43] ++ x.
Definition matches (a b : mediatype) : Prop :=
  mtype a = STAR \/ mtype b = STAR \/ (mtype a = mtype b /\ (covers (msub a) (msub b) \/ covers (msub b) (msub a))).
