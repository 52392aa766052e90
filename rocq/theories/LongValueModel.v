(** Model of Long::valueOf (both) and Long::getLong (all three),
    library/Java/Lang/Long/Long.cpp. decode and parseLong are those of LongModel;
    the returned object is built from a long by the constructor (Long.cpp:49-52),
    so its text is the one of [mk_long]. *)

From Coq Require Import ZArith List.
From Verif Require Import Base Bits CppText StringModel LongModel.
Import ListNotations.
Open Scope Z_scope.

(** Long.cpp:563-566: valueOf(s) is decode(s), not parseLong(s, 10). *)
Definition valueOf (m : cpp) (s : str) : outcome long_obj :=
  let* r := decode m s in Ok (mk_long r).

(** Long.cpp:576-579 *)
Definition valueOf_radix (m : cpp) (s : str) (radix : Z) : outcome long_obj :=
  let* r := parseLong m s radix in Ok (mk_long r).

(** Long.cpp:217-220: the name itself is decoded; no property is looked up. *)
Definition getLong (m : cpp) (nm : str) : outcome long_obj :=
  let* r := decode m nm in Ok (mk_long r).

(** Long.cpp:229-231 and 240-242: both arguments are ignored and the default
    constructor (38-41) is used. *)
Definition getLong_default (nm : str) (val : Z) : long_obj := mk_long 0.
