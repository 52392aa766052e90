(** Model of /repo/library/Java/Util/UUID/UUID.cpp.

    Not modelled: the timestamp field (the time of construction; not set by
    UUID()), the private constructor from a byte array, which nothing calls. *)

From Coq Require Import ZArith List Bool.
From Verif Require Import Base CppText StringModel LongModel UuidSpec UuidLibModel.
Import ListNotations.
Open Scope Z_scope.

(** UUID.hpp:45-46 *)
Record UUID := mkUUID { mostSigBits : Z; leastSigBits : Z }.

Section Modes.
Variable m : cpp.
(** UUID.cpp:46-49 *)
Definition digits (value digit : Z) : outcome str :=
  let* longValue := sshl m 64 1 (digit * 4) in
  let* mask := ssub m 64 longValue 1 in
  let* t := toHexString m (Z.lor longValue (Z.land value mask)) in
  getStringFromIndex t 1.
(** UUID.cpp:201-210 *)
Definition toString (u : UUID) : outcome str :=
  let* a := digits (Z.shiftr (mostSigBits u) 32) 8 in
  let* b := digits (Z.shiftr (mostSigBits u) 16) 4 in
  let* c := digits (mostSigBits u) 4 in
  let* d := digits (Z.shiftr (leastSigBits u) 48) 4 in
  let* e := digits (leastSigBits u) 12 in
  Ok (a ++ [45] ++ b ++ [45] ++ c ++ [45] ++ d ++ [45] ++ e).
(** UUID.cpp:99-106 with 226-228 *)
Definition version (u : UUID) : Z := wrap 32 (Z.land (Z.shiftr (mostSigBits u) 12) 0x0f).
Definition clockSequence (u : UUID) : Z :=
  if negb (version u =? 1) then -1 else wrap 32 (Z.shiftr (Z.land (leastSigBits u) 0x3FFF000000000000) 48).
(** UUID.cpp:117-131 *)
Definition compareTo (u target : UUID) : Z :=
  if mostSigBits u <? mostSigBits target then -1
  else if mostSigBits target <? mostSigBits u then 1
  else if leastSigBits u <? leastSigBits target then -1
  else if leastSigBits target <? leastSigBits u then 1
  else 0.
(** UUID.cpp:141-144 *)
Definition equals (u target : UUID) : bool :=
  (mostSigBits u =? mostSigBits target) && (leastSigBits u =? leastSigBits target).
(** UUID.cpp:169-172 *)
Definition hashCode (u : UUID) : Z :=
  let x := Z.lxor (mostSigBits u) (leastSigBits u) in
  Z.lxor (wrap 32 (Z.shiftr x 32)) (wrap 32 x).
(** UUID.cpp:179-185 *)
Definition node_ (u : UUID) : Z := Z.land (leastSigBits u) 0x0000FFFFFFFFFFFF.
(** UUID.cpp:217-219 *)
Definition variant (u : UUID) : outcome Z :=
  let* n := ssub m 64 64 (Z.shiftr (leastSigBits u) 62) in
  let* x := sshr m 64 (leastSigBits u) n in
  Ok (wrap 32 (Z.land x (Z.shiftr (leastSigBits u) 63))).

(** UUID.cpp:257-281 *)
Definition fromString (name : str) : outcome UUID :=
  let* components := split (S (List.length name)) name [45] in
  match components with
  | [c0; c1; c2; c3; c4] =>
    let* d0 := decode m ([48; 120] ++ c0) in
    let* m1 := sshl m 64 d0 16 in
    let* d1 := decode m ([48; 120] ++ c1) in
    let* m2 := sshl m 64 (Z.lor m1 d1) 16 in
    let* d2 := decode m ([48; 120] ++ c2) in
    let* d3 := decode m ([48; 120] ++ c3) in
    let* l1 := sshl m 64 d3 48 in
    let* d4 := decode m ([48; 120] ++ c4) in
    Ok (mkUUID (Z.lor m2 d2) (Z.lor l1 d4))
  | _ => Ok (mkUUID 0 0)
  end.
(** UUID.cpp:235-241; [buf]: the bytes of the random source *)
Definition randomUUID (buf : list Z) : outcome UUID := fromString (uuid_unparse_lower (uuid_generate_random buf)).
(** UUID.cpp:243-249; [bytes]: what uuid_generate_time_safe stored *)
Definition timeUUID (bytes : list Z) : outcome UUID := fromString (uuid_unparse_lower bytes).
End Modes.
