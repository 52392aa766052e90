(** Model of /repo/library/Java/Lang/Bytes/Bytes.cpp and of
    /repo/library/Java/Lang/Boolean/Boolean.cpp. *)

From Coq Require Import ZArith List Lia Bool String.
From Verif Require Import Base CppText TextSpec StringModel.
From Verif Require IntegerModel.
Import ListNotations.
Open Scope string_scope.
Open Scope list_scope.
Open Scope Z_scope.

(** ** Bytes *)

(** Bytes.hpp:48,53; [byte] is unsigned char (Type.hpp:38). *)
Definition BYTE_MIN : Z := 0.
Definition BYTE_MAX : Z := 255.
(** conversion of an int to byte *)
Definition to_byte (x : Z) : Z := uwrap 8 x.

(** The two fields of a Bytes object; [originalString] is the malloc'ed text. *)
Record Bytes : Type := { original : Z; originalString : str }.

(** Bytes.cpp:35-38, 259-262: [asprintf(&originalString, "%d", original)] *)
Definition mk (b : Z) : Bytes := {| original := b; originalString := itoa b |}.
(** Bytes.cpp:45-48 *)
Definition mk_default : Bytes := {| original := 0; originalString := [48] |}.

(** Bytes.cpp:114-124 *)
Definition parseBytes (s : str) (radix : Z) : outcome Z :=
  let* value := IntegerModel.parseInt s radix in
  if (value <? BYTE_MIN) || (BYTE_MAX <? value) then Throw NumberFormatException
  else Ok (to_byte value).
(** Bytes.cpp:40-43, 153-159 *)
Definition mk_string (s : str) (radix : Z) : outcome Bytes :=
  let* b := parseBytes s radix in Ok (mk b).
(** Bytes.cpp:72-78 *)
Definition decode (m : cpp) (s : str) : outcome Bytes :=
  let* value := IntegerModel.decode m s in
  if (value <? BYTE_MIN) || (BYTE_MAX <? value) then Throw NumberFormatException
  else Ok (mk (to_byte value)).

(** Bytes.cpp:60-70, 98-112: byteValue, compare, compareTo, intValue; bytes
    are promoted to int. *)
Definition byteValue (a : Bytes) : Z := original a.
Definition compare (a b : Z) : Z := a - b.
Definition compareTo (a b : Bytes) : Z := original a - original b.
(** Bytes.cpp:56-58: [(char) original] *)
Definition charValue (a : Bytes) : Z := schar (original a).
(** Bytes.cpp:130-132 *)
Definition toString (a : Bytes) : str := originalString a.
(** Bytes.cpp:134-136 *)
Definition toString_static (m : cpp) (b : Z) : outcome str := IntegerModel.toString m b 10.
(** Bytes.cpp:138-144 *)
Definition toUnsignedInt (b : Z) : Z := Z.land b 255.
(** Bytes.cpp:85-92 *)
Definition equals (a b : Bytes) : outcome bool :=
  let* v := parseBytes (toString b) 10 in Ok (original a =? v).

(** Bytes.cpp:161-185; the operands are promoted to int, the result converted
    to byte by the constructor (no int overflow is possible). *)
Definition add (a b : Bytes) : Bytes := mk (to_byte (original a + original b)).
Definition sub (a b : Bytes) : Bytes := mk (to_byte (original a - original b)).
Definition mul (a b : Bytes) : Bytes := mk (to_byte (original a * original b)).
Definition div (a b : Bytes) : outcome Bytes :=
  if original b =? 0 then Throw ArithmeticException else Ok (mk (to_byte (Z.quot (original a) (original b)))).
Definition rem (a b : Bytes) : outcome Bytes :=
  if original b =? 0 then Throw ArithmeticException else Ok (mk (to_byte (Z.rem (original a) (original b)))).
(** Bytes.cpp:187-209 *)
Definition op_eq (a b : Bytes) : bool := original a =? original b.
Definition op_ne (a b : Bytes) : bool := negb (original a =? original b).
Definition op_lt (a b : Bytes) : bool := original a <? original b.
Definition op_gt (a b : Bytes) : bool := original b <? original a.
Definition op_le (a b : Bytes) : bool := original a <=? original b.
Definition op_ge (a b : Bytes) : bool := original b <=? original a.
(** Bytes.cpp:211-257: the compound assignments free the old text, update the
    value and format it again; the division tests come first. They compute
    the object the plain operators return ([target] may be [this]). *)
Definition add_assign := add.
Definition sub_assign := sub.
Definition mul_assign := mul.
Definition div_assign := div.
Definition rem_assign := rem.
Definition assign (a b : Bytes) : Bytes := mk (original b).

(** ** The cache behind Bytes::valueOf(byte) *)

(** The static pointer ByteCache::instance (Bytes.cpp:33): null, pointing to
    the live cache, or pointing to the cache deleted by a previous call. *)
Inductive cache_state : Type := NoCache | Live | Dangling.
(** Bytes.hpp (ByteCache): 256 objects, the [i]-th holding byte [i]. *)
Definition cacheInit : list Bytes := map (fun i => mk (to_byte (Z.of_nat i))) (seq 0 256).
(** Bytes.cpp:146-151: get the instance (creating it when the pointer is
    null), copy the object out, [delete] the instance; the static pointer is
    not reset, so a later call reads the deleted array. *)
Definition valueOf (st : cache_state) (b : Z) : outcome (Bytes * cache_state) :=
  match st with
  | NoCache | Live => let* v := at_ cacheInit b in Ok (v, Dangling)
  | Dangling => UB UseAfterFree
  end.
(** A sequence of calls starting from the state of a fresh process. *)
Fixpoint valueOf_calls (st : cache_state) (bs : list Z) : outcome (list Bytes) :=
  match bs with
  | [] => Ok []
  | b :: r =>
      let* p := valueOf st b in
      let* vs := valueOf_calls (snd p) r in
      Ok (fst p :: vs)
  end.

(** ** Boolean *)

(** Boolean.cpp:48-54: [strcmp(target, "True") == 0] *)
Definition Boolean_of_string (s : str) : bool := str_eqb (cstr s) (T "True").
(** Boolean.cpp:83-85 *)
Definition Boolean_compare (a b : bool) : Z := Z.b2z a - Z.b2z b.
(** Boolean.cpp:110-112, 134-136, 181-193, for ASCII text (see
    [toLowerCase_ascii]); the argument is a C string, so it ends at the first NUL. *)
Definition parseBoolean (s : str) : bool := StringModel.equals (toLowerCase_ascii (cstr s)) (T "true").
(** Boolean.cpp:144-163 *)
Definition Boolean_toString (b : bool) : str := if b then T "true" else T "false".
