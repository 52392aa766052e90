(** UTF-16 and digits, stated from the Unicode standard and the Java
    documentation; independent of the model. *)

From Coq Require Import ZArith List.
Import ListNotations.
Open Scope Z_scope.

(** Unicode, section 3.9, D91: the two code units of a supplementary code point. *)
Definition supplementary (cp : Z) : Prop := 65536 <= cp <= 1114111.
Definition utf16_high (cp : Z) : Z := 55296 + (cp - 65536) / 1024.
Definition utf16_low (cp : Z) : Z := 56320 + (cp - 65536) mod 1024.

(** The UTF-16 form of a code point. *)
Definition utf16 (cp : Z) : list Z := if cp <? 65536 then [cp] else [utf16_high cp; utf16_low cp].

(** The ranges D800-DBFF, DC00-DFFF, D800-DFFF. *)
Definition high_surrogate (u : Z) : Prop := 55296 <= u <= 56319.
Definition low_surrogate (u : Z) : Prop := 56320 <= u <= 57343.
Definition surrogate (u : Z) : Prop := 55296 <= u <= 57343.

(** A UTF-16 code unit. *)
Definition code_unit (u : Z) : Prop := 0 <= u <= 65535.

(** The value of an ASCII digit or letter: '0'-'9', 'a'-'z', 'A'-'Z'. *)
Definition digit_value (c v : Z) : Prop :=
  (48 <= c <= 57 /\ v = c - 48) \/ (97 <= c <= 122 /\ v = c - 97 + 10) \/ (65 <= c <= 90 /\ v = c - 65 + 10).
(** What Character.digit(c, radix) has to return. *)
Definition digit_result (c radix r : Z) : Prop :=
  (digit_value c r /\ r < radix) \/ (r = -1 /\ forall v, digit_value c v -> radix <= v).
