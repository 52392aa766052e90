(** Model of the conversions and comparison operators of Integer and Long:
    library/Java/Lang/Integer/Integer.cpp and library/Java/Lang/Long/Long.cpp.
    An object is represented by its number (the field [original]); the texts are
    not used by these functions. Conversions to float and double are left out. *)

From Coq Require Import ZArith Bool.
From Verif Require Import Base Bits.
From Verif Require IntegerModel LongModel.
Open Scope Z_scope.

(** Integer.cpp:80-82 *)
Definition Integer_shortValue (x : Z) : Z := wrap 16 x.
(** Integer.cpp:88-90 *)
Definition Integer_longValue (x : Z) : Z := wrap 64 x.
(** Integer.cpp:211-213; byte is unsigned char (Kernel/Type.hpp:38) *)
Definition Integer_byteValue (x : Z) : Z := x mod 2 ^ 8.
(** Integer.cpp:304-306 and 308-310 with Math.cpp:259-261 and 275-277 *)
Definition Integer_max (a b : Z) : Z := if b <? a then a else b.
Definition Integer_min (a b : Z) : Z := if a <? b then a else b.

(** Long.cpp:96-99; char is signed (gcc on x86-64) *)
Definition Long_byteValue (x : Z) : Z := wrap 32 (wrap 8 x).
(** Long.cpp:479-481 *)
Definition Long_shortValue (x : Z) : Z := wrap 16 x.
(** Long.cpp:275-277 *)
Definition Long_intValue (x : Z) : Z := wrap 32 x.

(** The six operators and compareTo of an object type. *)
Record comparisons := {
  eqb : Z -> Z -> bool; neb : Z -> Z -> bool;
  ltb : Z -> Z -> bool; gtb : Z -> Z -> bool;
  leb : Z -> Z -> bool; geb : Z -> Z -> bool;
  compareTo : Z -> Z -> Z }.

(** Integer.cpp:115-137 and compareTo 227-229 *)
Definition Integer_comparisons : comparisons := {|
  eqb := fun a b => a =? b; neb := fun a b => negb (a =? b);
  ltb := fun a b => a <? b; gtb := fun a b => b <? a;
  leb := fun a b => a <=? b; geb := fun a b => b <=? a;
  compareTo := fun a b => IntegerModel.compare a b |}.

(** Long.cpp:715-789, written with if as there, and compareTo 124-127 *)
Definition Long_comparisons : comparisons := {|
  eqb := fun a b => if a =? b then true else false;
  neb := fun a b => if negb (a =? b) then true else false;
  ltb := fun a b => if a <? b then true else false;
  gtb := fun a b => if b <? a then true else false;
  leb := fun a b => if b <? a then false else true;
  geb := fun a b => if a <? b then false else true;
  compareTo := fun a b => LongModel.compare a b |}.
