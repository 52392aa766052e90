(** Model of Object (/repo/library/Java/Lang/Object/Object.hpp:58-590) and
    Enum (/repo/library/Java/Lang/Enum/Enum.hpp).

    Not modelled: getClass and finalize (declared, never defined), notify and
    notifyAll (empty), clone and wait (always throw). *)

From Coq Require Import ZArith List Lia Bool String.
From Verif Require Import Base CppText TextSpec IntegerModel.
Import ListNotations.
Open Scope string_scope.
Open Scope list_scope.
Open Scope Z_scope.

(** An object as Object's members see it: its address, in [0, 2^47) (user
    space of x86-64), the name of its class (typeid) and, if its class
    overrides the virtual function hashCode, the value that returns (an int). *)
Record object : Type := { address : Z; class_name : str; own_hash : option Z }.

(** Object.hpp:118-120: the address as intptr_t, converted to int. *)
Definition hashCode (o : object) : Z :=
  match own_hash o with Some h => h | None => wrap 32 (address o) end.
(** Object.hpp:168-173 *)
Definition equals (a b : object) : bool := if hashCode a =? hashCode b then true else false.
(** Object.hpp:576-578, 585-587 *)
Definition op_eq (a b : object) : bool := equals a b.
Definition op_ne (a b : object) : bool := negb (equals a b).
(** Object.hpp:567-569, Object.cpp:34-36 *)
Definition object_toString (o : object) : outcome str :=
  let* h := toHexString (hashCode o) in Ok (class_name o ++ T "@" ++ h).

(** Enum.hpp:39-40 *)
Record enum : Type := { enumName : str; ordinalNumber : Z }.
(** Enum.hpp:70-72 *)
Definition compareTo (m : cpp) (a b : enum) : outcome Z := ssub m 32 (ordinalNumber a) (ordinalNumber b).
(** Enum.hpp:78-80, 87-89, 95-97, 103-105 *)
Definition name (a : enum) : str := enumName a.
Definition ordinal (a : enum) : Z := ordinalNumber a.
Definition toString (a : enum) : str := enumName a.
Definition enum_equals (a b : enum) : bool := ordinalNumber a =? ordinalNumber b.
