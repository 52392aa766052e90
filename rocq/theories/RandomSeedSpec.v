(** The values of seedUniquifier(), as arithmetic: the [k]-th power of the
    factor times the first value, modulo 2^64, read as a signed number. *)
From Coq Require Import ZArith.
Open Scope Z_scope.
Definition nth_value (k u : Z) : Prop :=
  - 2 ^ 63 <= u < 2 ^ 63 /\ (2 ^ 64 | u - 8682522807148012 * 181783497276652981 ^ k).
