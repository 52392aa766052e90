(** Bit-level specifications of the integer utilities, parametric in the
    width [w].  Independent of the code: they only mention [Z.testbit]. *)

From Coq Require Import ZArith List Bool.
From Verif Require Import Base.
Import ListNotations.
Open Scope Z_scope.

(** The bit positions 0 .. w-1. *)
Definition positions (w : Z) : list Z := map Z.of_nat (seq 0 (Z.to_nat w)).

(** Number of one bits among positions 0 .. w-1. *)
Definition popcount (w x : Z) : Z := zlen (filter (Z.testbit x) (positions w)).

(** [k] is the position of the highest / lowest one bit. *)
Definition highest_at (w x k : Z) : Prop :=
  0 <= k < w /\ Z.testbit x k = true /\ forall j, k < j < w -> Z.testbit x j = false.
Definition lowest_at (w x k : Z) : Prop :=
  0 <= k < w /\ Z.testbit x k = true /\ forall j, 0 <= j < k -> Z.testbit x j = false.

(** The signed [w]-bit value whose only one bit is bit [k]. *)
Definition single_bit (w k : Z) : Z := wrap w (2 ^ k).

Definition is_highest_one (w x r : Z) : Prop :=
  (x = 0 /\ r = 0) \/ exists k, highest_at w x k /\ r = single_bit w k.
Definition is_lowest_one (w x r : Z) : Prop :=
  (x = 0 /\ r = 0) \/ exists k, lowest_at w x k /\ r = single_bit w k.
Definition is_nlz (w x r : Z) : Prop :=
  (x = 0 /\ r = w) \/ exists k, highest_at w x k /\ r = w - 1 - k.
Definition is_ntz (w x r : Z) : Prop :=
  (x = 0 /\ r = w) \/ exists k, lowest_at w x k /\ r = k.

(** [r] is the signed value whose bit [i] is bit [f i] of [x]. *)
Definition permutes (w : Z) (f : Z -> Z) (x r : Z) : Prop :=
  in_s w r /\ forall i, 0 <= i < w -> Z.testbit r i = Z.testbit x (f i).

(** Mirror image, byte mirror image, rotation to the left by [d]. *)
Definition mirror (w i : Z) : Z := w - 1 - i.
Definition byte_mirror (w i : Z) : Z := 8 * (w / 8 - 1 - i / 8) + i mod 8.
Definition rotl (w d i : Z) : Z := (i - d) mod w.
Definition rotr (w d i : Z) : Z := (i + d) mod w.

(** The unsigned value of the [w] low bits. *)
Definition unsigned (w x : Z) : Z := x mod 2 ^ w.
