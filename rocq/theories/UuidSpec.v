(** Specification of UUIDs (RFC 4122), independent of the code. *)

From Coq Require Import ZArith List Bool.
From Verif Require Import Base CppText.
Import ListNotations.
Open Scope Z_scope.

(** The lower-case hexadecimal digit of a value 0..15. *)
Definition hexchar (d : Z) : Z := if d <? 10 then 48 + d else 87 + d.
(** The [n] low hexadecimal digits of [v], most significant first. *)
Fixpoint hex (n : nat) (v : Z) : str :=
  match n with O => [] | S k => hex k (v / 16) ++ [hexchar (v mod 16)] end.
(** The canonical text of the 128-bit number [N]: 8-4-4-4-12 digits. *)
Definition uuid_text (N : Z) : str :=
  hex 8 (N / 2 ^ 96) ++ [45] ++ hex 4 (N / 2 ^ 80) ++ [45] ++ hex 4 (N / 2 ^ 64) ++ [45] ++ hex 4 (N / 2 ^ 48) ++ [45] ++ hex 12 N.
(** The number whose bytes, most significant first, are given. *)
Definition number_of (bytes : list Z) : Z := fold_left (fun a b => a * 256 + b) bytes 0.
(** The number made of two signed 64-bit halves. *)
Definition number_of_halves (hi lo : Z) : Z := hi mod 2 ^ 64 * 2 ^ 64 + lo mod 2 ^ 64.

(** 16 bytes. *)
Definition uuid_bytes (l : list Z) : Prop := List.length l = 16%nat /\ Forall (fun b => 0 <= b < 256) l.

(** RFC 4122 fields of the number [N]. *)
Definition rfc_version (N : Z) : Z := (N / 2 ^ 76) mod 16.
Definition rfc_clock_sequence (N : Z) : Z := (N / 2 ^ 48) mod 2 ^ 14.
Definition rfc_node (N : Z) : Z := N mod 2 ^ 48.
Definition rfc_timestamp (N : Z) : Z := (N / 2 ^ 64) mod 2 ^ 12 * 2 ^ 48 + (N / 2 ^ 80) mod 2 ^ 16 * 2 ^ 32 + N / 2 ^ 96.
(** The variant IETF: the two bits of weight 2^63 and 2^62 are 1 and 0. *)
Definition rfc_ietf (N : Z) : Prop := (N / 2 ^ 62) mod 4 = 2.
(** java.util.UUID.variant: 0, 2, 6 or 7. *)
Definition rfc_variant (N : Z) : Z :=
  if (N / 2 ^ 63) mod 2 =? 0 then 0 else if (N / 2 ^ 62) mod 2 =? 0 then 2 else (N / 2 ^ 61) mod 8.

(** Clock readings: seconds and microseconds since 1970. *)
Definition reading : Type := Z * Z.
Definition reading_ok (r : reading) : Prop := 0 <= fst r <= 10 ^ 11 /\ 0 <= snd r < 10 ^ 6.
Definition earlier (a b : reading) : bool := (fst a <? fst b) || ((fst a =? fst b) && (snd a <? snd b)).
(** How often the clock goes backwards. *)
Fixpoint descents (l : list reading) : Z :=
  match l with
  | a :: ((b :: _) as t) => (if earlier b a then 1 else 0) + descents t
  | _ => 0
  end.
(** No value is read [n] times in a row. *)
Definition no_run (n : nat) (l : list reading) : Prop := forall a x b, l <> a ++ repeat x n ++ b.
