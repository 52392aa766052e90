(** Specification vocabulary for texts, independent of the code. *)

From Coq Require Import ZArith List Lia Bool Ascii String.
From Verif Require Import Base CppText.
Import ListNotations.
Open Scope Z_scope.

(** Byte list of a literal, for readable examples. *)
Fixpoint T (s : string) : str :=
  match s with
  | EmptyString => []
  | String c t => Z.of_N (N_of_ascii c) :: T t
  end.
Arguments T s%string.

(** [p] occurs in [s] at index [i]. *)
Definition occurs (p s : str) (i : Z) : Prop :=
  exists a b, s = a ++ p ++ b /\ zlen a = i.

(** [i] is the first (last) index in [lo, hi] at which [p] occurs, or -1. *)
Definition first_in (p s : str) (lo hi i : Z) : Prop :=
  (lo <= i <= hi /\ occurs p s i /\ forall j, lo <= j < i -> ~ occurs p s j)
  \/ (i = -1 /\ forall j, lo <= j <= hi -> ~ occurs p s j).
Definition last_in (p s : str) (lo hi i : Z) : Prop :=
  (lo <= i <= hi /\ occurs p s i /\ forall j, i < j <= hi -> ~ occurs p s j)
  \/ (i = -1 /\ forall j, lo <= j <= hi -> ~ occurs p s j).

(** ** Numerals *)

(** The value of the character [c] as a base-[b] digit (both letter cases). *)
Definition is_digit (b c d : Z) : Prop := digit_val c = Some d /\ d < b.
(** [s] is a non-empty sequence of base-[b] digits with value [v]. *)
Definition numeral (b : Z) (s : str) (v : Z) : Prop :=
  s <> [] /\ exists ds, Forall2 (is_digit b) s ds /\ v = numval b ds.
(** An optional minus sign followed by a numeral. *)
Definition signed_numeral (b : Z) (s : str) (v : Z) : Prop :=
  numeral b s v \/ exists t w, s = 45 :: t /\ numeral b t w /\ v = - w.
(** Canonical: lower-case digits, no leading zero (except "0" itself). *)
Definition canonical_unsigned (b : Z) (s : str) (v : Z) : Prop :=
  numeral b s v /\ Forall (fun c => is_upper_c c = false) s /\
  (hd 0 s = 48 -> s = [48]).
Definition canonical_signed (b : Z) (s : str) (v : Z) : Prop :=
  canonical_unsigned b s v \/
  exists t w, s = 45 :: t /\ 0 < w /\ canonical_unsigned b t w /\ v = - w.
