(** What java.lang.String operations mean on byte sequences (independent of
    the code; only [occurs] of TextSpec is used). *)

From Coq Require Import ZArith List Bool.
From Verif Require Import Base CppText TextSpec.
Import ListNotations.
Open Scope Z_scope.

(** [t] is the part of [s] from index [i] (included) to [j] (excluded). *)
Definition is_slice (s : str) (i j : Z) (t : str) : Prop :=
  exists a b, s = a ++ t ++ b /\ zlen a = i /\ zlen a + zlen t = j.

(** Left-to-right replacement of the non-overlapping occurrences of [t]. *)
Inductive replaced (t r : str) : str -> str -> Prop :=
| replaced_done : forall s, (forall i, ~ occurs t s i) -> replaced t r s s
| replaced_step : forall a b b',
    (forall i, i < zlen a -> ~ occurs t (a ++ t ++ b) i) ->
    replaced t r b b' -> replaced t r (a ++ t ++ b) (a ++ r ++ b').

(** Pieces between the non-overlapping occurrences of [t] from the left. *)
Inductive splits (t : str) : str -> list str -> Prop :=
| splits_done : forall s, (forall i, ~ occurs t s i) -> splits t s [s]
| splits_step : forall a b l,
    (forall i, i < zlen a -> ~ occurs t (a ++ t ++ b) i) ->
    splits t b l -> splits t (a ++ t ++ b) (a :: l).

(** The pieces with the separator between them. *)
Fixpoint joined (sep : str) (l : list str) : str :=
  match l with
  | [] => []
  | [x] => x
  | x :: t => x ++ sep ++ joined sep t
  end.

(** java.lang.String.hashCode: s[0]*31^(n-1) + ... + s[n-1] in 32-bit
    arithmetic, a byte counting as a signed char. *)
Fixpoint poly31 (s : str) : Z :=
  match s with
  | [] => 0
  | c :: t => schar c * 31 ^ zlen t + poly31 t
  end.
Definition hash31 (s : str) : Z := wrap 32 (poly31 s).

(** Lexicographic order of byte sequences. *)
Inductive lex_lt : str -> str -> Prop :=
| lex_nil : forall c t, lex_lt [] (c :: t)
| lex_head : forall c d s t, c < d -> lex_lt (c :: s) (d :: t)
| lex_tail : forall c s t, lex_lt s t -> lex_lt (c :: s) (c :: t).

(** A string without NUL bytes (what a C string can hold). *)
Definition no_nul (s : str) : Prop := Forall (fun c => c <> 0) s.

(** [t] is [s] without its leading and trailing blanks. *)
Definition trimmed (s t : str) : Prop :=
  exists a b, s = a ++ t ++ b /\ Forall (fun c => c = 32) a /\ Forall (fun c => c = 32) b /\
  (t <> [] -> hd 0 t <> 32 /\ last t 0 <> 32).
