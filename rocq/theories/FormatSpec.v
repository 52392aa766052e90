(** What String.format should do, independently of the code. *)

From Coq Require Import ZArith List Lia Bool String.
From Verif Require Import Base CppText TextSpec.
Import ListNotations.
Open Scope string_scope.
Open Scope list_scope.
Open Scope Z_scope.

Definition in_text (s : string) (c : Z) : Prop := In c (T s).
Definition digits (s : str) : Prop := Forall (fun c => 48 <= c <= 57) s.

(** The directives the documentation of the pattern lists: a percent sign,
    an optional width, flags, an optional width, an optional precision, up to
    two letters l, a conversion. *)
Inductive directive : str -> Prop :=
| Directive n1 fl n2 prec ls c :
    digits n1 ->
    Forall (in_text "-#+0 ") fl ->
    digits n2 ->
    prec = [] \/ (exists n3, prec = T "." ++ n3 /\ digits n3 /\ n3 <> []) ->
    ls = T "" \/ ls = T "l" \/ ls = T "ll" ->
    in_text "diuoxXfFeEgGaAcspnbB%" c ->
    directive (T "%" ++ n1 ++ fl ++ n2 ++ prec ++ ls ++ [c]).

(** No directive begins in [a], in the text [a ++ b]. *)
Definition none_before (a b : str) : Prop :=
  forall a1 a2 d r, a = a1 ++ a2 -> a2 <> [] -> directive d -> a2 ++ b <> d ++ r.

(** A format string is a sequence of literal pieces and directives; read from
    left to right, the first possible directive is taken. *)
Inductive item : Type := Lit (s : str) | Dir (d : str).
Inductive reads : str -> list item -> Prop :=
| Reads_end s : none_before s [] -> reads s [Lit s]
| Reads_dir a d s l : none_before a (d ++ s) -> directive d -> reads s l ->
    reads (a ++ d ++ s) (Lit a :: Dir d :: l).

(** A directive that ends in a percent sign stands for a percent sign and
    takes no argument. *)
Definition is_percent (d : str) : bool := last d 0 =? 37.
Fixpoint wanted (l : list item) : nat :=
  match l with
  | [] => 0
  | Lit _ :: l => wanted l
  | Dir d :: l => if is_percent d then wanted l else S (wanted l)
  end.

(** The directives that take an argument, in order. *)
Fixpoint takers (l : list item) : list str :=
  match l with
  | [] => []
  | Lit _ :: l => takers l
  | Dir d :: l => if is_percent d then takers l else d :: takers l
  end.
(** The text when [pieces] are put in the places of these directives. *)
Fixpoint filled (l : list item) (pieces : list str) : str :=
  match l with
  | [] => []
  | Lit s :: l => s ++ filled l pieces
  | Dir d :: l =>
      if is_percent d then T "%" ++ filled l pieces
      else match pieces with
           | [] => filled l []
           | p :: ps => p ++ filled l ps
           end
  end.

(** ** Arguments *)

(** The types String::print is overloaded for (String.hpp:1272-1308; the
    wrapper classes forward to them, String.cpp:831-857): bool, the integer
    types, float/double (bits), C strings. A String passes its bytes up to the
    first NUL (toCharPointer). *)
Inductive ctype : Type := Cshort | Cint | Clong | Clonglong | Cushort | Cuint | Culong.
Inductive arg : Type :=
| ABool (b : bool)
| AInt (t : ctype) (v : Z)
| AFloat (bits : Z)
| AStr (s : str).

(** [p] is the text of the argument [a] under the directive [d]: for a truth
    value, the word in the asked case; for numbers and strings, what C prints
    ([c_text]). The bounds on the length are those within which the code is
    right: see [C94_number_too_long_refuted] and [C94_string_128_refuted]. *)
Definition shows (c_text : str -> arg -> option str) (d : str) (a : arg) (p : str) : Prop :=
  match a with
  | ABool b => (d = T "%b" /\ p = if b then T "true" else T "false") \/
               (d = T "%B" /\ p = if b then T "TRUE" else T "FALSE")
  | AStr s => ~ In 0 s /\ c_text d a = Some p /\ zlen p <> 128 /\ zlen p < int_max
  | _ => c_text d a = Some p /\ zlen p < 128
  end.
