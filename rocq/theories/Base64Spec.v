(** RFC 4648 / RFC 2045 Base64, by arithmetic on bytes. *)

From Coq Require Import ZArith List Bool.
From Verif Require Import Base.
Import ListNotations.
Open Scope Z_scope.

Definition byte (b : Z) : Prop := 0 <= b < 256.
Definition sextet (d : Z) : Prop := 0 <= d < 64.

(** The alphabet: A-Z a-z 0-9 then + / (or - _ for the URL variant). *)
Definition alpha (url : bool) (i : Z) : Z :=
  if i <? 26 then 65 + i
  else if i <? 52 then 97 + (i - 26)
  else if i <? 62 then 48 + (i - 52)
  else if i =? 62 then (if url then 45 else 43)
  else (if url then 95 else 47).
Definition pad_char : Z := 61.
Definition in_alphabet (url : bool) (c : Z) : Prop := exists d, sextet d /\ c = alpha url d.

(** The encoding of a byte string, 3 bytes to 4 digits. *)
Fixpoint rfc4648 (url pad : bool) (l : list Z) : list Z :=
  match l with
  | [] => []
  | [a] => alpha url (a / 4) :: alpha url (a mod 4 * 16) :: (if pad then [pad_char; pad_char] else [])
  | [a; b] => alpha url (a / 4) :: alpha url (a mod 4 * 16 + b / 16) :: alpha url (b mod 16 * 4) ::
              (if pad then [pad_char] else [])
  | a :: b :: c :: t => alpha url (a / 4) :: alpha url (a mod 4 * 16 + b / 16) ::
                        alpha url (b mod 16 * 4 + c / 64) :: alpha url (c mod 64) :: rfc4648 url pad t
  end.

(** The bytes a digit string stands for, 4 digits to 3 bytes; bits of an
    incomplete last byte are dropped. *)
Fixpoint bytes_of (ds : list Z) : list Z :=
  match ds with
  | a :: b :: c :: d :: t => (a * 4 + b / 16) :: (b mod 16 * 16 + c / 4) :: (c mod 4 * 64 + d) :: bytes_of t
  | [a; b; c] => [a * 4 + b / 16; b mod 16 * 16 + c / 4]
  | [a; b] => [a * 4 + b / 16]
  | _ => []
  end.

(** Well-formed Base64 text: digits, not one more than a multiple of 4, with
    the padding complete or absent. *)
Definition well_formed (url : bool) (s ds : list Z) : Prop :=
  Forall sextet ds /\
  ((s = map (alpha url) ds /\ zlen ds mod 4 <> 1) \/
   (s = map (alpha url) ds ++ [pad_char; pad_char] /\ zlen ds mod 4 = 2) \/
   (s = map (alpha url) ds ++ [pad_char] /\ zlen ds mod 4 = 3)).

(** [r] is [l] broken into lines of [n] characters, a separator between
    consecutive lines and none at the end. *)
Inductive folded (n : Z) (sep : list Z) : list Z -> list Z -> Prop :=
| folded_last l : zlen l <= n -> folded n sep l l
| folded_more a b r : zlen a = n -> b <> [] -> folded n sep b r -> folded n sep (a ++ b) (a ++ sep ++ r).
