(** Specification of application/x-www-form-urlencoded texts. *)

From Coq Require Import ZArith List Bool String.
From Verif Require Import Base CppText TextSpec.
Import ListNotations.
Open Scope Z_scope.

(** Letters, digits, '-', '_', '.' and '~'. *)
Definition unreserved (c : Z) : Prop :=
  97 <= c <= 122 \/ 65 <= c <= 90 \/ 48 <= c <= 57 \/ c = 45 \/ c = 95 \/ c = 46 \/ c = 126.

(** [form c e]: the bytes [e] stand for the byte [c]. *)
Inductive form : Z -> str -> Prop :=
| form_keep c : unreserved c -> form c [c]
| form_space : form 32 (T "+")
| form_escape c h l : 0 <= h < 16 -> 0 <= l < 16 -> c = 16 * h + l -> ~ unreserved c -> c <> 32 -> form c (T "%" ++ [digit_char h; digit_char l]).
Inductive url_encoded : str -> str -> Prop :=
| ue_nil : url_encoded [] []
| ue_cons c s e t : form c e -> url_encoded s t -> url_encoded (c :: s) (e ++ t).

(** [url_decoded t s]: [t] is well formed ('%' only before two hexadecimal
    digits of either case) and means [s]. *)
Inductive url_decoded : str -> str -> Prop :=
| ud_nil : url_decoded [] []
| ud_plain c t s : c <> 37 -> c <> 43 -> url_decoded t s -> url_decoded (c :: t) (c :: s)
| ud_plus t s : url_decoded t s -> url_decoded (43 :: t) (32 :: s)
| ud_escape a b h l t s : is_digit 16 a h -> is_digit 16 b l -> url_decoded t s -> url_decoded (37 :: a :: b :: t) (16 * h + l :: s).
