(** Specification of short integers. *)

From Coq Require Import ZArith List Bool.
From Verif Require Import Base CppText TextSpec ShortModel.
Import ListNotations.
Open Scope Z_scope.

Definition is_short (x : Z) : Prop := -32768 <= x <= 32767.
(** the short congruent to [x] modulo 2^16: the result Java gives *)
Definition narrowed (x r : Z) : Prop := is_short r /\ exists k, x = r + 65536 * k.
(** A proper object denoting [x]: its text is the decimal numeral. *)
Definition denotes (a : Short) (x : Z) : Prop := is_short x /\ value a = x /\ canonical_signed 10 (toString a) x.
(** an optional sign, and the number it makes of [w] *)
Definition a_sign (sign : str) : Prop := sign = [] \/ sign = [43] \/ sign = [45].
Definition sign_of (sign : str) (w : Z) : Z := match sign with 45 :: _ => - w | _ => w end.
(** the text does not go on with a digit, or with x or X *)
Definition no_digit (b : Z) (r : str) : Prop := match r with c :: _ => match digit_val c with Some d => b <= d | None => True end | [] => True end.
Definition not_x (r : str) : Prop := match r with c :: _ => c <> 120 /\ c <> 88 | [] => True end.
