(** Model of the case conversion of String
    (/repo/library/Java/Lang/String/String.cpp:35-67, 463-469).

    The conversions between UTF-8 and wide characters are those of libstdc++
    (std::codecvt_utf8<wchar_t> under std::wstring_convert); newer versions
    refuse surrogates, older ones do not: [strict]. The conversion of one
    character, towupper or towlower in the locale of the environment, is a
    parameter [f]. *)

From Coq Require Import ZArith List Lia Bool.
From Verif Require Import Base CppText.
Import ListNotations.
Open Scope Z_scope.

Section Utf8.
Context (strict : bool).

Definition surrogate (c : Z) : bool := (55296 <=? c) && (c <=? 57343).
Definition continuation (b : Z) : bool := Z.land b 192 =? 128.

(** What reading one character finds: a character and the rest, a sequence
    that is not UTF-8, or the beginning of a sequence at the end of the text. *)
Inductive found : Type := Char (c : Z) (r : str) | Invalid | Incomplete.

(** libstdc++ read_utf8_code_point (bytes as 0..255) *)
Definition read_char (b1 : Z) (t : str) : found :=
  if b1 <? 128 then Char b1 t
  else if b1 <? 194 then Invalid
  else if b1 <? 224 then
    match t with
    | [] => Incomplete
    | b2 :: t => if continuation b2 then Char (Z.shiftl b1 6 + b2 - 12416) t else Invalid
    end
  else if b1 <? 240 then
    match t with
    | [] => Incomplete
    | b2 :: t =>
        if negb (continuation b2) then Invalid
        else if (b1 =? 224) && (b2 <? 160) then Invalid
        else if strict && (b1 =? 237) && (160 <=? b2) then Invalid
        else match t with
             | [] => Incomplete
             | b3 :: t =>
                 if continuation b3
                 then Char (Z.shiftl b1 12 + Z.shiftl b2 6 + b3 - 925824) t
                 else Invalid
             end
    end
  else if b1 <? 245 then
    match t with
    | [] => Incomplete
    | b2 :: t =>
        if negb (continuation b2) then Invalid
        else if (b1 =? 240) && (b2 <? 144) then Invalid
        else if (b1 =? 244) && (144 <=? b2) then Invalid
        else match t with
             | [] => Incomplete
             | b3 :: t =>
                 if negb (continuation b3) then Invalid
                 else match t with
                      | [] => Incomplete
                      | b4 :: t =>
                          if continuation b4
                          then Char (Z.shiftl b1 18 + Z.shiftl b2 12 + Z.shiftl b3 6 + b4 - 63447168) t
                          else Invalid
                      end
             end
    end
  else Invalid.

(** wstring_convert::from_bytes: None is std::range_error; an incomplete
    sequence at the end is dropped (the conversion ends with "partial"). [n]
    bounds the number of characters. *)
Fixpoint from_bytes (n : nat) (s : str) : option (list Z) :=
  match n with
  | O => Some []
  | S n =>
      match s with
      | [] => Some []
      | b :: t =>
          match read_char b t with
          | Char c r => match from_bytes n r with Some l => Some (c :: l) | None => None end
          | Invalid => None
          | Incomplete => Some []
          end
      end
  end.

(** libstdc++ write_utf8_code_point and wstring_convert::to_bytes *)
Definition write_char (c : Z) : option str :=
  if strict && surrogate c then None
  else if c <? 0 then None
  else if c <=? 127 then Some [c]
  else if c <=? 2047 then Some [Z.shiftr c 6 + 192; Z.land c 63 + 128]
  else if c <=? 65535 then Some [Z.shiftr c 12 + 224; Z.land (Z.shiftr c 6) 63 + 128; Z.land c 63 + 128]
  else if c <=? 1114111 then
    Some [Z.shiftr c 18 + 240; Z.land (Z.shiftr c 12) 63 + 128; Z.land (Z.shiftr c 6) 63 + 128; Z.land c 63 + 128]
  else None.
Fixpoint to_bytes (cs : list Z) : option str :=
  match cs with
  | [] => Some []
  | c :: cs =>
      match write_char c, to_bytes cs with
      | Some a, Some b => Some (a ++ b)
      | _, _ => None
      end
  end.

(** String.cpp:35-44: an exception gives the empty string; [c_str()] cuts the
    text at its first NUL. *)
Definition multiByteStringToWideString (s : str) : list Z :=
  match from_bytes (length (cstr s)) (cstr s) with Some l => l | None => [] end.
(** String.cpp:46-55 *)
Definition wideStringToMultiByteString (w : list Z) : str :=
  match to_bytes (cstr w) with Some s => s | None => [] end.
(** String.cpp:57-67, 463-469 with f = towupper or towlower *)
Definition convertCase (f : Z -> Z) (s : str) : str :=
  wideStringToMultiByteString (map f (multiByteStringToWideString s)).
End Utf8.
