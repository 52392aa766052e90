(** Model of /repo/library/Java/Net/URLEncoder/URLEncoder.cpp and
    /repo/library/Java/Net/URLDecoder/URLDecoder.cpp. *)

From Coq Require Import ZArith List Bool.
From Verif Require Import Base CppText StringModel.
Import ListNotations.
Open Scope Z_scope.

(** The test [encoding.toUpperCase() == "UTF-8"]: URLEncoder.cpp:65, URLDecoder.cpp:63; [toUpperCase_ascii] restricts it to ASCII names *)
Definition is_utf8 (encoding : str) : bool := str_eqb (toUpperCase_ascii encoding) [85; 84; 70; 45; 56].

Section Url.
Variable m : cpp.

(** URLEncoder.cpp:36-39: [hex\[code & 15\]] *)
Definition charToHex (code : Z) : Z := digit_char (Z.land code 15).
(** URLEncoder.cpp:41-60; the argument list is the text from [targetIndex] on *)
Fixpoint urlEncode (target : str) : outcome str :=
  match target with
  | [] => Ok []
  | c :: t =>
    let* alnum := ctype m is_alnum_c c in
    let out :=
      if alnum || (c =? 45) || (c =? 95) || (c =? 46) || (c =? 126) then [c]
      else if c =? 32 then [43]
      else [37; charToHex (Z.shiftr (schar c) 4); charToHex (Z.land (schar c) 15)] in
    let* rest := urlEncode t in
    Ok (out ++ rest)
  end.
(** URLEncoder.cpp:62-71; 32-34 passes "UTF-8".  [source.toCharPointer()] ends at the first NUL. *)
Definition encode (source encoding : str) : outcome str :=
  if is_utf8 encoding then urlEncode (cstr source) else Throw UnsupportedEncodingException.

(** URLDecoder.cpp:37-39 *)
Definition charFromHex (c : Z) : outcome Z :=
  let* d := ctype m is_digit_c c in
  if (d : bool) then Ok (c - 48)
  else let* _ := ctype m is_digit_c c in Ok (wrap 8 (schar (c_tolower c) - 97 + 10)).
(** URLDecoder.cpp:41-58; [result += int] converts to char; reading at the length gives the terminator *)
Fixpoint urlDecode (target : str) : outcome str :=
  match target with
  | [] => Ok []
  | c :: t =>
    if c =? 37 then
      match t with
      | a :: b :: r =>
        if negb (a =? 0) && negb (b =? 0) then
          let* x := charFromHex a in
          let* x4 := sshl m 32 x 4 in
          let* y := charFromHex b in
          let* rest := urlDecode r in
          Ok (uwrap 8 (Z.lor x4 y) :: rest)
        else urlDecode t
      | _ => urlDecode t
      end
    else
      let* rest := urlDecode t in
      Ok ((if c =? 43 then 32 else c) :: rest)
  end.
(** URLDecoder.cpp:60-69; 32-34 passes "UTF-8" *)
Definition decode (source encoding : str) : outcome str :=
  if is_utf8 encoding then urlDecode (cstr source) else Throw UnsupportedEncodingException.
End Url.
