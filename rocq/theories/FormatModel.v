(** Model of String::format and its helpers
    (/repo/library/Java/Lang/String/String.hpp:1157-1222, 1252-1269 and
    /repo/library/Java/Lang/String/String.cpp:699-896).

    - regcomp/regexec are modelled by [regexec]: the leftmost match of the
      pattern, the longest one there (the matches of this pattern at one place
      all end with the same byte, see [FormatProps]); the pattern always
      compiles. Texts are bytes: no byte of a multi-byte character is equal to
      one of the characters of the pattern.
    - snprintf is a parameter, [c_text]: the complete text the C library
      prints for a directive and an argument, or None where the C standard
      gives the call no meaning (type of the argument does not fit the
      directive, unknown directive, %n with something that is not a pointer).
    - strings are shorter than 2^31 (getSize() is an int). *)

From Coq Require Import ZArith List Lia Bool String.
From Verif Require Import Base CppText TextSpec FormatSpec.
Import ListNotations.
Open Scope string_scope.
Open Scope list_scope.
Open Scope Z_scope.

(** ** The pattern, String.hpp:1165-1166 and String.cpp:860-861

    A percent sign, then [[:digit:]]+ (optional), [-#+0 ]* (optional),
    [[:digit:]]+ (optional), \.[[:digit:]]+ (optional), l (up to two times) and
    one of [diuoxXfFeEgGaAcspnbB%]. *)

Definition digit_c (c : Z) : bool := (48 <=? c) && (c <=? 57).
Definition flag_c (c : Z) : bool := existsb (Z.eqb c) (T "-#+0 ").
Definition conv_c (c : Z) : bool := existsb (Z.eqb c) (T "diuoxXfFeEgGaAcspnbB%").

Fixpoint skip_while (p : Z -> bool) (s : str) : str :=
  match s with
  | c :: t => if p c then skip_while p t else s
  | [] => []
  end.
(** (\.[[:digit:]]+)? *)
Definition skip_precision (s : str) : str :=
  match s with
  | 46 :: c :: t => if digit_c c then skip_while digit_c t else s
  | _ => s
  end.
Definition skip_l (s : str) : str :=
  match s with 108 :: t => t | _ => s end.
(** What follows the match of the pattern at the beginning of [s]. *)
Definition match_here (s : str) : option str :=
  match s with
  | 37 :: t =>
      match skip_l (skip_l (skip_precision
              (skip_while digit_c (skip_while flag_c (skip_while digit_c t))))) with
      | c :: r => if conv_c c then Some r else None
      | [] => None
      end
  | _ => None
  end.
(** The leftmost match in the C string [s]: [rm_so] and [rm_eo]. *)
Fixpoint regexec (s : str) : option (Z * Z) :=
  match match_here s with
  | Some r => Some (0, zlen s - zlen r)
  | None =>
      match s with
      | [] => None
      | _ :: t =>
          match regexec t with
          | Some (so, eo) => Some (so + 1, eo + 1)
          | None => None
          end
      end
  end.

Section Format.
Context (c_text : str -> arg -> option str).

(** DEFAULT_BUFFER_LENGTH, String.hpp:42 *)
Definition buffer_length : Z := 128.
(** The buffer after snprintf(buffer, size, ...) on zeroed memory, and the
    number snprintf returns (negative when it does not fit an int). *)
Definition snprintf (size : Z) (out : str) : str * Z :=
  let kept := firstn (Z.to_nat (size - 1)) out in
  (kept ++ repeat 0 (Z.to_nat (size - zlen kept)),
   if zlen out <=? int_max then zlen out else -1).
(** String(string, int), String.cpp:73-79: copies [length] bytes from the pointer. *)
Definition copy_buffer (buf : str) (length : Z) : outcome str :=
  if length <=? zlen buf then Ok (firstn (Z.to_nat length) buf) else UB OutOfBounds.

(** String.cpp:709-797, the number types *)
Definition print_number (d : str) (a : arg) : outcome str :=
  match c_text (cstr d) a with
  | None => UB Precondition
  | Some out =>
      let '(buf, length) := snprintf buffer_length out in
      if 0 <? length then copy_buffer buf length else Ok []
  end.
(** String.cpp:799-829, C strings. With a length of INT_MAX the increment
    overflows. *)
Definition print_string (d : str) (s : str) : outcome str :=
  match c_text (cstr d) (AStr (cstr s)) with
  | None => UB Precondition
  | Some out =>
      let '(buf, length) := snprintf buffer_length out in
      if buffer_length <? length then
        if length =? int_max then UB SignedOverflow
        else let '(buf2, length2) := snprintf (length + 1) out in copy_buffer buf2 length2
      else if 0 <? length then copy_buffer buf length else Ok []
  end.
(** String.cpp:699-707 *)
Definition print_bool (d : str) (b : bool) : outcome str :=
  if str_eqb d (T "%b") then Ok (if b then T "true" else T "false")
  else if str_eqb d (T "%B") then Ok (if b then T "TRUE" else T "FALSE")
  else Ok [].
Definition print (d : str) (a : arg) : outcome str :=
  match a with
  | ABool b => print_bool d b
  | AStr s => print_string d s
  | _ => print_number d a
  end.

(** String.hpp:1252-1269; the directive is never empty here. *)
Definition printObject (d : str) (a : arg) : outcome str :=
  if last d 0 =? 37 then Ok [37] else print d a.

(** String.hpp:1163-1214 with at least one argument and String.cpp:859-896
    without. The state of the loop is the rest of the string from
    [inputStringPtr], its length is [inputStringLength]. [f] is fuel for the
    iterations. *)
Fixpoint format_loop (f : nat) (rest : str) (args : list arg) : outcome str :=
  match f with
  | O => OutOfFuel
  | S f =>
      match rest with
      | [] => Ok []
      | _ =>
          match regexec (cstr rest) with
          | None => Ok rest
          | Some (so, eo) =>
              let before := firstn (Z.to_nat so) rest in
              let d := firstn (Z.to_nat (eo - so)) (skipn (Z.to_nat so) rest) in
              let after := skipn (Z.to_nat eo) rest in
              match args with
              | [] =>
                  if last d 0 =? 37
                  then let* r := format_loop f after [] in Ok (before ++ T "%" ++ r)
                  else Throw InterruptedException
              | a :: args' =>
                  let* p := printObject d a in
                  let* r := format_loop f after (if last d 0 =? 37 then args else args') in
                  Ok (before ++ p ++ r)
              end
          end
      end
  end.
Definition format (fmt : str) (args : list arg) : outcome str :=
  format_loop (S (List.length fmt)) fmt args.
End Format.
