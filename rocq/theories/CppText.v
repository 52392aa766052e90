(** std::string, <cstring> and <cstdlib> functions used by the code, as
    functions on byte lists.  This file models libstdc++/glibc contracts, not
    a file of /repo: it is part of the trusted reading (DESIGN.md section 4). *)

From Coq Require Import ZArith List Lia Bool.
From Verif Require Import Base.
Import ListNotations.
Open Scope Z_scope.

(** A std::string: its bytes, each 0..255 (the C++ [char] is signed on
    x86-64; [schar] gives the value the code sees in arithmetic).
    Strings are assumed shorter than 2^31 bytes, so that [(int) size()] is
    the length. *)
Definition str := list Z.

Definition byte_ok (c : Z) : Prop := 0 <= c <= 255.
Definition byte_okb (c : Z) : bool := (0 <=? c) && (c <=? 255).

Definition schar (c : Z) : Z := if c <? 128 then c else c - 256.

(** [std::string::operator\[\]] (C++11 [string.access]): position [size()]
    is the terminating NUL; beyond it, undefined. *)
Definition str_get (s : str) (i : Z) : outcome Z :=
  match znth s i with
  | Some c => Ok c
  | None => if i =? zlen s then Ok 0 else UB OutOfBounds
  end.

(** [std::string(const char * )] of [c_str()]: stops at the first NUL. *)
Fixpoint cstr (s : str) : str :=
  match s with
  | [] => []
  | c :: t => if c =? 0 then [] else c :: cstr t
  end.

Fixpoint str_eqb (a b : str) : bool :=
  match a, b with
  | [], [] => true
  | x :: a', y :: b' => (x =? y) && str_eqb a' b'
  | _, _ => false
  end.

Fixpoint prefixb (p l : str) : bool :=
  match p, l with
  | [], _ => true
  | x :: p', y :: l' => (x =? y) && prefixb p' l'
  | _ :: _, [] => false
  end.

(** [find_from p l i]: [i] plus the least offset at which [p] occurs in [l]. *)
Fixpoint find_from (p l : str) (i : Z) : option Z :=
  if prefixb p l then Some i
  else match l with
       | [] => None
       | _ :: t => find_from p t (i + 1)
       end.

(** [std::string::find(p, pos)]; [None] is npos. *)
Definition str_find (p l : str) (pos : Z) : option Z :=
  if zlen l <? pos then None else find_from p (skipn (Z.to_nat pos) l) pos.

(** [std::string::substr(pos, n)]: throws std::out_of_range if pos > size(). *)
Definition str_substr (l : str) (pos n : Z) : outcome str :=
  if zlen l <? pos then Throw OutOfRange
  else Ok (firstn (Z.to_nat n) (skipn (Z.to_nat pos) l)).

(** [strcmp] / [std::string::compare] on bytes as unsigned char; the C
    standard only specifies the sign of the result, which is what is
    modelled (-1, 0, 1). *)
Fixpoint bytes_cmp (a b : str) : Z :=
  match a, b with
  | [], [] => 0
  | [], _ :: _ => -1
  | _ :: _, [] => 1
  | x :: a', y :: b' => if x <? y then -1 else if y <? x then 1 else bytes_cmp a' b'
  end.
Definition strcmp (a b : str) : Z := bytes_cmp (cstr a) (cstr b).

(** [tolower] of the "C" locale. *)
Definition c_tolower (c : Z) : Z := if (65 <=? c) && (c <=? 90) then c + 32 else c.
Definition c_toupper (c : Z) : Z := if (97 <=? c) && (c <=? 122) then c - 32 else c.
Definition strcasecmp (a b : str) : Z :=
  bytes_cmp (map c_tolower (cstr a)) (map c_tolower (cstr b)).

(** <cctype> functions take an int that must be representable as unsigned
    char or be EOF (-1): a negative [char] argument is undefined in ISO C;
    glibc's tables cover -128..255. [c] is a byte of a string. *)
Definition ctype (m : cpp) (f : Z -> bool) (c : Z) : outcome bool :=
  match m with
  | ISO => if (128 <=? c) && (c <? 255) then UB Precondition else Ok (f c)
  | HW => Ok (f c)
  end.
Definition is_digit_c (c : Z) : bool := (48 <=? c) && (c <=? 57).
Definition is_upper_c (c : Z) : bool := (65 <=? c) && (c <=? 90).
Definition is_lower_c (c : Z) : bool := (97 <=? c) && (c <=? 122).
Definition is_alnum_c (c : Z) : bool := is_digit_c c || is_upper_c c || is_lower_c c.
Definition is_space_c (c : Z) : bool := ((9 <=? c) && (c <=? 13)) || (c =? 32).

(** ** Numerals *)

(** Lower-case digit character. *)
Definition digit_char (d : Z) : Z := if d <? 10 then 48 + d else 87 + d.
(** Value of a digit character, both cases. *)
Definition digit_val (c : Z) : option Z :=
  if is_digit_c c then Some (c - 48)
  else if is_lower_c c then Some (c - 87)
  else if is_upper_c c then Some (c - 55)
  else None.

(** Digits of [n] in base [b], least significant first. *)
Fixpoint digits_le (fuel : nat) (b n : Z) : list Z :=
  match fuel with
  | O => []
  | S k => if n <? b then [n] else n mod b :: digits_le k b (n / b)
  end.
Definition digits_fuel (n : Z) : nat := S (Z.to_nat (Z.log2 n)).
(** Stream/printf output of a non-negative integer in base [b]
    (std::dec, std::oct, std::hex, %lu, std::to_string): no leading zeros. *)
Definition utoa (b n : Z) : str := map digit_char (rev (digits_le (digits_fuel n) b n)).
Definition itoa (n : Z) : str := if n <? 0 then 45 :: utoa 10 (- n) else utoa 10 n.

(** Value of a digit sequence, most significant first. *)
Definition numval (b : Z) (ds : list Z) : Z := fold_left (fun a d => a * b + d) ds 0.

Fixpoint skip_ws (s : str) : str :=
  match s with
  | c :: t => if is_space_c c then skip_ws t else s
  | [] => []
  end.

(** Longest prefix of base-[b] digits, as values. *)
Fixpoint take_digits (b : Z) (s : str) : list Z :=
  match s with
  | c :: t => match digit_val c with
              | Some d => if d <? b then d :: take_digits b t else []
              | None => []
              end
  | [] => []
  end.

Definition strip_sign (s : str) : bool * str :=
  match s with
  | c :: t => if c =? 45 then (true, t) else if c =? 43 then (false, t) else (false, s)
  | [] => (false, [])
  end.

(** "0x"/"0X" is skipped in base 16 when a hexadecimal digit follows. *)
Definition strip_0x (b : Z) (s : str) : str :=
  match s with
  | z :: x :: ((d :: _) as t) =>
      if (b =? 16) && (z =? 48) && ((x =? 120) || (x =? 88)) &&
         match digit_val d with Some v => v <? 16 | None => false end
      then t else s
  | _ => s
  end.

(** [std::stoul(s, nullptr, b)] for 2 <= b <= 36 (calls strtoul): leading
    white space, optional sign, optional 0x, longest run of digits; the rest
    of the string is ignored.  No digits: std::invalid_argument.  Value above
    ULONG_MAX: std::out_of_range.  A minus sign negates modulo 2^64. *)
Definition stoul (b : Z) (s : str) : outcome Z :=
  let '(neg, s1) := strip_sign (skip_ws s) in
  let ds := take_digits b (strip_0x b s1) in
  match ds with
  | [] => Throw InvalidArgument
  | _ => let v := numval b ds in
         if 2 ^ 64 <=? v then Throw OutOfRange
         else Ok (if neg then uwrap 64 (- v) else v)
  end.
