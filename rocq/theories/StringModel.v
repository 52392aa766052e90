(** Model of /repo/library/Java/Lang/String/String.cpp and String.hpp.
    A String value is its byte list ([std::string original], String.hpp:98);
    the cached hash is added in the section "Hash code" below. *)

From Coq Require Import ZArith List Lia Bool.
From Verif Require Import Base CppText.
Import ListNotations.
Open Scope Z_scope.

Definition NUL : Z := 0.

(** The comparison [i > this->original.size() - 1] for a non-negative int
    [i]: both sides are size_t, so for an empty string the right-hand side is
    2^64-1 (String.cpp:158, 204, 283, 312, 342). *)
Definition gt_size_minus_1 (i : Z) (s : str) : bool := uwrap 64 (zlen s - 1) <? i.

(** ** Bounds *)

(** String.cpp:157-162 *)
Definition charAt (s : str) (index : Z) : outcome Z :=
  if (index <? 0) || gt_size_minus_1 index s then Throw StringIndexOutOfBoundsException
  else str_get s index.

(** String.cpp:203-208; substr throws std::out_of_range past size(). *)
Definition getStringFromIndex (s : str) (index : Z) : outcome str :=
  if (index <? 0) || gt_size_minus_1 index s then Throw StringIndexOutOfBoundsException
  else str_substr s index (zlen s).

(** String.cpp:554-565 *)
Definition subString (s : str) (beginIndex endIndex : Z) : outcome str :=
  let lengthTarget := zlen s in
  if (endIndex <? beginIndex) || (beginIndex <? 0) || (lengthTarget <? beginIndex)
     || (endIndex <? 0) || (lengthTarget <? endIndex)
  then Ok []
  else str_substr s beginIndex (endIndex - beginIndex).

(** String.cpp:550-552 *)
Definition subString1 (s : str) (beginIndex : Z) : outcome str :=
  subString s beginIndex (zlen s).

(** String.hpp:1137-1139 (const operator\[\]; the non-const one has the same reads) *)
Definition index_op (s : str) (index : Z) : outcome Z := str_get s index.

(** ** Search *)

(** String.cpp:185-192; the CharSequence overload 176-183 passes
    [toCharPointer()], i.e. [cstr] of the argument. *)
Definition contains (s p : str) : bool :=
  match str_find p s 0 with Some _ => true | None => false end.
Definition contains_seq (s p : str) : bool := contains s (cstr p).

(** String.cpp:229-246: the character becomes a one-character C string, the
    empty one for NUL. [ch] is the character as a byte ((char) character). *)
Definition indexOf_char (s : str) (ch : Z) : Z :=
  match str_find (if ch =? 0 then [] else [ch]) s 0 with
  | Some i => i
  | None => -1
  end.

(** Loop of String.cpp:257-261 from [index] over the remaining bytes. *)
Fixpoint scan_char (l : str) (ch index : Z) : Z :=
  match l with
  | [] => -1
  | c :: t => if c =? ch then index else scan_char t ch (index + 1)
  end.

(** String.cpp:248-263 *)
Definition indexOf_char_from (s : str) (ch fromIndex : Z) : Z :=
  if zlen s <? fromIndex then -1
  else if fromIndex <? 0 then indexOf_char s ch
  else scan_char (skipn (Z.to_nat fromIndex) s) ch fromIndex.

(** String.cpp:265-274 *)
Definition indexOf_str (s p : str) : Z :=
  if (zlen s =? 0) || str_eqb p [] then -1
  else match str_find p s 0 with Some i => i | None => -1 end.

(** String.cpp:276-292 *)
Definition indexOf_str_from (s p : str) (fromIndex : Z) : outcome Z :=
  if fromIndex <? 0 then Ok (indexOf_str s p)
  else if (zlen s =? 0) || str_eqb p [] then Ok (-1)
  else if gt_size_minus_1 fromIndex s || (zlen s <? zlen p) then Ok (-1)
  else
    let* sub := str_substr s fromIndex (zlen s) in
    match str_find p sub 0 with
    | Some found => Ok (found + fromIndex)
    | None => Ok (-1)
    end.

(** Loop of String.cpp:300-304 and 317-321: [n] is [index + 1]. *)
Fixpoint scan_back (s : str) (ch : Z) (n : nat) : outcome Z :=
  match n with
  | O => Ok (-1)
  | S k => let* c := charAt s (Z.of_nat k) in
           if c =? ch then Ok (Z.of_nat k) else scan_back s ch k
  end.

(** String.cpp:298-306 *)
Definition lastIndexOf_char (s : str) (ch : Z) : outcome Z := scan_back s ch (length s).

(** String.cpp:308-323 *)
Definition lastIndexOf_char_from (s : str) (ch fromIndex : Z) : outcome Z :=
  if fromIndex <? 0 then Ok (-1)
  else if gt_size_minus_1 fromIndex s then lastIndexOf_char s ch
  else scan_back s ch (Z.to_nat fromIndex).   (* index starts at fromIndex - 1 *)

(** String.cpp:325-335 *)
Definition lastIndexOf_str (s p : str) : Z :=
  match str_find (rev p) (rev s) 0 with
  | None => -1
  | Some found => zlen s - (found + zlen p)
  end.

(** String.cpp:337-362. [indexToCreatSubString] is an int compared with a
    size_t (a negative one is converted to a huge size_t, so the function
    returns -1 there). [npos] cast to int is -1. *)
Definition lastIndexOf_str_from (s p : str) (fromIndex : Z) : outcome Z :=
  if fromIndex <? 0 then Ok (-1)
  else if gt_size_minus_1 fromIndex s then Ok (lastIndexOf_str s p)
  else
    let indexToCreatSubString := zlen s - fromIndex - zlen p in
    if zlen s <? uwrap 64 indexToCreatSubString then Ok (-1)
    else
      let* sub := str_substr (rev s) indexToCreatSubString (zlen s) in
      match str_find (rev (cstr p)) sub 0 with
      | None => Ok (-1)
      | Some r => Ok (fromIndex - r)
      end.

(** String.cpp:406-421: compares byte by byte up to the prefix length. *)
Fixpoint starts_loop (s p : str) : bool :=
  match p, s with
  | [], _ => true
  | x :: p', y :: s' => if y =? x then starts_loop s' p' else false
  | _ :: _, [] => false
  end.
Definition startsWith (s p : str) : bool :=
  if zlen s <? zlen p then false else starts_loop s p.

(** String.cpp:423-441 *)
Definition startsWith_at (s p : str) (thisOffset : Z) : bool :=
  if thisOffset <? 0 then false
  else if (zlen s <? zlen p) || (zlen s - zlen p <? thisOffset) then false
  else starts_loop (skipn (Z.to_nat thisOffset) s) p.

(** String.cpp:210-223: the loop runs from the last byte to the first. *)
Fixpoint ends_loop (s p : str) (off : Z) (n : nat) : outcome bool :=
  match n with
  | O => Ok true
  | S k =>
      let* a := str_get p (Z.of_nat k) in
      let* b := str_get s (off + Z.of_nat k) in
      if a =? b then ends_loop s p off k else Ok false
  end.
Definition endsWith (s p : str) : outcome bool :=
  if zlen s <? zlen p then Ok false
  else ends_loop s p (zlen s - zlen p) (length p).

(** ** Rewriting *)

(** String.cpp:364-372 *)
Definition replace_char (s : str) (oldChar newChar : Z) : str :=
  map (fun c => if c =? oldChar then newChar else c) s.

(** String.cpp:642-665. [pos], [pre] as in the code; one unit of fuel per
    iteration of the while loop. Between the iterations [pre = pos] holds at
    the loop head, except that the copying loop advances [pre]. *)
Fixpoint replace_loop (fuel : nat) (s target repl : str) (pos pre : Z) (result : str)
  : outcome (Z * str) :=
  match fuel with
  | O => OutOfFuel
  | S k =>
      match str_find target s pos with
      | None => Ok (pre, result)
      | Some p =>
          let copied := firstn (Z.to_nat (p - pre)) (skipn (Z.to_nat pre) s) in
          replace_loop k s target repl (p + zlen target) (Z.max pre p + zlen target)
                       (result ++ copied ++ repl)
      end
  end.
Definition replace_seq (fuel : nat) (s target repl : str) : outcome str :=
  let* ' (pre, result) := replace_loop fuel s target repl 0 0 [] in
  Ok (result ++ skipn (Z.to_nat pre) s).

(** String.cpp:379-404; same loop, pieces pushed to an Array<String>. *)
Fixpoint split_loop (fuel : nat) (s target : str) (pos pre : Z) (strings : list str)
  : outcome (Z * list str) :=
  match fuel with
  | O => OutOfFuel
  | S k =>
      match str_find target s pos with
      | None => Ok (pre, strings)
      | Some p =>
          let piece := firstn (Z.to_nat (p - pre)) (skipn (Z.to_nat pre) s) in
          split_loop k s target (p + zlen target) (Z.max pre p + zlen target)
                     (strings ++ [piece])
      end
  end.
Definition split (fuel : nat) (s regex : str) : outcome (list str) :=
  let* ' (pre, strings) := split_loop fuel s regex 0 0 [] in
  Ok (strings ++ [skipn (Z.to_nat pre) s]).

(** The tail of split(regex, limit): String.cpp:690-694, pieces glued again. *)
Fixpoint glue (sep : str) (l : list str) : str :=
  match l with
  | [] => []
  | [x] => x
  | x :: t => x ++ sep ++ glue sep t
  end.
(** String.cpp:676-697 *)
Definition split_limit (fuel : nat) (s regex : str) (limit : Z) : outcome (list str) :=
  let* all := split fuel s regex in
  if limit =? 1 then Ok [s]
  else if (zlen all <? limit) || (limit <=? 0) then Ok all
  else Ok (firstn (Z.to_nat (limit - 1)) all
           ++ [glue regex (skipn (Z.to_nat (limit - 1)) all)]).

(** String.cpp:667-674 *)
Definition replaceFirst (fuel : nat) (s regex repl : str) : outcome str :=
  let n := indexOf_str s regex + zlen regex in
  let* first := subString s 0 n in
  let* remain := getStringFromIndex s n in
  let* first' := replace_seq fuel first regex repl in
  Ok (first' ++ remain).

(** String.cpp:471-478: find_first_not_of(' '), find_last_not_of(' '). *)
Fixpoint drop_blanks (s : str) : str :=
  match s with
  | c :: t => if c =? 32 then drop_blanks t else s
  | [] => []
  end.
Definition trim (s : str) : outcome str :=
  match drop_blanks s with
  | [] => Ok []
  | _ =>
      let first := zlen s - zlen (drop_blanks s) in
      let last := zlen (drop_blanks (rev s)) - 1 in
      str_substr s first (last - first + 1)
  end.

(** ** Comparison *)

(** String.cpp:164-166 *)
Definition compareTo (a b : str) : Z := strcmp a b.
(** String.cpp:168-170 *)
Definition compareToIgnoreCase (a b : str) : Z := strcasecmp a b.
(** String.cpp:579-581, String.hpp:1066-1068 *)
Definition equals (a b : str) : bool := str_eqb a b.
(** String.cpp:583-585 *)
Definition equalsIgnoreCase (a b : str) : bool := compareToIgnoreCase a b =? 0.
(** String.cpp:567-569 *)
Definition contentEquals (a b : str) : bool := strcmp a b =? 0.

(** String.cpp:603-611: int additions, then two substrings compared with
    strcmp (strings of different lengths: "" stands for an invalid range). *)
Definition regionMatches (m : cpp) (ignoreCase : bool) (s : str) (thisOffset : Z)
    (other : str) (otherOffset len : Z) : outcome bool :=
  let* e1 := sadd m 32 thisOffset len in
  let* a := subString s thisOffset e1 in
  let* e2 := sadd m 32 otherOffset len in
  let* b := subString other otherOffset e2 in
  Ok ((if ignoreCase then compareToIgnoreCase a b else compareTo a b) =? 0).

(** String.cpp:57-67, restricted to strings of ASCII bytes (the code converts
    UTF-8 to wide characters, maps towupper/towlower, and converts back;
    [input.c_str()] cuts the string at the first NUL). *)
Definition toLowerCase_ascii (s : str) : str := map c_tolower (cstr s).
Definition toUpperCase_ascii (s : str) : str := map c_toupper (cstr s).

(** String.cpp:613-640: range checks, then a loop that also rewrites
    destination[0..destinationBegin) with itself. *)
Fixpoint getChars_loop (n : nat) (s : str) (index destBegin len src : Z) (dst : str)
  : outcome str :=
  match n with
  | O => Ok dst
  | S k =>
      if (destBegin <=? index) && (index <? destBegin + len) then
        let* c := charAt s src in
        let* dst' := at_set dst index c in
        getChars_loop k s (index + 1) destBegin len (src + 1) dst'
      else
        let* c := at_ dst index in
        let* dst' := at_set dst index c in
        getChars_loop k s (index + 1) destBegin len src dst'
  end.
Definition getChars (m : cpp) (s : str) (srcBegin srcEnd : Z) (dst : str) (dstBegin : Z)
  : outcome str :=
  if srcBegin <? 0 then Throw StringIndexOutOfBoundsException
  else if srcEnd <? srcBegin then Throw StringIndexOutOfBoundsException
  else if zlen s <? srcEnd then Throw StringIndexOutOfBoundsException
  else if dstBegin <? 0 then Throw StringIndexOutOfBoundsException
  else
    let* e := sadd m 32 dstBegin (srcEnd - srcBegin) in
    if zlen dst <? e then Throw StringIndexOutOfBoundsException
    else getChars_loop (Z.to_nat e) s 0 dstBegin (srcEnd - srcBegin) srcBegin dst.

(** ** Hash code *)

(** The object with its mutable cache (String.hpp:98-99, [hash] starts at 0). *)
Record jstring := { original : str; hash : Z }.

(** Loop of String.cpp:590-592: int arithmetic on signed chars. *)
Fixpoint hash_loop (m : cpp) (l : str) (h : Z) : outcome Z :=
  match l with
  | [] => Ok h
  | c :: t => let* p := smul m 32 31 h in
              let* h' := sadd m 32 p (schar c) in
              hash_loop m t h'
  end.
(** String.cpp:587-596 *)
Definition hashCode (m : cpp) (o : jstring) : outcome (Z * jstring) :=
  if (hash o =? 0) && (0 <? zlen (original o)) then
    let* h := hash_loop m (original o) 0 in
    Ok (h, {| original := original o; hash := h |})
  else Ok (hash o, o).

(** Mutations visible to a client: assignment (String.hpp:1076-1079, keeps
    [hash]), += (1033-1058, keeps [hash]), write through operator\[\]
    (String.hpp:303-305, keeps [hash]). *)
Inductive mutation :=
| Assign (s : str)
| Append (s : str)
| SetAt (i : Z) (c : Z)
| CallHash.
Definition mutate (m : cpp) (o : jstring) (u : mutation) : outcome jstring :=
  match u with
  | Assign s => Ok {| original := s; hash := hash o |}
  | Append s => Ok {| original := original o ++ s; hash := hash o |}
  | SetAt i c => let* s := raw_set (original o) i c in Ok {| original := s; hash := hash o |}
  | CallHash => let* ' (_, o') := hashCode m o in Ok o'
  end.
Fixpoint mutate_all (m : cpp) (o : jstring) (us : list mutation) : outcome jstring :=
  match us with
  | [] => Ok o
  | u :: t => let* o' := mutate m o u in mutate_all m o' t
  end.
(** String.cpp:99-101, String.hpp constructors: only [original] is copied. *)
Definition new_string (s : str) : jstring := {| original := s; hash := 0 |}.

(** String.cpp:514-522 ([std::to_string]) *)
Definition valueOf_int (n : Z) : str := itoa n.
(** String.cpp:480-485 *)
Definition valueOf_bool (b : bool) : str :=
  if b then [116; 114; 117; 101] else [102; 97; 108; 115; 101].
(** String.cpp:487-500 *)
Definition valueOf_char (c : Z) : str := if c =? 0 then [] else [c].

(** String.hpp:599-615 join: elements separated by the delimiter. *)
Fixpoint join (delimiter : str) (l : list str) : str :=
  match l with
  | [] => []
  | [x] => x
  | x :: t => x ++ delimiter ++ join delimiter t
  end.
