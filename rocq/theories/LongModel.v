(** Model of /repo/library/Java/Lang/Long/Long.cpp. *)

From Coq Require Import ZArith List Lia Bool.
From Verif Require Import Base CppText StringModel CharacterModel.
Import ListNotations.
Open Scope Z_scope.

(** Long.hpp:46,51 *)
Definition LMAX : Z := long_max.
Definition LMIN : Z := long_min.

(** ** Bit queries *)

(** Long.cpp:81-89; [>>] on a signed long is arithmetic. *)
Definition bitCount (m : cpp) (i : Z) : outcome Z :=
  let* i := ssub m 64 i (Z.land (Z.shiftr i 1) 0x5555555555555555) in
  let* i := sadd m 64 (Z.land i 0x3333333333333333) (Z.land (Z.shiftr i 2) 0x3333333333333333) in
  let* s := sadd m 64 i (Z.shiftr i 4) in
  let i := Z.land s 0x0f0f0f0f0f0f0f0f in
  let* i := sadd m 64 i (Z.shiftr i 8) in
  let* i := sadd m 64 i (Z.shiftr i 16) in
  let* i := sadd m 64 i (Z.shiftr i 32) in
  Ok (Z.land (wrap 32 i) 0x7f).

(** Long.cpp:260-268 *)
Definition highestOneBit (m : cpp) (i : Z) : outcome Z :=
  let i := Z.lor i (Z.shiftr i 1) in
  let i := Z.lor i (Z.shiftr i 2) in
  let i := Z.lor i (Z.shiftr i 4) in
  let i := Z.lor i (Z.shiftr i 8) in
  let i := Z.lor i (Z.shiftr i 16) in
  let i := Z.lor i (Z.shiftr i 32) in
  ssub m 64 i (Z.shiftr i 1).

(** Long.cpp:295-297 *)
Definition lowestOneBit (m : cpp) (i : Z) : outcome Z :=
  let* n := sneg m 64 i in Ok (Z.land i n).

(** Loop of Long.cpp:311-317 with [n = shiftCount + 1]. *)
Fixpoint nlz_loop (m : cpp) (source : Z) (n : nat) : outcome Z :=
  match n with
  | O => Ok 0
  | S k => let* b := sshl m 64 1 (Z.of_nat k) in
           if negb (Z.land source b =? 0) then Ok (63 - Z.of_nat k) else nlz_loop m source k
  end.
(** Long.cpp:306-320 *)
Definition numberOfLeadingZeros (m : cpp) (source : Z) : outcome Z :=
  if source =? 0 then Ok 64 else nlz_loop m source 64.

(** Loop of Long.cpp:335-339 with [bitOrder = 64 - n]. *)
Fixpoint ntz_loop (m : cpp) (source : Z) (n : nat) : outcome Z :=
  match n with
  | O => Ok 0
  | S k => let bitOrder := 64 - Z.of_nat n in
           let* b := sshl m 64 1 bitOrder in
           if negb (Z.land source b =? 0) then Ok bitOrder else ntz_loop m source k
  end.
(** Long.cpp:329-342 *)
Definition numberOfTrailingZeros (m : cpp) (source : Z) : outcome Z :=
  if source =? 0 then Ok 64 else ntz_loop m source 64.

(** Long.cpp:489-491: [(int) ((i >> 63) | (-i >> 63))] *)
Definition signum (m : cpp) (i : Z) : outcome Z :=
  let* n := sneg m 64 i in
  Ok (wrap 32 (Z.lor (Z.shiftr i 63) (Z.shiftr n 63))).

(** Long.cpp:108-116 *)
Definition compare (x y : Z) : Z := if x <? y then -1 else if x =? y then 0 else 1.

(** Long.cpp:249-251 *)
Definition hashCode (x : Z) : Z := wrap 32 (Z.lxor x (Z.shiftr x 32)).

(** ** Bit permutations *)

(** Long.cpp:424-435: the body is commented out. *)
Definition reverse (i : Z) : Z := i.
(** Long.cpp:444-448 *)
Definition reverseBytes (i : Z) : Z := i.
(** Long.cpp:458-460: [(i << distance) | (i >> -distance)] *)
Definition rotateLeft (m : cpp) (i distance : Z) : outcome Z :=
  let* a := sshl m 64 i distance in
  let* nd := sneg m 32 distance in
  let* b := sshr m 64 i nd in
  Ok (Z.lor a b).
(** Long.cpp:470-472 *)
Definition rotateRight (m : cpp) (i distance : Z) : outcome Z :=
  let* a := sshr m 64 i distance in
  let* nd := sneg m 32 distance in
  let* b := sshl m 64 i nd in
  Ok (Z.lor a b).

(** ** Parsing *)

(** Loop of Long.cpp:392-409; [cs] are the characters from [index] on (every
    charAt is inside the string). *)
Fixpoint parse_loop (m : cpp) (cs : str) (radix limit multmin result : Z) : outcome (option Z) :=
  match cs with
  | [] => Ok (Some result)
  | c :: t =>
      let d := digit (schar c) radix in
      if d <? 0 then Ok None
      else if result <? multmin then Ok None
      else
        let* r := smul m 64 result radix in
        let* ld := sadd m 64 limit d in
        if r <? ld then Ok None
        else let* r' := ssub m 64 r d in parse_loop m t radix limit multmin r'
  end.
(** Long.cpp:362-415: every error returns -1. *)
Definition parseLong (m : cpp) (s : str) (radix : Z) : outcome Z :=
  match s with
  | [] => Ok (-1)
  | c :: t =>
      let firstChar := schar c in
      let special := firstChar <? 48 in
      let negative := special && (firstChar =? 45) in
      if special && negb (firstChar =? 45) && negb (firstChar =? 43) then Ok (-1)
      else if special && (zlen s =? 1) then Ok (-1)
      else
        let limit := if negative then LMIN else - LMAX in
        let* multmin := sdiv 64 limit radix in
        let* r := parse_loop m (if special then t else s) radix limit multmin 0 in
        match r with
        | None => Ok (-1)
        | Some v => if negative then Ok v else sneg m 64 v
        end
  end.

(** Long.cpp:135-178 *)
Definition decode (m : cpp) (s : str) : outcome Z :=
  match s with
  | [] => Ok (-1)
  | c :: _ =>
      let negative := c =? 45 in
      let index := if (c =? 45) || (c =? 43) then 1 else 0 in
      let '(index, radix) :=
        if startsWith_at s [48; 120] index || startsWith_at s [48; 88] index then (index + 2, 16)
        else if startsWith_at s [35] index then (index + 1, 16)
        else if startsWith_at s [48] index && (1 + index <? zlen s) then (index + 1, 8)
        else (index, 10) in
      if startsWith_at s [45] index || startsWith_at s [43] index then Ok (-1)
      else
        let* t := getStringFromIndex s index in
        let* r := parseLong m t radix in
        if negative then sneg m 64 r else Ok r
  end.

(** ** Power-of-two formatting *)

(** Long.cpp:606-609 (formatUnsignedLong 591-612), the do-while loop; [buf] has [len] characters and
    [offset] is 0 in the only call. [charPos] decreases to 0, so [charPos]
    iterations suffice (fuel). [digits\[((int) val) & mask\]] *)
Fixpoint format_loop (fuel : nat) (val shift : Z) (buf : str) (charPos : Z) : outcome str :=
  match fuel with
  | O => OutOfFuel
  | S k =>
      let charPos := charPos - 1 in
      let* buf := at_set buf charPos (digit_char (Z.land (wrap 32 val) (2 ^ shift - 1))) in
      let val := Z.shiftr val shift in
      if negb (val =? 0) && (0 <? charPos) then format_loop k val shift buf charPos
      else Ok buf
  end.
(** Long.cpp:621-637 *)
Definition toUnsignedString0 (m : cpp) (val shift : Z) : outcome str :=
  let* z := numberOfLeadingZeros m val in
  let mag := 64 - z in
  let chars := Z.max ((mag + (shift - 1)) / shift) 1 in
  format_loop (Z.to_nat chars) val shift (repeat 48 (Z.to_nat chars)) chars.
(** Long.cpp:499-502, 510-513, 521-524 *)
Definition toBinaryString (m : cpp) (i : Z) := toUnsignedString0 m i 1.
Definition toHexString (m : cpp) (i : Z) := toUnsignedString0 m i 4.
Definition toOctalString (m : cpp) (i : Z) := toUnsignedString0 m i 3.

(** ** Objects and the static toString *)

(** Long.hpp:39-40: value and the text made by the constructors (Long.cpp:
    37-64) and operator= (645-652). *)
Record long_obj := { lval : Z; ltext : str }.
Definition mk_long (x : Z) : long_obj := {| lval := x; ltext := itoa x |}.

Inductive lop := LAdd | LSub | LMul | LDiv | LMod.
(** Long.cpp:660-707 (binary operators): no test for a zero divisor *)
Definition long_op (m : cpp) (o : lop) (a b : Z) : outcome Z :=
  match o with
  | LAdd => sadd m 64 a b
  | LSub => ssub m 64 a b
  | LMul => smul m 64 a b
  | LDiv => sdiv 64 a b
  | LMod => srem 64 a b
  end.
(** Operations that modify a Long object: plain assignment (645-652) renews
    the text, compound assignment (796-834) does not. *)
Inductive lstep := LAssign (v : Z) | LCompound (o : lop) (v : Z).
Definition long_step (m : cpp) (x : long_obj) (s : lstep) : outcome long_obj :=
  match s with
  | LAssign v => Ok (mk_long v)
  | LCompound o v => let* r := long_op m o (lval x) v in Ok {| lval := r; ltext := ltext x |}
  end.
Fixpoint long_steps (m : cpp) (x : long_obj) (l : list lstep) : outcome long_obj :=
  match l with
  | [] => Ok x
  | s :: t => let* y := long_step m x s in long_steps m y t
  end.

(** Long.cpp:541-544: [static Long result = i;] is initialised by the first
    call only. The state is the static variable (None before the first call). *)
Definition toString_static (st : option Z) (i : Z) : str * option Z :=
  let v := match st with None => i | Some j => j end in (itoa v, Some v).
Fixpoint toString_calls (st : option Z) (l : list Z) : list str :=
  match l with
  | [] => []
  | i :: t => let '(s, st') := toString_static st i in s :: toString_calls st' t
  end.
