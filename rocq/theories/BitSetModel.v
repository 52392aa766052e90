(** Model of /repo/library/Java/Util/BitSet/BitSet.cpp and BitSet.hpp.

    The object is the word array, [wordsInUse] and [sizeIsSticky]
    (BitSet.hpp:46-50). Simplifications, here and below: messages of
    exceptions are dropped; memory exhaustion is not modelled; a word is the
    [Z] value of the [long]; [Array<long>] is a list and its checked accesses
    are [at_]/[at_set] (Kernel/Java.hpp:158-182). *)

From Coq Require Import ZArith List Lia Bool.
From Verif Require Import Base CppText LongModel.
Import ListNotations.
Open Scope Z_scope.

(** BitSet.hpp:46-50 *)
Record bitset := mk { words : list Z; inUse : Z; sticky : bool }.

(** BitSet.cpp:34-39, [bitIndex >> ADDRESS_BITS_PER_WORD]. *)
Definition wordIndex (i : Z) : Z := Z.shiftr i 6.

(** BitSet.cpp:41-55 *)
Definition checkRange (from to : Z) : outcome unit :=
  if from <? 0 then Throw IndexOutOfBoundsException
  else if to <? 0 then Throw IndexOutOfBoundsException
  else if to <? from then Throw IndexOutOfBoundsException
  else Ok tt.

(** BitSet.cpp:57-68: [Array<long>(wordIndex(n - 1) + 1)], all zero. *)
Definition initializeWords (n : Z) : list Z :=
  repeat 0 (Z.to_nat (wordIndex (n - 1) + 1)).

(** Arrays.hpp:578-595 with padding NULL (0). *)
Definition copyOf (l : list Z) (n : Z) : list Z :=
  firstn (Z.to_nat n) l ++ repeat 0 (Z.to_nat n - length l).

(** BitSet.cpp:78-93. [2 * length] is an [int] product. *)
Definition ensureCapacity (m : cpp) (s : bitset) (req : Z) : outcome bitset :=
  if req <=? zlen (words s) then Ok s
  else let* d := smul m 32 2 (zlen (words s)) in
       Ok (mk (copyOf (words s) (Z.max d req)) (inUse s) false).

(** BitSet.cpp:70-76 *)
Definition expandTo (m : cpp) (s : bitset) (wi : Z) : outcome bitset :=
  if inUse s <? wi + 1 then
    let* s := ensureCapacity m s (wi + 1) in Ok (mk (words s) (wi + 1) (sticky s))
  else Ok s.

(** BitSet.cpp:95-106: scan down from [wordsInUse - 1] ([n] words left). *)
Fixpoint scan (ws : list Z) (n : nat) : outcome Z :=
  match n with
  | O => Ok 0
  | S k => let* x := at_ ws (Z.of_nat k) in
           if negb (x =? 0) then Ok (Z.of_nat k + 1) else scan ws k
  end.
Definition recalc (s : bitset) : outcome bitset :=
  let* n := scan (words s) (Z.to_nat (inUse s)) in Ok (mk (words s) n (sticky s)).

(** BitSet.cpp:108-112 *)
Definition trimToSize (s : bitset) : bitset :=
  if negb (inUse s =? zlen (words s)) then mk (copyOf (words s) (inUse s)) (inUse s) (sticky s)
  else s.

(** BitSet.cpp:120-143, constructors. *)
Definition BitSet0 : bitset := mk (initializeWords 64) 0 false.
Definition BitSetN (n : Z) : outcome bitset :=
  if n <? 0 then Throw NegativeArraySizeException
  else Ok (mk (initializeWords n) 0 true).
Definition BitSetWords (ws : list Z) : bitset := mk ws (zlen ws) false.
Definition BitSetCopy (s : bitset) : bitset :=
  mk (copyOf (words s) (zlen (words s))) (inUse s) (sticky s).

(** [words[i] = f(words[i])]: a checked read then a checked write. *)
Definition word_op (ws : list Z) (i : Z) (f : Z -> outcome Z) : outcome (list Z) :=
  let* x := at_ ws i in let* y := f x in at_set ws i y.
(** [for (index = i; n times; ++index) words[index] = f(index, words[index])]
    — the shape of every word loop of the file. *)
Fixpoint for_words (n : nat) (i : Z) (ws : list Z) (f : Z -> Z -> outcome Z) : outcome (list Z) :=
  match n with
  | O => Ok ws
  | S k => let* ws := word_op ws i (f i) in for_words k (i + 1) ws f
  end.
(** The loop from [a] up to and excluding [b]. *)
Definition for_range (a b : Z) := for_words (Z.to_nat (b - a)) a.

(** BitSet.cpp:155-159 and 244-250: [while (wordsInUse > lo)
    { --wordsInUse; words[wordsInUse] = 0; }], [n] iterations. *)
Fixpoint zero_down (n : nat) (s : bitset) : outcome bitset :=
  match n with
  | O => Ok s
  | S k => let* ws := at_set (words s) (inUse s - 1) 0 in
           zero_down k (mk ws (inUse s - 1) (sticky s))
  end.

(** BitSet.hpp:255-275 on two BitSets (dynamic_cast succeeds). *)
Fixpoint equals_from (n : nat) (i : Z) (a b : list Z) : outcome bool :=
  match n with
  | O => Ok true
  | S k => let* x := at_ a i in let* y := at_ b i in
           if negb (x =? y) then Ok false else equals_from k (i + 1) a b
  end.
Definition equals (a b : bitset) : outcome bool :=
  if negb (inUse a =? inUse b) then Ok false
  else equals_from (Z.to_nat (inUse a)) 0 (words a) (words b).

(** BitSet.cpp:149-168 *)
Definition bitAnd (s t : bitset) : outcome bitset :=
  let* e := equals s t in
  if e then Ok s else
  let* s := zero_down (Z.to_nat (inUse s - inUse t)) s in
  let* ws := for_range 0 (inUse s) (words s) (fun i x =>
               let* y := at_ (words t) i in Ok (Z.land x y)) in
  recalc (mk ws (inUse s) (sticky s)).

(** BitSet.cpp:175-195 and 197-217: the common part of bitOr and bitXor,
    [op] being [|] or [^]. *)
Definition merge (m : cpp) (op : Z -> Z -> Z) (s t : bitset) : outcome bitset :=
  let common := Z.min (inUse s) (inUse t) in
  let* s := (if inUse s <? inUse t then
               let* s := ensureCapacity m s (inUse t) in Ok (mk (words s) (inUse t) (sticky s))
             else Ok s) in
  let* ws := for_range 0 common (words s) (fun i x =>
               let* y := at_ (words t) i in Ok (op x y)) in
  let* ws := (if common <? inUse t then
                for_range common (inUse t) ws (fun i _ => at_ (words t) i)
              else Ok ws) in
  Ok (mk ws (inUse s) (sticky s)).
(** BitSet.cpp:170-195 *)
Definition bitOr (m : cpp) (s t : bitset) : outcome bitset :=
  let* e := equals s t in
  if e then Ok s else merge m Z.lor s t.
(** BitSet.cpp:197-220 *)
Definition bitXor (m : cpp) (s t : bitset) : outcome bitset :=
  let* s := merge m Z.lxor s t in recalc s.
(** BitSet.cpp:222-232 *)
Definition andNot (s t : bitset) : outcome bitset :=
  let common := Z.min (inUse s) (inUse t) in
  let* ws := for_range 0 common (words s) (fun i x =>
               let* y := at_ (words t) i in Ok (Z.land x (Z.lnot y))) in
  recalc (mk ws (inUse s) (sticky s)).

(** BitSet.cpp:234-242. The sum is an [int]. *)
Fixpoint card_from (m : cpp) (n : nat) (i acc : Z) (ws : list Z) : outcome Z :=
  match n with
  | O => Ok acc
  | S k => let* x := at_ ws i in
           let* c := LongModel.bitCount m x in
           let* acc := sadd m 32 acc c in card_from m k (i + 1) acc ws
  end.
Definition cardinality (m : cpp) (s : bitset) : outcome Z :=
  card_from m (Z.to_nat (inUse s)) 0 0 (words s).

(** BitSet.cpp:244-250 *)
Definition clearAll (s : bitset) : outcome bitset := zero_down (Z.to_nat (inUse s)) s.

(** [1L << bitIndex] (BitSet.cpp:263, 324, 376, 594) *)
Definition bit_mask (m : cpp) (i : Z) : outcome Z := sshl m 64 1 i.
(** [WORD_MASK << fromIndex] (BitSet.cpp:286, 339, 474, 503, 616);
    WORD_MASK = 0xffffffffffffffffL converted to long = -1 (BitSet.hpp:43). *)
Definition first_mask (m : cpp) (from : Z) : outcome Z := sshl m 64 (-1) from.
(** [static_cast<unsigned long>(WORD_MASK) >> (-toIndex & 0b111111)]
    converted to long (BitSet.cpp:288, 340, 412, 536, 569, 618). *)
Definition last_mask (m : cpp) (to : Z) : outcome Z :=
  let* n := sneg m 32 to in
  let* r := ushr m 64 (2 ^ 64 - 1) (Z.land n 63) in
  Ok (wrap 64 r).

(** BitSet.cpp:252-265 *)
Definition clear (m : cpp) (s : bitset) (i : Z) : outcome bitset :=
  if i <? 0 then Throw IndexOutOfBoundsException
  else if inUse s <=? wordIndex i then Ok s
  else
    let* b := bit_mask m i in
    let* ws := word_op (words s) (wordIndex i) (fun x => Ok (Z.land x (Z.lnot b))) in
    recalc (mk ws (inUse s) (sticky s)).

(** BitSet.cpp:452-461. Arithmetic in [int]. *)
Definition length (m : cpp) (s : bitset) : outcome Z :=
  if inUse s =? 0 then Ok 0
  else
    let* p := smul m 32 64 (inUse s - 1) in
    let* x := at_ (words s) (inUse s - 1) in
    let* z := LongModel.numberOfLeadingZeros m x in
    sadd m 32 p (64 - z).

(** The body shared by clear/set/flip on a range (BitSet.cpp:290-305,
    342-357, 620-635): [one] acts on a word with a mask, [mid] on an
    intermediate word. *)
Definition range_words (ws : list Z) (a b first last : Z)
    (one : Z -> Z -> Z) (mid : Z -> Z) : outcome (list Z) :=
  if a =? b then word_op ws a (fun x => Ok (one x (Z.land first last)))
  else
    let* ws := word_op ws a (fun x => Ok (one x first)) in
    let* ws := for_range (a + 1) b ws (fun _ x => Ok (mid x)) in
    word_op ws b (fun x => Ok (one x last)).

(** BitSet.cpp:267-308 *)
Definition clearRange (m : cpp) (s : bitset) (from to : Z) : outcome bitset :=
  let* _ := checkRange from to in
  if from =? to then Ok s else
  let start := wordIndex from in
  if inUse s <=? start then Ok s else
  let e := wordIndex (to - 1) in
  let* '(to, e) := (if inUse s <=? e then
                      let* l := length m s in Ok (l, inUse s - 1)
                    else Ok (to, e)) in
  let* f := first_mask m from in
  let* l := last_mask m to in
  let* ws := range_words (words s) start e f l
               (fun x k => Z.land x (Z.lnot k)) (fun _ => 0) in
  recalc (mk ws (inUse s) (sticky s)).

(** BitSet.cpp:310-315: the (possibly trimmed) original and its copy. *)
Definition clone (s : bitset) : bitset * bitset :=
  let s := if negb (sticky s) then trimToSize s else s in (s, BitSetCopy s).

(** BitSet.cpp:317-326 *)
Definition flip (m : cpp) (s : bitset) (i : Z) : outcome bitset :=
  if i <? 0 then Throw IndexOutOfBoundsException
  else
    let* s := expandTo m s (wordIndex i) in
    let* b := bit_mask m i in
    let* ws := word_op (words s) (wordIndex i) (fun x => Ok (Z.lxor x b)) in
    recalc (mk ws (inUse s) (sticky s)).

(** BitSet.cpp:328-360. Note [endWordIndex = wordIndex(toIndex)]. *)
Definition flipRange (m : cpp) (s : bitset) (from to : Z) : outcome bitset :=
  let* _ := checkRange from to in
  if from =? to then Ok s else
  let start := wordIndex from in
  let e := wordIndex to in
  let* s := expandTo m s e in
  let* f := first_mask m from in
  let* l := last_mask m to in
  let* ws := range_words (words s) start e f l Z.lxor (fun x => Z.lxor x (-1)) in
  recalc (mk ws (inUse s) (sticky s)).

(** BitSet.cpp:362-377 *)
Definition get (m : cpp) (s : bitset) (i : Z) : outcome bool :=
  if i <? 0 then Throw IndexOutOfBoundsException
  else if inUse s <=? wordIndex i then Ok false
  else
    let* x := at_ (words s) (wordIndex i) in
    let* b := bit_mask m i in
    Ok (negb (Z.land x b =? 0)).

(** BitSet.cpp:379-427. [lshr x n] is [static_cast<unsigned long>(x) >> n]. *)
Definition lshr (m : cpp) (x n : Z) : outcome Z := ushr m 64 (uwrap 64 x) n.
Definition join (m : cpp) (src : list Z) (k from mask : Z) : outcome Z :=
  let* a := at_ src k in
  let* a := lshr m a from in
  let* b := at_ src (k + 1) in
  let* n := sneg m 32 from in
  let* b := sshl m 64 (Z.land b mask) (Z.land n 63) in
  Ok (wrap 64 (Z.lor a (uwrap 64 b))).
Definition getRange (m : cpp) (s : bitset) (from to : Z) : outcome bitset :=
  let* _ := checkRange from to in
  let* len := length m s in
  if (len <=? from) || (from =? to) then BitSetN 0 else
  let to := if len <? to then len else to in
  let* r := BitSetN (to - from) in
  let target := wordIndex (to - from - 1) + 1 in
  let src := wordIndex from in
  let aligned := Z.land from 63 =? 0 in
  let* ws := for_range 0 (target - 1) (words r) (fun i _ =>
      if aligned then at_ (words s) (src + i)
      else join m (words s) (src + i) from (-1)) in
  let last := src + (target - 1) in
  let* mask := last_mask m to in
  let* ws := (if Z.land (to - 1) 63 <? Z.land from 63 then
      let* x := join m (words s) last from mask in at_set ws (target - 1) x
    else
      let* a := at_ (words s) last in
      let* x := lshr m (Z.land a mask) from in at_set ws (target - 1) (wrap 64 x)) in
  recalc (mk ws target (sticky r)).

(** BitSet.cpp:429-435. [hash ^= words[i] * (i + 1)] for i = length-1 .. 0;
    the final [long] is converted to [int]. *)
Fixpoint hash_down (m : cpp) (n : nat) (h : Z) (ws : list Z) : outcome Z :=
  match n with
  | O => Ok h
  | S k => let* x := at_ ws (Z.of_nat k) in
           let* p := smul m 64 x (Z.of_nat k + 1) in
           hash_down m k (Z.lxor h p) ws
  end.
Definition hashCode (m : cpp) (s : bitset) : outcome Z :=
  let* h := hash_down m (List.length (words s)) 1234 (words s) in
  Ok (wrap 32 (Z.lxor (Z.shiftr h 32) h)).

(** BitSet.cpp:437-446: [for (index = 0; index <= endWordIndex; ++index)]. *)
Fixpoint inter_from (n : nat) (i : Z) (a b : list Z) : outcome bool :=
  match n with
  | O => Ok false
  | S k => let* x := at_ a i in let* y := at_ b i in
           if negb (Z.land x y =? 0) then Ok true else inter_from k (i + 1) a b
  end.
Definition intersects (s t : bitset) : outcome bool :=
  inter_from (Z.to_nat (Z.min (inUse s) (inUse t) + 1)) 0 (words s) (words t).

(** BitSet.cpp:448-450 *)
Definition isEmpty (s : bitset) : bool := inUse s =? 0.

(** BitSet.cpp:476-489 and 505-518 ([neg]: complement the word read).
    [n] bounds the number of rounds ([wordsInUse - indexOfWord] suffice, so
    the trailing [return 0] is not reachable and stands for running out). *)
Fixpoint next_loop (m : cpp) (n : nat) (neg : bool) (ws : list Z) (use wi word : Z) (none : outcome Z) : outcome Z :=
  match n with
  | O => OutOfFuel
  | S k =>
    if negb (word =? 0) then
      let* z := LongModel.numberOfTrailingZeros m word in sadd m 32 (wi * 64) z
    else if wi + 1 =? use then none
    else let* x := at_ ws (wi + 1) in
         next_loop m k neg ws use (wi + 1) (if neg then Z.lnot x else x) none
  end.
(** BitSet.cpp:463-490. [wordsInUse * BITS_PER_WORD] is an [int] product. *)
Definition nextClearBit (m : cpp) (s : bitset) (from : Z) : outcome Z :=
  if from <? 0 then Throw IndexOutOfBoundsException
  else if inUse s <=? wordIndex from then Ok from
  else
    let* x := at_ (words s) (wordIndex from) in
    let* f := first_mask m from in
    next_loop m (Z.to_nat (inUse s - wordIndex from)) true (words s) (inUse s)
                (wordIndex from) (Z.land (Z.lnot x) f) (smul m 32 (inUse s) 64).
(** BitSet.cpp:492-519 *)
Definition nextSetBit (m : cpp) (s : bitset) (from : Z) : outcome Z :=
  if from <? 0 then Throw IndexOutOfBoundsException
  else if inUse s <=? wordIndex from then Ok (-1)
  else
    let* x := at_ (words s) (wordIndex from) in
    let* f := first_mask m from in
    next_loop m (Z.to_nat (inUse s - wordIndex from)) false (words s) (inUse s)
                (wordIndex from) (Z.land x f) (Ok (-1)).

(** BitSet.cpp:538-551 and 571-583. *)
Fixpoint prev_loop (m : cpp) (n : nat) (neg : bool) (ws : list Z) (wi word : Z) : outcome Z :=
  match n with
  | O => OutOfFuel
  | S k =>
    if negb (word =? 0) then
      let* z := LongModel.numberOfLeadingZeros m word in
      let* p := smul m 32 (wi + 1) 64 in
      let* p := ssub m 32 p 1 in
      ssub m 32 p z
    else if wi =? 0 then Ok (-1)
    else let* x := at_ ws (wi - 1) in
         prev_loop m k neg ws (wi - 1) (if neg then Z.lnot x else x)
  end.
(** BitSet.cpp:521-552 *)
Definition previousClearBit (m : cpp) (s : bitset) (from : Z) : outcome Z :=
  if from <? 0 then (if from =? -1 then Ok (-1) else Throw IndexOutOfBoundsException)
  else if inUse s <=? wordIndex from then Ok from
  else
    let* x := at_ (words s) (wordIndex from) in
    let* f1 := sadd m 32 from 1 in
    let* l := last_mask m f1 in
    prev_loop m (Z.to_nat (wordIndex from + 1)) true (words s) (wordIndex from) (Z.land (Z.lnot x) l).
(** BitSet.cpp:554-584 *)
Definition previousSetBit (m : cpp) (s : bitset) (from : Z) : outcome Z :=
  if from <? 0 then (if from =? -1 then Ok (-1) else Throw IndexOutOfBoundsException)
  else if inUse s <=? wordIndex from then
    let* l := length m s in ssub m 32 l 1
  else
    let* x := at_ (words s) (wordIndex from) in
    let* f1 := sadd m 32 from 1 in
    let* l := last_mask m f1 in
    prev_loop m (Z.to_nat (wordIndex from + 1)) false (words s) (wordIndex from) (Z.land x l).

(** BitSet.cpp:586-595 *)
Definition set (m : cpp) (s : bitset) (i : Z) : outcome bitset :=
  if i <? 0 then Throw IndexOutOfBoundsException
  else
    let* s := expandTo m s (wordIndex i) in
    let* b := bit_mask m i in
    let* ws := word_op (words s) (wordIndex i) (fun x => Ok (Z.lor x b)) in
    Ok (mk ws (inUse s) (sticky s)).
(** BitSet.cpp:597-603 *)
Definition setTo (m : cpp) (s : bitset) (i : Z) (v : bool) : outcome bitset :=
  if v then set m s i else clear m s i.
(** BitSet.cpp:605-636 *)
Definition setRange (m : cpp) (s : bitset) (from to : Z) : outcome bitset :=
  let* _ := checkRange from to in
  if from =? to then Ok s else
  let start := wordIndex from in
  let e := wordIndex (to - 1) in
  let* s := expandTo m s e in
  let* f := first_mask m from in
  let* l := last_mask m to in
  let* ws := range_words (words s) start e f l Z.lor (fun _ => -1) in
  Ok (mk ws (inUse s) (sticky s)).
(** BitSet.cpp:638-644 *)
Definition setRangeTo (m : cpp) (s : bitset) (from to : Z) (v : bool) : outcome bitset :=
  if v then setRange m s from to else clearRange m s from to.

(** BitSet.cpp:646-648 *)
Definition size (m : cpp) (s : bitset) : outcome Z := smul m 32 (zlen (words s)) 64.

(** Byte [k] of the object representation of a [long] (x86-64: little
    endian), read through [(byte * )&unsignedWord]. *)
Definition byte_of (w k : Z) : Z := Z.shiftr (uwrap 64 w) (8 * k) mod 256.
Definition bytes8 (w : Z) : list Z := map (byte_of w) [0; 1; 2; 3; 4; 5; 6; 7].
(** BitSet.cpp:681-690: bytes of the last word without the zero ones at the end. *)
Fixpoint heading (n : nat) (w : Z) : nat :=
  match n with
  | O => O
  | S k => if byte_of w (Z.of_nat k) =? 0 then heading k w else n
  end.
Fixpoint bytes_from (n : nat) (i : Z) (ws : list Z) : outcome (list Z) :=
  match n with
  | O => Ok []
  | S k => let* x := at_ ws i in
           let* r := bytes_from k (i + 1) ws in Ok (bytes8 x ++ r)
  end.
(** BitSet.cpp:650-700 *)
Definition toByteArray (s : bitset) : outcome (list Z) :=
  if inUse s =? 0 then Ok []
  else
    let* r := bytes_from (Z.to_nat (inUse s - 1)) 0 (words s) in
    let* x := at_ (words s) (inUse s - 1) in
    Ok (r ++ firstn (heading 8 x) (bytes8 x)).

(** BitSet.cpp:702-704 *)
Definition toLongArray (s : bitset) : list Z := copyOf (words s) (inUse s).

(** BitSet.cpp:706-735. The StringBuilder is the text appended so far (its
    capacity hint [6 * numberOfBits + 2] is not modelled), an [int] is
    appended as its decimal text; the copy kept in [backupForToString] is
    modelled separately below. [n] bounds the number of elements. *)
Fixpoint text_loop (m : cpp) (n : nat) (s : bitset) (i : Z) : outcome str :=
  match n with
  | O => OutOfFuel
  | S k =>
    let* j := sadd m 32 i 1 in
    let* j := nextSetBit m s j in
    if j =? -1 then Ok (itoa i)
    else let* r := text_loop m k s j in Ok (itoa i ++ [44; 32] ++ r)
  end.
Definition toString (m : cpp) (fuel : nat) (s : bitset) : outcome str :=
  let* i := nextSetBit m s 0 in
  if i =? -1 then Ok [123; 125]
  else let* r := text_loop m fuel s i in Ok ([123] ++ r ++ [125]).

(** BitSet.cpp:736-758: strip zero bytes at the end, then write each byte
    into the object representation of its (zero-initialised) word. *)
Fixpoint strip (ws : list Z) (n : nat) : outcome Z :=
  match n with
  | O => Ok 0
  | S k => let* x := at_ ws (Z.of_nat k) in
           if x =? 0 then strip ws k else Ok (Z.of_nat k + 1)
  end.
Definition put_byte (w k b : Z) : Z :=
  wrap 64 (uwrap 64 w + Z.shiftl (b - byte_of w k) (8 * k)).
Fixpoint fill_bytes (n : nat) (i : Z) (bytes ws : list Z) : outcome (list Z) :=
  match n with
  | O => Ok ws
  | S k => let* b := at_ bytes i in
           let* ws := word_op ws (i / 8) (fun x => Ok (put_byte x (i mod 8) b)) in
           fill_bytes k (i + 1) bytes ws
  end.
Definition valueOfBytes (bytes : list Z) : outcome bitset :=
  let* n := strip bytes (List.length bytes) in
  let* ws := fill_bytes (Z.to_nat n) 0 bytes (repeat 0 (Z.to_nat ((n + 7) / 8))) in
  Ok (BitSetWords ws).
(** BitSet.cpp:760-767 *)
Definition valueOfLongs (longs : list Z) : outcome bitset :=
  let* n := strip longs (List.length longs) in
  Ok (BitSetWords (copyOf longs n)).

(** ** The buffer [backupForToString] (BitSet.hpp:148)

    toString frees the previous buffer and stores a new one
    (BitSet.cpp:730-731), the destructor and operator= free it
    (BitSet.cpp:114-118, 145-147, 773-774), operator= leaves the pointer
    unchanged. Copies start with a null pointer. *)
Inductive backup := Null | Live | Dangling.
Inductive backup_step := SToString | SAssign | SDestroy.
Definition backup_free (b : backup) : outcome unit :=
  match b with Null | Live => Ok tt | Dangling => UB DoubleFree end.
Definition backup_run (b : backup) (st : backup_step) : outcome backup :=
  let* _ := backup_free b in
  match st with
  | SToString => Ok Live
  | SAssign | SDestroy => Ok (match b with Live => Dangling | _ => b end)
  end.
Fixpoint backup_history (b : backup) (l : list backup_step) : outcome backup :=
  match l with
  | [] => Ok b
  | st :: l => let* b := backup_run b st in backup_history b l
  end.
