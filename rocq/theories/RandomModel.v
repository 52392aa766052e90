(** Model of /repo/library/Java/Util/Random/Random.cpp and Random.hpp.

    [long] has 64 bits.  One generator used by one thread: a
    compare_exchange in the loop of next() then sees the value just loaded;
    a spurious failure of compare_exchange_weak repeats the same
    computation.  Threads are in RandomThreadsModel.v.
    nextGaussian is in RandomGaussModel.v, the constructor without a seed in
    RandomSeedModel.v, the copy constructor in RandomCopyModel.v. *)

From Coq Require Import ZArith List Bool String.
From Verif Require Import Base TextSpec RandomSpec.
Import ListNotations.
Open Scope Z_scope.

(** Random.hpp: MULTIPLIER, ADDEND, MASK *)
Definition MULTIPLIER : Z := 0x5DEECE66D.
Definition ADDEND : Z := 0xB.
Definition MASK : Z := Z.shiftl 1 48 - 1.

(** Random.cpp:77-80; used by the constructor (67-69) and setSeed (257-260) *)
Definition initialScramble (seed : Z) : Z := Z.land (Z.lxor seed MULTIPLIER) MASK.

Section Modes.
Variable m : cpp.
(** C++11 leaves open which operand of [+] is evaluated first; [left_first]: the left one *)
Variable left_first : bool.

(** Random.cpp:131 *)
Definition advance (old : Z) : outcome Z :=
  let* p := smul m 64 old MULTIPLIER in
  let* s := sadd m 64 p ADDEND in
  Ok (Z.land s MASK).
(** Random.cpp:126-134: the value and the new seed *)
Definition next (seed bits : Z) : outcome (Z * Z) :=
  let* nextSeed := advance seed in
  let* v := sshr m 64 nextSeed (48 - bits) in
  Ok (wrap 32 v, nextSeed).

(** Random.cpp:142-144 *)
Definition nextBoolean (seed : Z) : outcome (bool * Z) :=
  let* ' (v, s) := next seed 1 in Ok (negb (v =? 0), s).
(** Random.cpp:152-154 *)
Definition nextInt (seed : Z) : outcome (Z * Z) := next seed 32.
(** The loop Random.cpp:174-178 *)
Fixpoint bounded_loop (fuel : nat) (seed bound : Z) : outcome (Z * Z) :=
  match fuel with
  | O => OutOfFuel
  | S f =>
    let* ' (bits, s) := next seed 31 in
    let* value := srem 32 bits bound in
    let* d := ssub m 32 bits value in
    let* b1 := ssub m 32 bound 1 in
    let* t := sadd m 32 d b1 in
    if t <? 0 then bounded_loop f s bound else Ok (value, s)
  end.
(** Random.cpp:164-179 *)
Definition nextInt_bound (fuel : nat) (seed bound : Z) : outcome (Z * Z) :=
  if bound <=? 0 then Throw InterruptedException
  else
    let* b1 := ssub m 32 bound 1 in
    if Z.land bound b1 =? 0 then
      let* ' (v, s) := next seed 31 in
      let* p := smul m 64 bound v in
      let* r := sshr m 64 p 31 in
      Ok (wrap 32 r, s)
    else bounded_loop fuel seed bound.
(** Two draws [e1 + e2], each operand calling next once: the values of the operands *)
Definition two_draws (seed bits1 bits2 : Z) : outcome (Z * Z * Z) :=
  if left_first then
    let* ' (a, s1) := next seed bits1 in let* ' (b, s2) := next s1 bits2 in Ok (a, b, s2)
  else
    let* ' (b, s1) := next seed bits2 in let* ' (a, s2) := next s1 bits1 in Ok (a, b, s2).
(** Random.cpp:214-216 *)
Definition nextLong (seed : Z) : outcome (Z * Z) :=
  let* ' (hi, lo, s) := two_draws seed 32 32 in
  let* h := sshl m 64 hi 32 in
  let* r := sadd m 64 h lo in
  Ok (r, s).
(** Random.cpp:224-226: the numerator; the quotient by 2^24 of a number below 2^24 is exact *)
Definition nextFloat (seed : Z) : outcome (Z * Z) := next seed 24.
(** Random.cpp:204-207: the numerator; the product with 2^-53 of a number below 2^53 is exact *)
Definition nextDouble (seed : Z) : outcome (Z * Z) :=
  let* ' (hi, lo, s) := two_draws seed 26 27 in
  let* h := sshl m 64 hi 27 in
  let* r := sadd m 64 h lo in
  Ok (r, s).

(** One call on a generator with the given seed field *)
Definition rinvoke (fuel : nat) (seed : Z) (c : rcall) : outcome (ranswer * Z) :=
  match c with
  | NextInt => let* ' (v, s) := nextInt seed in Ok (RInt v, s)
  | NextBounded b =>
      match nextInt_bound fuel seed b with
      | Ok (v, s) => Ok (RInt v, s)
      | Throw e => Ok (RThrown e, seed)
      | UB u => UB u
      | OutOfFuel => OutOfFuel
      end
  | NextBoolean => let* ' (v, s) := nextBoolean seed in Ok (RBool v, s)
  | NextLong => let* ' (v, s) := nextLong seed in Ok (RLong v, s)
  | NextFloat => let* ' (v, s) := nextFloat seed in Ok (RFraction v 24, s)
  | NextDouble => let* ' (v, s) := nextDouble seed in Ok (RFraction v 53, s)
  | SetSeed v => Ok (RDone, initialScramble v)
  end.
Fixpoint rinvoke_all (fuel : nat) (seed : Z) (cs : list rcall) : outcome (list ranswer * Z) :=
  match cs with
  | [] => Ok ([], seed)
  | c :: r =>
    let* ' (a, s) := rinvoke fuel seed c in
    let* ' (l, s2) := rinvoke_all fuel s r in
    Ok (a :: l, s2)
  end.

(** Random.cpp:187-196: [bytes->push] appends (Kernel/Java.hpp:147-150); [n] passes are left *)
Fixpoint nextBytes_loop (n : nat) (seed : Z) (bytes : list Z) : outcome (list Z * Z) :=
  match n with
  | O => Ok (bytes, seed)
  | S k =>
    let* ' (v, s) := nextInt seed in
    let* r := sshr m 32 v 8 in
    nextBytes_loop k s (bytes ++ [uwrap 8 r])
  end.
Definition nextBytes (seed : Z) (bytes : list Z) : outcome (list Z * Z) := nextBytes_loop (List.length bytes) seed bytes.

(** Random.hpp:31 *)
Definition CHAR_LIST : list Z := T "abcdefghijklmnopqrstuvwxyzABCDEFGHIJKLMNOPQRSTUVWXYZ0123456789".
(** Random.cpp:271-273: the characters stored *)
Fixpoint nextString_loop (n : nat) (fuel : nat) (seed : Z) : outcome (list Z * Z) :=
  match n with
  | O => Ok ([], seed)
  | S k =>
    let* ' (i, s) := nextInt_bound fuel seed 62 in
    let* c := raw_get CHAR_LIST i in
    let* ' (l, s2) := nextString_loop k fuel s in
    Ok (c :: l, s2)
  end.
(** Random.cpp:267-277: [char charArray\[length\]] then a store at index [length] *)
Definition nextString (fuel : nat) (seed length : Z) : outcome (list Z * Z) :=
  if length <=? 0 then UB OutOfBounds
  else
    let* ' (l, s) := nextString_loop (Z.to_nat length) fuel seed in
    let* _ := raw_set l length 0 in
    Ok (l, s).
End Modes.
