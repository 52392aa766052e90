(** Model of java.util.Arrays (/repo/library/Java/Util/Arrays/Arrays.hpp).
    Every template exists twice, for C arrays (an index outside is undefined
    behaviour) and for [Array<Type>*] (get and operator\[\] go through
    vector::at, Kernel/Java.hpp:158-182); [raw] selects which. [lt] is the
    element type's operator<; [a > b] is modelled as [lt b a], [a >= b] as the
    negation of [lt a b], which holds of every instantiated type except
    floating-point NaN. *)

From Coq Require Import ZArith List Bool.
From Verif Require Import Base.
Import ListNotations.
Open Scope Z_scope.

Definition rd {A} (raw : bool) (a : list A) (i : Z) : outcome A := if raw then raw_get a i else at_ a i.
Definition wr {A} (raw : bool) (a : list A) (i : Z) (v : A) : outcome (list A) := if raw then raw_set a i v else at_set a i v.

(** ** Sorting *)

(** Arrays.hpp:511-512 / 556-557: [while (array\[i\] < key && i <= j) i++]. *)
Fixpoint scan_up {A} (raw : bool) (lt : A -> A -> bool) (fuel : nat) (a : list A) (key : A) (i j : Z) : outcome Z :=
  match fuel with
  | O => OutOfFuel
  | S f => let* x := rd raw a i in if lt x key && (i <=? j) then scan_up raw lt f a key (i + 1) j else Ok i
  end.
(** Arrays.hpp:513-514 / 558-559: [while (array\[j\] > key && j >= i) j--]. *)
Fixpoint scan_down {A} (raw : bool) (lt : A -> A -> bool) (fuel : nat) (a : list A) (key : A) (i j : Z) : outcome Z :=
  match fuel with
  | O => OutOfFuel
  | S f => let* x := rd raw a j in if lt key x && (i <=? j) then scan_down raw lt f a key i (j - 1) else Ok j
  end.
(** Arrays.hpp:510-524 / 555-569: the partition loop. The increments and
    decrements stay between -1 and the array length and are plain. *)
Fixpoint partition {A} (raw : bool) (lt : A -> A -> bool) (fuel : nat) (a : list A) (key : A) (i j : Z) : outcome (list A * Z * Z) :=
  if i <=? j then
    match fuel with
    | O => OutOfFuel
    | S f =>
      let* i := scan_up raw lt (S (length a)) a key i j in
      let* j := scan_down raw lt (S (length a)) a key i j in
      if i <=? j then
        let* x := rd raw a i in
        let* y := rd raw a j in
        let* a := wr raw a i y in
        let* a := wr raw a j x in
        partition raw lt f a key (i + 1) (j - 1)
      else partition raw lt f a key i j
    end
  else Ok (a, i, j).
(** Arrays.hpp:499-531 / 544-576: the two nested [while] loops flattened; the
    current range is [left..right], [st] is positionKeeper as (left, right)
    pairs, top first. *)
Fixpoint sort_loop {A} (m : cpp) (raw : bool) (lt : A -> A -> bool) (fuel : nat) (a : list A) (left right : Z) (st : list (Z * Z)) : outcome (list A) :=
  match fuel with
  | O => OutOfFuel
  | S f =>
    if left <? right then
      let* s := sadd m 32 left right in
      let* key := rd raw a (Z.quot s 2) in
      let* ' (a, i, j) := partition raw lt (S (length a)) a key left right in
      sort_loop m raw lt f a left j (if i <? right then (i, right) :: st else st)
    else match st with [] => Ok a | (l, r) :: st => sort_loop m raw lt f a l r st end
  end.
(** Arrays.hpp:491-534 / 536-577 sortOrigin. *)
Definition sortOrigin {A} (m : cpp) (raw : bool) (lt : A -> A -> bool) (a : list A) (fromIndex toIndex : Z) : outcome (list A) :=
  sort_loop m raw lt (2 * length a + 2) a fromIndex toIndex [].
(** Arrays.hpp:95-99, 108-112, 387-390, 399-402 sort / sortByArraySize; 101-106, 114-120,
    392-397, 404-409 the forms with an index range. *)
Definition sort {A} (m : cpp) (raw : bool) (lt : A -> A -> bool) (a : list A) (arraySize : Z) : outcome (list A) := sortOrigin m raw lt a 0 (arraySize - 1).
Definition sortByIndex {A} (m : cpp) (raw : bool) (lt : A -> A -> bool) (a : list A) (fromIndex toIndex : Z) : outcome (list A) := sortOrigin m raw lt a fromIndex toIndex.

(** ** Searching *)

(** Arrays.hpp:426-447 / 465-486: the loop of BinarySearch. [eqb] is operator==. *)
Fixpoint search_loop {A} (m : cpp) (raw : bool) (lt eqb : A -> A -> bool) (fuel : nat) (a : list A) (key : A) (left right : Z) : outcome Z :=
  match fuel with
  | O => OutOfFuel
  | S f =>
    if left <? right then
      let* s := sadd m 32 left right in
      let mid := Z.quot s 2 in
      let* x := rd raw a mid in
      let left := if lt x key then mid + 1 else left in
      let right := if lt x key then right else mid in
      if left =? right - 1 then
        let* y := rd raw a left in
        if eqb y key then Ok left else
        let* z := rd raw a right in
        if eqb z key then Ok right else Ok (-1)
      else search_loop m raw lt eqb f a key left right
    else Ok (-1)
  end.
(** Arrays.hpp:412-450 / 452-489 BinarySearch. *)
Definition searchOrigin {A} (m : cpp) (raw : bool) (lt eqb : A -> A -> bool) (a : list A) (fromIndex toIndex : Z) (key : A) : outcome Z :=
  if (fromIndex <? 0) || (toIndex <? 0) || (toIndex <? fromIndex) then Ok (-1)
  else search_loop m raw lt eqb (S (length a)) a key fromIndex toIndex.
(** Arrays.hpp:34-40 binarySearchByIndex; 42-47, 166-171, 181-186
    binarySearchByKey / binarySearch(array, key, size); 173-179, 188-194
    binarySearch(array, from, to, key), which passes 0 for fromIndex. *)
Definition binarySearchByIndex {A} (m : cpp) (raw : bool) (lt eqb : A -> A -> bool) (a : list A) (fromIndex toIndex : Z) (key : A) : outcome Z :=
  searchOrigin m raw lt eqb a fromIndex toIndex key.
Definition binarySearchByKey {A} (m : cpp) (raw : bool) (lt eqb : A -> A -> bool) (a : list A) (key : A) (arraySize : Z) : outcome Z :=
  searchOrigin m raw lt eqb a 0 (arraySize - 1) key.
Definition binarySearchRange {A} (m : cpp) (raw : bool) (lt eqb : A -> A -> bool) (a : list A) (fromIndex toIndex : Z) (key : A) : outcome Z :=
  searchOrigin m raw lt eqb a 0 toIndex key.

(** ** Copy, fill, equals, hashCode *)

(** [for (index = from; index < to; ++index) result.push(original.get(index))]. *)
Fixpoint push_range {A} (a : list A) (fuel : nat) (from to : Z) (result : list A) : outcome (list A) :=
  if from <? to then
    match fuel with
    | O => OutOfFuel
    | S f => let* x := at_ a from in push_range a f (from + 1) to (result ++ [x])
    end
  else Ok result.
(** Arrays.hpp:579-595 copyOfOrigin, 49-53 and 204-208 copyOf. [padding] is
    NULL converted to the element type. *)
Definition copyOf {A} (original : list A) (newLength : Z) (padding : A) : outcome (list A) :=
  let copyLength := Z.min (zlen original) newLength in
  let* result := push_range original (length original) 0 copyLength [] in
  Ok (result ++ repeat padding (Z.to_nat (newLength - copyLength))).
(** Arrays.hpp:597-615 copyOfRangeOrigin, 55-60 and 232-237 copyOfRange. *)
Definition copyOfRange {A} (original : list A) (fromIndex toIndex : Z) : outcome (list A) :=
  if (fromIndex <? 0) || (toIndex <? 0) || (toIndex <? fromIndex) || (zlen original - 1 <? toIndex) then Ok []
  else push_range original (length original) fromIndex toIndex [].
(** Arrays.hpp:239-257 copyOfRange with a conversion [conv] to a new type. *)
Fixpoint push_conv {A B} (conv : A -> B) (a : list A) (fuel : nat) (from to : Z) (result : list B) : outcome (list B) :=
  if from <? to then
    match fuel with
    | O => OutOfFuel
    | S f => let* x := at_ a from in push_conv conv a f (from + 1) to (result ++ [conv x])
    end
  else Ok result.
Definition copyOfRangeConv {A B} (conv : A -> B) (original : list A) (from to : Z) : outcome (list B) :=
  if (from <? 0) || (to <=? 0) || (to <=? from) || (zlen original <? to) then Ok []
  else push_conv conv original (length original) from to [].
(** Arrays.hpp:617-632 equalsOrigin; [neb] is operator!=. *)
Fixpoint equals_loop {A} (neb : A -> A -> bool) (a b : list A) (fuel : nat) (index : Z) : outcome bool :=
  if index <? zlen a then
    match fuel with
    | O => OutOfFuel
    | S f => let* x := at_ a index in let* y := at_ b index in if neb x y then Ok false else equals_loop neb a b f (index + 1)
    end
  else Ok true.
Definition equals {A} (neb : A -> A -> bool) (a b : list A) : outcome bool :=
  if negb (zlen a =? zlen b) then Ok false else equals_loop neb a b (length a) 0.
(** Arrays.hpp:634-648 fileOrigin; 68-72 fill; 74-80 fillByIndex. *)
Fixpoint fill_loop {A} (v : A) (fuel : nat) (a : list A) (index to : Z) : outcome (list A) :=
  if index <=? to then
    match fuel with
    | O => OutOfFuel
    | S f => let* a := at_set a index v in fill_loop v f a (index + 1) to
    end
  else Ok a.
Definition fillByIndex {A} (a : list A) (fromIndex toIndex : Z) (v : A) : outcome (list A) :=
  if (fromIndex <? 0) || (toIndex <? 0) || (toIndex <? fromIndex) || (zlen a - 1 <? toIndex) then Ok a
  else fill_loop v (length a) a fromIndex toIndex.
Definition fill {A} (a : list A) (v : A) : outcome (list A) := fillByIndex a 0 (zlen a - 1) v.
(** Arrays.hpp:82-93 hashCode (the integral types; [int] arithmetic, so a
    [long] element is truncated on assignment: [31 * result] is int, the sum
    long). The element is given as its value. *)
Fixpoint hash_int (m : cpp) (l : list Z) (result : Z) : outcome Z :=
  match l with
  | [] => Ok result
  | x :: t => let* p := smul m 32 31 result in let* r := sadd m 32 p x in hash_int m t r
  end.
Definition hashCode (m : cpp) (l : list Z) : outcome Z := match l with [] => Ok 0 | _ => hash_int m l 1 end.
