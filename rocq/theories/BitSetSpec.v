(** Specification of java.util.BitSet as a set of natural numbers.

    A program is any expression built from the public operations; its ideal
    meaning is a set ([Z -> bool] on the non-negative integers). *)

From Coq Require Import ZArith List Bool Sorted.
From Verif Require Import Base BitSetModel.
Import ListNotations.
Open Scope Z_scope.

Definition nset := Z -> bool.
Definition empty : nset := fun _ => false.
Definition span (from to : Z) : nset := fun k => (from <=? k) && (k <? to).
Definition union (A B : nset) : nset := fun k => A k || B k.
Definition inter (A B : nset) : nset := fun k => A k && B k.
Definition minus (A B : nset) : nset := fun k => A k && negb (B k).
Definition symdiff (A B : nset) : nset := fun k => xorb (A k) (B k).
Definition single (i : Z) : nset := fun k => k =? i.
(** The elements of [A] in [from, to), moved down by [from]. *)
Definition slice (A : nset) (from to : Z) : nset := fun k => (k <? to - from) && A (from + k).
(** Bit [k] of a sequence of [w]-bit little-endian digits. *)
Definition digit_bits (w : Z) (l : list Z) : nset := fun k =>
  match znth l (k / w) with Some x => Z.testbit x (k mod w) | None => false end.

(** [l] lists the elements of [A] in increasing order. *)
Definition listing (A : nset) (l : list Z) : Prop :=
  StronglySorted Z.lt l /\ forall i, In i l <-> 0 <= i /\ A i = true.

(** Programs over the public API. [Clone] is the object returned by clone(),
    [AfterClone] the receiver after the call. *)
Inductive prog : Type :=
| New | NewN (n : Z) | OfLongs (l : list Z) | OfBytes (l : list Z)
| Copy (p : prog) | Clone (p : prog) | AfterClone (p : prog)
| Set_ (p : prog) (i : Z) | SetTo (p : prog) (i : Z) (v : bool)
| SetRange (p : prog) (from to : Z) | SetRangeTo (p : prog) (from to : Z) (v : bool)
| Clear (p : prog) (i : Z) | ClearRange (p : prog) (from to : Z) | ClearAll (p : prog)
| Flip (p : prog) (i : Z) | FlipRange (p : prog) (from to : Z)
| And (p q : prog) | Or (p q : prog) | Xor (p q : prog) | AndNot (p q : prog)
| GetRange (p : prog) (from to : Z).

Definition index (i : Z) (A : nset) : outcome nset :=
  if i <? 0 then Throw IndexOutOfBoundsException else Ok A.
Definition range (from to : Z) (A : nset) : outcome nset :=
  if (0 <=? from) && (from <=? to) then Ok A else Throw IndexOutOfBoundsException.

(** What the program means: a set or the exception it throws. *)
Fixpoint ideal (p : prog) : outcome nset :=
  match p with
  | New => Ok empty
  | NewN n => if n <? 0 then Throw NegativeArraySizeException else Ok empty
  | OfLongs l => Ok (digit_bits 64 l)
  | OfBytes l => Ok (digit_bits 8 l)
  | Copy p | Clone p | AfterClone p => ideal p
  | Set_ p i => let* A := ideal p in index i (union A (single i))
  | SetTo p i v => let* A := ideal p in
      index i (if v then union A (single i) else minus A (single i))
  | SetRange p f t => let* A := ideal p in range f t (union A (span f t))
  | SetRangeTo p f t v => let* A := ideal p in
      range f t (if v then union A (span f t) else minus A (span f t))
  | Clear p i => let* A := ideal p in index i (minus A (single i))
  | ClearRange p f t => let* A := ideal p in range f t (minus A (span f t))
  | ClearAll p => let* _ := ideal p in Ok empty
  | Flip p i => let* A := ideal p in index i (symdiff A (single i))
  | FlipRange p f t => let* A := ideal p in range f t (symdiff A (span f t))
  | And p q => let* A := ideal p in let* B := ideal q in Ok (inter A B)
  | Or p q => let* A := ideal p in let* B := ideal q in Ok (union A B)
  | Xor p q => let* A := ideal p in let* B := ideal q in Ok (symdiff A B)
  | AndNot p q => let* A := ideal p in let* B := ideal q in Ok (minus A B)
  | GetRange p f t => let* A := ideal p in range f t (slice A f t)
  end.

(** What the modelled code does. *)
Fixpoint run (m : cpp) (p : prog) : outcome bitset :=
  match p with
  | New => Ok BitSet0
  | NewN n => BitSetN n
  | OfLongs l => valueOfLongs l
  | OfBytes l => valueOfBytes l
  | Copy p => omap BitSetCopy (run m p)
  | Clone p => omap (fun s => snd (clone s)) (run m p)
  | AfterClone p => omap (fun s => fst (clone s)) (run m p)
  | Set_ p i => let* s := run m p in set m s i
  | SetTo p i v => let* s := run m p in setTo m s i v
  | SetRange p f t => let* s := run m p in setRange m s f t
  | SetRangeTo p f t v => let* s := run m p in setRangeTo m s f t v
  | Clear p i => let* s := run m p in clear m s i
  | ClearRange p f t => let* s := run m p in clearRange m s f t
  | ClearAll p => let* s := run m p in clearAll s
  | Flip p i => let* s := run m p in flip m s i
  | FlipRange p f t => let* s := run m p in flipRange m s f t
  | And p q => let* s := run m p in let* t := run m q in bitAnd s t
  | Or p q => let* s := run m p in let* t := run m q in bitOr m s t
  | Xor p q => let* s := run m p in let* t := run m q in bitXor m s t
  | AndNot p q => let* s := run m p in let* t := run m q in andNot s t
  | GetRange p f t => let* s := run m p in getRange m s f t
  end.

(** Arguments are [int]s (negative ones included). Elements stay below
    2^31 - 1, so that "highest element plus one" is an [int]; arrays are
    short enough for the same reason. A range flip must not end at a multiple
    of 64 (see C16). *)
Definition element (i : Z) : Prop := int_min <= i < int_max.
Fixpoint valid (p : prog) : Prop :=
  match p with
  | New => True
  | NewN n => is_int n
  | OfLongs l => Forall is_long l /\ zlen l < 2 ^ 25
  | OfBytes l => Forall (fun b => 0 <= b < 256) l /\ zlen l < 2 ^ 28
  | Copy p | Clone p | AfterClone p | ClearAll p => valid p
  | Set_ p i | SetTo p i _ | Clear p i | Flip p i => valid p /\ element i
  | SetRange p f t | SetRangeTo p f t _ | ClearRange p f t | GetRange p f t => valid p /\ is_int f /\ is_int t
  | FlipRange p f t => valid p /\ is_int f /\ is_int t /\ (0 <= f < t -> t mod 64 <> 0)
  | And p q | Or p q | Xor p q | AndNot p q => valid p /\ valid q
  end.

(** [s] is a BitSet some history of calls can produce, [A] the set that
    history denotes. *)
Definition represents (s : bitset) (A : nset) : Prop :=
  exists p, valid p /\ run HW p = Ok s /\ ideal p = Ok A.
(** [s] answers like [A] at every [int] index. *)
Definition answers (s : bitset) (A : nset) : Prop :=
  forall i, 0 <= i <= int_max -> get HW s i = Ok (A i).

(** Nearest indices. *)
Definition first_from (A : nset) (from r : Z) : Prop :=
  from <= r /\ A r = true /\ forall i, from <= i < r -> A i = false.
Definition last_upto (A : nset) (from r : Z) : Prop :=
  0 <= r <= from /\ A r = true /\ forall i, r < i <= from -> A i = false.
Definition complement (A : nset) : nset := fun k => negb (A k).
