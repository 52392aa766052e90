(** Shared vocabulary of the model: outcomes of C++ calls, undefined
    behaviour, machine integers in two readings of the C++11 standard.

    Nothing in this file models a file of /repo by itself; it fixes the
    meaning of the C++ constructs used by all of them
    (/repo/CMakeLists.txt:38-44 selects -std=gnu++11). *)

From Coq Require Import ZArith List Lia Bool.
From Coq Require Export ZifyBool.
Import ListNotations.
Open Scope Z_scope.

(** ** Outcomes *)

(** Exceptions that can leave a function of the library
    (/repo/library/Java/Lang/*Exception, and the C++ ones). *)
Inductive exn : Type :=
| ArithmeticException
| NumberFormatException
| IndexOutOfBoundsException
| ArrayIndexOutOfBoundsException
| StringIndexOutOfBoundsException
| NegativeArraySizeException
| IllegalArgumentException
| InterruptedException
| UnsupportedOperationException
| UnsupportedEncodingException
| NoSuchAlgorithmException
| NoSuchElementException
| NullPointerException
| EmptyStackException
| AssertionError
| MediaTypeException
| OutOfRange       (** std::out_of_range, from vector::at, string::substr, stoul... *)
| InvalidArgument  (** std::invalid_argument, from stoul *)
| BadAlloc         (** std::bad_alloc / std::length_error *).

(** Kinds of undefined behaviour (no meaning given by the standard). *)
Inductive ub : Type :=
| SignedOverflow   (** [expr] p4: result not representable *)
| BadShift         (** [expr.shift]: count negative or >= width, or negative left operand of << *)
| DivideByZero     (** [expr.mul] p4 *)
| OutOfBounds      (** access outside an allocated object *)
| Uninitialised    (** use of an indeterminate value *)
| UseAfterFree
| DoubleFree
| NullDeref
| MissingReturn    (** flowing off the end of a value-returning function *)
| Precondition     (** violated precondition of a library function *)
| Unsequenced      (** [intro.execution] p15: two unsequenced modifications of one scalar *).

Inductive outcome (A : Type) : Type :=
| Ok (a : A)
| Throw (e : exn)
| UB (u : ub)
| OutOfFuel.
Arguments Ok {A} a.
Arguments Throw {A} e.
Arguments UB {A} u.
Arguments OutOfFuel {A}.

Definition bind {A B} (o : outcome A) (k : A -> outcome B) : outcome B :=
  match o with
  | Ok a => k a
  | Throw e => Throw e
  | UB u => UB u
  | OutOfFuel => OutOfFuel
  end.

Definition omap {A B} (f : A -> B) (o : outcome A) : outcome B :=
  bind o (fun a => Ok (f a)).

Declare Scope out_scope.
Delimit Scope out_scope with out.
Notation "'let*' x ':=' e 'in' k" := (bind e (fun x => k))
  (at level 200, x name, e at level 100, k at level 200, right associativity).
Notation "'let*' ' p ':=' e 'in' k" := (bind e (fun x => match x with p => k end))
  (at level 200, p pattern, e at level 100, k at level 200, right associativity).

(** [is_ok o]: the call returned normally. *)
Definition is_ok {A} (o : outcome A) : Prop := exists a, o = Ok a.
(** [safe o]: the call neither hit undefined behaviour nor ran forever
    (it returned or threw). *)
Definition safe {A} (o : outcome A) : Prop :=
  match o with Ok _ | Throw _ => True | _ => False end.

(** ** Machine integers *)

(** Signed range of a [w]-bit two's-complement integer. *)
Definition smin (w : Z) : Z := - 2 ^ (w - 1).
Definition smax (w : Z) : Z := 2 ^ (w - 1) - 1.
Definition in_s (w x : Z) : Prop := smin w <= x <= smax w.
Definition in_sb (w x : Z) : bool := (smin w <=? x) && (x <=? smax w).

(** Conversion to a signed [w]-bit type (implementation-defined in C++11,
    gcc: modulo 2^w), and wrap-around arithmetic. *)
Definition wrap (w x : Z) : Z := (x + 2 ^ (w - 1)) mod 2 ^ w - 2 ^ (w - 1).
(** Conversion to an unsigned [w]-bit type. *)
Definition uwrap (w x : Z) : Z := x mod 2 ^ w.

Definition int_min : Z := -2147483648.
Definition int_max : Z := 2147483647.
Definition long_min : Z := -9223372036854775808.
Definition long_max : Z := 9223372036854775807.

Definition is_int (x : Z) : Prop := int_min <= x <= int_max.
Definition is_long (x : Z) : Prop := long_min <= x <= long_max.

(** The two readings of signed arithmetic (see DESIGN.md section 1). *)
Inductive cpp : Type := ISO | HW.

(** Signed result [r] of width [w]: in ISO an unrepresentable result is
    undefined; gcc/x86-64 code wraps. *)
Definition sres (m : cpp) (w r : Z) : outcome Z :=
  if in_sb w r then Ok r
  else match m with ISO => UB SignedOverflow | HW => Ok (wrap w r) end.

Definition sadd (m : cpp) (w x y : Z) := sres m w (x + y).
Definition ssub (m : cpp) (w x y : Z) := sres m w (x - y).
Definition smul (m : cpp) (w x y : Z) := sres m w (x * y).
Definition sneg (m : cpp) (w x : Z) := sres m w (- x).
(** C++ division truncates towards zero ([Z.quot], [Z.rem]); both the zero
    divisor and MIN / -1 trap on x86 (SIGFPE), so they are UB in both modes. *)
Definition sdiv (w x y : Z) : outcome Z :=
  if y =? 0 then UB DivideByZero
  else if in_sb w (Z.quot x y) then Ok (Z.quot x y) else UB SignedOverflow.
Definition srem (w x y : Z) : outcome Z :=
  if y =? 0 then UB DivideByZero
  else if in_sb w (Z.quot x y) then Ok (Z.rem x y) else UB SignedOverflow.

(** Signed left shift of a [w]-bit value. ISO = C++11 with CWG 1457: the
    operand must be non-negative and the result representable in the unsigned
    type of the same width. *)
Definition sshl (m : cpp) (w x n : Z) : outcome Z :=
  match m with
  | ISO => if (0 <=? n) && (n <? w) && (0 <=? x) && (Z.shiftl x n <? 2 ^ w)
           then Ok (wrap w (Z.shiftl x n)) else UB BadShift
  | HW => Ok (wrap w (Z.shiftl x (n mod w)))
  end.
(** Signed right shift: arithmetic (gcc's choice for negative values). *)
Definition sshr (m : cpp) (w x n : Z) : outcome Z :=
  match m with
  | ISO => if (0 <=? n) && (n <? w) then Ok (Z.shiftr x n) else UB BadShift
  | HW => Ok (Z.shiftr x (n mod w))
  end.
(** Unsigned shifts ([x] is the unsigned value). *)
Definition ushl (m : cpp) (w x n : Z) : outcome Z :=
  match m with
  | ISO => if (0 <=? n) && (n <? w) then Ok (uwrap w (Z.shiftl x n)) else UB BadShift
  | HW => Ok (uwrap w (Z.shiftl x (n mod w)))
  end.
Definition ushr (m : cpp) (w x n : Z) : outcome Z :=
  match m with
  | ISO => if (0 <=? n) && (n <? w) then Ok (Z.shiftr x n) else UB BadShift
  | HW => Ok (Z.shiftr x (n mod w))
  end.

(** ** Arrays with checked access *)

(** Index into a list with a [Z] index. *)
Definition znth {A} (l : list A) (i : Z) : option A :=
  if i <? 0 then None else nth_error l (Z.to_nat i).
Fixpoint upd {A} (l : list A) (n : nat) (v : A) : list A :=
  match l, n with
  | [], _ => []
  | _ :: t, O => v :: t
  | h :: t, S k => h :: upd t k v
  end.
Definition zupd {A} (l : list A) (i : Z) (v : A) : list A := upd l (Z.to_nat i) v.
Definition zlen {A} (l : list A) : Z := Z.of_nat (length l).

(** /repo/library/Kernel/Java.hpp:158-182 ([Array::operator\[\]], [Array::get]):
    [this->original.at(index)], hence std::out_of_range outside the bounds
    (a negative int converts to a huge size_t). *)
Definition at_ {A} (l : list A) (i : Z) : outcome A :=
  match znth l i with Some a => Ok a | None => Throw OutOfRange end.
(** Assignment through the reference returned by [at]. *)
Definition at_set {A} (l : list A) (i : Z) (v : A) : outcome (list A) :=
  match znth l i with Some _ => Ok (zupd l i v) | None => Throw OutOfRange end.
(** Raw access: [std::vector::operator\[\]], pointers: undefined outside. *)
Definition raw_get {A} (l : list A) (i : Z) : outcome A :=
  match znth l i with Some a => Ok a | None => UB OutOfBounds end.
Definition raw_set {A} (l : list A) (i : Z) (v : A) : outcome (list A) :=
  match znth l i with Some _ => Ok (zupd l i v) | None => UB OutOfBounds end.
