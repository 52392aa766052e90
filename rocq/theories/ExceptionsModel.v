(** Model of the throwable classes
    (/repo/library/Java/Lang/Throwable/Throwable.cpp and the classes derived
    from it) and of Application (/repo/library/Java/Lang/Object/Object.cpp:42-58).

    Not modelled: Throwable::toString (declared, Throwable.hpp:48, never
    defined), the texts of floating point numbers in
    AssertionError(double/float). *)

From Coq Require Import ZArith List Lia Bool String.
From Verif Require Import Base CppText TextSpec StringModel ExceptionsSpec.
Import ListNotations.
Open Scope string_scope.
Open Scope list_scope.
Open Scope Z_scope.

(** A pointer to a throwable: an address; 0 is the null pointer. *)
Definition pointer := Z.
(** Throwable.hpp:36-37. [cause] is None while nothing has been stored in it. *)
Record throwable : Type := { message : str; cause : option pointer }.

(** The base class of each class (the class declarations in the headers). *)
Definition base (c : cls) : option cls :=
  match c with
  | Throwable => None
  | Error => Some Throwable               (* Lang/Error/Error.hpp:36 *)
  | AssertionErr => Some Error            (* Lang/AssertionError/AssertionError.hpp:35 *)
  | Exception => Some Throwable           (* Lang/Exception/Exception.hpp:35 *)
  | RuntimeException => Some Exception    (* Lang/RuntimeException/RuntimeException.hpp:35 *)
  | ArithmeticExc | ClassCastExc | CloneNotSupportedExc | IllegalArgumentExc | IndexOutOfBoundsExc
  | InterruptedExc | NegativeArraySizeExc | NoSuchElementExc | NumberFormatExc
  | UnsupportedOperationExc | EmptyStackExc => Some RuntimeException
  | StringIndexOutOfBoundsExc => Some IndexOutOfBoundsExc
  | WebApplicationExc => Some RuntimeException   (* Javax/Ws/Rs/WebApplicationException.hpp *)
  | ClientErrorExc => Some WebApplicationExc
  | BadRequestExc => Some ClientErrorExc
  | IOExc => Some Exception
  | UnsupportedEncodingExc => Some IOExc
  | GeneralSecurityExc => Some Exception
  | NoSuchAlgorithmExc => Some GeneralSecurityExc
  | MediaTypeExc | CQLExc => Some Exception
  end.

(** Arguments of a constructor. *)
Inductive ctor : Type :=
| Plain                              (** () *)
| Message (m : str)                  (** (String) *)
| Both (m : str) (c : pointer)       (** (String, Throwable pointer) *)
| Cause (c : pointer).               (** (Throwable pointer) *)

(** Which public constructors a class declares. *)
Definition declares (c : cls) (k : ctor) : bool :=
  match c, k with
  | EmptyStackExc, Plain => true
  | EmptyStackExc, _ => false
  | (NegativeArraySizeExc | NumberFormatExc | UnsupportedEncodingExc), (Plain | Message _) => true
  | (NegativeArraySizeExc | NumberFormatExc | UnsupportedEncodingExc), _ => false
  | AssertionErr, (Plain | Both _ _) => true
  | AssertionErr, _ => false
  | _, _ => true
  end.

(** Throwable.cpp:32-48 *)
Definition throwable_ctor (k : ctor) : throwable :=
  match k with
  | Plain => {| message := []; cause := None |}
  | Message m => {| message := m; cause := None |}
  | Both m c => {| message := m; cause := Some c |}
  | Cause c => {| message := []; cause := Some c |}
  end.
(** Every constructor passes its arguments to the same constructor of the base
    class (Exception.cpp:32-42, RuntimeException.cpp:31-45, Error.cpp:32-42 and
    likewise in the other files); [n] bounds the depth of the hierarchy. *)
Fixpoint construct_n (n : nat) (c : cls) (k : ctor) : throwable :=
  match n with
  | O => throwable_ctor k
  | S n => match base c with
           | None => throwable_ctor k
           | Some b => construct_n n b k
           end
  end.
Definition construct (c : cls) (k : ctor) : throwable := construct_n 8 c k.

(** StringIndexOutOfBoundsException.cpp:47 *)
Definition construct_index (index : Z) : throwable :=
  construct IndexOutOfBoundsExc (Message (T "String index out of range: " ++ itoa index)).
(** AssertionError.cpp:31-53: the values are turned into text by
    String::valueOf. A char is given as a byte. *)
Inductive value : Type := VInt (v : Z) | VLong (v : Z) | VChar (c : Z) | VBool (b : bool).
Definition valueOf (v : value) : str :=
  match v with
  | VInt v | VLong v => itoa v
  | VChar c => if c =? 0 then [] else [c]
  | VBool b => if b then T "true" else T "false"
  end.
Definition construct_assertion (v : value) : throwable := construct Error (Message (valueOf v)).

(** Throwable.cpp:50-56 *)
Definition getMessage (t : throwable) : str := message t.
Definition getCause (t : throwable) : outcome pointer :=
  match cause t with Some p => Ok p | None => UB Uninitialised end.

(** A handler for references to [h] takes an object of class [c] when [h] is
    [c] or one of its (public) bases. *)
Fixpoint catches_n (n : nat) (c h : cls) : bool :=
  if match c, h with
     | Throwable, Throwable | Error, Error | AssertionErr, AssertionErr | Exception, Exception
     | RuntimeException, RuntimeException | ArithmeticExc, ArithmeticExc | ClassCastExc, ClassCastExc
     | CloneNotSupportedExc, CloneNotSupportedExc | IllegalArgumentExc, IllegalArgumentExc
     | IndexOutOfBoundsExc, IndexOutOfBoundsExc | InterruptedExc, InterruptedExc
     | NegativeArraySizeExc, NegativeArraySizeExc | NoSuchElementExc, NoSuchElementExc
     | NumberFormatExc, NumberFormatExc | StringIndexOutOfBoundsExc, StringIndexOutOfBoundsExc
     | UnsupportedOperationExc, UnsupportedOperationExc | EmptyStackExc, EmptyStackExc
     | WebApplicationExc, WebApplicationExc | ClientErrorExc, ClientErrorExc
     | BadRequestExc, BadRequestExc | IOExc, IOExc | UnsupportedEncodingExc, UnsupportedEncodingExc
     | GeneralSecurityExc, GeneralSecurityExc | NoSuchAlgorithmExc, NoSuchAlgorithmExc
     | MediaTypeExc, MediaTypeExc | CQLExc, CQLExc => true
     | _, _ => false
     end
  then true
  else match n with
       | O => false
       | S n => match base c with Some b => catches_n n b h | None => false end
       end.
Definition catches (c h : cls) : bool := catches_n 8 c h.

(** Object.cpp:42-58. [program] receives the arguments; it returns, throws one
    of these classes, or throws something else. The local array args is filled
    but the vector argv is passed, converted by Array(char pointers)
    (/repo/library/Kernel/Java.hpp:89-96): the same strings. The
    result is the exit code and the line printed. *)
Inductive ending : Type := Returns | Throws (c : cls) (t : throwable) | ThrowsOther.
Definition application (program : list str -> ending) (argv : list str) : Z * option str :=
  match program argv with
  | Returns => (0, None)
  | Throws c t =>
      if catches c Exception then (1, Some (T "Application Exception: " ++ getMessage t))
      else (1, Some (T "Unhandled Exception"))
  | ThrowsOther => (1, Some (T "Unhandled Exception"))
  end.
