(** The hierarchy of throwable classes in Java (Java SE and JAX-RS), for the
    classes the library declares, plus the two classes that are its own. *)

From Coq Require Import ZArith List Bool.
Import ListNotations.

Inductive cls : Type :=
| Throwable | Error | AssertionErr | Exception | RuntimeException
| ArithmeticExc | ClassCastExc | CloneNotSupportedExc | IllegalArgumentExc | IndexOutOfBoundsExc
| InterruptedExc | NegativeArraySizeExc | NoSuchElementExc | NumberFormatExc | StringIndexOutOfBoundsExc
| UnsupportedOperationExc | EmptyStackExc | WebApplicationExc | ClientErrorExc | BadRequestExc
| IOExc | UnsupportedEncodingExc | GeneralSecurityExc | NoSuchAlgorithmExc
| MediaTypeExc | CQLExc.

Definition java_super (c : cls) : option cls :=
  match c with
  | Throwable => None
  | Error | Exception => Some Throwable
  | AssertionErr => Some Error
  | RuntimeException | CloneNotSupportedExc | InterruptedExc | IOExc | GeneralSecurityExc
  | MediaTypeExc | CQLExc => Some Exception
  | ArithmeticExc | ClassCastExc | IllegalArgumentExc | IndexOutOfBoundsExc | NegativeArraySizeExc
  | NoSuchElementExc | UnsupportedOperationExc | EmptyStackExc | WebApplicationExc => Some RuntimeException
  | NumberFormatExc => Some IllegalArgumentExc
  | StringIndexOutOfBoundsExc => Some IndexOutOfBoundsExc
  | ClientErrorExc => Some WebApplicationExc
  | BadRequestExc => Some ClientErrorExc
  | UnsupportedEncodingExc => Some IOExc
  | NoSuchAlgorithmExc => Some GeneralSecurityExc
  end.

(** [c] is [h] or derived from it. *)
Inductive derives (super : cls -> option cls) : cls -> cls -> Prop :=
| Derives_refl c : derives super c c
| Derives_step c d h : super c = Some d -> derives super d h -> derives super c h.
