(** Specification of a stack: a list with the top first. *)

From Coq Require Import ZArith List Bool.
From Verif Require Import Base.
Import ListNotations.
Open Scope Z_scope.

Section StackSpec.
Context {E : Type}.
Inductive sop : Type := SPush (x : E) | SPop | SPeek | SEmpty.
(** [AException]: java.util.EmptyStackException. *)
Inductive sans : Type := AElem (x : E) | ABool (b : bool) | AException.
Definition sstep (s : list E) (o : sop) : list E * sans :=
  match o, s with
  | SPush x, _ => (x :: s, AElem x)
  | SPop, x :: r => (r, AElem x)
  | SPeek, x :: _ => (s, AElem x)
  | SPop, [] | SPeek, [] => (s, AException)
  | SEmpty, [] => (s, ABool true)
  | SEmpty, _ => (s, ABool false)
  end.
Fixpoint srun (s : list E) (ops : list sop) : list E * list sans :=
  match ops with
  | [] => (s, [])
  | o :: r => let (s1, a) := sstep s o in let (s2, l) := srun s1 r in (s2, a :: l)
  end.
End StackSpec.
Arguments sop : clear implicits.
Arguments sans : clear implicits.
