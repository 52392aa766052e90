(** Histories of java.util.Stack calls (/repo/library/Java/Util/Stack/Stack.hpp);
    the operations are in VectorModel.v ([s_push], [s_pop], ...). *)

From Coq Require Import ZArith List Bool.
From Verif Require Import Base VectorModel StackSpec.
Import ListNotations.
Open Scope Z_scope.

Section Run.
Context {E : Type} (m : cpp).
(** One call; only EmptyStackException is caught by the caller. *)
Definition s_step (s : vector E) (o : sop E) : outcome (vector E * sans E) :=
  match (match o with
         | SPush x => let* ' (s', y) := s_push m s x in Ok (s', AElem y)
         | SPop => let* ' (s', y) := s_pop m s in Ok (s', AElem y)
         | SPeek => let* y := s_peek m s in Ok (s, AElem y)
         | SEmpty => Ok (s, ABool (s_empty s))
         end) with
  | Throw EmptyStackException => Ok (s, AException)
  | r => r
  end.
Fixpoint s_run (s : vector E) (ops : list (sop E)) : outcome (vector E * list (sans E)) :=
  match ops with
  | [] => Ok (s, [])
  | o :: r => let* ' (s1, a) := s_step s o in let* ' (s2, l) := s_run s1 r in Ok (s2, a :: l)
  end.
End Run.
