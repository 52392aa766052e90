(** What an action called for each element of a list sees: it is called for
    the elements in order, up to and including the first for which it
    answers false. *)

From Coq Require Import List.
Import ListNotations.

Section ForEach.
Context {E S : Type} (action : S -> E -> S * bool).
(** [called s xs s']: from state [s], the action called for exactly the
    elements [xs], all answered true, leaves [s']. *)
Inductive called : S -> list E -> S -> Prop :=
| called_nil s : called s [] s
| called_cons s x s1 xs s2 : action s x = (s1, true) -> called s1 xs s2 -> called s (x :: xs) s2.
(** The whole iteration: either every element was accepted, or the action
    refused one and nothing after it was visited. *)
Definition visits (l : list E) (s s' : S) : Prop :=
  called s l s' \/ exists xs x ys s1, l = xs ++ x :: ys /\ called s xs s1 /\ action s1 x = (s', false).
End ForEach.
