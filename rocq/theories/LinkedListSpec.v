(** Specification of a deque on mathematical lists. *)

From Coq Require Import ZArith List Bool.
From Verif Require Import Base ListSpec.
Import ListNotations.
Open Scope Z_scope.

Section DequeSpec.
Context {E : Type}.
Inductive dop : Type :=
| DAddFirst (x : E) | DAddLast (x : E) | DPollFirst | DPollLast | DGet (i : Z) | DGetFirst | DGetLast | DRemoveAt (i : Z) | DSize | DClear.
Inductive dans : Type := DUnit | DElem (x : E) | DBool (b : bool) | DInt (i : Z) | DBad.

(** java.util.LinkedList; [DBad] is an exception or null (nothing there). *)
Definition dstep (l : list E) (o : dop) (l' : list E) (a : dans) : Prop :=
  match o with
  | DAddFirst x => l' = x :: l /\ a = DUnit
  | DAddLast x => l' = l ++ [x] /\ a = DUnit
  | DPollFirst => match l with [] => l' = [] /\ a = DBad | x :: r => l' = r /\ a = DElem x end
  | DPollLast => (l = [] /\ l' = [] /\ a = DBad) \/ exists r x, l = r ++ [x] /\ l' = r /\ a = DElem x
  | DGet i => l' = l /\ ((0 <= i < zlen l /\ exists x, znth l i = Some x /\ a = DElem x) \/ (~ 0 <= i < zlen l /\ a = DBad))
  | DGetFirst => l' = l /\ match l with [] => a = DBad | x :: _ => a = DElem x end
  | DGetLast => l' = l /\ ((l = [] /\ a = DBad) \/ exists r x, l = r ++ [x] /\ a = DElem x)
  | DRemoveAt i => (0 <= i < zlen l /\ l' = delete_at i l /\ a = DBool true) \/ (~ 0 <= i < zlen l /\ l' = l /\ a = DBad)
  | DSize => l' = l /\ a = DInt (zlen l)
  | DClear => l' = [] /\ a = DUnit
  end.
Inductive drun : list E -> list dop -> list E -> list dans -> Prop :=
| drun_nil l : drun l [] l []
| drun_cons l o l1 a ops l2 as_ : dstep l o l1 a -> drun l1 ops l2 as_ -> drun l (o :: ops) l2 (a :: as_).
End DequeSpec.
Arguments dop : clear implicits.
Arguments dans : clear implicits.
