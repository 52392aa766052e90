(** Model of java.util.PriorityQueue (/repo/library/Java/Util/PriorityQueue/PriorityQueue.hpp).

    The object is the [std::vector<E> original] (line 47).  The heap
    algorithms of the C++ library are parameters [mk] (std::make_heap) and
    [pop] (std::pop_heap); [pop_heap] on a range that is not a non-empty heap
    is undefined.  [dflt] is the value of a default-initialised [E]: [None]
    for scalar types, whose value is indeterminate. *)

From Coq Require Import ZArith List Bool.
From Verif Require Import Base PriorityQueueSpec.
Import ListNotations.
Open Scope Z_scope.

Section PriorityQueue.
Context {E : Type}.
Variables (E_dec : forall a b : E, {a = b} + {a <> b}) (lt : E -> E -> bool) (mk pop : list E -> list E) (dflt : option E).

(** [std::find]: position of the first element equal to [x]. *)
Fixpoint std_find (x : E) (v : list E) : option nat :=
  match v with [] => None | y :: r => if E_dec y x then Some O else option_map S (std_find x r) end.
(** Decision of the precondition of std::pop_heap: no parent is less than its child. *)
Definition heap_b (v : list E) : bool :=
  forallb (fun n => let i := Z.of_nat n in
    match znth v ((i - 1) / 2), znth v i with Some p, Some c => negb (lt p c) | _, _ => true end) (seq 1 (length v - 1)).

(** PriorityQueue.hpp:79-84 (the exception class used is InterruptedException) *)
Definition pq_new_capacity (n : Z) : outcome (list E) := if n <? 1 then Throw InterruptedException else Ok [].
(** PriorityQueue.hpp:101-107 *)
Definition pq_copy (v : list E) : list E := fold_left (fun r x => r ++ [x]) v [].
(** PriorityQueue.hpp:123-129 *)
Definition pq_init (l : list E) : list E := mk (fold_left (fun r x => r ++ [x]) l []).
(** PriorityQueue.hpp:166-170 *)
Definition pq_contains (v : list E) (x : E) : bool := match std_find x v with Some _ => true | None => false end.
(** PriorityQueue.hpp:185-191 and add 142-144 *)
Definition pq_offer (v : list E) (x : E) : list E * bool :=
  let v' := mk (v ++ [x]) in (v', negb (wrap 32 (zlen v') =? wrap 32 (zlen v))).
(** PriorityQueue.hpp:198-204 *)
Definition pq_peek (v : list E) : outcome E :=
  match v with [] => match dflt with Some d => Ok d | None => UB Uninitialised end | x :: _ => Ok x end.
(** PriorityQueue.hpp:211-216: on the empty queue pop_back() is undefined. *)
Definition pq_poll (v : list E) : outcome (list E * E) :=
  let* x := pq_peek v in
  match v with
  | [] => UB OutOfBounds
  | _ => if heap_b v then Ok (removelast (pop v), x) else UB Precondition
  end.
(** PriorityQueue.hpp:224-232: erases without rebuilding the heap. *)
Definition pq_remove (v : list E) (x : E) : list E * bool :=
  match std_find x v with
  | Some n => (firstn n v ++ skipn (S n) v, true)
  | None => (v, false)
  end.
(** PriorityQueue.hpp:239-241 *)
Definition pq_size (v : list E) : Z := wrap 32 (zlen v).
(** PriorityQueue.hpp:255-262 *)
Definition pq_toArray (v : list E) : list E := fold_left (fun r x => r ++ [x]) v [].

(** The loop of PriorityQueue.hpp:281-284 through Array::operator[] *)
Fixpoint fill (a v : list E) (i : Z) : outcome (list E * Z) :=
  match v with [] => Ok (a, i) | x :: r => let* a' := at_set a i x in fill a' r (i + 1) end.
(** PriorityQueue.hpp:270-291; answers the new value of the argument and the result *)
Definition pq_toArray_into (v a : list E) : outcome (list E * list E) :=
  if zlen a <? wrap 32 (zlen v) then Ok (a, pq_toArray v)
  else
    let* ' (a1, i) := fill a v 0 in
    if zlen a1 >? wrap 32 (zlen v) then
      match dflt with Some d => let* a2 := at_set a1 i d in Ok (a2, a2) | None => UB Uninitialised end
    else Ok (a1, a1).

(** Histories. *)
Definition q_step (v : list E) (o : qop E) : outcome (list E * qans E) :=
  match o with
  | QOffer x => let (v', b) := pq_offer v x in Ok (v', QBool b)
  | QPoll => let* ' (v', x) := pq_poll v in Ok (v', QElem x)
  | QPeek => let* x := pq_peek v in Ok (v, QElem x)
  | QRemove x => let (v', b) := pq_remove v x in Ok (v', QBool b)
  | QContains x => Ok (v, QBool (pq_contains v x))
  | QSize => Ok (v, QInt (pq_size v))
  | QClear => Ok ([], QUnit)
  | QToArray => Ok (v, QArr (pq_toArray v))
  end.
Fixpoint q_run (v : list E) (ops : list (qop E)) : outcome (list E * list (qans E)) :=
  match ops with
  | [] => Ok (v, [])
  | o :: r => let* ' (v1, a) := q_step v o in let* ' (v2, l) := q_run v1 r in Ok (v2, a :: l)
  end.
End PriorityQueue.
