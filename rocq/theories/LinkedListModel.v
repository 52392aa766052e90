(** Model of java.util.LinkedList (/repo/library/Java/Util/LinkedList/LinkedList.hpp).

    The object is a [std::list<Node<E>*> original] (line 65) of owned raw
    pointers.  The heap of nodes is explicit: node number [a] is [Some e]
    while alive and [None] once deleted; addresses are not reused
    (simplification).  [Node::id] (lines 49-53) is the address.
    Not modelled because they are ill-formed when instantiated for ordinary
    element types: [offer] (push_back without argument, 210-213) and [set]
    (dereferences the element, 378-382). *)

From Coq Require Import ZArith List Bool.
From Verif Require Import Base.
Import ListNotations.
Open Scope Z_scope.

Section LinkedList.
Context {E : Type}.
Definition heap := list (option E).
(** The list object (addresses, front first) and the heap. *)
Definition state := (heap * list Z)%type.

(** [new Node<E>(element)], LinkedList.hpp:50-53 *)
Definition new_node (h : heap) (e : E) : heap * Z := (h ++ [Some e], zlen h).
(** [node->element] *)
Definition read_node (h : heap) (a : Z) : outcome E :=
  match znth h a with Some (Some e) => Ok e | Some None => UB UseAfterFree | None => UB OutOfBounds end.
(** [delete node] *)
Definition delete_node (h : heap) (a : Z) : outcome heap :=
  match znth h a with Some (Some _) => Ok (zupd h a None) | Some None => UB DoubleFree | None => UB OutOfBounds end.

(** LinkedList.hpp:110-113, 129-131, 232-235 *)
Definition l_addLast (s : state) (e : E) : state := let (h, o) := s in let (h', a) := new_node h e in (h', o ++ [a]).
(** LinkedList.hpp:120-122, 221-224, 312-314 *)
Definition l_addFirst (s : state) (e : E) : state := let (h, o) := s in let (h', a) := new_node h e in (h', a :: o).
(** The deletions of LinkedList.hpp:137-140 through [forEach] (149-155), in list order *)
Fixpoint delete_all (h : heap) (o : list Z) : outcome heap :=
  match o with [] => Ok h | a :: r => let* h' := delete_node h a in delete_all h' r end.
(** LinkedList.hpp:136-142, and the destructor 83-85 *)
Definition l_clear (s : state) : outcome state := let (h, o) := s in let* h' := delete_all h o in Ok (h', []).
(** LinkedList.hpp:177-183: for the empty list [size() - 1] is 2^64-1, and
    [std::next(begin(), index)] walks past the end. *)
Definition l_get (s : state) (index : Z) : outcome E :=
  let (h, o) := s in
  if (index <? 0) || (uwrap 64 index >? uwrap 64 (zlen o - 1)) then Throw IndexOutOfBoundsException
  else match znth o index with Some a => read_node h a | None => UB OutOfBounds end.
(** LinkedList.hpp:190-192, 242-252: [front()] of an empty std::list is undefined *)
Definition l_getFirst (s : state) : outcome E :=
  match snd s with [] => UB OutOfBounds | a :: _ => read_node (fst s) a end.
(** LinkedList.hpp:199-202, 259-261 *)
Definition l_getLast (s : state) : outcome E :=
  match rev (snd s) with [] => UB OutOfBounds | a :: _ => read_node (fst s) a end.
(** LinkedList.hpp:277-283; also poll, pop, remove() (268-270, 303-305, 321-323) *)
Definition l_pollFirst (s : state) : outcome (state * E) :=
  match snd s with
  | [] => UB OutOfBounds
  | a :: r => let* e := read_node (fst s) a in let* h := delete_node (fst s) a in Ok ((h, r), e)
  end.
(** LinkedList.hpp:290-296, 363-369 *)
Definition l_pollLast (s : state) : outcome (state * E) :=
  match rev (snd s) with
  | [] => UB OutOfBounds
  | a :: r => let* e := read_node (fst s) a in let* h := delete_node (fst s) a in Ok ((h, rev r), e)
  end.
(** LinkedList.hpp:167-169: no return statement *)
Definition l_element (s : state) : outcome E := let* _ := l_getFirst s in UB MissingReturn.
(** The loop of LinkedList.hpp:333-341 *)
Fixpoint remove_loop (h : heap) (before o : list Z) (pos index : Z) : outcome state :=
  match o with
  | [] => Ok (h, rev before)
  | a :: r => if pos =? index then let* h' := delete_node h a in Ok (h', rev before ++ r)
              else remove_loop h (a :: before) r (pos + 1) index
  end.
(** LinkedList.hpp:331-343 *)
Definition l_removeAt (s : state) (index : Z) : outcome (state * bool) :=
  let* s' := remove_loop (fst s) [] (snd s) 0 index in Ok (s', true).
(** The loop of LinkedList.hpp:352-359; reads the ids of live nodes *)
Fixpoint remove_id_loop (h : heap) (before o : list Z) (id : Z) : outcome state :=
  match o with
  | [] => Ok (h, rev before)
  | a :: r => let* _ := read_node h a in
              if a =? id then let* h' := delete_node h a in Ok (h', rev before ++ r)
              else remove_id_loop h (a :: before) r id
  end.
(** LinkedList.hpp:351-361 *)
Definition l_removeNode (s : state) (id : Z) : outcome (state * bool) :=
  let* s' := remove_id_loop (fst s) [] (snd s) id in Ok (s', true).
(** LinkedList.hpp:389-391 *)
Definition l_size (s : state) : Z := zlen (snd s).
(** The implicitly defined copy constructor: both lists hold the same pointers. *)
Definition l_copy (o : list Z) : list Z := o.
End LinkedList.
Arguments heap : clear implicits.
Arguments state : clear implicits.

(** Histories: one call, exceptions caught by the caller. *)
From Verif Require Import LinkedListSpec.
Section Run.
Context {E : Type}.
Definition d_step (s : state E) (o : dop E) : outcome (state E * dans E) :=
  match (match o with
         | DAddFirst x => Ok (l_addFirst s x, DUnit)
         | DAddLast x => Ok (l_addLast s x, DUnit)
         | DPollFirst => let* ' (s', x) := l_pollFirst s in Ok (s', DElem x)
         | DPollLast => let* ' (s', x) := l_pollLast s in Ok (s', DElem x)
         | DGet i => let* x := l_get s i in Ok (s, DElem x)
         | DGetFirst => let* x := l_getFirst s in Ok (s, DElem x)
         | DGetLast => let* x := l_getLast s in Ok (s, DElem x)
         | DRemoveAt i => let* ' (s', b) := l_removeAt s i in Ok (s', DBool b)
         | DSize => Ok (s, DInt (l_size s))
         | DClear => let* s' := l_clear s in Ok (s', DUnit)
         end) with
  | Throw _ => Ok (s, DBad)
  | r => r
  end.
Fixpoint d_run (s : state E) (ops : list (dop E)) : outcome (state E * list (dans E)) :=
  match ops with
  | [] => Ok (s, [])
  | o :: r => let* ' (s1, a) := d_step s o in let* ' (s2, l) := d_run s1 r in Ok (s2, a :: l)
  end.
End Run.
