(** Model of java.util.Vector (/repo/library/Java/Util/Vector/Vector.hpp) and
    java.util.Stack (/repo/library/Java/Util/Stack/Stack.hpp).

    The object holds [std::vector<E> original] and [int capacityIncrement]
    (Vector.hpp:49-50).  The capacity of the std::vector is modelled as gcc's:
    [reserve(n)] makes it exactly [n] when it was smaller, and it never
    shrinks except by [trimToSize].  Allocation failure is not modelled.
    Members that are stubs (iterators, sort, spliterator, subList, toString)
    and the two-argument toArray (ill-formed) are not modelled. *)

From Coq Require Import ZArith List Bool.
From Verif Require Import Base StdVector ListSpec.
Import ListNotations.
Open Scope Z_scope.

(** [incr]: [None] when the constructor leaves [capacityIncrement] uninitialised. *)
Record vector {E : Type} : Type := mkV { vdata : list E; vcap : Z; vinc : option Z }.
Arguments vector : clear implicits.

Section Vector.
Context {E : Type} (m : cpp) (eqb : E -> E -> bool) (dv : E).
Notation vec := (vector E).
Definition with_data (v : vec) (l : list E) : vec := mkV E l (vcap v) (vinc v).

(** Vector.hpp:78-84 *)
Definition v_new (initialCapacity capacityIncrement : Z) : outcome vec :=
  if initialCapacity <? 0 then Throw InvalidArgument else Ok (mkV E [] initialCapacity (Some capacityIncrement)).
(** Vector.hpp:57-68 *)
Definition v_default : outcome vec := v_new 10 0.
(** Vector.hpp:92-99: the increment is not initialised *)
Definition v_of (list_ : list E) : vec := mkV E (fold_left (fun l x => l ++ [x]) list_ []) (zlen list_) None.
(** Vector.hpp:107-113; [cap] is the unspecified capacity reached by the push_backs (at least the size) *)
Definition v_copy (cap : Z) (target : vec) : vec := mkV E (fold_left (fun l x => l ++ [x]) (vdata target) []) (Z.max cap (zlen (vdata target))) None.
(** Vector.hpp:708-710 *)
Definition v_size (v : vec) : Z := wrap 32 (zlen (vdata v)).
(** Vector.hpp:193-195 *)
Definition v_capacity (v : vec) : Z := wrap 32 (vcap v).
(** Vector.hpp:289-305 *)
Definition v_ensureCapacity (v : vec) (minCapacity : Z) : outcome vec :=
  let oldCapacity := v_capacity v in
  if (0 <? minCapacity) && (oldCapacity <? minCapacity) then
    match vinc v with
    | None => UB Uninitialised
    | Some inc =>
        let* newCapacity := (if 0 <? inc then sadd m 32 oldCapacity inc else smul m 32 oldCapacity 2) in
        let newCapacity := if newCapacity <? minCapacity then minCapacity else newCapacity in
        Ok (mkV E (vdata v) (Z.max (vcap v) newCapacity) (vinc v))
    end
  else Ok v.
(** Vector.hpp:128-133 *)
Definition v_add (v : vec) (x : E) : outcome (vec * bool) :=
  let oldSize := wrap 32 (zlen (vdata v)) in
  let* n := sadd m 32 oldSize 1 in
  let* v1 := v_ensureCapacity v n in
  let v2 := with_data v1 (vdata v1 ++ [x]) in
  Ok (v2, negb (uwrap 64 oldSize =? zlen (vdata v2))).
(** Vector.hpp:141-148, 402-404 *)
Definition v_addAt (v : vec) (index : Z) (x : E) : outcome vec :=
  let size := wrap 32 (zlen (vdata v)) in
  if (index <? 0) || (size <? index) then Throw IllegalArgumentException else
  let* n := sadd m 32 size 1 in
  let* v1 := v_ensureCapacity v n in
  let* l := vec_insert (vdata v1) index x in Ok (with_data v1 l).
(** The loop of Vector.hpp:169-175.  A throw out of [add] leaves what was
    inserted before it; it can only be the first one, as [index] stays valid. *)
Fixpoint v_addAll_loop (v : vec) (index : Z) (list_ : list E) : outcome vec :=
  match list_ with
  | [] => Ok v
  | x :: r => let* v1 := v_addAt v index x in let* i1 := sadd m 32 index 1 in v_addAll_loop v1 i1 r
  end.
(** Vector.hpp:167-177 *)
Definition v_addAllAt (v : vec) (index : Z) (list_ : list E) : outcome (vec * bool) :=
  let* v1 := v_addAll_loop v index list_ in Ok (v1, negb (zlen list_ =? 0)).
(** Vector.hpp:156-158 *)
Definition v_addAll (v : vec) (list_ : list E) : outcome (vec * bool) := v_addAllAt v 0 list_.
(** Vector.hpp:200-202, 550-552 *)
Definition v_clear (v : vec) : vec := with_data v [].
(** Vector.hpp:235-248 *)
Fixpoint v_containsAll (v : vec) (list_ : list E) : bool :=
  match list_ with
  | [] => true
  | x :: r => if negb (std_found eqb (vdata v) x) then false else v_containsAll v r
  end.
(** Vector.hpp:255-261, 746-754: elements are pushed behind what the array holds *)
Definition v_copyInto (v : vec) (anArray : list E) : list E := fold_left (fun a x => a ++ [x]) (vdata v) anArray.
Definition v_toArray (v : vec) : list E := v_copyInto v [].
(** Vector.hpp:349-354, 269-271: the comparison is between size_t, [index >= 0] is known *)
Definition v_get (v : vec) (index : Z) : outcome E :=
  if (index <? 0) || (index >=? zlen (vdata v)) then Throw IllegalArgumentException else at_ (vdata v) index.
(** Vector.hpp:128-133 called with a reference to the element at [i] of the
    same vector ([v.add(v[i])]): if ensureCapacity reallocates, the reference
    dangles when push_back reads it. *)
Definition v_add_own (v : vec) (i : Z) : outcome (vec * bool) :=
  let* x := v_get v i in
  let* n := sadd m 32 (wrap 32 (zlen (vdata v))) 1 in
  let* v1 := v_ensureCapacity v n in
  if vcap v <? vcap v1 then UB UseAfterFree else v_add v x.
(** Vector.hpp:336-341, 428-433; the base class java.lang.Exception is rendered as IllegalArgumentException *)
Definition v_firstElement (v : vec) : outcome E :=
  match vdata v with [] => Throw IllegalArgumentException | x :: _ => Ok x end.
Definition v_lastElement (v : vec) : outcome E :=
  if zlen (vdata v) =? 0 then Throw IllegalArgumentException else raw_get (vdata v) (zlen (vdata v) - 1).
(** Vector.hpp:362-371 *)
Definition v_indexOf (v : vec) (x : E) : outcome Z :=
  find_up (S (length (vdata v))) (raw_get (vdata v)) (fun y z => eqb z y) x 0 (wrap 32 (zlen (vdata v))).
(** Vector.hpp:225-227 *)
Definition v_contains (v : vec) (x : E) : outcome bool := let* i := v_indexOf v x in Ok (negb (i =? -1)).
(** Vector.hpp:381-394 *)
Definition v_indexOfFrom (v : vec) (x : E) (index : Z) : outcome Z :=
  if (index <? 0) || (index >=? v_size v) then Throw IllegalArgumentException
  else find_up (S (length (vdata v))) (raw_get (vdata v)) (fun y z => eqb z y) x index (zlen (vdata v)).
(** Vector.hpp:456-469 *)
Definition v_lastIndexOfFrom (v : vec) (x : E) (index : Z) : outcome Z :=
  if (index <? 0) || (index >=? zlen (vdata v)) then Throw IllegalArgumentException
  else find_down (S (length (vdata v))) (raw_get (vdata v)) (fun y z => eqb z y) x index.
(** Vector.hpp:443-446 *)
Definition v_lastIndexOf (v : vec) (x : E) : outcome Z :=
  let* maxIndex := ssub m 32 (wrap 32 (zlen (vdata v))) 1 in v_lastIndexOfFrom v x maxIndex.
(** Vector.hpp:411-413 *)
Definition v_isEmpty (v : vec) : bool := zlen (vdata v) =? 0.
(** Vector.hpp:497-504, 569-571 *)
Definition v_removeAt (v : vec) (index : Z) : outcome (vec * E) :=
  if (index <? 0) || (index >=? zlen (vdata v)) then Throw IllegalArgumentException
  else let* removedItem := at_ (vdata v) index in let* l := vec_erase (vdata v) index in Ok (with_data v l, removedItem).
(** Vector.hpp:512-522, 560-562, for an argument whose dynamic type is [E] *)
Definition v_remove (v : vec) (x : E) : outcome (vec * bool) :=
  let* index := find_up (S (length (vdata v))) (raw_get (vdata v)) (fun y z => eqb z y) x 0 (zlen (vdata v)) in
  if index =? -1 then Ok (v, false) else let* ' (v', _) := v_removeAt v index in Ok (v', true).
(** The loop of Vector.hpp:534-543 and 649-658: [vectorIterator] is position
    [i]; after [erase(vectorIterator)] the code goes on with the same, now
    invalidated, iterator: undefined in ISO C++, the next element with gcc. *)
Fixpoint v_filter_loop (fuel : nat) (drop : E -> bool) (l : list E) (i : Z) : outcome (list E) :=
  match fuel with
  | O => OutOfFuel
  | S f => if negb (i =? zlen l) then
             let* y := raw_get l i in
             if drop y then
               let* l' := vec_erase l i in
               match m with ISO => UB Precondition | HW => v_filter_loop f drop l' i end
             else v_filter_loop f drop l (i + 1)
           else Ok l
  end.
(** Vector.hpp:530-545 *)
Definition v_removeAll (v : vec) (list_ : list E) : outcome (vec * bool) :=
  let* l := v_filter_loop (S (length (vdata v))) (fun y => std_found eqb list_ y) (vdata v) 0 in
  Ok (with_data v l, negb (uwrap 64 (wrap 32 (zlen (vdata v))) =? zlen l)).
(** Vector.hpp:645-660 *)
Definition v_retainAll (v : vec) (list_ : list E) : outcome (vec * bool) :=
  let* l := v_filter_loop (S (length (vdata v))) (fun y => negb (std_found eqb list_ y)) (vdata v) 0 in
  Ok (with_data v l, negb (uwrap 64 (wrap 32 (zlen (vdata v))) =? zlen l)).
(** The loop of Vector.hpp:613-616 *)
Fixpoint v_remove_times (n : nat) (v : vec) (fromIndex : Z) : outcome vec :=
  match n with
  | O => Ok v
  | S k => let* ' (v', _) := v_removeAt v fromIndex in v_remove_times k v' fromIndex
  end.
(** Vector.hpp:590-617 *)
Definition v_removeRange (v : vec) (fromIndex toIndex : Z) : outcome vec :=
  let currentSize := wrap 32 (zlen (vdata v)) in
  if (fromIndex <? 0) || (fromIndex >=? currentSize) || (toIndex <? 0) || (toIndex >=? currentSize) then Throw IllegalArgumentException
  else if toIndex <? fromIndex then Throw IllegalArgumentException
  else if fromIndex =? toIndex then let* ' (v', _) := v_removeAt v fromIndex in Ok v'
  else v_remove_times (Z.to_nat (toIndex - fromIndex)) v fromIndex.
(** Vector.hpp:669-676, 684-686 *)
Definition v_set (v : vec) (index : Z) (x : E) : outcome (vec * E) :=
  if (index <? 0) || (index >=? zlen (vdata v)) then Throw IllegalArgumentException
  else let* removedElement := v_get v index in let* l := raw_set (vdata v) index x in Ok (with_data v l, removedElement).
(** Vector.hpp:693-701 *)
Definition v_setSize (v : vec) (newSize : Z) : outcome vec :=
  if newSize <? 0 then Throw IllegalArgumentException else
  let* v1 := (if newSize >? zlen (vdata v) then v_ensureCapacity v newSize else Ok v) in
  Ok (with_data v1 (vec_resize dv (vdata v1) newSize)).
(** Vector.hpp:788-790 *)
Definition v_trimToSize (v : vec) : vec := mkV E (vdata v) (zlen (vdata v)) (vinc v).
(** The loop of Vector.hpp:320-326 *)
Fixpoint v_equals_loop (fuel : nat) (a b : list E) (i size : Z) : outcome bool :=
  match fuel with
  | O => OutOfFuel
  | S f => if i <? size then
             let* x := raw_get a i in let* y := raw_get b i in
             if negb (eqb x y) then Ok false else v_equals_loop f a b (i + 1) size
           else Ok true
  end.
(** Vector.hpp:313-329 *)
Definition v_equals (v target : vec) : outcome bool :=
  if negb (v_size v =? v_size target) then Ok false else v_equals_loop (S (length (vdata v))) (vdata v) (vdata target) 0 (v_size v).
(** Vector.hpp:209-217 *)
Fixpoint v_add_each (v : vec) (l : list E) : outcome vec :=
  match l with [] => Ok v | x :: r => let* ' (v', _) := v_add v x in v_add_each v' r end.
Definition v_clone (v : vec) : outcome vec := let* c := v_default in v_add_each c (vdata v).
(** Vector.hpp:889-898 for [target] another object *)
Definition v_assign (v target : vec) : outcome vec :=
  let* v1 := v_ensureCapacity (v_clear v) (v_size target) in
  Ok (mkV E (fold_left (fun l x => l ++ [x]) (vdata target) (vdata v1)) (Z.max (vcap v1) (zlen (vdata target))) (vinc v1)).
(** Vector.hpp:889-898 for [v = v]: after the clear the target is empty *)
Definition v_assign_self (v : vec) : outcome vec := v_assign v (v_clear v).
(** Vector.hpp:866-872 (reading through the reference) *)
Definition v_subscript (v : vec) (index : Z) : outcome E :=
  if (index <? 0) || (index >=? zlen (vdata v)) then Throw IllegalArgumentException else raw_get (vdata v) index.

(** Stack.hpp:52-54 *)
Definition s_empty (s : vec) : bool := v_size s =? 0.
(** Stack.hpp:62-68 *)
Definition s_peek (s : vec) : outcome E :=
  let len := v_size s in
  if len =? 0 then Throw EmptyStackException else let* i := ssub m 32 len 1 in v_get s i.
(** Stack.hpp:76-81 *)
Definition s_pop (s : vec) : outcome (vec * E) :=
  let len := v_size s in
  let* result := s_peek s in
  let* i := ssub m 32 len 1 in
  let* ' (s', _) := v_removeAt s i in Ok (s', result).
(** Stack.hpp:89-92 *)
Definition s_push (s : vec) (x : E) : outcome (vec * E) := let* ' (s', _) := v_add s x in Ok (s', x).
(** Stack.hpp:100-106 *)
Definition s_search (s : vec) (x : E) : outcome Z :=
  let* index := v_lastIndexOf s x in if index >=? 0 then Ok index else Ok (-1).

(** One call, exceptions being caught by the caller ([Bad], object unchanged). *)
Definition catching (v : vec) (o : outcome (vec * lans E)) : outcome (vec * lans E) :=
  match o with Throw _ => Ok (v, Bad) | _ => o end.
Definition v_step (v : vec) (o : lop E) : outcome (vec * lans E) :=
  catching v
  (match o with
   | LAdd x => let* ' (v', b) := v_add v x in Ok (v', Bool b)
   | LAddAt i x => let* v' := v_addAt v i x in Ok (v', Unit)
   | LAddAll xs => let* ' (v', b) := v_addAll v xs in Ok (v', Bool b)
   | LAddAllAt i xs => let* ' (v', b) := v_addAllAt v i xs in Ok (v', Bool b)
   | LGet i => let* x := v_get v i in Ok (v, Elem x)
   | LSet i x => let* ' (v', y) := v_set v i x in Ok (v', Elem y)
   | LRemoveAt i => let* ' (v', y) := v_removeAt v i in Ok (v', Elem y)
   | LRemove x => let* ' (v', b) := v_remove v x in Ok (v', Bool b)
   | LRemoveRange i j => let* v' := v_removeRange v i j in Ok (v', Unit)
   | LIndexOf x => let* i := v_indexOf v x in Ok (v, Int i)
   | LIndexOfFrom x i => let* r := v_indexOfFrom v x i in Ok (v, Int r)
   | LLastIndexOf x => let* i := v_lastIndexOf v x in Ok (v, Int i)
   | LLastIndexOfFrom x i => let* r := v_lastIndexOfFrom v x i in Ok (v, Int r)
   | LContains x => let* b := v_contains v x in Ok (v, Bool b)
   | LContainsAll xs => Ok (v, Bool (v_containsAll v xs))
   | LRemoveAll xs => let* ' (v', b) := v_removeAll v xs in Ok (v', Bool b)
   | LRetainAll xs => let* ' (v', b) := v_retainAll v xs in Ok (v', Bool b)
   | LSetSize n => let* v' := v_setSize v n in Ok (v', Unit)
   | LClear => Ok (v_clear v, Unit)
   | LSize => Ok (v, Int (v_size v))
   | LIsEmpty => Ok (v, Bool (v_isEmpty v))
   | LFirst => let* x := v_firstElement v in Ok (v, Elem x)
   | LLast => let* x := v_lastElement v in Ok (v, Elem x)
   end).
Fixpoint v_run (v : vec) (ops : list (lop E)) : outcome (vec * list (lans E)) :=
  match ops with
  | [] => Ok (v, [])
  | o :: r => let* ' (v1, a) := v_step v o in let* ' (v2, l) := v_run v1 r in Ok (v2, a :: l)
  end.
End Vector.
