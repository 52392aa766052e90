(** The members of ConcurrentHashMap that use the table, called by one thread
    (/repo/library/Java/Util/Concurrent/ConcurrentHashMap/ConcurrentHashMap.hpp). *)

From Coq Require Import ZArith List Bool.
From Verif Require Import Base CuckooModel.
From Verif Require CuckooSpec.
Import ListNotations.
Open Scope Z_scope.

Section Run.
Context {K V : Type} (hash : K -> Z) (keq : K -> K -> bool) (simple nothrow : bool).
Notation table := (@table K V).

(** More rounds than an insertion can take *)
Definition rounds : nat := 70.
(** get 338-346 and containsKey 257-264 look a key up; put 385-387; remove
    422-431 erases; clear 115-117; size 510-512; forEach 308-318 and
    containsValue 275-285 visit every mapping.  [None]: undefined behaviour,
    a failed assert or more rounds than [rounds]. *)
Definition perform (o : @CuckooSpec.op K V) (t : table) : option (table * @CuckooSpec.ans K V) :=
  match o with
  | CuckooSpec.Get k => match find hash keq simple k t with Done t' x => Some (t', CuckooSpec.Found x) | _ => None end
  | CuckooSpec.Put k v =>
      match insert_or_assign hash keq simple nothrow rounds k v t with
      | Done t' b => Some (t', CuckooSpec.Stored b)
      | TooLow t' => Some (t', CuckooSpec.Refused)
      | _ => None
      end
  | CuckooSpec.Del k => match erase hash keq simple k t with Done t' b => Some (t', CuckooSpec.Removed b) | _ => None end
  | CuckooSpec.Clear => Some (clear t, CuckooSpec.Cleared)
  | CuckooSpec.Size => Some (t, CuckooSpec.Count (size t))
  | CuckooSpec.All => match walk hash t with Done t' l => Some (t', CuckooSpec.Mappings l) | _ => None end
  end.
Fixpoint perform_all (os : list CuckooSpec.op) (t : table) : option (table * list CuckooSpec.ans) :=
  match os with
  | [] => Some (t, [])
  | o :: os' => match perform o t with
                | None => None
                | Some (t1, a) => match perform_all os' t1 with None => None | Some (t2, l) => Some (t2, a :: l) end
                end
  end.
End Run.
