(** Model of java.util.HashMap (/repo/library/Java/Util/HashMap/HashMap.hpp).

    The object is one [std::unordered_map<K, V> original] (line 46).  The
    library container is modelled by its contract: a list of pairs with
    pairwise different keys, in an unspecified order.  The order is made
    explicit as [reorder]: whenever the container inserts a pair it may
    permute all of its elements (rehashing); the theorems quantify over every
    such function.  Simplifications: allocation failure is not modelled; the
    hash function is assumed consistent with [==] on keys (KeysModel.v drops
    this assumption for Integer and Long keys). *)

From Coq Require Import ZArith List Lia Bool.
From Verif Require Import Base HashMapSpec.
Import ListNotations.
Open Scope Z_scope.

Section HashMap.
Context {K V : Type}.
(** [==] on keys and on values ([!=] is its negation). *)
Context (keq : K -> K -> bool) (veq : V -> V -> bool).
(** [V value;] (default-initialisation): the value of a class type, or [None]
    for a scalar type, whose value is indeterminate. *)
Context (dflt : option V).
(** The container's freedom of order. *)
Context (reorder : list (K * V) -> list (K * V)).

Definition hmap := list (K * V).

(** Reading a default-initialised [V]. *)
Definition dval : outcome V := match dflt with Some d => Ok d | None => UB Uninitialised end.

(** *** Contract of std::unordered_map *)
(** [find(key)] and [it->second]. *)
Fixpoint um_find (key : K) (m : hmap) : option V :=
  match m with
  | [] => None
  | (k, v) :: r => if keq k key then Some v else um_find key r
  end.
(** [insert(pair)]: no effect if the key is present. *)
Definition um_insert (key : K) (value : V) (m : hmap) : hmap :=
  match um_find key m with Some _ => m | None => reorder ((key, value) :: m) end.
(** [original[key] = value]. *)
Definition um_assign (key : K) (value : V) (m : hmap) : hmap :=
  match um_find key m with
  | Some _ => map (fun p => if keq (fst p) key then (fst p, value) else p) m
  | None => reorder ((key, value) :: m)
  end.
(** [erase(key)]. *)
Definition um_erase (key : K) (m : hmap) : hmap := filter (fun p => negb (keq (fst p) key)) m.

(** *** Operations *)
(** HashMap.hpp:288-290 *)
Definition containsKey (m : hmap) (key : K) : bool := match um_find key m with Some _ => true | None => false end.
(** HashMap.hpp:300-307 *)
Definition containsValue (m : hmap) (value : V) : bool := existsb (fun p => veq (snd p) value) m.
(** HashMap.hpp:349-358 *)
Definition get (m : hmap) (key : K) : outcome V := match um_find key m with None => dval | Some v => Ok v end.
(** HashMap.hpp:372-383 *)
Definition getOrDefault (m : hmap) (key : K) (defaultValue : V) : V := match um_find key m with None => defaultValue | Some v => v end.
(** HashMap.hpp:552-554; [long] = size_t converted. *)
Definition size (m : hmap) : Z := zlen m.
(** HashMap.hpp:391-393 *)
Definition isEmpty (m : hmap) : bool := size m =? 0.
(** HashMap.hpp:402-404 *)
Definition put (m : hmap) (key : K) (value : V) : hmap := um_insert key value m.
(** HashMap.hpp:411-415, in the other map's order *)
Definition putAll (m : hmap) (map : hmap) : hmap := fold_left (fun acc p => put acc (fst p) (snd p)) map m.
(** HashMap.hpp:64-66 *)
Definition copy (target : hmap) : hmap := putAll [] target.
(** HashMap.hpp:71-75 *)
Definition ofList (items : list (K * V)) : hmap := putAll [] items.
(** HashMap.hpp:164-170 *)
Definition clone (m : hmap) : hmap := fold_left (fun acc p => put acc (fst p) (snd p)) m [].
(** HashMap.hpp:148-150; 139-142 [reinitialize] has the same effect *)
Definition clear (m : hmap) : hmap := [].
(** HashMap.hpp:431-443 *)
Definition putIfAbsent (m : hmap) (key : K) (value : V) : outcome (hmap * V) :=
  match um_find key m with
  | None => let* result := dval in Ok (um_assign key value m, result)
  | Some v => Ok (m, v)
  end.
(** HashMap.hpp:455-467 *)
Definition remove (m : hmap) (key : K) : outcome (hmap * V) :=
  match um_find key m with
  | None => let* result := dval in Ok (m, result)
  | Some v => Ok (um_erase key m, v)
  end.
(** HashMap.hpp:479-490 *)
Definition remove2 (m : hmap) (key : K) (value : V) : hmap * bool :=
  match um_find key m with
  | None => (m, false)
  | Some v => if negb (veq v value) then (m, false) else (um_erase key m, true)
  end.
(** HashMap.hpp:505-517 *)
Definition replace (m : hmap) (key : K) (value : V) : outcome (hmap * V) :=
  match um_find key m with
  | None => let* result := dval in Ok (m, result)
  | Some v => Ok (um_assign key value m, v)
  end.
(** HashMap.hpp:531-545 *)
Definition replace3 (m : hmap) (key : K) (oldValue newValue : V) : hmap * bool :=
  match um_find key m with
  | None => (m, false)
  | Some v => if negb (veq v oldValue) then (m, false) else (um_assign key newValue m, true)
  end.
(** The loop of HashMap.hpp:125-132 *)
Fixpoint equals_loop (l another : hmap) : outcome bool :=
  match l with
  | [] => Ok true
  | (k, v) :: r => let* anotherValue := get another k in
                   if negb (veq v anotherValue) then Ok false else equals_loop r another
  end.
(** HashMap.hpp:120-133 *)
Definition equals (m another : hmap) : outcome bool :=
  if negb (size m =? size another) then Ok false else equals_loop m another.
(** HashMap.hpp:332-338; the callback [action] works on a state [S] and returns whether to go on. *)
Fixpoint forEach {S} (action : S -> K -> V -> S * bool) (m : hmap) (s : S) : S :=
  match m with
  | [] => s
  | (k, v) :: r => let (s', go) := action s k v in if negb go then s' else forEach action r s'
  end.
End HashMap.

(** One call on the object, with what it returns. *)

Section Run.
Context {K V : Type} (keq : K -> K -> bool) (veq : V -> V -> bool) (dflt : option V) (reorder : list (K * V) -> list (K * V)).
Definition step (m : @hmap K V) (o : op) : outcome (@hmap K V * reply V) :=
  match o with
  | OPut k v => Ok (put keq reorder m k v, RNone)
  | OPutIfAbsent k v => let* ' (m', v') := putIfAbsent keq dflt reorder m k v in Ok (m', RVal v')
  | ORemove k => let* ' (m', v') := remove keq dflt m k in Ok (m', RVal v')
  | ORemove2 k v => let (m', b) := remove2 keq veq m k v in Ok (m', RBool b)
  | OReplace k v => let* ' (m', v') := replace keq dflt reorder m k v in Ok (m', RVal v')
  | OReplace3 k old new => let (m', b) := replace3 keq veq reorder m k old new in Ok (m', RBool b)
  | OClear => Ok (clear m, RNone)
  end.
Fixpoint run (m : @hmap K V) (ops : list op) : outcome (@hmap K V * list (reply V)) :=
  match ops with
  | [] => Ok (m, [])
  | o :: r => let* ' (m1, a) := step m o in let* ' (m2, l) := run m1 r in Ok (m2, a :: l)
  end.
End Run.
