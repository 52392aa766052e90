(** What a map does, for the properties of the table under ConcurrentHashMap
    (C102-C105).  Nothing here mentions buckets, hashing or locks. *)

From Coq Require Import ZArith List.
Import ListNotations.
Open Scope Z_scope.

Section Spec.
Context {K V : Type}.

(** A map gives each key at most one value. *)
Definition dict := K -> option V.
Definition nothing : dict := fun _ => None.

Inductive op : Type := Get (k : K) | Put (k : K) (v : V) | Del (k : K) | Clear | Size | All.
Inductive ans : Type :=
| Found (o : option V)      (* the value of the key, if any *)
| Stored (new : bool)       (* whether the key was new *)
| Refused                   (* an exception *)
| Removed (b : bool)        (* whether there was a mapping *)
| Cleared
| Count (n : Z)
| Mappings (l : list (K * V)).

Definition agree_but (k : K) (d d' : dict) : Prop := forall k', k' <> k -> d' k' = d k'.
(** From [d], [o] may answer [a] and leave [d']. *)
Definition legal (o : op) (d : dict) (a : ans) (d' : dict) : Prop :=
  match o, a with
  | Get k, Found x => x = d k /\ forall k', d' k' = d k'
  | Put k v, Stored new => d' k = Some v /\ agree_but k d d' /\ (new = true <-> d k = None)
  | Put k v, Refused => d k = None /\ forall k', d' k' = d k'
  | Del k, Removed b => d' k = None /\ agree_but k d d' /\ (b = true <-> d k <> None)
  | Clear, Cleared => forall k, d' k = None
  | Size, Count n => (forall k, d' k = d k) /\ exists keys, NoDup keys /\ (forall k, In k keys <-> d k <> None) /\ n = Z.of_nat (length keys)
  | All, Mappings l => (forall k, d' k = d k) /\ NoDup (map fst l) /\ forall k v, In (k, v) l <-> d k = Some v
  | _, _ => False
  end.
Fixpoint legal_all (os : list op) (d : dict) (l : list ans) : Prop :=
  match os, l with
  | [], [] => True
  | o :: os', a :: l' => exists d', legal o d a d' /\ legal_all os' d' l'
  | _, _ => False
  end.
End Spec.
