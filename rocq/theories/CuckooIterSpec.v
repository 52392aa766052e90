(** What Java promises about the iterators of a ConcurrentHashMap: they are
    weakly consistent.  "[...] elements reflecting the state of the hash table
    at some point at or since the creation of the iterator"; no exception; and
    what stays in the map is visited exactly once. *)
From Coq Require Import ZArith List.
From Verif Require Import CuckooSpec.
Import ListNotations.
Open Scope Z_scope.

Section Spec.
Context {K V : Type}.
Notation dict := (@dict K V).

(** The calls [os] with the answers [l] lead from [d] to [d'] *)
Fixpoint leads (os : list (@op K V)) (d : dict) (l : list (@ans K V)) (d' : dict) : Prop :=
  match os, l with
  | [], [] => forall k, d' k = d k
  | o :: os', a :: l' => exists d1, legal o d a d1 /\ leads os' d1 l' d'
  | _, _ => False
  end.

(** Each mapping visited is in the map when it is visited *)
Fixpoint visits (d : dict) (log : list (K * V * list (@op K V) * list (@ans K V))) (d' : dict) : Prop :=
  match log with
  | [] => forall k, d' k = d k
  | (k, v, os, l) :: log' => d k = Some v /\ exists d1, leads os d l d1 /\ visits d1 log' d'
  end.
Definition keys_of (log : list (K * V * list (@op K V) * list (@ans K V))) : list K := map (fun x => fst (fst (fst x))) log.

(** No call put a new key into the map, or was refused *)
Definition nothing_new (l : list (@ans K V)) : Prop := ~ In (Stored true) l /\ ~ In Refused l.
Definition no_new_key (log : list (K * V * list (@op K V) * list (@ans K V))) : Prop := Forall (fun x => nothing_new (snd x)) log.
End Spec.
