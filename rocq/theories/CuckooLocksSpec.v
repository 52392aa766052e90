(** What lies under a set of bucket locks. *)

From Coq Require Import ZArith List.
From Verif Require Import CuckooModel.
Import ListNotations.
Open Scope Z_scope.

Section Spec.
Context {K V : Type}.
Notation table := (@table K V).
(** Two tables that cannot be told apart by reading the hashpowers and what
    lies under the locks [w]: the slots of their buckets in both arrays (as far
    as the old one exists), their counters and their flags. *)
Record same_under (w : list Z) (t1 t2 : table) : Prop := {
  su_hp : hp t1 = hp t2; su_old_hp : old_hp t1 = old_hp t2; su_locks : nlocks t1 = nlocks t2;
  su_cell : forall i s, In (lock_ind i) w -> cell t1 i s = cell t2 i s;
  su_old : forall a b i s, old t1 = Some a -> old t2 = Some b -> In (lock_ind i) w -> a i s = b i s;
  su_counter : forall l, In l w -> counter t1 l = counter t2 l;
  su_migrated : forall l, In l w -> migrated t1 l = migrated t2 l }.
(** Nothing but what lies under [w] has changed, except that the old array may
    have been freed. *)
Record same_outside (w : list Z) (t t' : table) : Prop := {
  so_hp : hp t' = hp t; so_old_hp : old_hp t' = old_hp t; so_locks : nlocks t' = nlocks t;
  so_cell : forall i s, ~ In (lock_ind i) w -> cell t' i s = cell t i s;
  so_old : old t' = old t \/ old t' = None;
  so_counter : forall l, ~ In l w -> counter t' l = counter t l;
  so_migrated : forall l, ~ In l w -> migrated t' l = migrated t l }.
(** [f] reads and writes only what lies under [w]. *)
Definition within {A} (w : list Z) (f : table -> res A) : Prop :=
  (forall t t' a, f t = Done t' a -> same_outside w t t') /\
  (forall t1 t2 t1' t2' a1 a2, same_under w t1 t2 -> f t1 = Done t1' a1 -> f t2 = Done t2' a2 -> a1 = a2 /\ same_under w t1' t2').
End Spec.
