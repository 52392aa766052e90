(** What the end of a queue owes its elements. *)

From Coq Require Import ZArith List Bool.
From Verif Require Import Base SubQueueModel SubQueueSpec.
Import ListNotations.
Open Scope Z_scope.

Section Spec.
Context {T : Type}.
(** the values thread [q] has enqueued that were not handed out, in its order
    (those handed out are the first ones: C89) *)
Definition remaining (h : list (@event T)) (q : nat) : list T := skipn (Z.to_nat (count_of q h)) (enqueued q h).
(** [ps]: the threads that have sub-queues *)
Definition all_threads (ps : list nat) (h : list (@event T)) : Prop := NoDup ps /\ forall q, enqueued q h <> [] -> In q ps.
Definition total {A} (f : nat -> list A) (ps : list nat) : nat := List.length (concat (map f ps)).
End Spec.
