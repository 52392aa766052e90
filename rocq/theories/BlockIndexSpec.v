(** Vocabulary of the properties of the block index, in terms of the events
    alone (latest first). *)

From Coq Require Import ZArith List Bool.
From Verif Require Import SubQueueModel BlockIndexModel.
Import ListNotations.
Open Scope Z_scope.

(** The blocks that were put, in order: block number [n] is the [n]-th. *)
Fixpoint blocks_put (h : list event) : list nat :=
  match h with
  | [] => []
  | Put b :: h => blocks_put h ++ [b]
  | _ :: h => blocks_put h
  end.

(** Numbers of the blocks that were cleared. *)
Fixpoint cleared (h : list event) : list Z :=
  match h with
  | [] => []
  | Clear n :: h => n :: cleared h
  | _ :: h => cleared h
  end.

(** How many puts were refused. *)
Fixpoint refusals (h : list event) : nat :=
  match h with
  | [] => 0
  | Refused :: h => S (refusals h)
  | _ :: h => refusals h
  end.

(** Block number [n] was put and not cleared. *)
Definition in_use (h : list event) (n : Z) : Prop := 0 <= n < Z.of_nat (length (blocks_put h)) /\ ~ In n (cleared h).

(** All blocks in use are among the latest [d] that were put. *)
Definition spread (h : list event) (d : Z) : Prop :=
  forall n, in_use h n -> Z.of_nat (length (blocks_put h)) - n <= d.

(** Sizes of blocks and of the first index that are accepted: powers of two
    greater than one (static_assert, concurrentqueue.hpp:733-738) and not
    absurdly large. *)
Definition valid_sizes (B cap0 : Z) : Prop := (exists lb, 1 <= lb <= 6 /\ B = 2 ^ lb) /\ (exists a, 1 <= a <= 32 /\ cap0 = 2 ^ a).

(** How many blocks are in use. *)
Definition live (h : list event) : Z := Z.of_nat (length (blocks_put h)) - Z.of_nat (length (cleared h)).

(** Earlier moments of a history. *)
Definition earlier (h' h : list event) : Prop := exists later, h = later ++ h'.

(** Failures of the environment in a run: malloc, the pool of blocks, the
    constructor of an element. *)
Fixpoint failures (l : list choice) : nat :=
  match l with
  | [] => 0
  | PFail :: l => S (failures l)
  | _ :: l => failures l
  end.

(** The number of slots of the index. *)
Definition slots (s : ist) : Z := Z.of_nat (length (index (cur s))).

(** In the model of the sub-queues: the element whose block a thread is
    looking up or using. *)
Definition holds {T} (p : @pc T) : option (nat * Z) :=
  match p with
  | D7 q i | D8 q i _ | D9 q i _ _ | D10 q i _ _ | D11 q i _ _ => Some (q, i)
  | _ => None
  end.
