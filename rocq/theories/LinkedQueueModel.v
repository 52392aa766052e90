(** Model of
    /repo/library/Java/Util/Concurrent/ConcurrentLinkedQueue/ConcurrentLinkedQueue.hpp
    and of the parts of concurrentqueue.hpp that make one queue of the sub-queues
    of the threads, for calls that do not overlap (the calls may be made by
    different threads).

    Simplification: a sub-queue is the list of its elements, oldest first; a
    call on it by itself appends, takes the oldest or says that there is none,
    and counts the elements.  C89-C91 prove this of its implementation, C110 that
    every thread has its own. *)

From Coq Require Import ZArith List Bool.
From Verif Require Import Base.
Import ListNotations.
Open Scope Z_scope.

Section Queue.
Context {T : Type}.
(** ConcurrentLinkedQueue.hpp:72: what [E e;] holds; [None]: E is a primitive
    type and the value is indeterminate *)
Context (default : option T).

(** producerListTail and next_prod, newest first (concurrentqueue.hpp:1676,
    3191-3206); a sub-queue is named by its thread *)
Record mem := mkM { prods : list nat; items : nat -> list T }.
Definition set_items (m : mem) (q : nat) (l : list T) : mem := mkM (prods m) (fun j => if Nat.eqb j q then l else items m j).
(** What memory there is for an enqueue: enough, none for a new sub-queue, none
    for a block *)
Inductive alloc : Type := Enough | NoProducer | NoBlock.
(** concurrentqueue.hpp:3326-3475 (get_or_add_implicit_producer), 3183-3206 *)
Definition listed (m : mem) (t : nat) : bool := existsb (Nat.eqb t) (prods m).
Definition registered (m : mem) (t : nat) : mem := if listed m t then m else mkM (t :: prods m) (items m).
(** concurrentqueue.hpp:934-940, 1312-1317, 2434-2492; a thread that has a
    sub-queue needs no new one *)
Definition enqueue (a : alloc) (t : nat) (v : T) (m : mem) : mem * bool :=
  match a with
  | NoProducer => if listed m t then (set_items m t (items m t ++ [v]), true) else (m, false)
  | NoBlock => (registered m t, false)
  | Enough => let m' := registered m t in (set_items m' t (items m' t ++ [v]), true)
  end.
(** concurrentqueue.hpp:1678-1683 *)
Definition len (m : mem) (q : nat) : Z := Z.of_nat (length (items m q)).
(** concurrentqueue.hpp:2498-2572 *)
Definition take (m : mem) (q : nat) : option (T * mem) :=
  match items m q with [] => None | v :: l => Some (v, set_items m q l) end.
(** concurrentqueue.hpp:1069-1081; [count], [best] and [size] are
    nonEmptyCount, best and bestSize *)
Fixpoint scan (m : mem) (ps : list nat) (count : nat) (best : option nat) (size : Z) : nat * option nat :=
  match ps with
  | [] => (count, best)
  | p :: r =>
      if Nat.ltb count 3 then
        if 0 <? len m p then
          if size <? len m p then scan m r (S count) (Some p) (len m p) else scan m r (S count) best size
        else scan m r count best size
      else (count, best)
  end.
(** concurrentqueue.hpp:1089-1093 *)
Fixpoint take_other (m : mem) (ps : list nat) (best : nat) : option (T * mem) :=
  match ps with
  | [] => None
  | p :: r => if Nat.eqb p best then take_other m r best else match take m p with Some x => Some x | None => take_other m r best end
  end.
(** concurrentqueue.hpp:1065-1096 *)
Definition try_dequeue (m : mem) : outcome (option (T * mem)) :=
  match scan m (prods m) 0 None 0 with
  | (O, _) => Ok None
  | (S _, None) => UB NullDeref
  | (S _, Some b) => match take m b with Some x => Ok (Some x) | None => Ok (take_other m (prods m) b) end
  end.
(** concurrentqueue.hpp:1265-1272; size_t *)
Definition size_approx (m : mem) : Z := fold_left (fun n q => uwrap 64 (n + len m q)) (prods m) 0.

(** The member functions of ConcurrentLinkedQueue. *)
Inductive call : Type :=
| Add (v : T) | Offer (v : T) | Poll | Peek | Element | Remove | Clear | Contains (v : T) | Equals (v : T) | HashCode | IsEmpty | Size | RemoveObject (v : T) | RemoveAll (l : list T).
Inductive answer : Type := RBool (b : bool) | RInt (z : Z) | RValue (v : T) | RVoid.
(** ConcurrentLinkedQueue.hpp:54-118 *)
Definition exec (a : alloc) (t : nat) (m : mem) (c : call) : outcome (mem * answer) :=
  match c with
  | Add v => Ok (fst (enqueue a t v m), RBool true)                                (* 54-57 *)
  | Element | Peek | Remove => Throw UnsupportedOperationException                   (* 59-61, 67-69, 77-79 *)
  | Offer _ => Ok (m, RBool true)                                                    (* 63-65 *)
  | Poll =>                                                                          (* 71-75 *)
      match try_dequeue m with
      | Ok (Some (v, m')) => Ok (m', RValue v)
      | Ok None => match default with Some d => Ok (m, RValue d) | None => UB Uninitialised end
      | Throw e => Throw e
      | UB u => UB u
      | OutOfFuel => OutOfFuel
      end
  | Clear => Ok (m, RVoid)                                                           (* 81-82 *)
  | Contains _ | Equals _ => Ok (m, RBool true)                                      (* 84-90 *)
  | HashCode => Ok (m, RInt 0)                                                       (* 92-94 *)
  | IsEmpty => Ok (m, RBool (size_approx m =? 0))                                    (* 96-98 *)
  | RemoveObject _ | RemoveAll _ => Ok (m, RBool false)                              (* 100-106 *)
  | Size => Ok (m, RInt (wrap 32 (size_approx m)))                                   (* 108-110 *)
  end.
Definition empty : mem := mkM [] (fun _ => []).
(** Calls one after the other: who calls, with which memory, what. *)
Fixpoint exec_all (m : mem) (l : list (nat * alloc * call)) : outcome (mem * list answer) :=
  match l with
  | [] => Ok (m, [])
  | (t, a, c) :: r => let* x := exec a t m c in let* y := exec_all (fst x) r in Ok (fst y, snd x :: snd y)
  end.
End Queue.
Arguments mem T : clear implicits.
Arguments call T : clear implicits.
Arguments answer T : clear implicits.
