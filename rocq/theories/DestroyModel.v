(** Model of the end of a queue:
    /repo/library/Java/Util/Concurrent/ConcurrentLinkedQueue/concurrentqueue.hpp,
    the destructors of a sub-queue (ImplicitProducer, 2376-2428) and, as far as
    it calls them, of the whole queue (798-809).

    Simplifications: the block index is the map of SubQueueModel (C113 is about
    the real one); indices are unbounded; the arrays of the block index and of
    the table of threads (2415-2427, 811-823) are not modelled; for the pool
    of blocks (827-838) see BlockPoolModel. *)

From Coq Require Import ZArith List Bool.
From Verif Require Import Base SubQueueModel.
Import ListNotations.
Open Scope Z_scope.

Section Destroy.
Context {T : Type}.
Variables (B : Z).

(** The blocks, those in the pool, and the elements destroyed so far *)
Record mem : Type := mkMem { mblocks : nat -> @block T; mavail : nat -> bool; destroyed : list T }.

(** add_block_to_free_list (3002-3008); the list must not contain it yet *)
Definition give_back (m : mem) (b : nat) : outcome mem :=
  if mavail m b then UB DoubleFree else Ok (mkMem (mblocks m) (fupd (mavail m) b true) (destroyed m)).
(** 2406: the destructor of the element *)
Definition end_element (m : mem) (b : nat) (i : Z) : outcome mem :=
  match cell (mblocks m b) (slot B i) with
  | None => UB Uninitialised
  | Some v => Ok (mkMem (fupd (mblocks m) b (mkBlock (zfupd (cell (mblocks m b)) (slot B i) None) (emptied (mblocks m b)))) (mavail m) (destroyed m ++ [v]))
  end.

(** 2396-2408 *)
Fixpoint walk (fuel : nat) (x : @sub T) (m : mem) (index : Z) (block : option nat) : outcome mem :=
  if index =? tail x then Ok m
  else match fuel with
       | O => OutOfFuel
       | S fuel =>
         bind (if (slot B index =? 0) || match block with None => true | Some _ => false end
               then bind (match block with Some b => give_back m b | None => Ok m end)
                         (fun m => match entry x (bnum B index) with Some b => Ok (m, b) | None => UB NullDeref end)
               else match block with Some b => Ok (m, b) | None => UB NullDeref end)
              (fun d => let (m, b) := d in bind (end_element m b index) (fun m => walk fuel x m (index + 1) (Some b)))
       end.
(** 2376-2414 *)
Definition destroy_sub (x : @sub T) (m : mem) : outcome mem :=
  if tail x <? head x then UB Precondition  (* 2395 *)
  else bind (walk (Z.to_nat (tail x - head x)) x m (head x) None)
            (fun m => match tailBlock x with
                      | Some b => if negb (head x =? tail x) || negb (slot B (tail x) =? 0) then give_back m b else Ok m
                      | None => Ok m
                      end).
(** 800-809: the sub-queues [ps], in the order of the list *)
Fixpoint destroy_subs (f : nat -> @sub T) (ps : list nat) (m : mem) : outcome mem :=
  match ps with [] => Ok m | q :: ps => bind (destroy_sub (f q) m) (destroy_subs f ps) end.
Definition destroy_queue (ps : list nat) (s : @state T) : outcome mem := destroy_subs (subs s) ps (mkMem (blocks s) (avail s) []).
End Destroy.
