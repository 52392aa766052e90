(** Model of the lock-free queue under the blocking queue:
    /repo/library/Java/Util/Concurrent/ConcurrentLinkedQueue/concurrentqueue.hpp,
    the per-thread sub-queues without tokens (ImplicitProducer, 2366-2586),
    their counters (ProducerBase, 1639-1702), the blocks (1499-1623) and the
    pool of blocks (3004-3043).

    One step is one access to shared memory.  Loads of the counters may return
    any older value (the counters only grow), so that the memory_order_relaxed
    loads are covered; read-modify-write operations act on the latest value.
    Apart from that memory is sequentially consistent.

    Simplifications: indices are unbounded integers ([circular_less_than] is
    treated separately below); thread [t] enqueues to sub-queue [t], which
    exists from the start; a dequeue tries one sub-queue, chosen freely, which
    covers the scanning of try_dequeue (1065-1096); MAX_SUBQUEUE_SIZE is
    unlimited (the default); the block index is a map from block numbers to
    entries; the pool of blocks hands out any available block (initial pool,
    free list or new memory) or none. *)

From Coq Require Import ZArith List Bool.
From Verif Require Import Base.
Import ListNotations.
Open Scope Z_scope.

(** concurrentqueue.hpp:430-437, for index_t = size_t of 64 bits *)
Definition circular_less_than (a b : Z) : bool := 2 ^ 63 <? uwrap 64 (a - b).

Definition fupd {A} (f : nat -> A) (k : nat) (v : A) : nat -> A := fun x => if Nat.eqb x k then v else f x.
Definition zfupd {A} (f : Z -> A) (k : Z) (v : A) : Z -> A := fun x => if x =? k then v else f x.

Section Queue.
Context {T : Type}.
(** BLOCK_SIZE; and whether T's constructor cannot throw (MOODYCAMEL_NOEXCEPT_CTOR) *)
Variables (B : Z) (nothrow : bool).

(** [idx & (BLOCK_SIZE - 1)] and the block number ([BLOCK_SIZE] is a power of two) *)
Definition slot (i : Z) : Z := i mod B.
Definition bnum (i : Z) : Z := i / B.

(** ProducerBase, 1687-1693, and the block index 2816-2829; [sent] is the
    history of the values published *)
Record sub : Type := mkSub {
  tail : Z; head : Z; opt : Z; over : Z;
  entry : Z -> option nat;
  tailBlock : option nat;
  sent : list T }.
(** Block, 1499-1616: the memory of the elements ([None]: no object) and
    elementsCompletelyDequeued *)
Record block : Type := mkBlock { cell : Z -> option T; emptied : Z }.

(** What a thread is about to do. *)
Inductive pc : Type :=
| Idle
(** enqueue of [v] *)
| E0 (v : T)                (** at a block boundary: load headIndex (2438) *)
| E1 (v : T)                (** insert_block_index_entry (2448) *)
| E2 (v : T)                (** requisition_block (2453) *)
| E3 (v : T) (b : nat)      (** reset_empty (2462) *)
| E4 (v : T) (b : nat)      (** construct in the new block, may throw (2466-2468) *)
| E4x (b : nat)             (** it threw: give the block back (2469-2474) *)
| E5 (v : T) (b : nat)      (** store the entry and tailBlock (2478-2480) *)
| E6 (v : T)                (** construct in tailBlock (2489) *)
| E7 (v : T)                (** store tailIndex (2483, 2491) *)
(** dequeue from sub-queue [q] *)
| D1 (q : nat) (t0 : Z)             (** load dequeueOvercommit (2500) *)
| D2 (q : nat) (t0 ov : Z)          (** load dequeueOptimisticCount, compare (2501) *)
| D3 (q : nat) (ov : Z)             (** fetch_add on dequeueOptimisticCount (2504) *)
| D4 (q : nat) (my ov : Z)          (** load tailIndex, compare (2505-2506) *)
| D5 (q : nat) (my : Z)             (** fetch_add on headIndex (2507) *)
| D6 (q : nat) (my : Z)             (** fetch_add on dequeueOvercommit (2565) *)
| D7 (q : nat) (i : Z)              (** look the block up (2510-2513) *)
| D8 (q : nat) (i : Z) (b : nat)    (** move the element out (2536, 2539) *)
| D9 (q : nat) (i : Z) (b : nat) (r : option T)   (** destroy it (2528, 2540); [None]: the assignment threw *)
| D10 (q : nat) (i : Z) (b : nat) (r : option T)  (** set_empty (2529, 2542) *)
| D11 (q : nat) (i : Z) (b : nat) (r : option T)  (** entry := nullptr (2530, 2548) *)
| D12 (q : nat) (i : Z) (b : nat) (r : option T)  (** add_block_to_free_list (2531, 2550) *)
| Bad (u : ub).

(** Operations that have returned, latest first. *)
Inductive event : Type :=
| Sent (t : nat) (v : T)                       (** enqueue returned true *)
| Refused (t : nat)                            (** enqueue returned false or threw *)
| Got (t q : nat) (i : Z) (r : option T)       (** dequeue took the element with index [i]; [None]: the assignment threw *)
| Nothing (t q : nat).                         (** dequeue returned false *)

Record state : Type := mkSt {
  subs : nat -> sub; blocks : nat -> block; avail : nat -> bool;
  pcs : nat -> pc; hist : list event }.

Definition at_pc (s : state) (t : nat) (p : pc) : state := mkSt (subs s) (blocks s) (avail s) (fupd (pcs s) t p) (hist s).
Definition ret (s : state) (t : nat) (e : event) : state := mkSt (subs s) (blocks s) (avail s) (fupd (pcs s) t Idle) (e :: hist s).
Definition set_sub (s : state) (q : nat) (x : sub) : state := mkSt (fupd (subs s) q x) (blocks s) (avail s) (pcs s) (hist s).
Definition set_block (s : state) (b : nat) (x : block) : state := mkSt (subs s) (fupd (blocks s) b x) (avail s) (pcs s) (hist s).
Definition set_avail (s : state) (b : nat) (x : bool) : state := mkSt (subs s) (blocks s) (fupd (avail s) b x) (pcs s) (hist s).
Definition set_cell (s : state) (b : nat) (k : Z) (x : option T) : state :=
  set_block s b (mkBlock (zfupd (cell (blocks s b)) k x) (emptied (blocks s b))).
(** add_block_to_free_list; adding a block that is there already would
    corrupt the list *)
Definition free_block (s : state) (b : nat) (t : nat) (k : state -> state) : state :=
  if avail s b then at_pc s t (Bad DoubleFree) else k (set_avail s b true).

(** What the environment chooses: which operation begins, which older value
    a load returns, which block the pool returns, whether something fails. *)
Inductive choice : Type :=
| CEnq (v : T) | CDeq (q : nat) (z : Z) | CLoad (z : Z) | CBlock (b : nat) | CFail | CGo.
Definition older (z now : Z) : bool := (0 <=? z) && (z <=? now).

(** One step of thread [t]; [None]: that choice does not apply. *)
Definition step (s : state) (t : nat) (c : choice) : option state :=
  let me := subs s t in
  match pcs s t, c with
  | Idle, CEnq v =>
    (* 2434-2436 *)
    Some (at_pc s t (if slot (tail me) =? 0 then E0 v else E6 v))
  | E0 v, CLoad z =>
    (* 2438-2442; [assert] *)
    if older z (head me) then
      Some (if tail me <? z then at_pc s t (Bad Precondition)
            else if negb (z <? tail me + B) then ret s t (Refused t) else at_pc s t (E1 v))
    else None
  | E1 v, CGo => Some (at_pc s t (E2 v))
  | E1 v, CFail => Some (ret s t (Refused t))
  | E2 v, CBlock b => if avail s b then Some (at_pc (set_avail s b false) t (E3 v b)) else None
  | E2 v, CFail => Some (ret s t (Refused t))
  | E3 v b, CGo => Some (at_pc (set_block s b (mkBlock (cell (blocks s b)) 0)) t (if nothrow then E5 v b else E4 v b))
  | E4 v b, CGo =>
    Some (match cell (blocks s b) (slot (tail me)) with
          | Some _ => at_pc s t (Bad Precondition)
          | None => at_pc (set_cell s b (slot (tail me)) (Some v)) t (E5 v b)
          end)
  | E4 v b, CFail => Some (at_pc s t (E4x b))
  | E4x b, CGo => Some (free_block s b t (fun s => ret s t (Refused t)))
  | E5 v b, CGo =>
    Some (at_pc (set_sub s t (mkSub (tail me) (head me) (opt me) (over me) (zfupd (entry me) (bnum (tail me)) (Some b)) (Some b) (sent me))) t
                (if nothrow then E6 v else E7 v))
  | E6 v, CGo =>
    Some (match tailBlock me with
          | None => at_pc s t (Bad NullDeref)
          | Some b => match cell (blocks s b) (slot (tail me)) with
                      | Some _ => at_pc s t (Bad Precondition)
                      | None => at_pc (set_cell s b (slot (tail me)) (Some v)) t (E7 v)
                      end
          end)
  | E6 v, CFail => if nothrow then None else Some (ret s t (Refused t))
  | E7 v, CGo =>
    Some (ret (set_sub s t (mkSub (tail me + 1) (head me) (opt me) (over me) (entry me) (tailBlock me) (sent me ++ [v]))) t (Sent t v))
  | Idle, CDeq q z => (* 2499 *) if older z (tail (subs s q)) then Some (at_pc s t (D1 q z)) else None
  | D1 q t0, CLoad z => if older z (over (subs s q)) then Some (at_pc s t (D2 q t0 z)) else None
  | D2 q t0 ov, CLoad z =>
    if older z (opt (subs s q)) then Some (if z - ov <? t0 then at_pc s t (D3 q ov) else ret s t (Nothing t q)) else None
  | D3 q ov, CGo =>
    let x := subs s q in
    Some (at_pc (set_sub s q (mkSub (tail x) (head x) (opt x + 1) (over x) (entry x) (tailBlock x) (sent x))) t (D4 q (opt x) ov))
  | D4 q my ov, CLoad z => if older z (tail (subs s q)) then Some (at_pc s t (if my - ov <? z then D5 q my else D6 q my)) else None
  | D5 q my, CGo =>
    let x := subs s q in
    Some (at_pc (set_sub s q (mkSub (tail x) (head x + 1) (opt x) (over x) (entry x) (tailBlock x) (sent x))) t (D7 q (head x)))
  | D6 q my, CGo =>
    let x := subs s q in
    Some (ret (set_sub s q (mkSub (tail x) (head x) (opt x) (over x + 1) (entry x) (tailBlock x) (sent x))) t (Nothing t q))
  | D7 q i, CGo => Some (at_pc s t (match entry (subs s q) (bnum i) with Some b => D8 q i b | None => Bad NullDeref end))
  | D8 q i b, CGo => Some (at_pc s t (match cell (blocks s b) (slot i) with Some v => D9 q i b (Some v) | None => Bad Uninitialised end))
  | D8 q i b, CFail => Some (at_pc s t (match cell (blocks s b) (slot i) with Some v => D9 q i b None | None => Bad Uninitialised end))
  | D9 q i b r, CGo => Some (at_pc (set_cell s b (slot i) None) t (D10 q i b r))
  | D10 q i b r, CGo =>
    (* [assert(prevVal < BLOCK_SIZE)] *)
    let n := emptied (blocks s b) in
    let s' := set_block s b (mkBlock (cell (blocks s b)) (n + 1)) in
    Some (if n <? B then (if n =? B - 1 then at_pc s' t (D11 q i b r) else ret s' t (Got t q i r)) else at_pc s t (Bad Precondition))
  | D11 q i b r, CGo =>
    let x := subs s q in
    Some (at_pc (set_sub s q (mkSub (tail x) (head x) (opt x) (over x) (zfupd (entry x) (bnum i) None) (tailBlock x) (sent x))) t (D12 q i b r))
  | D12 q i b r, CGo => Some (free_block s b t (fun s => ret s t (Got t q i r)))
  | _, _ => None
  end.

Definition empty_sub : sub := mkSub 0 0 0 0 (fun _ => None) None [].
(** All blocks are available (in the pool or not yet allocated). *)
Definition init : state := mkSt (fun _ => empty_sub) (fun _ => mkBlock (fun _ => None) 0) (fun _ => true) (fun _ => Idle) [].
Fixpoint run (s : state) (p : list (nat * choice)) : option state :=
  match p with [] => Some s | (t, c) :: q => match step s t c with Some s' => run s' q | None => None end end.
Definition reachable (s : state) : Prop := exists p, run init p = Some s.

(** ProducerBase::size_approx (1678-1683), with loads of the latest values *)
Definition size_approx (x : sub) : Z := if head x <? tail x then tail x - head x else 0.
End Queue.
