(** Model of moodycamel's FreeList, the lock-free list of spare blocks of the
    queue: /repo/library/Java/Util/Concurrent/ConcurrentLinkedQueue/concurrentqueue.hpp:1378-1487.
    Any number of threads, any number of nodes, any interleaving.

    Every access to an atomic variable is one step.  With [stale = true] a
    load of freeListHead or of freeListRefs, and the value a failed
    compare_exchange on freeListHead leaves in its argument, may be anything
    at all (this covers the old values the relaxed and acquire orders allow);
    with [stale = false] it is the current value.  Read-modify-write
    operations see the current value, as C++11 demands.  The load of
    freeListNext (1429) sees the last store: the thread took its reference,
    an acquire operation on freeListRefs, after the release store of 1469
    that follows the store of freeListNext.  compare_exchange_strong does not
    fail spuriously.  The node is not freed while the list exists (1386);
    the MCDBGQ debug lock is not compiled.  The move constructor and swap,
    which need exclusive access, are not modelled. *)

From Coq Require Import ZArith List Bool.
From Verif Require Import Base.
Import ListNotations.
Open Scope Z_scope.

(** A node; a null pointer is [None]. *)
Definition node : Type := nat.
Definition fupd {A : Type} (f : node -> A) (n : node) (x : A) : node -> A := fun k => if Nat.eqb k n then x else f k.

(** 1484-1485 *)
Definition SHOULD_BE_ON_FREELIST : Z := 0x80000000.
Definition refs_of (r : Z) : Z := Z.land r 0x7FFFFFFF.

(** freeListHead (1482), freeListNext and freeListRefs of every node (1382-1383) *)
Record mem : Type := mkMem { head : option node; next : node -> option node; refs : node -> Z }.

(** Who called add_knowing_refcount_is_zero: add (1409), or try_get (1445),
    which goes on with the value [hd] of its variable head. *)
Inductive kont : Type := KAdd | KGet (hd : option node).
(** What a thread does next. *)
Inductive pc : Type :=
| Idle                                                  (* between two calls *)
| A0 (n : node)                                         (* 1406 *)
| A1 (n : node) (k : kont)                              (* 1466 *)
| A2 (n : node) (hd : option node) (k : kont)           (* 1468 *)
| A3 (n : node) (hd : option node) (k : kont)           (* 1469 *)
| A4 (n : node) (hd : option node) (k : kont)           (* 1470 *)
| A5 (n : node) (hd : option node) (k : kont)           (* 1472 *)
| G1                                                    (* 1418, 1423 *)
| G2 (h : node)                                         (* 1421 *)
| G3 (h : node) (r : Z)                                 (* 1422 *)
| G4 (h : node)                                         (* 1429 *)
| G5 (h : node) (nx : option node)                      (* 1430 *)
| G6 (h : node)                                         (* 1436-1437 *)
| G7 (h : node) (hd : option node).                     (* 1443-1445 *)

(** What the step tells the caller: nothing yet, add has returned, try_get has returned. *)
Inductive label : Type := Tau | Added | Got (r : option node).
(** Back from add_knowing_refcount_is_zero or to the top of the loop (1419): null ends try_get *)
Definition resume (k : kont) : pc * label :=
  match k with KAdd => (Idle, Added) | KGet None => (Idle, Got None) | KGet (Some h) => (G2 h, Tau) end.

Definition set_refs (m : mem) (n : node) (r : Z) : mem := mkMem (head m) (next m) (fupd (refs m) n r).
Definition set_next (m : mem) (n : node) (p : option node) : mem := mkMem (head m) (fupd (next m) n p) (refs m).
Definition set_head (m : mem) (p : option node) : mem := mkMem p (next m) (refs m).

Section Steps.
Variable stale : bool.
(** what a load of a variable that holds [x] may answer *)
Definition loads {A : Type} (x v : A) : Prop := stale = true \/ v = x.

(** One step of one thread: memory and program counter before and after. *)
Inductive tstep : mem -> pc -> mem -> pc -> label -> Prop :=
(* add, 1399-1411 *)
| t_add0 m n : refs m n = 0 -> tstep m (A0 n) (set_refs m n (uwrap 32 (refs m n + SHOULD_BE_ON_FREELIST))) (A1 n KAdd) Tau
| t_add m n : refs m n <> 0 -> tstep m (A0 n) (set_refs m n (uwrap 32 (refs m n + SHOULD_BE_ON_FREELIST))) Idle Added
(* add_knowing_refcount_is_zero, 1456-1478 *)
| t_load m n k v : loads (head m) v -> tstep m (A1 n k) m (A2 n v k) Tau
| t_next m n hd k : tstep m (A2 n hd k) (set_next m n hd) (A3 n hd k) Tau
| t_one m n hd k : tstep m (A3 n hd k) (set_refs m n 1) (A4 n hd k) Tau
| t_push m n hd k : head m = hd -> tstep m (A4 n hd k) (set_head m (Some n)) (fst (resume k)) (snd (resume k))
| t_push_fails m n hd k v : head m <> hd -> loads (head m) v -> tstep m (A4 n hd k) m (A5 n v k) Tau
| t_again m n hd k : refs m n = 1 -> tstep m (A5 n hd k) (set_refs m n (uwrap 32 (refs m n + (SHOULD_BE_ON_FREELIST - 1)))) (A2 n hd k) Tau
| t_leave m n hd k : refs m n <> 1 ->
    tstep m (A5 n hd k) (set_refs m n (uwrap 32 (refs m n + (SHOULD_BE_ON_FREELIST - 1)))) (fst (resume k)) (snd (resume k))
(* try_get, 1413-1450 *)
| t_head m v : loads (head m) v -> tstep m G1 m (fst (resume (KGet v))) (snd (resume (KGet v)))
| t_refs m h r : loads (refs m h) r -> tstep m (G2 h) m (G3 h r) Tau
| t_zero m h r : refs_of r = 0 -> tstep m (G3 h r) m G1 Tau
| t_changed m h r : refs_of r <> 0 -> refs m h <> r -> tstep m (G3 h r) m G1 Tau
| t_ref m h r : refs_of r <> 0 -> refs m h = r -> tstep m (G3 h r) (set_refs m h (uwrap 32 (r + 1))) (G4 h) Tau
| t_read m h : tstep m (G4 h) m (G5 h (next m h)) Tau
| t_pop m h nx : head m = Some h -> tstep m (G5 h nx) (set_head m nx) (G6 h) Tau
| t_pop_fails m h nx v : head m <> Some h -> loads (head m) v -> tstep m (G5 h nx) m (G7 h v) Tau
| t_got m h : tstep m (G6 h) (set_refs m h (uwrap 32 (refs m h - 2))) Idle (Got (Some h))
| t_last m h hd : refs m h = SHOULD_BE_ON_FREELIST + 1 -> tstep m (G7 h hd) (set_refs m h (uwrap 32 (refs m h - 1))) (A1 h (KGet hd)) Tau
| t_unref m h hd : refs m h <> SHOULD_BE_ON_FREELIST + 1 ->
    tstep m (G7 h hd) (set_refs m h (uwrap 32 (refs m h - 1))) (fst (resume (KGet hd))) (snd (resume (KGet hd))).

(** The list, its threads and, for the statements, which nodes the clients have. *)
Record sys : Type := mkSys { memory : mem; threads : list pc; client : node -> bool }.
(** The list is empty (1392), no node has references (1380), the clients have every node. *)
Definition init (n : nat) : sys := mkSys (mkMem None (fun _ => None) (fun _ => 0)) (repeat Idle n) (fun _ => true).
Definition take (c : node -> bool) (l : label) : node -> bool := match l with Got (Some n) => fupd c n true | _ => c end.
(** thread [i] makes a step inside a call *)
Inductive step (i : nat) : label -> sys -> sys -> Prop :=
| s_run m ts c p m' p' l : nth_error ts i = Some p -> tstep m p m' p' l -> step i l (mkSys m ts c) (mkSys m' (upd ts i p') (take c l)).
(** thread [i] calls add with a node the clients have, and may not use it any more; or calls try_get *)
Inductive calls (i : nat) : sys -> sys -> Prop :=
| s_add m ts c n : nth_error ts i = Some Idle -> c n = true -> calls i (mkSys m ts c) (mkSys m (upd ts i (A0 n)) (fupd c n false))
| s_get m ts c : nth_error ts i = Some Idle -> calls i (mkSys m ts c) (mkSys m (upd ts i G1) c).
Inductive reach (n : nat) : sys -> Prop :=
| r_init : reach n (init n)
| r_step i l a b : reach n a -> step i l a b -> reach n b
| r_call i a b : reach n a -> calls i a b -> reach n b.
End Steps.
