(** Model of the bucket locks of libcuckoo's cuckoohash_map
    (/repo/library/Java/Util/Concurrent/ConcurrentHashMap/libcuckoo/
    cuckoohash_map.hh, normal_mode): the critical sections of
    CuckooThreadsModel.v with the steps that take and release their locks.

    Taking a lock, the test of the hashpower, and releasing a lock are one step
    each; the rest of a section is one step, made when its last lock is taken.
    A spinning thread makes no step until the lock is free. A map of the library is
    always built with the default capacity (ConcurrentHashMap.hpp:57), so that
    there are kMaxNumLocks locks from the start and their array is never
    replaced (1818-1833): locks are numbers below kMaxNumLocks. *)

From Coq Require Import ZArith List Bool.
From Verif Require Import Base CuckooModel CuckooRunModel CuckooThreadsModel.
From Verif Require CuckooSpec ConcMapSpec.
Import ListNotations.
Open Scope Z_scope.

(** cuckoohash_map.hh:984-1000: the lower lock first, one lock if they are the
    same *)
Definition lock_pair (i1 i2 : Z) : list Z :=
  let l1 := lock_ind i1 in
  let l2 := lock_ind i2 in
  let (l1, l2) := if l2 <? l1 then (l2, l1) else (l1, l2) in
  if negb (l2 =? l1) then [l1; l2] else [l1].
(** cuckoohash_map.hh:1014-1034 *)
Definition lock_triple (i1 i2 i3 : Z) : list Z :=
  let '(a, b, c) := sort3 (lock_ind i1) (lock_ind i2) (lock_ind i3) in
  a :: (if negb (b =? a) then [b] else []) ++ (if negb (c =? b) then [c] else []).
(** cuckoohash_map.hh:1076-1091: in the order of the array *)
Definition lock_every : list Z := map Z.of_nat (seq 0 (Z.to_nat kMaxNumLocks)).

Section Locks.
Context {K V : Type} (hash : K -> Z) (keq : K -> K -> bool) (simple nothrow : bool).
Notation pc := (@pc K V). Notation table := (@table K V). Notation config := (@config K V).
Notation op := (@CuckooSpec.op K V). Notation ans := (@CuckooSpec.ans K V).

(** The locks of the section a thread is about to enter, in the order in which
    they are taken, and the hashpower tested after the first. [None]: no lock. *)
Definition needs (p : pc) : option (option Z * list Z) :=
  match p with
  (* 514-526, 552-554, 598-607, 1049-1060 *)
  | Try (CuckooSpec.Get k) h | Try (CuckooSpec.Del k) h | Try (CuckooSpec.Put k _) h => Some (Some h, lock_pair (bucket1 hash h k) (bucket2 hash h k))
  (* 1624 *)
  | Search _ _ h (x :: _) _ => Some (Some h, [lock_ind (b_bucket x)])
  (* 1423, 1440 *)
  | Follow _ _ h b (_ :: _) _ => Some (Some h, [lock_ind b])
  (* 1471 *)
  | Move k _ h _ [] => Some (Some h, lock_pair (bucket1 hash h k) (bucket2 hash h k))
  (* 1493-1496 *)
  | Move k _ h to [_] => Some (Some h, lock_triple (bucket1 hash h k) (bucket2 hash h k) (r_bucket to))
  | Move _ _ h to (from :: _) => Some (Some h, lock_pair (r_bucket from) (r_bucket to))
  (* 1665, 1844 *)
  | Grow _ _ _ => Some (None, lock_every)
  (* 2668-2672 *)
  | Start CuckooSpec.All => Some (None, lock_every)
  | _ => None
  end.
(** cuckoohash_map.hh:1058-1060, 1381-1386: where hashpower_changed is caught *)
Definition restart (p : pc) : pc :=
  match p with
  | Try o _ => Start o
  | Search k v _ _ _ | Follow k v _ _ _ _ | Move k v _ _ _ => Start (CuckooSpec.Put k v)
  | _ => p
  end.

(** What a thread is doing about its locks. *)
Inductive phase : Type :=
| Out
| Taking (held todo : list Z)
| Checking (l : Z) (todo : list Z)
| Freeing (held : list Z).
Record fine := mkF { base : config; phases : nat -> phase; owner : Z -> option nat }.
Definition set_phase (f : nat -> phase) (i : nat) (x : phase) : nat -> phase := fun j => if Nat.eqb j i then x else f j.
Definition set_owner (f : Z -> option nat) (l : Z) (x : option nat) : Z -> option nat := fun l' => if l' =? l then x else f l'.
Definition drop (l : Z) (held : list Z) : list Z := filter (fun x => negb (x =? l)) held.

Notation event := (@ConcMapSpec.event op ans).
(** A step of thread [i]. *)
Inductive fstep (i : nat) : fine -> option event -> fine -> Prop :=
| f_call c o : phases c i = Out -> pcs (base c) i = Idle ->
    fstep i c (Some (ConcMapSpec.Inv i o)) (mkF (mkC (tbl (base c)) (set_pc (pcs (base c)) i (Start o))) (phases c) (owner c))
| f_return c a : phases c i = Out -> pcs (base c) i = Reply a ->
    fstep i c (Some (ConcMapSpec.Res i a)) (mkF (mkC (tbl (base c)) (set_pc (pcs (base c)) i Idle)) (phases c) (owner c))
(* no lock *)
| f_plain c t p : phases c i = Out -> pcs (base c) i <> Idle -> (forall a, pcs (base c) i <> Reply a) -> needs (pcs (base c) i) = None ->
    section hash keq simple nothrow (pcs (base c) i) (tbl (base c)) = Done t p ->
    fstep i c None (mkF (mkC t (set_pc (pcs (base c)) i p)) (phases c) (owner c))
| f_begin c h ls : phases c i = Out -> needs (pcs (base c) i) = Some (h, ls) ->
    fstep i c None (mkF (base c) (set_phase (phases c) i (Taking [] ls)) (owner c))
(* 819-822, 969-970, 992-993, 1026-1027: the first lock, then the test *)
| f_first c h ls l todo : phases c i = Taking [] (l :: todo) -> needs (pcs (base c) i) = Some (Some h, ls) -> owner c l = None ->
    fstep i c None (mkF (base c) (set_phase (phases c) i (Checking l todo)) (set_owner (owner c) l (Some i)))
| f_same c h ls l todo : phases c i = Checking l todo -> needs (pcs (base c) i) = Some (Some h, ls) -> hp (tbl (base c)) = h ->
    fstep i c None (mkF (base c) (set_phase (phases c) i (Taking [l] todo)) (owner c))
(* 911-916 *)
| f_changed c h ls l todo : phases c i = Checking l todo -> needs (pcs (base c) i) = Some (Some h, ls) -> hp (tbl (base c)) <> h ->
    fstep i c None (mkF (mkC (tbl (base c)) (set_pc (pcs (base c)) i (restart (pcs (base c) i)))) (set_phase (phases c) i (Freeing [l])) (owner c))
(* the other locks; lock_all tests nothing (1083-1085) *)
| f_next c held l todo : phases c i = Taking held (l :: todo) -> held <> [] \/ (exists ls, needs (pcs (base c) i) = Some (None, ls)) -> owner c l = None ->
    fstep i c None (mkF (base c) (set_phase (phases c) i (Taking (held ++ [l]) todo)) (set_owner (owner c) l (Some i)))
(* the rest of the section *)
| f_body c held t p : phases c i = Taking held [] ->
    section hash keq simple nothrow (pcs (base c) i) (tbl (base c)) = Done t p ->
    fstep i c None (mkF (mkC t (set_pc (pcs (base c)) i p)) (set_phase (phases c) i (Freeing held)) (owner c))
(* 824, 853-857, 867-899: in any order *)
| f_free c held l : phases c i = Freeing held -> In l held ->
    fstep i c None (mkF (base c) (set_phase (phases c) i (Freeing (drop l held))) (set_owner (owner c) l None))
| f_out c : phases c i = Freeing [] ->
    fstep i c None (mkF (base c) (set_phase (phases c) i Out) (owner c)).
Inductive frun : fine -> list (option event) -> fine -> Prop :=
| frun_none c : frun c [] c
| frun_step c l c1 i e c2 : frun c l c1 -> fstep i c1 e c2 -> frun c (l ++ [e]) c2.
Definition fstart (n : Z) : fine := mkF (start n) (fun _ => Out) (fun _ => None).

(** The locks a thread has. *)
Definition has_locks (c : fine) (i : nat) : list Z :=
  match phases c i with Taking held _ => held | Checking l _ => [l] | Freeing held => held | Out => [] end.
(** The thread spins on lock [l], which somebody has. *)
Definition waits (c : fine) (i : nat) (l : Z) : Prop := (exists held todo, phases c i = Taking held (l :: todo)) /\ owner c l <> None.
End Locks.
