(** Model of libcuckoo's cuckoohash_map used by several threads
    (/repo/library/Java/Util/Concurrent/ConcurrentHashMap/libcuckoo/
    cuckoohash_map.hh, normal_mode).

    A thread goes from critical section to critical section. One step is
    everything a thread does while it holds a set of bucket locks (or all of
    them), including the migration that taking a lock performs and the test
    that the hashpower is still the one the buckets were computed from; the
    steps of all threads interleave freely. The sections are indivisible
    because the locks of every bucket and counter they touch are held: the locks
    themselves are the subject of CuckooLocksModel.v. Steps that take no lock
    are one access each ([Start] reads the hashpower, [Sum] one counter).
    clear() runs without locks (680-683: the lock manager is a temporary,
    destroyed at the end of its own statement); each of its two loops is one
    step here, which only removes interleavings. *)

From Coq Require Import ZArith List Bool.
From Verif Require Import Base CuckooModel CuckooRunModel.
From Verif Require CuckooSpec ConcMapSpec.
Import ListNotations.
Open Scope Z_scope.

Section Threads.
Context {K V : Type} (hash : K -> Z) (keq : K -> K -> bool) (simple nothrow : bool).
Notation table := (@table K V). Notation entry := (@entry K V).
Notation op := (@CuckooSpec.op K V). Notation ans := (@CuckooSpec.ans K V).

(** Where a thread is. *)
Inductive pc : Type :=
| Idle
| Start (o : op)
| Try (o : op) (h : Z)
| Search (k : K) (v : V) (h : Z) (q : list b_slot) (last : Z)
| Follow (k : K) (v : V) (h b : Z) (ss : list Z) (acc : list crecord)
| Move (k : K) (v : V) (h : Z) (to : crecord) (before : list crecord)
| Grow (k : K) (v : V) (h : Z)
| Sum (l s : Z)
| Wipe | Zero
| Reply (a : ans).

Definition bucket1 (h : Z) (k : K) : Z := index_hash h (hash k).
Definition bucket2 (h : Z) (k : K) : Z := alt_index h (partial_key (hash k)) (bucket1 h k).

(** cuckoohash_map.hh:550-563, 571-579, 642-645: the locks of both buckets are
    held *)
Definition finish (k : K) (v : V) (st : status) (t : table) : res pc :=
  match st with
  | SOk i s => rbind (add_to_bucket i s (partial_key (hash k)) k v t) (fun t1 _ => Done t1 (Reply (CuckooSpec.Stored true)))
  | SDuplicated i s =>
      match cell t i s with
      | None => Fails Uninitialised
      | Some e => Done (with_cell t (set_cell (cell t) i s (Some (mkE (e_part e) (e_key e) v)))) (Reply (CuckooSpec.Stored false))
      end
  | SFull => Fails Precondition
  end.
(** cuckoohash_map.hh:1218-1237; [None]: both buckets are full *)
Definition try_both (k : K) (i1 i2 : Z) (t : table) : option status :=
  let p := partial_key (hash k) in
  let (new1, s1) := try_insert keq simple (cell t i1) p k 0 slots (-1) in
  if negb new1 then Some (SDuplicated i1 s1)
  else
    let (new2, s2) := try_insert keq simple (cell t i2) p k 0 slots (-1) in
    if negb new2 then Some (SDuplicated i2 s2)
    else if negb (s1 =? -1) then Some (SOk i1 s1)
    else if negb (s2 =? -1) then Some (SOk i2 s2)
    else None.
(** cuckoohash_map.hh:1614-1620: the queue at the start of a search *)
Definition search_start (k : K) (v : V) (h : Z) : pc := Search k v h [mkB (bucket1 h k) 0 0; mkB (bucket2 h k) 1 0] 2.
(** cuckoohash_map.hh:1366-1372, 1249-1262: the slot is free and both buckets
    are locked *)
Definition place (k : K) (v : V) (h b s : Z) (t : table) : res pc :=
  if negb ((b =? bucket1 h k) || (b =? bucket2 h k)) then Fails Precondition
  else
    match cell t b s with
    | Some _ => Fails Precondition
    | None =>
        match cuckoo_find keq simple t k (partial_key (hash k)) (bucket1 h k) (bucket2 h k) with
        | Some (i, s') => finish k v (SDuplicated i s') t
        | None => finish k v (SOk b s) t
        end
    end.
(** cuckoohash_map.hh:1406-1417 *)
Definition follow_start (k : K) (v : V) (h : Z) (y : b_slot) (t : table) : res pc :=
  let (code, ss) := decode (Z.to_nat (b_depth y + 1)) (b_code y) [] in
  if code =? 0 then Done t (Follow k v h (bucket1 h k) ss [])
  else if code =? 1 then Done t (Follow k v h (bucket2 h k) ss [])
  else Fails Precondition.

(** One step of a thread on the table. *)
Definition section (p : pc) (t : table) : res pc :=
  match p with
  | Idle | Reply _ => Done t p
  (* ConcurrentHashMap.hpp:308-318, cuckoohash_map.hh:2668-2672: all locks *)
  | Start CuckooSpec.All => rbind (walk hash t) (fun t1 l => Done t1 (Reply (CuckooSpec.Mappings l)))
  (* 680-683 *)
  | Start CuckooSpec.Clear => Done t Wipe
  | Start CuckooSpec.Size => Done t (Sum 0 0)
  (* 1049-1054: the hashpower is read *)
  | Start o => Done t (Try o (hp t))
  (* 1055-1060, 598-607 *)
  | Try (CuckooSpec.Get k) h =>
      if hp t =? h then
        rbind (lock_two hash (bucket1 h k) (bucket2 h k) t) (fun t1 _ =>
          match cuckoo_find keq simple t1 k (partial_key (hash k)) (bucket1 h k) (bucket2 h k) with
          | Some (i, s) => match cell t1 i s with Some e => Done t1 (Reply (CuckooSpec.Found (Some (e_val e)))) | None => Fails Uninitialised end
          | None => Done t1 (Reply (CuckooSpec.Found None))
          end)
      else Done t (Start (CuckooSpec.Get k))
  (* 514-526 *)
  | Try (CuckooSpec.Del k) h =>
      if hp t =? h then
        rbind (lock_two hash (bucket1 h k) (bucket2 h k) t) (fun t1 _ =>
          match cuckoo_find keq simple t1 k (partial_key (hash k)) (bucket1 h k) (bucket2 h k) with
          | Some (i, s) => rbind (del_from_bucket i s t1) (fun t2 _ => Done t2 (Reply (CuckooSpec.Removed true)))
          | None => Done t1 (Reply (CuckooSpec.Removed false))
          end)
      else Done t (Start (CuckooSpec.Del k))
  (* 552-554, 1218-1242, 1361: full buckets are unlocked again *)
  | Try (CuckooSpec.Put k v) h =>
      if hp t =? h then
        rbind (lock_two hash (bucket1 h k) (bucket2 h k) t) (fun t1 _ =>
          match try_both k (bucket1 h k) (bucket2 h k) t1 with
          | Some st => finish k v st t1
          | None => Done t1 (search_start k v h)
          end)
      else Done t (Start (CuckooSpec.Put k v))
  | Try _ _ => Fails Precondition
  (* 1621-1651; 1381-1386: a changed hashpower starts the insertion again *)
  | Search k v h [] _ => Done t (Grow k v h)
  | Search k v h (x :: q) last =>
      if hp t =? h then
        rbind (lock_one hash (b_bucket x) t) (fun t1 _ =>
          match scan h (cell t1 (b_bucket x)) x 0 slots q last with
          | Found y => follow_start k v h y t1
          | Queued q2 last2 => Done t1 (Search k v h q2 last2)
          | Overfull => Fails OutOfBounds
          end)
      else Done t (Start (CuckooSpec.Put k v))
  (* 1418-1448 *)
  | Follow _ _ _ _ [] _ => Fails Precondition
  | Follow k v h b (s :: ss) acc =>
      if hp t =? h then
        rbind (lock_one hash b t) (fun t1 _ =>
          match cell t1 b s with
          | None => Done t1 (Move k v h (mkR b s 0) acc)
          | Some e =>
              let hv := hash (e_key e) in
              match ss with
              | [] => Done t1 (Move k v h (mkR b s hv) acc)
              | _ =>
                  if (b =? index_hash h hv) || (b =? alt_index h (partial_key hv) (index_hash h hv))
                  then Done t1 (Follow k v h (alt_index h (partial_key hv) b) ss (mkR b s hv :: acc))
                  else Fails Precondition
              end
          end)
      else Done t (Start (CuckooSpec.Put k v))
  (* 1462-1478 *)
  | Move k v h to [] =>
      if hp t =? h then
        rbind (lock_two hash (bucket1 h k) (bucket2 h k) t) (fun t1 _ =>
          match cell t1 (r_bucket to) (r_slot to) with
          | None => place k v h (r_bucket to) (r_slot to) t1
          | Some _ => Done t1 (search_start k v h)
          end)
      else Done t (Start (CuckooSpec.Put k v))
  (* 1480-1524 *)
  | Move k v h to (from :: before) =>
      if hp t =? h then
        rbind (match before with
               | [] => lock_three hash (bucket1 h k) (bucket2 h k) (r_bucket to) t
               | _ => lock_two hash (r_bucket from) (r_bucket to) t
               end) (fun t1 _ =>
          match cell t1 (r_bucket to) (r_slot to), cell t1 (r_bucket from) (r_slot from) with
          | None, Some e =>
              if hash (e_key e) =? r_hash from then
                let c := set_cell (cell t1) (r_bucket to) (r_slot to) (Some e) in
                let t2 := with_cell t1 (set_cell c (r_bucket from) (r_slot from) None) in
                match before with
                | [] => place k v h (r_bucket from) (r_slot from) t2
                | _ => Done t2 (Move k v h from before)
                end
              else Done t1 (search_start k v h)
          | _, _ => Done t1 (search_start k v h)
          end)
      else Done t (Start (CuckooSpec.Put k v))
  (* 1186-1189, 1657-1663, 1664-1736, 1789-1808, 1842-1890: all locks; the load
     factor is tested before the hashpower, and a table whose pairs may throw
     when moved is rebuilt for the hashpower the caller had seen, plus one *)
  | Grow k v h =>
      if nothrow then
        if load_too_low t then Done t (Reply CuckooSpec.Refused)
        else if negb (hp t =? h) then Done t (Start (CuckooSpec.Put k v))
        else rbind (fast_double hash t) (fun t1 _ => Done t1 (Start (CuckooSpec.Put k v)))
      else
        match expand_simple hash (fun e n =>
                rbind (insert_loop hash keq simple nothrow rounds (e_key e) n) (fun n1 st =>
                  match st with
                  | SOk i s => add_to_bucket i s (partial_key (hash (e_key e))) (e_key e) (e_val e) n1
                  | _ => Done n1 tt
                  end)) (h + 1) t with
        | Done t1 _ => Done t1 (Start (CuckooSpec.Put k v))
        | TooLow t1 => Done t1 (Reply CuckooSpec.Refused)
        | Fails u => Fails u
        | NoFuel => NoFuel
        end
  (* 336-346: one counter after the other, no lock *)
  | Sum l s => if l <? nlocks t then Done t (Sum (l + 1) (s + counter t l)) else Done t (Reply (CuckooSpec.Count (uwrap 64 s)))
  (* 1969-1978, no lock *)
  | Wipe => Done (set_remaining 0 (with_cell t no_cells)) Zero
  | Zero => Done (mkT (hp t) (cell t) (old_hp t) (old t) (nlocks t) (fun _ => 0) (fun _ => true) (remaining t)) (Reply CuckooSpec.Cleared)
  end.

(** A map and its threads; what happens: a call, a return, or a step inside a
    call. *)
Record config := mkC { tbl : table; pcs : nat -> pc }.
Definition set_pc (f : nat -> pc) (i : nat) (p : pc) : nat -> pc := fun j => if Nat.eqb j i then p else f j.
Notation event := (@ConcMapSpec.event op ans).
Inductive step : config -> option event -> config -> Prop :=
| step_call c i o : pcs c i = Idle -> step c (Some (ConcMapSpec.Inv i o)) (mkC (tbl c) (set_pc (pcs c) i (Start o)))
| step_return c i a : pcs c i = Reply a -> step c (Some (ConcMapSpec.Res i a)) (mkC (tbl c) (set_pc (pcs c) i Idle))
| step_inside c i t p : section (pcs c i) (tbl c) = Done t p -> step c None (mkC t (set_pc (pcs c) i p)).
Inductive run : config -> list (option event) -> config -> Prop :=
| run_none c : run c [] c
| run_step c l c1 e c2 : run c l c1 -> step c1 e c2 -> run c (l ++ [e]) c2.
Definition history (l : list (option event)) : list event := flat_map (fun e => match e with Some x => [x] | None => [] end) l.
Definition start (n : Z) : config := mkC (fresh n) (fun _ => Idle).
(** The calls made in a run. *)
Definition calls (p : op -> Prop) (l : list (option event)) : Prop := Forall (fun e => match e with Some (ConcMapSpec.Inv _ o) => p o | _ => True end) l.
(** Runs in which no other thread touches the table between the two loops of a
    clear(). *)
Definition calm_step (c : config) (e : option event) (c' : config) : Prop :=
  match e with
  | Some _ => step c e c'
  | None => exists i t p, section (pcs c i) (tbl c) = Done t p /\ c' = mkC t (set_pc (pcs c) i p) /\ forall j, pcs c j = Zero -> j = i
  end.
Inductive calm_run : config -> list (option event) -> config -> Prop :=
| calm_none c : calm_run c [] c
| calm_snoc c l c1 e c2 : calm_run c l c1 -> calm_step c1 e c2 -> calm_run c (l ++ [e]) c2.
End Threads.
