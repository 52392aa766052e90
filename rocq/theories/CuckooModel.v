(** Model of libcuckoo's cuckoohash_map, on which ConcurrentHashMap is built
    (/repo/library/Java/Util/Concurrent/ConcurrentHashMap/libcuckoo/
    cuckoohash_map.hh, bucket_container.hh, cuckoohash_config.hh), run by one
    thread.

    Simplifications: the table of buckets is a function of bucket and slot;
    hashsize is exact (2^64 buckets cannot be allocated); allocation succeeds;
    the extra worker threads (none by default) are not modelled; the lists of
    earlier lock arrays are not kept (one thread holds no lock across calls);
    moving a key or value leaves the source equal (a copy), as for every class
    of this library.  A failed assert is the failure [Precondition]. *)

From Coq Require Import ZArith List Bool.
From Verif Require Import Base.
Import ListNotations.
Open Scope Z_scope.

(** cuckoohash_config.hh:15, cuckoohash_map.hh:2015, 1323, 1594-1598 *)
Definition slots : nat := 4.
Definition kMaxNumLocks : Z := 65536.
Definition MAX_BFS_PATH_LEN : Z := 5.
Definition MAX_CUCKOO_COUNT : Z := 682.

(** cuckoohash_map.hh:738-746 *)
Definition hashsize (hp : Z) : Z := 2 ^ hp.
Definition hashmask (hp : Z) : Z := hashsize hp - 1.
(** cuckoohash_map.hh:752-761 *)
Definition partial_key (h : Z) : Z :=
  let h32 := Z.lxor (uwrap 32 h) (uwrap 32 (Z.shiftr h 32)) in
  let h16 := Z.lxor (uwrap 16 h32) (uwrap 16 (Z.shiftr h32 16)) in
  Z.lxor (uwrap 8 h16) (uwrap 8 (Z.shiftr h16 8)).
(** cuckoohash_map.hh:765-767 *)
Definition index_hash (hp h : Z) : Z := Z.land h (hashmask hp).
(** cuckoohash_map.hh:774-780 *)
Definition alt_index (hp p i : Z) : Z := Z.land (Z.lxor i (uwrap 64 ((p + 1) * 14313749767032793493))) (hashmask hp).
(** cuckoohash_map.hh:1095-1097 *)
Definition lock_ind (i : Z) : Z := Z.land i (kMaxNumLocks - 1).
(** cuckoohash_map.hh:2003-2010: the least power of two of buckets for [n] elements *)
Fixpoint reserve_from (fuel : nat) (blog2 buckets : Z) : Z :=
  match fuel with O => blog2 | S f => if 2 ^ blog2 <? buckets then reserve_from f (blog2 + 1) buckets else blog2 end.
Definition reserve_calc (n : Z) : Z := reserve_from 128 0 ((n + 4 - 1) / 4).

Section Cuckoo.
Context {K V : Type}.
(** hash_function(), key_eq(), is_simple() and is_data_nothrow_move_constructible() (709-717) *)
Context (hash : K -> Z) (keq : K -> K -> bool) (simple nothrow : bool).

(** bucket_container.hh:61-111: a bucket has four slots, each with an occupied
    bit, a partial key and a pair. *)
Record entry := mkE { e_part : Z; e_key : K; e_val : V }.
Definition cells := Z -> Z -> option entry.
Definition no_cells : cells := fun _ _ => None.
Definition set_cell (c : cells) (i s : Z) (x : option entry) : cells :=
  fun i' s' => if (i' =? i) && (s' =? s) then x else c i' s'.
(** bucket_container.hh:203-215; [None]: the assert of line 207 *)
Definition setKV (c : cells) (i s : Z) (e : entry) : option cells :=
  match c i s with Some _ => None | None => Some (set_cell c i s (Some e)) end.
Definition fup {A} (f : Z -> A) (i : Z) (x : A) : Z -> A := fun j => if j =? i then x else f j.

(** cuckoohash_map.hh:2046-2116; [old] is [None] once its buckets are
    deallocated (bucket_container.hh:246-248) *)
Record table := mkT {
  hp : Z; cell : cells;
  old_hp : Z; old : option cells;
  nlocks : Z; counter : Z -> Z; migrated : Z -> bool;
  remaining : Z }.
Definition with_cell (t : table) (c : cells) := mkT (hp t) c (old_hp t) (old t) (nlocks t) (counter t) (migrated t) (remaining t).
Definition with_counter (t : table) (c : Z -> Z) := mkT (hp t) (cell t) (old_hp t) (old t) (nlocks t) c (migrated t) (remaining t).

(** The effect of a member: done, with the table after it; the exception
    load_factor_too_low; undefined behaviour or a failed assert; or the bound
    on the number of steps is used up. *)
Inductive res (A : Type) : Type := Done (t : table) (a : A) | TooLow (t : table) | Fails (u : ub) | NoFuel.
Arguments Done {A}. Arguments TooLow {A}. Arguments Fails {A}. Arguments NoFuel {A}.
Definition rbind {A B} (x : res A) (k : table -> A -> res B) : res B :=
  match x with Done t a => k t a | TooLow t => TooLow t | Fails u => Fails u | NoFuel => NoFuel end.
Notation "'run' t , x := e 'in' k" := (rbind e (fun t x => k)) (at level 200, t name, x name, k at level 200).

(** cuckoohash_map.hh:106-119 *)
Definition fresh (n : Z) : table :=
  mkT (reserve_calc n) no_cells 0 (Some no_cells) (Z.min (hashsize (reserve_calc n)) kMaxNumLocks) (fun _ => 0) (fun _ => true) 0.

(** cuckoohash_map.hh:2026-2032 *)
Definition set_remaining (n : Z) (t : table) : table :=
  mkT (hp t) (cell t) (old_hp t) (if n =? 0 then None else old t) (nlocks t) (counter t) (migrated t) n.
(** cuckoohash_map.hh:2034-2041 *)
Definition decrement_remaining (t : table) : option table :=
  if remaining t <? 1 then None
  else Some (mkT (hp t) (cell t) (old_hp t) (if remaining t =? 1 then None else old t) (nlocks t) (counter t) (migrated t) (remaining t - 1)).

(** cuckoohash_map.hh:1738-1782: the slots from [s] on, [n] of them; [ns] is new_bucket_slot *)
Fixpoint move_slots (ohp nhp b : Z) (src : Z -> option entry) (s : Z) (n : nat) (ns : Z) (dst : cells) : option cells :=
  match n with
  | O => Some dst
  | S n' =>
      match src s with
      | None => move_slots ohp nhp b src (s + 1) n' ns dst
      | Some e =>
          let h := hash (e_key e) in
          let p := partial_key h in
          let old_ihash := index_hash ohp h in
          let old_ahash := alt_index ohp p old_ihash in
          let new_ihash := index_hash nhp h in
          let new_ahash := alt_index nhp p new_ihash in
          let nb := b + hashsize ohp in
          if ((b =? old_ihash) && (new_ihash =? nb)) || ((b =? old_ahash) && (new_ahash =? nb)) then
            match setKV dst nb ns e with
            | Some d => move_slots ohp nhp b src (s + 1) n' (ns + 1) d
            | None => None
            end
          else if ((b =? old_ihash) && (new_ihash =? old_ihash)) || ((b =? old_ahash) && (new_ahash =? old_ahash)) then
            match setKV dst b s e with
            | Some d => move_slots ohp nhp b src (s + 1) n' ns d
            | None => None
            end
          else None
      end
  end.
Definition move_bucket (ohp nhp : Z) (src : cells) (b : Z) (dst : cells) : option cells :=
  move_slots ohp nhp b (src b) 0 slots 0 dst.
(** cuckoohash_map.hh:947-950: [n] bounds the number of rounds *)
Fixpoint move_every (ohp nhp : Z) (src : cells) (b : Z) (n : nat) (dst : cells) : option cells :=
  match n with
  | O => Some dst
  | S n' =>
      if b <? hashsize ohp then
        match move_bucket ohp nhp src b dst with
        | Some d => move_every ohp nhp src (b + kMaxNumLocks) n' d
        | None => None
        end
      else Some dst
  end.
(** cuckoohash_map.hh:935-956 *)
Definition rehash_lock (lazy : bool) (l : Z) (t : table) : res unit :=
  if migrated t l then Done t tt
  else if negb ((nlocks t =? kMaxNumLocks) && (old_hp t + 1 =? hp t) && (kMaxNumLocks <=? hashsize (old_hp t))) then Fails Precondition
  else
    match old t with
    | None => Fails NullDeref
    | Some oc =>
        match move_every (old_hp t) (hp t) oc l (Z.to_nat (hashsize (old_hp t) / kMaxNumLocks + 1)) (cell t) with
        | None => Fails Precondition
        | Some c =>
            let t1 := mkT (hp t) c (old_hp t) (old t) (nlocks t) (counter t) (fup (migrated t) l true) (remaining t) in
            if lazy then match decrement_remaining t1 with Some t2 => Done t2 tt | None => Fails Precondition end
            else Done t1 tt
        end
    end.
(** cuckoohash_map.hh:965-973.  One thread: the lock is free and the hash power
    is the one it has just read. *)
Definition lock_one (i : Z) (t : table) : res unit := rehash_lock true (lock_ind i) t.
(** cuckoohash_map.hh:984-1000 *)
Definition lock_two (i1 i2 : Z) (t : table) : res unit :=
  let l1 := Z.min (lock_ind i1) (lock_ind i2) in
  let l2 := Z.max (lock_ind i1) (lock_ind i2) in
  run t1, _ := rehash_lock true l1 t in rehash_lock true l2 t1.
(** cuckoohash_map.hh:1014-1042 *)
Definition sort3 (a b c : Z) : Z * Z * Z :=
  let (b, c) := if c <? b then (c, b) else (b, c) in
  let (a, c) := if c <? a then (c, a) else (a, c) in
  let (a, b) := if b <? a then (b, a) else (a, b) in
  (a, b, c).
Definition lock_three (i1 i2 i3 : Z) (t : table) : res unit :=
  let '(a, b, c) := sort3 (lock_ind i1) (lock_ind i2) (lock_ind i3) in
  run t1, _ := rehash_lock true a t in run t2, _ := rehash_lock true b t1 in rehash_lock true c t2.

(** cuckoohash_map.hh:1144-1157; -1: not there *)
Fixpoint try_read (b : Z -> option entry) (p : Z) (k : K) (s : Z) (n : nat) : Z :=
  match n with
  | O => -1
  | S n' =>
      match b s with
      | None => try_read b p k (s + 1) n'
      | Some e =>
          if negb simple && negb (p =? e_part e) then try_read b p k (s + 1) n'
          else if keq (e_key e) k then s
          else try_read b p k (s + 1) n'
      end
  end.
(** cuckoohash_map.hh:1128-1140 *)
Definition cuckoo_find (t : table) (k : K) (p i1 i2 : Z) : option (Z * Z) :=
  let s := try_read (cell t i1) p k 0 slots in
  if negb (s =? -1) then Some (i1, s)
  else
    let s := try_read (cell t i2) p k 0 slots in
    if negb (s =? -1) then Some (i2, s) else None.
(** cuckoohash_map.hh:1289-1309 *)
Fixpoint try_insert (b : Z -> option entry) (p : Z) (k : K) (s : Z) (n : nat) (slot : Z) : bool * Z :=
  match n with
  | O => (true, slot)
  | S n' =>
      match b s with
      | Some e =>
          if negb simple && negb (p =? e_part e) then try_insert b p k (s + 1) n' slot
          else if keq (e_key e) k then (false, s)
          else try_insert b p k (s + 1) n' slot
      | None => try_insert b p k (s + 1) n' s
      end
  end.

(** cuckoohash_map.hh:1534-1560 *)
Record b_slot := mkB { b_bucket : Z; b_code : Z; b_depth : Z }.
(** cuckoohash_map.hh:1628-1646: the slots of one bucket, from [i] on *)
Inductive scanned : Type := Found (x : b_slot) | Queued (q : list b_slot) (last : Z) | Overfull.
Fixpoint scan (hpw : Z) (b : Z -> option entry) (x : b_slot) (i : Z) (n : nat) (q : list b_slot) (last : Z) : scanned :=
  match n with
  | O => Queued q last
  | S n' =>
      let slot := (b_code x mod 4 + i) mod 4 in
      match b slot with
      | None => Found (mkB (b_bucket x) (uwrap 16 (b_code x * 4 + slot)) (b_depth x))
      | Some e =>
          if b_depth x <? MAX_BFS_PATH_LEN - 1 then
            if last <? MAX_CUCKOO_COUNT then
              scan hpw b x (i + 1) n' (q ++ [mkB (alt_index hpw (e_part e) (b_bucket x)) (uwrap 16 (b_code x * 4 + slot)) (b_depth x + 1)]) (last + 1)
            else Overfull
          else scan hpw b x (i + 1) n' q last
      end
  end.
(** cuckoohash_map.hh:1614-1651 *)
Fixpoint search (fuel : nat) (q : list b_slot) (last : Z) (t : table) : res b_slot :=
  match fuel with
  | O => NoFuel
  | S f =>
      match q with
      | [] => Done t (mkB 0 0 (-1))
      | x :: q' =>
          run t1, _ := lock_one (b_bucket x) t in
          match scan (hp t1) (cell t1 (b_bucket x)) x 0 slots q' last with
          | Found y => Done t1 y
          | Queued q2 last2 => search f q2 last2 t1
          | Overfull => Fails OutOfBounds
          end
      end
  end.
Definition slot_search (i1 i2 : Z) (t : table) : res b_slot :=
  search (S (Z.to_nat MAX_CUCKOO_COUNT)) [mkB i1 0 0; mkB i2 1 0] 2 t.

(** cuckoohash_map.hh:1406-1409 *)
Fixpoint decode (n : nat) (code : Z) (acc : list Z) : Z * list Z :=
  match n with O => (code, acc) | S n' => decode n' (code / 4) (code mod 4 :: acc) end.
(** cuckoohash_map.hh:1315-1319 *)
Record crecord := mkR { r_bucket : Z; r_slot : Z; r_hash : Z }.
(** cuckoohash_map.hh:1422-1448: the depth returned is one less than the length *)
Fixpoint follow (b : Z) (ss : list Z) (t : table) : res (list crecord) :=
  match ss with
  | [] => Done t []
  | s :: ss' =>
      run t1, _ := lock_one b t in
      match cell t1 b s with
      | None => Done t1 [mkR b s 0]
      | Some e =>
          let h := hash (e_key e) in
          run t2, r := follow (alt_index (hp t1) (partial_key h) b) ss' t1 in
          Done t2 (mkR b s h :: r)
      end
  end.
(** cuckoohash_map.hh:1398-1449 *)
Definition cuckoopath_search (i1 i2 : Z) (t : table) : res (option (list crecord)) :=
  run t1, x := slot_search i1 i2 t in
  if b_depth x =? -1 then Done t1 None
  else
    let (code, ss) := decode (Z.to_nat (b_depth x + 1)) (b_code x) [] in
    let first := if code =? 0 then Some i1 else if code =? 1 then Some i2 else None in
    match first with
    | None => Fails Precondition
    | Some b => run t2, r := follow b ss t1 in Done t2 (Some r)
    end.

(** cuckoohash_map.hh:1480-1524: [to] and the records before it, last first *)
Fixpoint move_back (i1 i2 : Z) (to : crecord) (before : list crecord) (t : table) : res bool :=
  match before with
  | [] => Done t true
  | from :: before' =>
      run t1, _ := (match before' with
                    | [] => lock_three i1 i2 (r_bucket to) t
                    | _ => lock_two (r_bucket from) (r_bucket to) t
                    end) in
      match cell t1 (r_bucket to) (r_slot to), cell t1 (r_bucket from) (r_slot from) with
      | None, Some e =>
          if hash (e_key e) =? r_hash from then
            let c := set_cell (cell t1) (r_bucket to) (r_slot to) (Some e) in
            move_back i1 i2 from before' (with_cell t1 (set_cell c (r_bucket from) (r_slot from) None))
          else Done t1 false
      | _, _ => Done t1 false
      end
  end.
(** cuckoohash_map.hh:1459-1525 *)
Definition cuckoopath_move (i1 i2 : Z) (path : list crecord) (t : table) : res bool :=
  match path with
  | [] => Fails Precondition
  | [r] =>
      run t1, _ := lock_two i1 i2 t in
      match cell t1 (r_bucket r) (r_slot r) with None => Done t1 true | Some _ => Done t1 false end
  | _ => match rev path with to :: before => move_back i1 i2 to before t | [] => Fails Precondition end
  end.
(** cuckoohash_map.hh:1336-1388: [None] is the status failure *)
Fixpoint run_cuckoo (fuel : nat) (i1 i2 : Z) (t : table) : res (option (Z * Z)) :=
  match fuel with
  | O => NoFuel
  | S f =>
      run t1, p := cuckoopath_search i1 i2 t in
      match p with
      | None => Done t1 None
      | Some path =>
          run t2, ok := cuckoopath_move i1 i2 path t1 in
          if ok then match path with r :: _ => Done t2 (Some (r_bucket r, r_slot r)) | [] => Fails Precondition end
          else run_cuckoo f i1 i2 t2
      end
  end.

(** cuckoohash_map.hh:1218-1271 *)
Inductive status : Type := SOk (i s : Z) | SDuplicated (i s : Z) | SFull.
Definition cuckoo_insert (fuel : nat) (k : K) (p i1 i2 : Z) (t : table) : res status :=
  let (new1, s1) := try_insert (cell t i1) p k 0 slots (-1) in
  if negb new1 then Done t (SDuplicated i1 s1)
  else
    let (new2, s2) := try_insert (cell t i2) p k 0 slots (-1) in
    if negb new2 then Done t (SDuplicated i2 s2)
    else if negb (s1 =? -1) then Done t (SOk i1 s1)
    else if negb (s2 =? -1) then Done t (SOk i2 s2)
    else
      run t1, r := run_cuckoo fuel i1 i2 t in
      match r with
      | None => Done t1 SFull
      | Some (b, s) =>
          match cell t1 b s with
          | Some _ => Fails Precondition
          | None =>
              match cuckoo_find t1 k p i1 i2 with
              | Some (i, s') => Done t1 (SDuplicated i s')
              | None => Done t1 (SOk b s)
              end
          end
      end.

(** cuckoohash_map.hh:336-346: the counters of the locks from [l] on *)
Fixpoint sum_counters (c : Z -> Z) (n : nat) : Z :=
  match n with O => 0 | S n' => sum_counters c n' + c (Z.of_nat n') end.
Definition size (t : table) : Z := uwrap 64 (sum_counters (counter t) (Z.to_nat (nlocks t))).
(** cuckoohash_map.hh:361-363, 1796: the quotient by a power of two is exact
    below 2^53 elements; 0.05 is the double 3602879701896397 / 2^56 *)
Definition load_too_low (t : table) : bool := size t * 2 ^ 56 <? 3602879701896397 * (hashsize (hp t) * 4).

(** cuckoohash_map.hh:1276-1282 *)
Definition add_to_bucket (i s p : Z) (k : K) (v : V) (t : table) : res unit :=
  match setKV (cell t) i s (mkE p k v) with
  | None => Fails Precondition
  | Some c => let t1 := with_cell t c in
      Done (with_counter t1 (fup (counter t1) (lock_ind i) (counter t1 (lock_ind i) + 1))) tt
  end.
(** cuckoohash_map.hh:1962-1965, bucket_container.hh:218-223 *)
Definition del_from_bucket (i s : Z) (t : table) : res unit :=
  match cell t i s with
  | None => Fails Precondition
  | Some _ => let t1 := with_cell t (set_cell (cell t) i s None) in
      Done (with_counter t1 (fup (counter t1) (lock_ind i) (counter t1 (lock_ind i) - 1))) tt
  end.

(** cuckoohash_map.hh:1946-1956, 1685-1691: the locks from [l] on, then none remains *)
Fixpoint rehash_locks (l : Z) (n : nat) (t : table) : res unit :=
  match n with O => Done t tt | S n' => run t1, _ := rehash_lock false l t in rehash_locks (l + 1) n' t1 end.
Definition rehash_all (t : table) : res unit :=
  run t1, _ := rehash_locks 0 (Z.to_nat (nlocks t)) t in Done (set_remaining 0 t1) tt.
(** cuckoohash_map.hh:1818-1833 *)
Definition maybe_resize_locks (n : Z) (t : table) : table :=
  if (nlocks t <? kMaxNumLocks) && (nlocks t <? n) then
    let n' := Z.min kMaxNumLocks n in
    mkT (hp t) (cell t) (old_hp t) (old t) n'
        (fun l => if l <? nlocks t then counter t l else 0)
        (fun l => if l <? nlocks t then migrated t l else true) (remaining t)
  else t.
(** cuckoohash_map.hh:1719-1721: the buckets from [b] on *)
Fixpoint move_all (ohp nhp : Z) (src : cells) (b : Z) (n : nat) (dst : cells) : option cells :=
  match n with
  | O => Some dst
  | S n' => match move_bucket ohp nhp src b dst with Some d => move_all ohp nhp src (b + 1) n' d | None => None end
  end.
(** cuckoohash_map.hh:1664-1736, under the locks of the whole table *)
Definition fast_double (t : table) : res unit :=
  if load_too_low t then TooLow t
  else
    run t1, _ := rehash_all t in
    let t2 := maybe_resize_locks (hashsize (hp t + 1)) t1 in
    if hashsize (hp t) <? kMaxNumLocks then
      match move_all (hp t) (hp t + 1) (cell t2) 0 (Z.to_nat (hashsize (hp t))) no_cells with
      | None => Fails Precondition
      | Some c => Done (set_remaining 0 (mkT (hp t + 1) c (hp t) (Some (cell t2)) (nlocks t2) (counter t2) (migrated t2) (remaining t2))) tt
      end
    else
      Done (set_remaining (nlocks t2) (mkT (hp t + 1) no_cells (hp t) (Some (cell t2)) (nlocks t2) (counter t2) (fun _ => false) (remaining t2))) tt.

(** cuckoohash_map.hh:1861-1878: the entries of the buckets from [b] on *)
Definition put_in (ins : entry -> table -> res unit) (o : option entry) (t : table) : res unit :=
  match o with Some e => ins e t | None => Done t tt end.
Fixpoint reinsert (ins : entry -> table -> res unit) (src : cells) (b : Z) (n : nat) (t : table) : res unit :=
  match n with
  | O => Done t tt
  | S n' =>
      run t1, _ := put_in ins (src b 0) t in run t2, _ := put_in ins (src b 1) t1 in
      run t3, _ := put_in ins (src b 2) t2 in run t4, _ := put_in ins (src b 3) t3 in
      reinsert ins src (b + 1) n' t4
  end.
(** cuckoohash_map.hh:1842-1890 *)
Definition expand_simple (ins : entry -> table -> res unit) (new_hp : Z) (t : table) : res unit :=
  if load_too_low t then TooLow t
  else
    run t1, _ := rehash_all t in
    match (run n1, _ := reinsert ins (cell t1) 0 (Z.to_nat (hashsize (hp t))) (fresh (hashsize new_hp * 4)) in rehash_all n1) with
    | Done n _ => let t2 := maybe_resize_locks (hashsize (hp n)) t1 in
        Done (mkT (hp n) (cell n) (old_hp t2) (old t2) (nlocks t2) (counter t2) (migrated t2) (remaining t2)) tt
    | TooLow _ => TooLow t1
    | Fails u => Fails u
    | NoFuel => NoFuel
    end.

(** cuckoohash_map.hh:1174-1198, from the point where the locks of the two
    buckets are held; [fuel] bounds the number of rounds.  1657-1663: a table
    whose pairs may throw when moved is expanded by reinsertion. *)
Fixpoint insert_loop (fuel : nat) (k : K) (t : table) : res status :=
  match fuel with
  | O => NoFuel
  | S f =>
      let h := hash k in
      let p := partial_key h in
      let i1 := index_hash (hp t) h in
      let i2 := alt_index (hp t) p i1 in
      run t0, _ := lock_two i1 i2 t in
      run t1, st := cuckoo_insert (S f) k p i1 i2 t0 in
      match st with
      | SFull =>
          run t2, _ := (if nothrow then fast_double t1
                        else expand_simple (fun e n =>
                               run n1, st := insert_loop f (e_key e) n in
                               match st with
                               | SOk i s => add_to_bucket i s (partial_key (hash (e_key e))) (e_key e) (e_val e) n1
                               | _ => Done n1 tt
                               end) (hp t + 1) t1) in
          insert_loop f k t2
      | _ => Done t1 st
      end
  end.

(** *** The members ConcurrentHashMap uses *)
(** cuckoohash_map.hh:598-607; [None] is std::out_of_range *)
Definition find (k : K) (t : table) : res (option V) :=
  let h := hash k in
  let p := partial_key h in
  let i1 := index_hash (hp t) h in
  let i2 := alt_index (hp t) p i1 in
  run t1, _ := lock_two i1 i2 t in
  match cuckoo_find t1 k p i1 i2 with
  | Some (i, s) => match cell t1 i s with Some e => Done t1 (Some (e_val e)) | None => Fails Uninitialised end
  | None => Done t1 None
  end.
(** cuckoohash_map.hh:550-563: [fn] gives the new value and whether to erase *)
Definition uprase_fn (fuel : nat) (k : K) (fn : V -> V * bool) (v : V) (t : table) : res bool :=
  run t1, st := insert_loop fuel k t in
  match st with
  | SOk i s => run t2, _ := add_to_bucket i s (partial_key (hash k)) k v t1 in Done t2 true
  | SDuplicated i s =>
      match cell t1 i s with
      | None => Fails Uninitialised
      | Some e =>
          let (v', del) := fn (e_val e) in
          let t2 := with_cell t1 (set_cell (cell t1) i s (Some (mkE (e_part e) (e_key e) v'))) in
          if del then run t3, _ := del_from_bucket i s t2 in Done t3 false else Done t2 false
      end
  | SFull => Fails Precondition
  end.
(** cuckoohash_map.hh:571-579, 642-645 *)
Definition insert_or_assign (fuel : nat) (k : K) (v : V) (t : table) : res bool := uprase_fn fuel k (fun _ => (v, false)) v t.
(** cuckoohash_map.hh:514-526, 651-653 *)
Definition erase (k : K) (t : table) : res bool :=
  let h := hash k in
  let p := partial_key h in
  let i1 := index_hash (hp t) h in
  let i2 := alt_index (hp t) p i1 in
  run t1, _ := lock_two i1 i2 t in
  match cuckoo_find t1 k p i1 i2 with
  | Some (i, s) => run t2, _ := del_from_bucket i s t1 in Done t2 true
  | None => Done t1 false
  end.
(** cuckoohash_map.hh:680-683, 1969-1978 *)
Definition clear (t : table) : table :=
  let t1 := set_remaining 0 (with_cell t no_cells) in
  mkT (hp t1) (cell t1) (old_hp t1) (old t1) (nlocks t1) (fun _ => 0) (fun _ => true) (remaining t1).
(** cuckoohash_map.hh:2180-2194: the next occupied slot from (index, slot) on,
    [n] slots being left; [None]: the end *)
Fixpoint next_occupied (c : cells) (i s : Z) (n : nat) : option (Z * Z * entry) :=
  match n with
  | O => None
  | S n' =>
      match c i s with
      | Some e => Some (i, s, e)
      | None => if s + 1 <? 4 then next_occupied c i (s + 1) n' else next_occupied c (i + 1) 0 n'
      end
  end.
(** ConcurrentHashMap.hpp:308-318: the walk of forEach with an action that
    always continues: [size] entries from begin() on; reading at the end is
    a read outside the buckets.  2668-2672: the table is migrated first. *)
Fixpoint walk_from (c : cells) (h i s : Z) (n : nat) : option (list (K * V)) :=
  match n with
  | O => Some []
  | S n' =>
      match next_occupied c i s (Z.to_nat (4 * (hashsize h - i) - s)) with
      | None => None
      | Some (i', s', e) =>
          match (if s' + 1 <? 4 then walk_from c h i' (s' + 1) n' else walk_from c h (i' + 1) 0 n') with
          | Some l => Some ((e_key e, e_val e) :: l)
          | None => None
          end
      end
  end.
Definition walk (t : table) : res (list (K * V)) :=
  run t1, _ := rehash_all t in
  match walk_from (cell t1) (hp t1) 0 0 (Z.to_nat (size t1)) with
  | Some l => Done t1 l
  | None => Fails OutOfBounds
  end.
(** cuckoohash_map.hh:250 (defaulted), bucket_container.hh:154-162, 320-340:
    every bucket of both arrays of the source is read *)
Definition copy (t : table) : res table :=
  match old t with
  | None => Fails NullDeref
  | Some _ => Done t t
  end.
End Cuckoo.
Arguments Done {K V A}. Arguments TooLow {K V A}. Arguments Fails {K V A}. Arguments NoFuel {K V A}.
