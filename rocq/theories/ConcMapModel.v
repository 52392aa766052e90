(** Model of java.util.concurrent.ConcurrentHashMap
    (/repo/library/Java/Util/Concurrent/ConcurrentHashMap/ConcurrentHashMap.hpp).

    The object is one libcuckoo::cuckoohash_map (line 48).  The library is
    modelled by its contract: find, insert_or_assign, erase, clear and a walk
    over lock_table() are atomic (each holds the locks of the buckets concerned,
    cuckoohash_map.hh:598-607, 642-645, 514-526, 651-653); size is not
    (cuckoohash_map.hh:336-346): it adds the counters of the locks, one after
    the other, without taking them.  Simplification: the counter in which a key
    is counted ([stripe]) depends on the key only.

    Not modelled: begin and end (iterators into a locked_table that is
    destroyed at once), and the members that do not compile when used: equals
    and clone (a range-for over [this]), replace (compares a value with an
    iterator). *)

From Coq Require Import ZArith List Bool.
From Verif Require Import Base ConcMapSpec.
Import ListNotations.
Open Scope Z_scope.

Section ConcMap.
Context {K V : Type}.
Context (keq : K -> K -> bool) (veq : V -> V -> bool).
(** [V v;]: a value for class types, indeterminate for scalar types. *)
Context (dflt : option V).
(** libcuckoo's lock stripes *)
Context (stripes : nat) (stripe : K -> nat).

Definition table := list (K * V).
Definition dval : outcome V := match dflt with Some d => Ok d | None => UB Uninitialised end.

(** *** Contract of libcuckoo::cuckoohash_map *)
Fixpoint t_find (k : K) (m : table) : option V :=
  match m with [] => None | (k', v) :: r => if keq k' k then Some v else t_find k r end.
Definition t_assign (k : K) (v : V) (m : table) : table :=
  match t_find k m with
  | Some _ => map (fun p => if keq (fst p) k then (fst p, v) else p) m
  | None => (k, v) :: m
  end.
Definition t_erase (k : K) (m : table) : table := filter (fun p => negb (keq (fst p) k)) m.
Definition t_counter (j : nat) (m : table) : Z := zlen (filter (fun p => Nat.eqb (stripe (fst p)) j) m).

(** *** The calls *)
Inductive call : Type :=
| Get (k : K) | GetOrDefault (k : K) (d : V) | ContainsKey (k : K) | ContainsValue (v : V)
| Put (k : K) (v : V) | PutIfAbsent (k : K) (v : V) | Remove (k : K) | RemoveIf (k : K) (v : V) | Clear | Size.
Inductive reply : Type := RVal (v : outcome V) | RBool (b : bool) | RVoid | RSize (n : Z).

(** A call is a sequence of atomic accesses to the table. *)
Inductive body : Type := Ret (r : reply) | Act (f : table -> table * body).

(** cuckoohash_map.hh:340-345 *)
Fixpoint size_from (j n : nat) (s : Z) : body :=
  match n with
  | O => Ret (RSize s)
  | S n' => Act (fun m => (m, size_from (S j) n' (s + t_counter j m)))
  end.

Definition code (c : call) : body :=
  match c with
  (* 338-346 *)
  | Get k => Act (fun m => (m, Ret (RVal (match t_find k m with Some v => Ok v | None => dval end))))
  (* 360-366 *)
  | GetOrDefault k d => Act (fun m => (m, Ret (RVal (Ok (match t_find k m with Some v => v | None => d end)))))
  (* 257-264 *)
  | ContainsKey k => Act (fun m => (m, Ret (RBool (match t_find k m with Some _ => true | None => false end))))
  (* 275-285, 308-318: the locks of the whole table are held during the walk *)
  | ContainsValue v => Act (fun m => (m, Ret (RBool (existsb (fun p => veq v (snd p)) m))))
  (* 385-387 *)
  | Put k v => Act (fun m => (t_assign k v m, Ret RVoid))
  (* 403-410: [value = original.find(key)] assigns to a const reference and does not compile;
     modelled as if [value] were a copy of the argument *)
  | PutIfAbsent k v => Act (fun m => (m, match t_find k m with
                                         | Some v' => Ret (RVal (Ok v'))
                                         | None => Act (fun m' => (t_assign k v m', Ret (RVal (Ok v))))
                                         end))
  (* 422-431 *)
  | Remove k => Act (fun m => (m, match t_find k m with
                                  | Some v => Act (fun m' => (t_erase k m', Ret (RVal (Ok v))))
                                  | None => Ret (RVal dval)
                                  end))
  (* 443-454 *)
  | RemoveIf k v => Act (fun m => (m, match t_find k m with
                                      | Some v' => if veq v' v then Act (fun m' => (t_erase k m', Ret (RBool true))) else Ret (RBool false)
                                      | None => Ret (RBool false)
                                      end))
  (* 115-117; one step here, though the table empties buckets and counters in two
     loops without locks: no theorem about threads allows it, see C106 *)
  | Clear => Act (fun m => ([], Ret RVoid))
  (* 510-512 *)
  | Size => size_from 0 stripes 0
  end.

(** *** Threads *)
Inductive cstate : Type := Between | Within (b : body).
Definition cthread : Type := cstate * list call.
Record config := mkC { table_of : table; threads : list cthread; history : list (@event call reply) }.
Inductive step (t : nat) : config -> config -> Prop :=
| s_call c r cf : nth_error (threads cf) t = Some (Between, c :: r) ->
    step t cf (mkC (table_of cf) (upd (threads cf) t (Within (code c), r)) (history cf ++ [Inv t c]))
| s_act f r m b cf : nth_error (threads cf) t = Some (Within (Act f), r) -> f (table_of cf) = (m, b) ->
    step t cf (mkC m (upd (threads cf) t (Within b, r)) (history cf))
| s_return x r cf : nth_error (threads cf) t = Some (Within (Ret x), r) ->
    step t cf (mkC (table_of cf) (upd (threads cf) t (Between, r)) (history cf ++ [Res t x])).
Inductive reach (c0 : config) : config -> Prop :=
| reach_0 : reach c0 c0
| reach_step t c c' : reach c0 c -> step t c c' -> reach c0 c'.
Definition start (m : table) (programs : list (list call)) : config := mkC m (map (fun p => (Between, p)) programs) [].
Definition finished (c : config) : Prop := Forall (fun t => t = (Between, [])) (threads c).
(** A schedule: which thread runs next. *)
Definition exec1 (t : nat) (cf : config) : option config :=
  match nth_error (threads cf) t with
  | Some (Between, c :: r) => Some (mkC (table_of cf) (upd (threads cf) t (Within (code c), r)) (history cf ++ [Inv t c]))
  | Some (Within (Act f), r) => let (m, b) := f (table_of cf) in Some (mkC m (upd (threads cf) t (Within b, r)) (history cf))
  | Some (Within (Ret x), r) => Some (mkC (table_of cf) (upd (threads cf) t (Between, r)) (history cf ++ [Res t x]))
  | _ => None
  end.
Fixpoint exec (l : list nat) (cf : config) : option config :=
  match l with [] => Some cf | t :: r => match exec1 t cf with Some cf' => exec r cf' | None => None end end.
(** A call without interference. *)
Fixpoint run_body (b : body) (m : table) : table * reply :=
  match b with Ret r => (m, r) | Act f => let (m', b') := f m in run_body b' m' end.
End ConcMap.
