(** Model of a loop over a ConcurrentHashMap with the iterators of begin() and
    end(): /repo/library/Java/Util/Concurrent/ConcurrentHashMap/ConcurrentHashMap.hpp:76-82
    and libcuckoo/cuckoohash_map.hh:2148-2275, 2393-2418, 2668-2672.

    begin() and end() lock the table, finish the migration, and unlock it when
    their locked_table, a temporary, is destroyed: the iterators stay in use
    without any lock.  Between two steps of the loop any calls on the map may
    come, from the body of the loop or from other threads.

    Simplification: the calls come between the steps, not during them (a call
    of another thread during a step is a data race, which C++ leaves
    undefined). *)

From Coq Require Import ZArith List Bool.
From Verif Require Import Base CuckooModel CuckooRunModel.
From Verif Require CuckooSpec.
Import ListNotations.
Open Scope Z_scope.

Section Iter.
Context {K V : Type} (hash : K -> Z) (keq : K -> K -> bool) (simple nothrow : bool).
Notation table := (@table K V).
Notation perform_all := (perform_all hash keq simple nothrow).

(** 2239-2252: index_ and slot_ *)
Definition place : Type := (Z * Z)%type.
(** 2254-2257 *)
Definition end_pos (t : table) : place := (hashsize (hp t), 0).
(** 2182-2193: the first occupied slot from (i, s) on, or the end *)
Definition settle (t : table) (i s : Z) : place :=
  match next_occupied (cell t) i s (Z.to_nat (4 * (hashsize (hp t) - i) - s)) with
  | Some (i', s', _) => (i', s')
  | None => end_pos t
  end.
(** 2178-2194 *)
Definition advance (t : table) (p : place) : place :=
  let (i, s) := p in if s + 1 <? 4 then settle t i (s + 1) else settle t (i + 1) 0.
(** 2171, 2291-2294: a slot that is not occupied holds no pair *)
Definition deref (t : table) (p : place) : outcome (K * V) :=
  let (i, s) := p in
  if (0 <=? i) && (i <? hashsize (hp t))
  then match cell t i s with Some e => Ok (e_key e, e_val e) | None => UB Uninitialised end
  else UB OutOfBounds.
(** 2150-2153 *)
Definition same_place (p q : place) : bool := (fst p =? fst q) && (snd p =? snd q).

(** What was visited, and the calls (with their answers) before the next step *)
Definition visit : Type := (K * V * list (@CuckooSpec.op K V) * list (@CuckooSpec.ans K V))%type.
Inductive ending : Type :=
| Ended (t : table)        (* the loop is left *)
| Crashed (u : ub)         (* a step is undefined *)
| Broken                   (* a call is *)
| Unfinished.              (* the bound on the number of steps is used up *)

(** for (it = begin(), stop = end(); it != stop; ++it) body: the calls of the
    body may depend on what was visited so far *)
Fixpoint loop (fuel : nat) (body : list (K * V) -> list CuckooSpec.op) (stop : place) (t : table) (p : place)
         (past : list (K * V)) : list visit * ending :=
  if same_place p stop then ([], Ended t)
  else match fuel with
       | O => ([], Unfinished)
       | S f =>
           match deref t p with
           | Ok x =>
               let past' := past ++ [x] in
               match perform_all (body past') t with
               | Some (t', l) =>
                   let (v, r) := loop f body stop t' (advance t' p) past' in ((x, body past', l) :: v, r)
               | None => ([], Broken)
               end
           | UB u => ([], Crashed u)
           | _ => ([], Broken)
           end
       end.
(** 76-82, 2393, 2405-2410, 2259-2268 *)
Definition for_each (fuel : nat) (body : list (K * V) -> list CuckooSpec.op) (t : table) : list visit * ending :=
  match rehash_all hash t with
  | Done t1 _ =>
      match rehash_all hash t1 with
      | Done t2 _ => loop fuel body (end_pos t2) t2 (settle t1 0 0) []
      | _ => ([], Broken)
      end
  | _ => ([], Broken)
  end.
End Iter.
