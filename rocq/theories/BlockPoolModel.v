(** Model of the pool of blocks of a concurrent queue:
    /repo/library/Java/Util/Concurrent/ConcurrentLinkedQueue/concurrentqueue.hpp,
    populate_initial_block_list (2974-2989), try_get_block_from_initial_pool
    (2991-3000), requisition_block (3025-3044) and the part of the destructor
    that ends the blocks (828-838).

    Any number of threads call requisition_block; one choice is one atomic
    access.  The counter of the initial array is read and advanced with relaxed
    accesses: a thread may read any value between the last one it has seen and
    the newest.  The blocks of the array are numbered 0 .. size-1, those made
    later size, size+1, ...

    Simplifications: the free list takes effect in one step: it hands out any
    of its blocks, and answers that it has none only if it was empty at some
    moment since it was asked (proved for the real list in C92 and C93).  The
    blocks come back in any order (add_block_to_free_list, 3002-3008) from
    whoever holds them; a block that nobody holds cannot come back (proved for
    the sub-queues, the only callers, in C109 and C114). *)

From Coq Require Import ZArith List Bool.
From Verif Require Import Base.
Import ListNotations.
Open Scope Z_scope.

(** 2974-2989: the size of the array made for [count] blocks; [ok] is false
    when malloc fails *)
Definition populate (count : Z) (ok : bool) : Z :=
  if count =? 0 then 0 else if ok then count else 0.

(** 762: the number of blocks made in advance for [capacity] elements; the
    block size is a power of two (static_assert, 735) *)
Definition blocks_for (B capacity : Z) : Z :=
  capacity / B + (if Z.land capacity (B - 1) =? 0 then 0 else 1).

(** Where a call of requisition_block is *)
Inductive place : Type :=
| AtLoad                      (* 2993 *)
| AtAdd                       (* 2997 *)
| AtList (was_empty : bool)   (* 3033; whether the list was empty since *)
| AtNew.                      (* 3039 *)
(** A call: its thread, whether it may allocate (the template argument
    canAlloc, 3025), and where it is *)
Record call : Type := mkCall { who : nat; can : bool; place_of : place }.

(** What the callers see *)
Inductive event : Type :=
| Called (t : nat)            (* requisition_block is called *)
| Took (t : nat) (b : Z)      (* ... returns a block *)
| Refused (t : nat)           (* ... returns null *)
| Gave (b : Z).               (* a block is put on the free list *)

(** initialBlockPoolIndex (the number of advances, stored modulo 2^64), what
    each thread has seen of it, the free list, the blocks in use, the number of
    blocks made by 3039, and the calls under way *)
Record pool : Type := mkPool {
  next : Z;
  seen : nat -> Z;
  spare : list Z;
  out : list Z;
  made : Z;
  calls : list call
}.

(** 756, 780: a new pool *)
Definition start : pool := mkPool 0 (fun _ => 0) [] [] 0 [].

Inductive choice : Type :=
| Begin (t : nat) (can : bool)
| Load (t : nat) (v : Z)      (* the relaxed load gives [v] *)
| Advance (t : nat)
| Pop (t : nat) (b : Z)
| Miss (t : nat)
| Make (t : nat) (ok : bool)
| Give (b : Z).

Section Pool.
(** initialBlockPoolSize and the number of threads *)
Variables (size : Z) (threads : nat).

(** size_t arithmetic *)
Definition stored (v : Z) : Z := v mod 2 ^ 64.

Definition see (f : nat -> Z) (t : nat) (v : Z) : nat -> Z := fun x => if Nat.eqb x t then v else f x.

Fixpoint call_of (t : nat) (l : list call) : option call :=
  match l with
  | [] => None
  | c :: l => if Nat.eqb (who c) t then Some c else call_of t l
  end.
Definition drop_call (t : nat) (l : list call) : list call :=
  filter (fun c => negb (Nat.eqb (who c) t)) l.
Definition move (c : call) (p : place) (l : list call) : list call :=
  mkCall (who c) (can c) p :: drop_call (who c) l.
Fixpoint take (b : Z) (l : list Z) : option (list Z) :=
  match l with
  | [] => None
  | x :: l => if x =? b then Some l
              else match take b l with Some l' => Some (x :: l') | None => None end
  end.
Definition none_left (l : list Z) : bool := match l with [] => true | _ => false end.
(** calls that wait for the list remember that it is empty *)
Definition notice (s : pool) : pool :=
  if none_left (spare s)
  then mkPool (next s) (seen s) (spare s) (out s) (made s)
         (map (fun c => mkCall (who c) (can c)
                          match place_of c with AtList _ => AtList true | p => p end) (calls s))
  else s.

(** One access of one thread; None: not possible now *)
Definition access (s : pool) (c : choice) : option (pool * list event) :=
  match c with
  | Begin t m =>                                                    (* 3026 *)
      match call_of t (calls s) with
      | Some _ => None
      | None => if Nat.ltb t threads
                then Some (mkPool (next s) (seen s) (spare s) (out s) (made s)
                             (mkCall t m AtLoad :: calls s), [Called t])
                else None
      end
  | Load t v =>                                                     (* 2993-2995 *)
      match call_of t (calls s) with
      | Some (mkCall _ m AtLoad as c) =>
          if (seen s t <=? v) && (v <=? next s)
          then Some (mkPool (next s) (see (seen s) t v) (spare s) (out s) (made s)
                       (move c (if stored v >=? size then AtList false else AtAdd) (calls s)), [])
          else None
      | _ => None
      end
  | Advance t =>                                                    (* 2997-2999 *)
      match call_of t (calls s) with
      | Some (mkCall _ m AtAdd as c) =>
          let index := stored (next s) in
          let seen' := see (seen s) t (next s + 1) in
          if index <? size
          then Some (mkPool (next s + 1) seen' (spare s) (index :: out s) (made s)
                       (drop_call t (calls s)), [Took t index])
          else Some (mkPool (next s + 1) seen' (spare s) (out s) (made s)
                       (move c (AtList false) (calls s)), [])
      | _ => None
      end
  | Pop t b =>                                                      (* 3033-3036 *)
      match call_of t (calls s), take b (spare s) with
      | Some (mkCall _ _ (AtList _)), Some l =>
          Some (mkPool (next s) (seen s) l (b :: out s) (made s) (drop_call t (calls s)), [Took t b])
      | _, _ => None
      end
  | Miss t =>                                                       (* 3033, 3038-3043 *)
      match call_of t (calls s) with
      | Some (mkCall _ m (AtList true) as c) =>
          if m then Some (mkPool (next s) (seen s) (spare s) (out s) (made s)
                            (move c AtNew (calls s)), [])
          else Some (mkPool (next s) (seen s) (spare s) (out s) (made s)
                       (drop_call t (calls s)), [Refused t])
      | _ => None
      end
  | Make t ok =>                                                    (* 3039 *)
      match call_of t (calls s) with
      | Some (mkCall _ _ AtNew) =>
          if ok then Some (mkPool (next s) (seen s) (spare s) ((size + made s) :: out s) (made s + 1)
                             (drop_call t (calls s)), [Took t (size + made s)])
          else Some (mkPool (next s) (seen s) (spare s) (out s) (made s)
                       (drop_call t (calls s)), [Refused t])
      | _ => None
      end
  | Give b =>                                                       (* 3002-3008 *)
      match take b (out s) with
      | Some l => Some (mkPool (next s) (seen s) (b :: spare s) l (made s) (calls s), [Gave b])
      | None => None
      end
  end.

Definition step (s : pool) (c : choice) : option (pool * list event) :=
  match access s c with Some (s', e) => Some (notice s', e) | None => None end.

(** The states and histories of the pool *)
Inductive run : pool -> list event -> Prop :=
| run_start : run start []
| run_step s h c s' e : run s h -> step s c = Some (s', e) -> run s' (h ++ e).

(** 828-835: dynamicallyAllocated is false exactly for the blocks of the array
    (2987, and the constructor of Block, 1502) *)
Definition dynamic (b : Z) : bool := size <=? b.
Fixpoint end_list (l : list Z) : list Z :=
  match l with
  | [] => []
  | b :: l => if dynamic b then b :: end_list l else end_list l
  end.
(** 3561-3569: destroy_array goes from the last to the first *)
Fixpoint end_array (k : nat) : list Z :=
  match k with O => [] | S k => Z.of_nat k :: end_array k end.
(** 828-838: the blocks ended, in order *)
Definition end_pool (s : pool) : list Z :=
  end_list (spare s) ++ end_array (Z.to_nat size).
End Pool.
