(** The table in which each thread finds its own sub-queue of a concurrent queue
    (concurrentqueue.hpp, get_or_add_implicit_producer), shared by threads. *)

From Coq Require Import ZArith List.
From Verif Require Import Base Bits.
Import ListNotations.
Open Scope Z_scope.

Section Model.
(** concurrentqueue.hpp:112-148, 422-427: the number of a thread and its hash
    are arbitrary; 330, 720, 739: the first capacity. *)
Context (tid : nat -> Z) (hash : Z -> Z) (size0 : Z).

(** concurrentqueue.hpp:3232-3268: a key of 0 is invalid_thread_id (140), the
    sub-queues are numbered as they are created. *)
Record tab := mkTab { cap : Z; key : Z -> Z; val : Z -> option nat }.
(** concurrentqueue.hpp:3600-3612.  The tables are numbered from the first; the
    table before [m] ([prev]) is [m - 1] and the current one is the last.
    [made] is producerCount; the list of the sub-queues (3183-3195) is the
    numbers below it.  Memory is sequentially consistent. *)
Record shared := mkS { ntabs : nat; tabs : nat -> tab; count : Z; resizing : bool; made : nat }.

(** Where a thread is in 3326-3475. *)
Inductive pc : Type :=
| Idle
| Load
| Look (m h : nat) (idx : Z)
| Take (m h : nat) (a : Z)
| Copy (m : nat) (idx : Z) (v : option nat)
| CopyCas (m : nat) (a : Z) (v : option nat)
| CopyVal (m : nat) (a : Z) (v : option nat)
| Add (m : nat)
| Check (m : nat) (n : Z)
| Lock (m : nat) (n : Z)
| Reload (n : Z)
| Alloc (m : nat) (n : Z)
| Publish (m : nat) (n c : Z)
| Unlock (m : nat) (n : Z)
| Fits (m : nat) (n : Z)
| Wait (n : Z)
| Create (m : nat) (n : Z)
| Probe (m : nat) (idx : Z) (p : nat)
| ProbeCas (m : nat) (a : Z) (p : nat)
| ProbeVal (m : nat) (a : Z) (p : nat)
| GiveUp (locked : bool)
| GiveUpUnlock
| Spin
| Ret (r : option nat).

Definition newest (s : shared) : nat := pred (ntabs s).
Definition set_tab (s : shared) (m : nat) (t : tab) : shared :=
  mkS (ntabs s) (fun j => if Nat.eqb j m then t else tabs s j) (count s) (resizing s) (made s).
Definition set_key (t : tab) (a k : Z) : tab := mkTab (cap t) (fun b => if b =? a then k else key t b) (val t).
Definition set_val (t : tab) (a : Z) (v : option nat) : tab := mkTab (cap t) (key t) (fun b => if b =? a then v else val t b).
Definition set_flag (s : shared) (b : bool) : shared := mkS (ntabs s) (tabs s) (count s) b (made s).
Definition set_count (s : shared) (n : Z) : shared := mkS (ntabs s) (tabs s) n (resizing s) (made s).
(** concurrentqueue.hpp:3351, 3365, 3451: [index &= capacity - 1] *)
Definition mask (t : tab) (idx : Z) : Z := Z.land idx (cap t - 1).
(** concurrentqueue.hpp:3402-3404; [None]: the loop does not end, which takes
    2^62 threads *)
Fixpoint grown (fuel : nat) (n c : Z) : option Z :=
  if n <? Z.shiftr c 1 then Some c
  else match fuel with O => None | S f => grown f n (uwrap 64 (Z.shiftl c 1)) end.
(** concurrentqueue.hpp:3434 *)
Definition room (c : Z) : Z := Z.shiftr c 1 + Z.shiftr c 2.

(** One step of a thread; [ok]: memory is there, should it ask for some. *)
Definition act (ok : bool) (i : nat) (p : pc) (s : shared) : shared * pc :=
  match p with
  | Idle | Ret _ | Spin => (s, p)
  (* 3345-3349 *)
  | Load => (s, Look (newest s) (newest s) (hash (tid i)))
  (* 3351-3386 *)
  | Look m h idx =>
      let a := mask (tabs s h) idx in
      let k := key (tabs s h) a in
      if k =? tid i then (s, Take m h a)
      else if k =? 0 then match h with O => (s, Add m) | S h' => (s, Look m h' (hash (tid i))) end
      else (s, Look m h (a + 1))
  (* 3361-3363, 3381 *)
  | Take m h a =>
      let v := val (tabs s h) a in
      if Nat.eqb h m then (s, Ret v) else (s, Copy m (hash (tid i)) v)
  (* 3364-3379 *)
  | Copy m idx v =>
      let a := mask (tabs s m) idx in
      if key (tabs s m) a =? 0 then (s, CopyCas m a v) else (s, Copy m (a + 1) v)
  | CopyCas m a v =>
      if key (tabs s m) a =? 0 then (set_tab s m (set_key (tabs s m) a (tid i)), CopyVal m a v)
      else (s, Copy m (a + 1) v)
  | CopyVal m a v => (set_tab s m (set_val (tabs s m) a v), Ret v)
  (* 3391 *)
  | Add m => let n := uwrap 64 (1 + count s) in (set_count s n, Check m n)
  (* 3394 *)
  | Check m n => if Z.shiftr (cap (tabs s m)) 1 <=? n then (s, Lock m n) else (s, Fits m n)
  | Lock m n => if resizing s then (s, Fits m n) else (set_flag s true, Reload n)
  (* 3399-3400 *)
  | Reload n => let m := newest s in if Z.shiftr (cap (tabs s m)) 1 <=? n then (s, Alloc m n) else (s, Unlock m n)
  (* 3401-3420: the new table is not shared yet *)
  | Alloc m n =>
      match grown 64 n (uwrap 64 (Z.shiftl (cap (tabs s m)) 1)) with
      | None => (s, Spin)
      | Some c => if ok then (s, Publish m n c) else (s, GiveUp true)
      end
  (* 3421-3422; the new table's [prev] is [m] *)
  | Publish m n c =>
      (mkS (S (S m)) (fun j => if Nat.eqb j (S m) then mkTab c (fun _ => 0) (fun _ => None) else tabs s j) (count s) (resizing s) (made s), Unlock (S m) n)
  (* 3423, 3427 *)
  | Unlock m n => (set_flag s false, Fits m n)
  (* 3434; 3474 *)
  | Fits m n => if n <? room (cap (tabs s m)) then (s, Create m n) else (s, Wait n)
  | Wait n => (s, Check (newest s) n)
  (* 3436-3443, 3160-3195: nothing is recycled, since no sub-queue becomes
     inactive without thread exit listeners (213) and tokens; the insertion into
     the list of sub-queues is one step *)
  | Create m n =>
      if ok then (mkS (ntabs s) (tabs s) (count s) (resizing s) (S (made s)), Probe m (hash (tid i)) (made s))
      else (s, GiveUp false)
  (* 3450-3468 *)
  | Probe m idx p =>
      let a := mask (tabs s m) idx in
      if key (tabs s m) a =? 0 then (s, ProbeCas m a p) else (s, Probe m (a + 1) p)
  | ProbeCas m a p =>
      if key (tabs s m) a =? 0 then (set_tab s m (set_key (tabs s m) a (tid i)), ProbeVal m a p)
      else (s, Probe m (a + 1) p)
  | ProbeVal m a p => (set_tab s m (set_val (tabs s m) a (Some p)), Ret (Some p))
  (* 3408, 3439 *)
  | GiveUp locked => (set_count s (uwrap 64 (count s - 1)), if locked then GiveUpUnlock else Ret None)
  (* 3409-3410 *)
  | GiveUpUnlock => (set_flag s false, Ret None)
  end.

(** Threads; what happens: a call, a return with the sub-queue (or nullptr), or
    a step inside a call. *)
Record config := mkC { mem : shared; pcs : nat -> pc }.
Definition set_pc (f : nat -> pc) (i : nat) (p : pc) : nat -> pc := fun j => if Nat.eqb j i then p else f j.
Inductive label : Type := Called (i : nat) | Returned (i : nat) (r : option nat) | Inside (i : nat) (ok : bool).
Definition busy (p : pc) : Prop := match p with Idle | Ret _ => False | _ => True end.
Inductive step : config -> label -> config -> Prop :=
| step_call c i : pcs c i = Idle -> step c (Called i) (mkC (mem c) (set_pc (pcs c) i Load))
| step_return c i r : pcs c i = Ret r -> step c (Returned i r) (mkC (mem c) (set_pc (pcs c) i Idle))
| step_inside c i ok s p : busy (pcs c i) -> act ok i (pcs c i) (mem c) = (s, p) -> step c (Inside i ok) (mkC s (set_pc (pcs c) i p)).
Inductive run : config -> list label -> config -> Prop :=
| run_none c : run c [] c
| run_step c l c1 e c2 : run c l c1 -> step c1 e c2 -> run c (l ++ [e]) c2.
(** concurrentqueue.hpp:3270-3286 *)
Definition start : config := mkC (mkS 1 (fun _ => mkTab size0 (fun _ => 0) (fun _ => None)) 0 false 0) (fun _ => Idle).
End Model.
