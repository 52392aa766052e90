(** Model of /repo/library/Java/Util/Concurrent/Semaphore/Semaphore.cpp:
    threads sharing one semaphore.

    Every access to permitCounter and every operation on the two mutexes and
    on the condition variable is a step of its own; the scheduler picks any
    thread before every step.  Simplifications: the int arithmetic is that of
    gcc/x86-64 (it wraps); durations are not modelled: a timed wait may end by
    its timeout at any moment; the destructor and availablePermits are left out. *)

From Coq Require Import ZArith List Bool.
From Verif Require Import Base.
Import ListNotations.
Open Scope Z_scope.

(** release(n) (72-78; release() is release(1), 68-70) and tryAcquire(n, t) (88-139; acquire(n) is
    tryAcquire(n, -1), 64-66, acquire() is acquire(1), 60-62, tryAcquire(n) is tryAcquire(n, 0), 84-86).
    [Do k]: a step of the thread that has nothing to do with the semaphore. *)
Inductive op : Type := Release (n : Z) | TryAcquire (n t : Z) | Do (k : Z).

(** The next step of a thread, named after its line; [w]: the store after the load of that line;
    [v]: the value loaded. *)
Inductive pc : Type :=
| Idle
| Return (b : bool)
(* release *)
| R73 (n : Z) | R74 (n : Z) | R75 (n : Z) | R75w (n v : Z) | R76 (n : Z) | R77 (n : Z) | R78 (n : Z)
(* tryAcquire, timeout < 0; [i]: the loop counter *)
| A91 (n i : Z) | A92 (n i : Z) | A93 (n i : Z) | A94 (n i v : Z) | A97 (n i : Z) | A98 (n i : Z)
| A98waiting (n i : Z) | A98woken (n i : Z) | A99 (n i : Z) | A101 (n i : Z) | A102 (n i : Z) | A102w (n i v : Z) | A103 (n i : Z)
(* tryAcquire, timeout >= 0 *)
| T108 (n : Z) | T109 (n : Z) | T110 (n : Z) | T110w (n v : Z) | T111 (n : Z) | T113 (n : Z) | T117 (n : Z) | T120 (n : Z)
| T120waiting (n : Z) | T120woken (n : Z) (timedout : bool) | T123 (n : Z)
| T131 (n : Z) | T132 (n : Z) | T133 (n : Z) | T133w (n v : Z) | T134 (n : Z) | T134c (n : Z) | T136 (n : Z) | T137 (n : Z).

(** Semaphore.hpp: permitCounter; the owners of permitMutexObject and conditionMutexObject *)
Record sem := mkS { permits : Z; pm : option nat; cm : option nat }.

(** A step of thread [t] that concerns nobody else; [None]: it has to wait for a mutex, or for a wake-up. *)
Definition lockP (t : nat) (s : sem) (p : pc) : option (sem * pc) :=
  match pm s with None => Some (mkS (permits s) (Some t) (cm s), p) | Some _ => None end.
Definition unlockP (s : sem) (p : pc) : option (sem * pc) := Some (mkS (permits s) None (cm s), p).
Definition lockC (t : nat) (s : sem) (p : pc) : option (sem * pc) :=
  match cm s with None => Some (mkS (permits s) (pm s) (Some t), p) | Some _ => None end.
Definition unlockC (s : sem) (p : pc) : option (sem * pc) := Some (mkS (permits s) (pm s) None, p).
Definition store (s : sem) (v : Z) (p : pc) : option (sem * pc) := Some (mkS (wrap 32 v) (pm s) (cm s), p).

Definition local (t : nat) (s : sem) (p : pc) : option (sem * pc) :=
  match p with
  | Idle | Return _ => None
  (* Semaphore.cpp:72-78 *)
  | R73 n => lockC t s (R74 n)
  | R74 n => lockP t s (R75 n)
  | R75 n => Some (s, R75w n (permits s))
  | R75w n v => store s (v + n) (R76 n)
  | R76 n => unlockP s (R77 n)
  | R77 _ => None (* notify_one: below *)
  | R78 _ => unlockC s (Return true)
  (* Semaphore.cpp:91-105 *)
  | A91 n i => if i <? n then Some (s, A92 n i) else Some (s, Return true)
  | A92 n i => lockP t s (A93 n i)
  | A93 n i => Some (s, A94 n i (permits s))
  | A94 n i v => unlockP s (if v =? 0 then A97 n i else A101 n i)
  | A97 n i => lockC t s (A98 n i)
  | A98 n i => unlockC s (A98waiting n i)
  | A98waiting _ _ => None
  | A98woken n i => lockC t s (A99 n i)
  | A99 n i => unlockC s (A101 n i)
  | A101 n i => lockP t s (A102 n i)
  | A102 n i => Some (s, A102w n i (permits s))
  | A102w n i v => store s (v - 1) (A103 n i)
  | A103 n i => unlockP s (A91 n (i + 1))
  (* Semaphore.cpp:107-137 *)
  | T108 n => lockP t s (T109 n)
  | T109 n => Some (s, if n <=? permits s then T110 n else T113 n)
  | T110 n => Some (s, T110w n (permits s))
  | T110w n v => store s (v - n) (T111 n)
  | T111 _ => unlockP s (Return true)
  | T113 n => unlockP s (T117 n)
  | T117 n => lockC t s (T120 n)
  | T120 n => unlockC s (T120waiting n)
  | T120waiting _ => None
  | T120woken n b => lockC t s (if b then T123 n else T131 n)
  | T123 _ => unlockC s (Return false)
  | T131 n => lockP t s (T132 n)
  | T132 n => Some (s, if n <=? permits s then T133 n else T136 n)
  | T133 n => Some (s, T133w n (permits s))
  | T133w n v => store s (v - n) (T134 n)
  | T134 n => unlockP s (T134c n)
  | T134c _ => unlockC s (Return true)
  | T136 n => unlockP s (T137 n)
  | T137 n => unlockC s (T117 n)
  end.

(** The first step of a call: 72, 90 *)
Definition entry (o : op) : pc :=
  match o with
  | Release n => R73 n
  | TryAcquire n t => if t <? 0 then A91 n 0 else T108 n
  | Do _ => Return true
  end.
(** A thread in a wait, woken up *)
Definition wake (p : pc) : option pc :=
  match p with A98waiting n i => Some (A98woken n i) | T120waiting n => Some (T120woken n false) | _ => None end.

(** A thread: its next step and the calls it has still to make, the one in progress included. *)
Definition thread : Type := pc * list op.
(** [log]: the calls that returned, in the order in which they did, with their results. *)
Record config := mkC { sem_of : sem; threads : list thread; log : list (nat * op * bool) }.

(** [spurious]: whether a waiting thread may wake up for no reason, as the standard allows. *)
Inductive step (spurious : bool) : config -> config -> Prop :=
| s_call t o r c : nth_error (threads c) t = Some (Idle, o :: r) ->
    step spurious c (mkC (sem_of c) (upd (threads c) t (entry o, o :: r)) (log c))
| s_local t p l s' p' c : nth_error (threads c) t = Some (p, l) -> local t (sem_of c) p = Some (s', p') ->
    step spurious c (mkC s' (upd (threads c) t (p', l)) (log c))
| s_return t b o r c : nth_error (threads c) t = Some (Return b, o :: r) ->
    step spurious c (mkC (sem_of c) (upd (threads c) t (Idle, r)) (log c ++ [(t, o, b)]))
(* Semaphore.cpp:77: one of the waiting threads is woken up, if there are any *)
| s_notify t n l u p l' p' c : nth_error (threads c) t = Some (R77 n, l) -> nth_error (threads c) u = Some (p, l') -> wake p = Some p' ->
    step spurious c (mkC (sem_of c) (upd (upd (threads c) t (R78 n, l)) u (p', l')) (log c))
| s_notify_nobody t n l c : nth_error (threads c) t = Some (R77 n, l) -> (forall u p l', nth_error (threads c) u = Some (p, l') -> wake p = None) ->
    step spurious c (mkC (sem_of c) (upd (threads c) t (R78 n, l)) (log c))
| s_timeout t n l c : nth_error (threads c) t = Some (T120waiting n, l) ->
    step spurious c (mkC (sem_of c) (upd (threads c) t (T120woken n true, l)) (log c))
| s_spurious t p p' l c : spurious = true -> nth_error (threads c) t = Some (p, l) -> wake p = Some p' ->
    step spurious c (mkC (sem_of c) (upd (threads c) t (p', l)) (log c)).

Inductive reach (spurious : bool) (c0 : config) : config -> Prop :=
| reach_0 : reach spurious c0 c0
| reach_step c c' : reach spurious c0 c -> step spurious c c' -> reach spurious c0 c'.

(** Semaphore.cpp:37-39 *)
Definition start (permits : Z) (programs : list (list op)) : config :=
  mkC (mkS permits None None) (map (fun p => (Idle, p)) programs) [].
Definition finished (c : config) : Prop := Forall (fun t => t = (Idle, [])) (threads c).
