(** Model of /repo/library/Java/Lang/Thread/Thread.cpp.

    run and join share the semaphore of the Thread object (Thread.hpp:46), which starts with
    no permits (Semaphore.cpp:33-35): the threads are those of SemaphoreModel.v.
    Left out: names, ids, sleep, currentThread, the destructor. *)

From Coq Require Import ZArith List Bool.
From Verif Require Import Base SemaphoreModel.
Import ListNotations.
Open Scope Z_scope.

(** run (57-78): alive = true (66-68); the function (70-72), whose end is the step [Do 2];
    release(1) (73); alive = false (75-77).  The critical sections of mutexObject, which nobody
    holds across another step, are one step each. *)
Definition alive_true : op := Do 1.
Definition func_done : op := Do 2.
Definition alive_false : op := Do 3.
Definition run_m : list op := [alive_true; func_done; Release 1; alive_false].
(** join (109-119); acquire() is tryAcquire(1, -1) (Semaphore.cpp:60-66) *)
Definition join_m (millis : Z) : op := if 0 <? millis then TryAcquire 1 millis else TryAcquire 1 (-1).

(** Thread 0 has been started and runs [run]; the others do anything but release: join, and steps of their own ([k] > 3). *)
Definition system (others : list (list op)) : config := start 0 (run_m :: others).

(** isAlive (94-97): what thread 0 has stored last *)
Definition alive (c : config) : bool :=
  fold_left (fun a e => match e with (O, Do 1, _) => true | (O, Do 3, _) => false | _ => a end) (log c) false.

(** ** The life of a Thread object: calls from one thread, and what its own thread does *)
(** [has_func]: this->func is not empty; [joinable]: threadObject.joinable(); [al]: alive; [det]: detached;
    [launched]: how many threads of execution have been created for the function. *)
Record obj := mkO { has_func : bool; joinable : bool; al : bool; det : bool; launched : nat }.
Inductive result (A : Type) : Type := Done (a : A) | Raise (e : exn) | SystemError | Terminate.
Arguments Done {A}. Arguments Raise {A}. Arguments SystemError {A}. Arguments Terminate {A}.
(** A Thread(func): 46-48, Thread.hpp:41-42; Thread(Runnable) and Thread() always have a function (84-88: std::bind) *)
Definition new_thread (f : bool) : obj := mkO f false false false 0.
(** 103-107; std::thread::operator=(std::thread&&) calls std::terminate if joinable() ([thread.thread.assign]) *)
Definition start_m (o : obj) : result obj :=
  if has_func o && negb (al o) then
    if joinable o then Terminate else Done (mkO (has_func o) true (al o) (det o) (S (launched o)))
  else Done o.
(** 121-128; std::thread::detach throws std::system_error unless joinable() ([thread.thread.member]) *)
Definition detach_m (o : obj) : result obj :=
  if det o then Raise IllegalArgumentException
  else if joinable o then Done (mkO (has_func o) false (al o) true (launched o)) else SystemError.
(** what run does to the flag: 66-68 and 75-77; any thread launched may do it at any moment *)
Definition set_alive (b : bool) (o : obj) : obj := mkO (has_func o) (joinable o) b (det o) (launched o).
(** Objects a program can get to *)
Inductive life : obj -> Prop :=
| life_new f : life (new_thread f)
| life_start o o' : life o -> start_m o = Done o' -> life o'
| life_detach o o' : life o -> detach_m o = Done o' -> life o'
| life_run b o : life o -> (0 < launched o)%nat -> life (set_alive b o).
