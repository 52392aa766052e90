(** moodycamel::BlockingConcurrentQueue
    (/repo/library/Java/Util/Concurrent/LinkedBlockingQueue/blockingconcurrentqueue.hpp):
    a ConcurrentQueue paired with a LightweightSemaphore (LwSemModel).

    The inner ConcurrentQueue (../ConcurrentLinkedQueue/concurrentqueue.hpp) is
    not modelled here; it stands in by its documented contract: a bag of items; enqueueing puts each item in, at any
    moments between call and return, or refuses all of them; try_dequeue and
    try_dequeue_bulk take items that are in the bag.  An attempt that fails
    changes nothing (the callers try again), so it is not a step.  The order
    of items is not modelled.  The overloads with tokens, by move, and with
    std::chrono durations run the same code and are not modelled apart. *)

From Coq Require Import ZArith List Bool.
From Verif Require Import Base LwSemModel.
Import ListNotations.
Open Scope Z_scope.

Section Queue.
Variable A : Type.

(** Calls. enqueue, try_enqueue: one item (122-169, 208-253); enqueue_bulk,
    try_enqueue_bulk (177-201, 262-285); the dequeue functions differ in the
    call they make on the semaphore: try_dequeue tryWait (292-317),
    try_dequeue_bulk tryWaitMany (325-350), wait_dequeue wait (357-366, 400-409),
    wait_dequeue_timed wait(timeout) (375-385, 418-428), wait_dequeue_bulk waitMany
    (445-454, 490-499), wait_dequeue_bulk_timed waitMany(timeout) (463-472, 508-517). *)
Inductive qcall : Type := QNothing | Enqueue (xs : list A) | Dequeue (how : call).
Definition qvalid (c : qcall) : Prop :=
  match c with
  | QNothing => True
  | Enqueue xs => zlen xs <= long_max
  | Dequeue how => match how with TryWait | Wait _ | TryWaitMany _ | WaitMany _ _ => valid how | _ => False end
  end.

Inductive qpc : Type :=
| QDone (got : list A)                  (* returned, with these items *)
| Enter                                 (* before inner.enqueue *)
| Put (rest : list A)                   (* inside inner.enqueue: items still to go in *)
| Signalling                            (* inside sema->signal(count) *)
| Acquiring                             (* inside sema->wait() and its like *)
| Take (left : Z) (got : list A).       (* in the loop around inner.try_dequeue *)

(** The queue and its threads; thread i of [sem] is the same thread.
    [accepted] and [delivered] record, for the statements, the items of the
    calls of enqueue that went in and of the calls of dequeue that returned. *)
Record qsys : Type := mkQ { sem : sys; bag : list A; qthreads : list (qcall * qpc); accepted : list (list A); delivered : list (list A) }.
Definition qinit (n : nat) : qsys := mkQ (init 0 n) [] (repeat (QNothing, QDone []) n) [] [].

(** thread [i] makes a step in, or starts, a call on the semaphore *)
Inductive moves (i : nat) : sys -> sys -> pc -> Prop :=
| m_run c s ts g r k p c' s' p' : nth_error ts i = Some (k, p) -> tstep c s p c' s' p' ->
    moves i (mkSys c s ts g r) (mkSys c' s' (upd ts i (k, p')) (g + returned p') r) p'.
Inductive starts (i : nat) (k : call) : sys -> sys -> Prop :=
| m_call c s ts g r k0 res : nth_error ts i = Some (k0, Done res) -> valid k ->
    starts i k (mkSys c s ts g r) (mkSys c s (upd ts i (k, start k)) g (r + given k)).
Definition busy (p : qpc) : Prop := p = Signalling \/ p = Acquiring.
Definition is_done (p : pc) : bool := match p with Done _ => true | _ => false end.

Inductive qstep : qsys -> qsys -> Prop :=
(* enqueue: if (inner.enqueue(item)) { sema->signal(); return true; } return false; *)
| q_refused s b ts ac de i xs : nth_error ts i = Some (Enqueue xs, Enter) -> qstep (mkQ s b ts ac de) (mkQ s b (upd ts i (Enqueue xs, QDone [])) ac de)
| q_accepted s b ts ac de i xs : nth_error ts i = Some (Enqueue xs, Enter) -> qstep (mkQ s b ts ac de) (mkQ s b (upd ts i (Enqueue xs, Put xs)) ac de)
| q_put s b ts ac de i xs x rest : nth_error ts i = Some (Enqueue xs, Put (x :: rest)) -> qstep (mkQ s b ts ac de) (mkQ s (x :: b) (upd ts i (Enqueue xs, Put rest)) ac de)
| q_signal s s' b ts ac de i xs : nth_error ts i = Some (Enqueue xs, Put []) -> starts i (Signal (zlen xs)) s s' ->
    qstep (mkQ s b ts ac de) (mkQ s' b (upd ts i (Enqueue xs, Signalling)) (xs :: ac) de)
(* inside a call on the semaphore *)
| q_sem s s' b ts ac de i c q p : nth_error ts i = Some (c, q) -> busy q -> moves i s s' p -> is_done p = false -> qstep (mkQ s b ts ac de) (mkQ s' b ts ac de)
| q_signalled s s' b ts ac de i c r : nth_error ts i = Some (c, Signalling) -> moves i s s' (Done r) -> qstep (mkQ s b ts ac de) (mkQ s' b (upd ts i (c, QDone [])) ac de)
(* 360-362: while (!sema->wait()) { continue; } *)
| q_again s s' s'' b ts ac de i : nth_error ts i = Some (Dequeue (Wait Never), Acquiring) -> moves i s s' (Done 0) -> starts i (Wait Never) s' s'' -> qstep (mkQ s b ts ac de) (mkQ s'' b ts ac de)
(* the number of permits got is the number of items to take; for tryWait and wait one if true *)
| q_acquired s s' b ts ac de i how r : nth_error ts i = Some (Dequeue how, Acquiring) -> (how = Wait Never -> r <> 0) -> moves i s s' (Done r) ->
    qstep (mkQ s b ts ac de) (mkQ s' b (upd ts i (Dequeue how, Take r [])) ac de)
(* while (!inner.try_dequeue(item)) { continue; }; while (count != max) { count += inner.try_dequeue_bulk(itemFirst, max - count); } *)
| q_take s b1 x b2 ts ac de i c left got : nth_error ts i = Some (c, Take left got) -> left <> 0 ->
    qstep (mkQ s (b1 ++ x :: b2) ts ac de) (mkQ s (b1 ++ b2) (upd ts i (c, Take (left - 1) (got ++ [x]))) ac de)
| q_taken s b ts ac de i c got : nth_error ts i = Some (c, Take 0 got) -> qstep (mkQ s b ts ac de) (mkQ s b (upd ts i (c, QDone got)) ac (got :: de)).
(** a thread calls a function of the queue *)
Inductive qcalls : qsys -> qsys -> Prop :=
| q_enqueue s b ts ac de i c0 got xs : nth_error ts i = Some (c0, QDone got) -> qvalid (Enqueue xs) -> qcalls (mkQ s b ts ac de) (mkQ s b (upd ts i (Enqueue xs, Enter)) ac de)
| q_dequeue s s' b ts ac de i c0 got how : nth_error ts i = Some (c0, QDone got) -> qvalid (Dequeue how) -> starts i how s s' ->
    qcalls (mkQ s b ts ac de) (mkQ s' b (upd ts i (Dequeue how, Acquiring)) ac de).
Inductive qreach (n : nat) : qsys -> Prop :=
| qr_init : qreach n (qinit n)
| qr_step a b : qreach n a -> qstep a b -> qreach n b
| qr_call a b : qreach n a -> qcalls a b -> qreach n b.
(** 537-540 *)
Definition size_approx (a : qsys) : Z := availableApprox (sem a).
End Queue.
Arguments QNothing {A}. Arguments Enqueue {A}. Arguments Dequeue {A}. Arguments QDone {A}. Arguments Enter {A}. Arguments Put {A}. Arguments Signalling {A}. Arguments Acquiring {A}. Arguments Take {A}.
Arguments mkQ {A}. Arguments sem {A}. Arguments bag {A}. Arguments qthreads {A}. Arguments accepted {A}. Arguments delivered {A}.
Arguments qstep {A}. Arguments qcalls {A}. Arguments qreach {A}. Arguments qinit {A}. Arguments busy {A}. Arguments size_approx {A}. Arguments qvalid {A}.
