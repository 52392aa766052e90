(** Model of
    /repo/library/Java/Util/Concurrent/ConcurrentLinkedQueue/concurrentqueue.hpp:
    enqueue, try_dequeue and size_approx of the whole queue, called by any number
    of threads at a time, above the sub-queues of SubQueueModel.v: the step of a
    thread is one access to shared memory.

    Simplifications: loads return the latest value (SubQueueModel.v lets them
    return older ones); a sub-queue is named by its thread, and getting it
    (C110) and putting it on the list (3183-3206) is one step, which does not
    fail; the counters are unbounded (see C91_circular_less_than, C111). *)

From Coq Require Import ZArith List Bool.
From Verif Require Import Base SubQueueModel.
Import ListNotations.
Open Scope Z_scope.

Section Queue.
Context {T : Type}.
Variables (B : Z) (nothrow : bool).

(** Where a call is. *)
Inductive opc : Type :=
| Resting
| Adding                                                                        (** in the enqueue of the own sub-queue (1316) *)
| ScanT (ps : list nat) (count : nat) (best : option nat) (size : Z)             (** 1072: next sub-queue? load its tailIndex (1680) *)
| ScanH (p : nat) (tl : Z) (ps : list nat) (count : nat) (best : option nat) (size : Z)  (** load its headIndex (1681) *)
| Best (b : nat)                                                                (** in best->dequeue (1086) *)
| Again (b : nat)                                                               (** load producerListTail (1089) *)
| Next (b : nat) (ps : list nat)                                                (** next sub-queue? (1089-1090) *)
| Other (b : nat) (ps : list nat)                                               (** in ptr->dequeue (1090) *)
| SizeT (ps : list nat) (acc : Z)                                               (** 1268: next sub-queue? load its tailIndex *)
| SizeH (p : nat) (tl : Z) (ps : list nat) (acc : Z)                             (** load its headIndex *)
| Crash.                                                                        (** best is null (1086) *)
(** Calls that have returned, latest first. *)
Inductive oevent : Type :=
| Added (t : nat) (v : T)
| NotAdded (t : nat)                                  (** no memory, or the constructor threw *)
| Polled (t q : nat) (i : Z) (r : option T)           (** the element with index [i] of [q]; [None]: the assignment threw *)
| PollNone (t : nat)                                  (** try_dequeue returned false *)
| Sized (t : nat) (z : Z).
Record queue : Type := mkQ { inner : @state T; prods : list nat; ops : nat -> opc; log : list oevent }.
Inductive ochoice : Type := OAdd (v : T) | OPoll | OSize | OGo | OFail | OBlock (b : nat).

(** The next step of [t] in its sub-queue operation: loads return the latest value. *)
Definition now (s : @state T) (t : nat) : @choice T :=
  match pcs s t with
  | E0 _ => CLoad (head (subs s t))
  | D1 q _ => CLoad (over (subs s q))
  | D2 q _ _ => CLoad (opt (subs s q))
  | D4 q _ _ => CLoad (tail (subs s q))
  | _ => CGo
  end.
Definition inside (s : @state T) (t : nat) (c : ochoice) : option (@state T) :=
  match c with
  | OGo => step B nothrow s t (now s t)
  | OFail => step B nothrow s t CFail
  | OBlock b => step B nothrow s t (CBlock b)
  | _ => None
  end.
Definition goto (s : queue) (t : nat) (p : opc) : queue := mkQ (inner s) (prods s) (fupd (ops s) t p) (log s).
Definition done (s : queue) (t : nat) (e : oevent) : queue := mkQ (inner s) (prods s) (fupd (ops s) t Resting) (e :: log s).
Definition set_inner (s : queue) (i : @state T) : queue := mkQ i (prods s) (ops s) (log s).
(** begin the dequeue of [q]: load its tailIndex (2499) *)
Definition start (s : queue) (t q : nat) (p : opc) : option queue :=
  option_map (fun i => goto (set_inner s i) t p) (step B nothrow (inner s) t (CDeq q (tail (subs (inner s) q)))).
(** ProducerBase::size_approx (1678-1683) *)
Definition size_of (tl hd : Z) : Z := if hd <? tl then tl - hd else 0.
(** the operation of the sub-queue goes on; if it has returned, so may the call *)
Definition onward (s : queue) (t : nat) (c : ochoice) (p : opc) : option queue :=
  match inside (inner s) t c with
  | None => None
  | Some i =>
      let s' := set_inner s i in
      Some match pcs i t with
           | Idle =>
               match hist i with
               | Sent _ v :: _ => done s' t (Added t v)
               | Refused _ :: _ => done s' t (NotAdded t)
               | Got _ q k r :: _ => done s' t (Polled t q k r)
               | Nothing _ _ :: _ => goto s' t p
               | [] => s'
               end
           | _ => s'
           end
  end.

Definition ostep (s : queue) (t : nat) (c : ochoice) : option queue :=
  match ops s t, c with
  | Resting, OAdd v =>
      (* 1312-1317, 2434-2436 *)
      let ps := if existsb (Nat.eqb t) (prods s) then prods s else t :: prods s in
      option_map (fun i => goto (mkQ i ps (ops s) (log s)) t Adding) (step B nothrow (inner s) t (CEnq v))
  | Adding, _ => onward s t c Resting
  | Resting, OPoll => Some (goto s t (ScanT (prods s) 0 None 0))
  | ScanT ps count best size, OGo =>
      match (if Nat.ltb count 3 then ps else []) with
      | p :: r => Some (goto s t (ScanH p (tail (subs (inner s) p)) r count best size))
      | [] =>
          match count, best with
          | O, _ => Some (done s t (PollNone t))
          | S _, None => Some (goto s t Crash)
          | S _, Some b => start s t b (Best b)
          end
      end
  | ScanH p tl ps count best size, OGo =>
      let z := size_of tl (head (subs (inner s) p)) in
      Some (goto s t (if 0 <? z then (if size <? z then ScanT ps (S count) (Some p) z else ScanT ps (S count) best size) else ScanT ps count best size))
  | Best b, _ => onward s t c (Again b)
  | Again b, OGo => Some (goto s t (Next b (prods s)))
  | Next b [], OGo => Some (done s t (PollNone t))
  | Next b (p :: r), OGo => if Nat.eqb p b then Some (goto s t (Next b r)) else start s t p (Other b r)
  | Other b ps, _ => onward s t c (Next b ps)
  | Resting, OSize => Some (goto s t (SizeT (prods s) 0))
  | SizeT [] acc, OGo => Some (done s t (Sized t acc))
  | SizeT (p :: r) acc, OGo => Some (goto s t (SizeH p (tail (subs (inner s) p)) r acc))
  | SizeH p tl r acc, OGo => Some (goto s t (SizeT r (acc + size_of tl (head (subs (inner s) p)))))
  | _, _ => None
  end.
Definition start_queue : queue := mkQ init [] (fun _ => Resting) [].
Fixpoint orun (s : queue) (p : list (nat * ochoice)) : option queue :=
  match p with [] => Some s | (t, c) :: q => match ostep s t c with Some s' => orun s' q | None => None end end.
(** all the moments of a run *)
Fixpoint moments (s : queue) (p : list (nat * ochoice)) : list queue :=
  s :: match p with [] => [] | (t, c) :: q => match ostep s t c with Some s' => moments s' q | None => [] end end.
End Queue.
