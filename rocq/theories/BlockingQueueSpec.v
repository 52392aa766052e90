(** What the threads of a blocking queue have in their hands. *)

From Coq Require Import ZArith List Bool.
From Verif Require Import Base LwSemModel LwSemSpec BlockingQueueModel.
Import ListNotations.
Open Scope Z_scope.

Section Queue.
Context {A : Type}.
Definition qthread_at (a : qsys A) (i : nat) (c : qcall A) (q : qpc A) : Prop := nth_error (qthreads a) i = Some (c, q).
(** items a call of enqueue that is still inside the inner queue has already put in *)
Definition being_put (t : qcall A * qpc A) : list A :=
  match t with (Enqueue xs, Put rest) => firstn (List.length xs - List.length rest) xs | _ => [] end.
(** items a call of dequeue that has not returned yet has already taken *)
Definition in_hands (t : qcall A * qpc A) : list A := match snd t with Take _ got => got | _ => [] end.
(** items it is still going to take *)
Definition to_take (t : qcall A * qpc A) : Z := match snd t with Take m _ => m | _ => 0 end.
Definition all_to_take (a : qsys A) : Z := fold_right (fun t n => to_take t + n) 0 (qthreads a).
(** everything that was put in, everything that was taken out *)
Definition put_in (a : qsys A) : list A := concat (accepted a) ++ flat_map being_put (qthreads a).
Definition taken_out (a : qsys A) : list A := concat (delivered a) ++ flat_map in_hands (qthreads a).
(** no call can make a step *)
Definition qstuck (a : qsys A) : Prop := forall b, ~ qstep a b.
(** no call of the queue is under way; no call of enqueue is *)
Definition qquiet (a : qsys A) : Prop := forall i c q, qthread_at a i c q -> exists got, q = QDone got.
Definition no_enqueue (a : qsys A) : Prop := forall i c q, qthread_at a i c q -> (exists xs, c = Enqueue xs) -> exists got, q = QDone got.
End Queue.
