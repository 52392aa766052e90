(** What the calls of a counting semaphore may return. *)

From Coq Require Import ZArith List Bool.
From Verif Require Import Base LwSemModel.
Open Scope Z_scope.

(** permits returned by a finished call; for tryWait and wait 1 is true *)
Definition result_ok (c : call) (r : Z) : Prop :=
  match c with
  | Nothing | Signal _ => r = 0
  | TryWait | Wait After => r = 0 \/ r = 1
  | Wait Never => r = 1
  | TryWaitMany max => 0 <= r <= max
  | WaitMany max After => 0 <= r <= max
  | WaitMany max Never => Z.min 1 max <= r <= max
  end.
(** The place a thread has reached in its call. *)
Definition thread_at (a : sys) (i : nat) (c : call) (p : pc) : Prop := nth_error (threads a) i = Some (c, p).
(** no call is under way *)
Definition quiet (a : sys) : Prop := forall i c p, thread_at a i c p -> exists r, p = Done r.
(** no thread is between its call of signal and its return *)
Definition no_signal (a : sys) : Prop := forall i c p, thread_at a i c p -> (exists n, c = Signal n) -> exists r, p = Done r.
(** no call can make a step *)
Definition stuck (a : sys) : Prop := forall b, ~ step a b.
(** the thread waits on the kernel semaphore, for ever or with a timeout *)
Definition asleep (p : pc) : Prop := exists k max, p = Block k max \/ p = Sleep k max.
(** the thread's timeout has passed and it gives its place back *)
Definition gives_up (p : pc) : Prop := exists k max, p = Adjust k max \/ exists old, p = AdjustOld k max old.
(** permits a thread has taken in a call that has not returned yet *)
Definition in_hand (p : pc) : Z := match p with Load _ _ acc _ | Cas _ _ acc _ _ => acc | _ => 0 end.
Definition all_in_hand (a : sys) : Z := fold_right (fun x n => in_hand (snd x) + n) 0 (threads a).
