(** Specification of semaphores: what calls do to the number of permits. *)

From Coq Require Import ZArith List Bool.
From Verif Require Import Base SemaphoreModel.
Import ListNotations.
Open Scope Z_scope.

Definition total {A} (f : A -> Z) (l : list A) : Z := fold_right (fun x a => f x + a) 0 l.

(** Permits added by a call that has returned [b]. *)
Definition effect (o : op) (b : bool) : Z :=
  match o with
  | Release n => n
  | TryAcquire n t => if t <? 0 then - Z.max 0 n else if b then - n else 0
  | Do _ => 0
  end.
(** Permits added so far by the call a thread is in: release counts from its store on,
    acquire counts the permits taken so far, tryAcquire counts from its store on. *)
Definition in_progress (p : pc) (ops : list op) : Z :=
  match p with
  | Idle => 0
  | Return b => match ops with o :: _ => effect o b | [] => 0 end
  | R73 _ | R74 _ | R75 _ | R75w _ _ => 0
  | R76 n | R77 n | R78 n => n
  | A91 _ i | A92 _ i | A93 _ i | A94 _ i _ | A97 _ i | A98 _ i | A98waiting _ i | A98woken _ i | A99 _ i | A101 _ i | A102 _ i | A102w _ i _ => - i
  | A103 _ i => - (i + 1)
  | T111 n | T134 n | T134c n => - n
  | _ => 0
  end.
Definition log_effect (l : list (nat * op * bool)) : Z := total (fun e => effect (snd (fst e)) (snd e)) l.
Definition threads_effect (l : list thread) : Z := total (fun t => in_progress (fst t) (snd t)) l.

(** Programs without acquire (tryAcquire with a negative timeout), all numbers non-negative. *)
Definition try_only (o : op) : Prop := match o with Release n => 0 <= n | TryAcquire n t => 0 <= n /\ 0 <= t | Do _ => True end.
(** All permits a program releases. *)
Definition released (l : list op) : Z := total (fun o => match o with Release n => Z.max 0 n | _ => 0 end) l.
(** All permits programs could take. *)
Definition requested (l : list op) : Z := total (fun o => match o with TryAcquire n _ => Z.max 0 n | _ => 0 end) l.

(** In the wait of acquire, or of tryAcquire. *)
Definition waiting (p : pc) : bool := match wake p with Some _ => true | None => false end.
(** Nothing can happen any more. *)
Definition stuck (spurious : bool) (c : config) : Prop := forall c', ~ step spurious c c'.
