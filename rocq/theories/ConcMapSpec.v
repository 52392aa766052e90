(** What an atomic map shared by threads is: the canonical atomic object.

    A call takes effect in one indivisible step between its invocation and its
    response (linearizability, Herlihy and Wing 1990). *)

From Coq Require Import ZArith List Bool.
Import ListNotations.

Section Atomic.
(** Calls, replies, the state of the object, and what a call may do to it:
    [does s c s' r] takes the state [s] to [s'] and gives the reply [r]. *)
Context {call reply state : Type} (does : state -> call -> state -> reply -> Prop).

Inductive event : Type := Inv (t : nat) (c : call) | Res (t : nat) (r : reply).
Inductive status : Type := NoCall | Called (c : call) | Answered (r : reply).
Definition set_status (f : nat -> status) (t : nat) (x : status) : nat -> status := fun u => if Nat.eqb u t then x else f u.

(** [atomic s0 h s f]: the history [h] of invocations and responses is one of the atomic object that
    starts in [s0]; it may now be in state [s], and its threads in [f]. *)
Inductive atomic (s0 : state) : list event -> state -> (nat -> status) -> Prop :=
| at_start f : (forall t, f t = NoCall) -> atomic s0 [] s0 f
| at_call h s f t c f' : atomic s0 h s f -> f t = NoCall -> (forall u, f' u = set_status f t (Called c) u) -> atomic s0 (h ++ [Inv t c]) s f'
| at_effect h s f t c f' s' r : atomic s0 h s f -> f t = Called c -> does s c s' r -> (forall u, f' u = set_status f t (Answered r) u) -> atomic s0 h s' f'
| at_return h s f t r f' : atomic s0 h s f -> f t = Answered r -> (forall u, f' u = set_status f t NoCall u) -> atomic s0 (h ++ [Res t r]) s f'.

Definition linearizable (s0 : state) (h : list event) : Prop := exists s f, atomic s0 h s f.
End Atomic.
