(** What the queue promises to threads that call it at the same time, in terms
    of the calls that have returned. *)

From Coq Require Import ZArith List Bool.
From Verif Require Import Base SubQueueModel QueueWholeModel.
Import ListNotations.
Open Scope Z_scope.

Section Spec.
Context {T : Type}.
Variables (B : Z) (nothrow : bool).
Notation queue := (@queue T).
Definition possible (s : queue) : Prop := exists p, orun B nothrow start_queue p = Some s.
(** The values that thread [q] has added, in its order. *)
Fixpoint added (q : nat) (h : list (@oevent T)) : list T :=
  match h with [] => [] | Added u v :: h' => if Nat.eqb u q then added q h' ++ [v] else added q h' | _ :: h' => added q h' end.
(** The elements that have been polled: who added them, and their place in that
    thread's order. *)
Fixpoint polled (h : list (@oevent T)) : list (nat * Z) :=
  match h with [] => [] | Polled _ q i _ :: h' => (q, i) :: polled h' | _ :: h' => polled h' end.
Definition polled_of (q : nat) (h : list (@oevent T)) : Z := zlen (filter (fun d => Nat.eqb (fst d) q) (polled h)).
Definition caller (e : @oevent T) : nat := match e with Added t _ | NotAdded t | Polled t _ _ _ | PollNone t | Sized t _ => t end.
(** [t] is in a poll. *)
Definition polling (s : queue) (t : nat) : bool :=
  match ops s t with Resting | Adding | SizeT _ _ | SizeH _ _ _ _ => false | _ => true end.
Definition own_steps (t : nat) (p : list (nat * @ochoice T)) : nat := length (filter (fun d => Nat.eqb (fst d) t) p).
Definition is_poll (c : @ochoice T) : bool := match c with OPoll => true | _ => false end.
(** How many elements of [q] have been put in and taken out. *)
Definition put (s : queue) (q : nat) : Z := tail (subs (inner s) q).
Definition taken (s : queue) (q : nat) : Z := head (subs (inner s) q).
Definition sum (f : nat -> Z) (l : list nat) : Z := fold_right (fun q n => f q + n) 0 l.
(** How many elements there are; other threads than those on the list have none. *)
Definition present (s : queue) : Z := sum (fun q => put s q - taken s q) (prods s).
End Spec.
