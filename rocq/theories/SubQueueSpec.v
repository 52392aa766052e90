(** What the lock-free queue promises, in terms of the operations that have
    returned (a history, latest first). *)

From Coq Require Import ZArith List Bool.
From Verif Require Import Base SubQueueModel.
Import ListNotations.
Open Scope Z_scope.

Section Spec.
Context {T : Type}.
Notation event := (@event T).

(** the values thread [t] has enqueued, in its order *)
Fixpoint enqueued (t : nat) (h : list event) : list T :=
  match h with
  | [] => []
  | Sent u v :: h' => if Nat.eqb u t then enqueued t h' ++ [v] else enqueued t h'
  | _ :: h' => enqueued t h'
  end.
(** the elements handed out: producer and position in the producer's order *)
Fixpoint handed_out (h : list event) : list (nat * Z) :=
  match h with
  | [] => []
  | Got _ q i _ :: h' => (q, i) :: handed_out h'
  | _ :: h' => handed_out h'
  end.
Definition is_refused (e : event) : bool := match e with Refused _ => true | _ => false end.
Definition quiet (s : @state T) : Prop := forall t, pcs s t = Idle.
(** the operations that returned between two moments *)
Definition since (h h' new : list event) : Prop := h' = new ++ h.
(** the block a thread is working on *)
Definition uses (p : @pc T) : option nat :=
  match p with
  | E3 _ b | E4 _ b | E4x b | E5 _ b | D8 _ _ b | D9 _ _ b _ | D10 _ _ b _ | D11 _ _ b _ | D12 _ _ b _ => Some b
  | _ => None
  end.
(** the thread whose operation returned *)
Definition by_thread (e : event) : nat := match e with Sent t _ | Refused t | Got t _ _ _ | Nothing t _ => t end.
(** thread [t] goes on by itself, its loads returning the latest values *)
Definition latest (s : @state T) (t : nat) : @choice T :=
  match pcs s t with
  | D1 q _ => CLoad (over (subs s q))
  | D2 q _ _ => CLoad (opt (subs s q))
  | D4 q _ _ => CLoad (tail (subs s q))
  | _ => CGo
  end.
Fixpoint alone (B : Z) (nothrow : bool) (n : nat) (s : @state T) (t : nat) : option (@state T) :=
  match n with
  | O => Some s
  | S n' => match step B nothrow s t (latest s t) with Some s' => alone B nothrow n' s' t | None => None end
  end.
(** how many elements of sub-queue [q] have been handed out *)
Definition count_of (q : nat) (h : list event) : Z := zlen (filter (fun d => Nat.eqb (fst d) q) (handed_out h)).
(** how many of the steps are thread [t]'s *)
Definition steps_of (t : nat) (p : list (nat * @choice T)) : nat := List.length (filter (fun d => Nat.eqb (fst d) t) p).
Definition is_failure (c : @choice T) : bool := match c with CFail => true | _ => false end.
End Spec.
