(** What a thread may expect of the table of sub-queues, in terms of calls and
    returns. *)

From Coq Require Import ZArith List.
From Verif Require Import ProducerHashModel.
Import ListNotations.
Open Scope Z_scope.

(** The thread has been given a sub-queue before. *)
Definition known (l : list label) (i : nat) : Prop := exists q, In (Returned i (Some q)) l.
(** The steps a thread has made in the call it is in. *)
Definition count_own (i : nat) (n : Z) (e : label) : Z :=
  match e with
  | Called j | Returned j _ => if Nat.eqb j i then 0 else n
  | Inside j _ => if Nat.eqb j i then n + 1 else n
  end.
Definition own (i : nat) (l : list label) : Z := fold_left (count_own i) l 0.
(** The places of the first [n] tables, with one more for each table. *)
Fixpoint places (s : shared) (n : nat) : Z := match n with O => 0 | S m => places s m + cap (tabs s m) + 1 end.

(** Left alone the thread returns, whether it gets the memory it asks for or
    not. *)
Inductive finishes (tid : nat -> Z) (hash : Z -> Z) (i : nat) : shared -> pc -> Prop :=
| finishes_now s r : finishes tid hash i s (Ret r)
| finishes_later s p : busy p -> (forall ok, finishes tid hash i (fst (act tid hash ok i p s)) (snd (act tid hash ok i p s))) -> finishes tid hash i s p.
