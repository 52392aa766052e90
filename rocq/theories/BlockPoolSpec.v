(** What the users of the pool of blocks rely on, in terms of the history of
    calls only. *)
From Coq Require Import ZArith List Bool.
From Verif Require Import BlockPoolModel.
Import ListNotations.
Open Scope Z_scope.

(** How often block [b] was handed out, less how often it came back *)
Fixpoint in_use (h : list event) (b : Z) : Z :=
  match h with
  | [] => 0
  | Took _ x :: h => in_use h b + (if x =? b then 1 else 0)
  | Gave x :: h => in_use h b - (if x =? b then 1 else 0)
  | _ :: h => in_use h b
  end.

(** The number of blocks held by the callers or being asked for *)
Fixpoint demand (h : list event) : Z :=
  match h with
  | [] => 0
  | Called _ :: h => demand h + 1
  | Took _ _ :: h => demand h
  | Refused _ :: h => demand h - 1
  | Gave _ :: h => demand h - 1
  end.

(** The demand has never been above [d] *)
Definition demand_within (h : list event) (d : Z) : Prop :=
  forall h1 h2, h = h1 ++ h2 -> demand h1 <= d.

Definition of_thread (t : nat) (e : event) : bool :=
  match e with
  | Called x => Nat.eqb x t | Took x _ => Nat.eqb x t | Refused x => Nat.eqb x t
  | Gave _ => false
  end.

(** Thread [t] has called and not yet got an answer *)
Definition under_way (t : nat) (h : list event) : Prop :=
  exists a b, h = a ++ Called t :: b /\ forallb (fun e => negb (of_thread t e)) b = true.

(** Every block of the array and every block ever handed out is in use *)
Definition all_in_use (size : Z) (h : list event) : Prop :=
  (forall b, 0 <= b < size -> in_use h b = 1) /\
  (forall t b, In (Took t b) h -> in_use h b = 1).

(** The answer that ends history [h] for [t] came although/because at some
    moment of the call no block was free *)
Definition none_free_during_call (size : Z) (t : nat) (h : list event) : Prop :=
  exists h1 h2, h = h1 ++ h2 /\ under_way t h1 /\ all_in_use size h1 /\
    forallb (fun e => negb (of_thread t e)) h2 = true.
