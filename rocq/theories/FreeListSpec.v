(** What the statements about the free list speak of. *)

From Coq Require Import ZArith List Bool.
From Verif Require Import Base FreeListModel.
Import ListNotations.
Open Scope Z_scope.

(** The nodes met when the pointers are followed from [p] are [l], in this order, and null ends them *)
Fixpoint linked (nx : node -> option node) (p : option node) (l : list node) : Prop :=
  match l with [] => p = None | n :: r => p = Some n /\ linked nx (nx n) r end.
(** the nodes on the list *)
Definition on_list (s : sys) (l : list node) : Prop := linked (next (memory s)) (head (memory s)) l /\ NoDup l.
(** no call is under way *)
Definition quiet (s : sys) : Prop := forall i p, nth_error (threads s) i = Some p -> p = Idle.
(** the call puts the node on the list, or has taken it from the list and is about to return it *)
Definition works_on (p : pc) (n : node) : Prop :=
  match p with
  | A0 x | A1 x _ | A2 x _ _ | A3 x _ _ | A4 x _ _ | A5 x _ _ | G6 x => x = n
  | _ => False
  end.
(** the call has counted itself among the references to the node and looks at it *)
Definition looks_at (p : pc) (n : node) : Prop := match p with G4 x | G5 x _ | G7 x _ => x = n | _ => False end.
(** the flag SHOULD_BE_ON_FREELIST: the last call that looks at the node will put it on the list *)
Definition flagged (s : sys) (n : node) : Prop := 0x80000000 <= refs (memory s) n.
(** [k] steps of the calls under way, by any of the threads; no new call *)
Inductive steps (stale : bool) : nat -> sys -> sys -> Prop :=
| st_none s : steps stale O s s
| st_more k i l a b c : step stale i l a b -> steps stale k b c -> steps stale (S k) a c.
(** thread [i] alone makes steps until its call returns [r] *)
Inductive alone (stale : bool) (i : nat) : sys -> label -> sys -> Prop :=
| al_last l a b : step stale i l a b -> l <> Tau -> alone stale i a l b
| al_more l a b c : step stale i Tau a b -> alone stale i b l c -> alone stale i a l c.
(** What happens between two states: calls and steps of any thread *)
Inductive moves (stale : bool) : sys -> sys -> Prop :=
| mv_step i l a b : step stale i l a b -> moves stale a b
| mv_call i a b : calls i a b -> moves stale a b.
(** an execution from [a] to [b] and the states on the way, [a] included and [b] excluded *)
Inductive during (stale : bool) : sys -> list sys -> sys -> Prop :=
| du_none a : during stale a [] a
| du_more a b l c : during stale a l b -> moves stale b c -> during stale a (l ++ [b]) c.
(** exactly one of four *)
Definition exactly_one (a b c d : Prop) : Prop :=
  (a /\ ~ b /\ ~ c /\ ~ d) \/ (~ a /\ b /\ ~ c /\ ~ d) \/ (~ a /\ ~ b /\ c /\ ~ d) \/ (~ a /\ ~ b /\ ~ c /\ d).
(** thread [i] is inside a call *)
Definition in_call (s : sys) (i : nat) : Prop := exists p, nth_error (threads s) i = Some p /\ p <> Idle.
