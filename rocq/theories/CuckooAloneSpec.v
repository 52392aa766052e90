(** A thread that is left alone (C109). *)

From Coq Require Import ZArith List.
From Verif Require Import CuckooModel CuckooThreadsModel.
From Verif Require Import CuckooSpec.
Import ListNotations.

Section Spec.
Context {K V : Type} (hash : K -> Z) (keq : K -> K -> bool) (simple nothrow : bool).
Notation section := (section hash keq simple nothrow).
(** Any number of steps of one thread, while the others stand still. *)
Inductive solo (i : nat) : config -> config -> Prop :=
| solo_none c : solo i c c
| solo_more c t p c' : section (pcs c i) (tbl c) = Done t p -> solo i (mkC t (set_pc (@pcs K V c) i p)) c' -> solo i c c'.
(** The thread is inside a call of this operation. *)
Definition calling (p : @pc K V) : option (@op K V) :=
  match p with
  | Start o | Try o _ => Some o
  | Search k v _ _ _ | Follow k v _ _ _ _ | Move k v _ _ _ | Grow k v _ => Some (Put k v)
  | Sum _ _ => Some Size
  | Wipe | Zero => Some Clear
  | Idle | Reply _ => None
  end.
End Spec.
