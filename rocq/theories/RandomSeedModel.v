(** Model of the constructor without arguments of
    /repo/library/Java/Util/Random/Random.cpp: 37 (the shared field), 48-49 (the
    constructor), 56-61 (nanoTime), 87-95 (seedUniquifier), called by any
    number of threads.

    The atomic accesses of a call are a load of the shared field and a
    compare_exchange_strong; any thread may run between them.  The clock is
    arbitrary: each reading may be any value, so that the order in which the
    two operands of ^ are evaluated (open in C++11) does not matter.
    The steps use the signed arithmetic of gcc/x86-64; [next_unique] has the
    one of ISO C++ too. *)

From Coq Require Import ZArith List Bool Arith.
From Verif Require Import Base RandomModel.
Import ListNotations.
Open Scope Z_scope.

(** Random.cpp:37 *)
Definition FIRST : Z := 8682522807148012.
(** Random.cpp:92 *)
Definition next_unique (m : cpp) (current : Z) : outcome Z := smul m 64 current 181783497276652981.
(** Random.cpp:48, 67-69 *)
Definition seed_from (unique clock : Z) : Z := initialScramble (Z.lxor unique clock).

(** Where a thread is: outside; about to load (91); about to exchange (93),
    [current] being the value loaded; about to store the seed (68), with the
    value of seedUniquifier, the [k]-th taken by any thread. *)
Inductive stage : Type := Outside | Trying | Loaded (current : Z) | Seeding (k : nat) (unique : Z).
Definition generator : Type := (nat * Z * Z * Z)%type.   (* k, unique, clock, seed *)
Record world := mkW {
  field : Z;                  (* seedUniquifierField *)
  at_ : nat -> stage;
  taken : list (nat * Z);     (* thread and value of each seedUniquifier() that returned, in order *)
  made : list generator;
  failed : nat }.             (* exchanges that failed *)
Definition at_set (f : nat -> stage) (t : nat) (x : stage) : nat -> stage := fun t' => if Nat.eqb t' t then x else f t'.

Definition start : world := mkW FIRST (fun _ => Outside) [] [] 0.
(** A step of thread [t] *)
Inductive step (t : nat) (w : world) : world -> Prop :=
| s_enter : at_ w t = Outside -> step t w (mkW (field w) (at_set (at_ w) t Trying) (taken w) (made w) (failed w))
| s_load : at_ w t = Trying -> step t w (mkW (field w) (at_set (at_ w) t (Loaded (field w))) (taken w) (made w) (failed w))
| s_exchange c u : at_ w t = Loaded c -> field w = c -> next_unique HW c = Ok u ->
    step t w (mkW u (at_set (at_ w) t (Seeding (length (taken w)) u)) (taken w ++ [(t, u)]) (made w) (failed w))
| s_again c : at_ w t = Loaded c -> field w <> c ->
    step t w (mkW (field w) (at_set (at_ w) t Trying) (taken w) (made w) (S (failed w)))
| s_seed k u clock : at_ w t = Seeding k u ->
    step t w (mkW (field w) (at_set (at_ w) t Outside) (taken w) (made w ++ [(k, u, clock, seed_from u clock)]) (failed w)).
(** Threads 0, 1, ..., [n] - 1 *)
Inductive reach (n : nat) : world -> Prop :=
| reach_start : reach n start
| reach_step w t w' : reach n w -> (t < n)%nat -> step t w w' -> reach n w'.
