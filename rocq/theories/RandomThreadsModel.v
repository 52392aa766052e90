(** Threads sharing one generator: /repo/library/Java/Util/Random/Random.cpp:126-134
    (next) and 257-260 (setSeed).

    The atomic accesses of a call of next are a load of [seed] and a
    compare_exchange_weak, which may fail spuriously; any thread may run
    between them.  The signed arithmetic of line 131 is that of gcc/x86-64.
    Atomics are sequentially consistent (the default order, as in the code).
    Not modelled: haveNextGaussianNumber, a plain field. *)

From Coq Require Import ZArith List Bool.
From Verif Require Import Base RandomModel.
Import ListNotations.
Open Scope Z_scope.

Inductive gcall : Type := Next (bits : Z) | Seed (seed : Z).

(** Where a thread is: between calls; about to load (line 130); about to exchange (line 132). *)
Inductive rpc : Type := Between | Loading (bits : Z) | Exchanging (bits old new : Z).
Definition rthread : Type := rpc * list gcall.
(** [done_]: the finished calls, with their values (0 for setSeed), in the order in which they took effect *)
Record rconfig := mkR { seed_of : Z; rthreads : list rthread; done_ : list (nat * gcall * Z) }.

Fixpoint set_rthread (n : nat) (t : rthread) (l : list rthread) : list rthread :=
  match l, n with
  | [], _ => []
  | _ :: r, O => t :: r
  | x :: r, S k => x :: set_rthread k t r
  end.

Inductive rstep (n : nat) : rconfig -> rconfig -> Prop :=
| r_enter bits rest c : nth_error (rthreads c) n = Some (Between, Next bits :: rest) ->
    rstep n c (mkR (seed_of c) (set_rthread n (Loading bits, rest) (rthreads c)) (done_ c))
(** Random.cpp:258: the store of setSeed *)
| r_seed s rest c : nth_error (rthreads c) n = Some (Between, Seed s :: rest) ->
    rstep n c (mkR (initialScramble s) (set_rthread n (Between, rest) (rthreads c)) (done_ c ++ [(n, Seed s, 0)]))
(** Random.cpp:130-131 *)
| r_load bits rest c new : nth_error (rthreads c) n = Some (Loading bits, rest) -> advance HW (seed_of c) = Ok new ->
    rstep n c (mkR (seed_of c) (set_rthread n (Exchanging bits (seed_of c) new, rest) (rthreads c)) (done_ c))
(** Random.cpp:132: the exchange succeeds; 133: the value returned *)
| r_exchange bits old new rest c v : nth_error (rthreads c) n = Some (Exchanging bits old new, rest) -> seed_of c = old ->
    sshr HW 64 new (48 - bits) = Ok v ->
    rstep n c (mkR new (set_rthread n (Between, rest) (rthreads c)) (done_ c ++ [(n, Next bits, wrap 32 v)]))
(** Random.cpp:132: it fails, possibly spuriously *)
| r_fail bits old new rest c : nth_error (rthreads c) n = Some (Exchanging bits old new, rest) ->
    rstep n c (mkR (seed_of c) (set_rthread n (Loading bits, rest) (rthreads c)) (done_ c)).

Inductive rreach (c0 : rconfig) : rconfig -> Prop :=
| rreach_0 : rreach c0 c0
| rreach_step n c c' : rreach c0 c -> rstep n c c' -> rreach c0 c'.
(** Steps of thread [n] only. *)
Inductive ralone (n : nat) (c0 : rconfig) : rconfig -> Prop :=
| ralone_0 : ralone n c0 c0
| ralone_step c c' : ralone n c0 c -> rstep n c c' -> ralone n c0 c'.

Definition rstart (seed : Z) (programs : list (list gcall)) : rconfig := mkR (initialScramble seed) (map (fun p => (Between, p)) programs) [].
Definition rfinished (c : rconfig) : Prop := Forall (fun t => t = (Between, [])) (rthreads c).
