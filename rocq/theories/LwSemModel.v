(** Model of moodycamel::LightweightSemaphore,
    /repo/library/Java/Util/Concurrent/LinkedBlockingQueue/lightweightsemaphore.hpp
    (the POSIX branch, 165-242, and 250-411): any number of threads share one
    semaphore.

    Every access to the atomic m_count and to the kernel semaphore is a step
    of its own; the scheduler picks any thread before every step.  A load of
    m_count may answer any value: this covers the stale values a relaxed load
    may give.  The read-modify-write operations see the current value, as
    C++11 demands.  sem_wait, sem_trywait, sem_timedwait, sem_post follow
    POSIX; their EINTR loops are left out (a retry changes nothing).  A timed
    wait may end by its timeout at any moment. *)

From Coq Require Import ZArith List Bool.
From Verif Require Import Base.
Import ListNotations.
Open Scope Z_scope.

Inductive timeout : Type := Never | After.  (* timeout_usecs < 0 or not *)
(** The calls; [signal] with any count >= 0, tryWaitMany and waitMany with any
    max >= 0 (asserted at 368, 382, 398). *)
Inductive call : Type :=
| Nothing
| TryWait | Wait (t : timeout) | TryWaitMany (max : Z) | WaitMany (max : Z) (t : timeout)
| Signal (n : Z).
Definition valid (c : call) : Prop := match c with TryWaitMany n | WaitMany n _ | Signal n => 0 <= n < 2 ^ 63 | Nothing => False | _ => True end.

(** Which of the twin functions: tryWait / waitWithPartialSpinning, or
    tryWaitMany / waitManyWithPartialSpinning. *)
Inductive style : Type := One | Many.
(** 271, 349: oldCount - 1; 307, 372: oldCount > max ? oldCount - max : 0 *)
Definition lower (k : style) (max old : Z) : Z := match k with One => old - 1 | Many => if max <? old then old - max else 0 end.

(** What a thread does next. *)
Inductive pc : Type :=
| Done (r : Z)                                              (* returned; [r] permits, 1 for true *)
| Load (k : style) (max acc : Z) (t : option timeout)       (* 346, 369; [Some]: wait if that fails *)
| Cas (k : style) (max acc : Z) (t : option timeout) (old : Z)  (* 347-351, 370-375 *)
| Spin (k : style) (max : Z) (t : timeout) (spin : Z)       (* 268-270, 302-305 *)
| SpinCas (k : style) (max : Z) (t : timeout) (spin old : Z)  (* 271, 307-309 *)
| Dec (k : style) (max : Z) (t : timeout)                   (* 275-276, 313-314 *)
| Block (k : style) (max : Z)                               (* 279, 318 *)
| Sleep (k : style) (max : Z)                               (* 280, 321 *)
| Adjust (k : style) (max : Z)                              (* 289, 325 *)
| AdjustOld (k : style) (max old : Z)                       (* 290-293, 326-329 *)
| Add (n : Z)                                               (* 399-400 *)
| Post (n : Z).                                             (* 234-240 *)

(** 276-277, 333-335: after the first permit *)
Definition got_one (k : style) (max : Z) : pc := match k with One => Done 1 | Many => if 1 <? max then Load Many (max - 1) 1 None else Done 1 end.
(** 344-405 *)
Definition start (c : call) : pc :=
  match c with
  | Nothing => Done 0
  | TryWait => Load One 1 0 None
  | Wait t => Load One 1 0 (Some t)
  | TryWaitMany max => Load Many max 0 None
  | WaitMany max t => Load Many max 0 (Some t)
  | Signal n => Add n
  end.
Definition SEM_VALUE_MAX : Z := 2147483647.
Definition spins : Z := 10000.

(** A step of a thread: m_count, kernel semaphore, pc before and after. *)
Inductive tstep : Z -> Z -> pc -> Z -> Z -> pc -> Prop :=
(* tryWait 344-353, tryWaitMany 366-377; the start of wait 355-363 and waitMany 380-394 *)
| t_load c s k max acc t old : tstep c s (Load k max acc t) c s (Cas k max acc t old)
| t_cas s k max acc t old : 0 < old -> tstep old s (Cas k max acc t old) (lower k max old) s (Done (acc + (old - lower k max old)))
| t_cas_fails c s k max acc t old : 0 < old -> tstep c s (Cas k max acc t old) c s (Cas k max acc t c) (* also spuriously *)
| t_cas_none c s k max acc old : old <= 0 -> tstep c s (Cas k max acc None old) c s (Done acc)
| t_cas_wait c s k max acc t old : old <= 0 -> 0 < max -> tstep c s (Cas k max acc (Some t) old) c s (Spin k max t spins)
| t_cas_zero c s k max acc t old : old <= 0 -> max <= 0 -> tstep c s (Cas k max acc (Some t) old) c s (Done acc)
(* waitWithPartialSpinning 261-295, waitManyWithPartialSpinning 297-336 *)
| t_spin_out c s k max t spin : spin <= 0 -> tstep c s (Spin k max t spin) c s (Dec k max t)
| t_spin c s k max t spin old : 0 < spin -> 0 < old -> tstep c s (Spin k max t spin) c s (SpinCas k max t (spin - 1) old)
| t_spin_none c s k max t spin old : 0 < spin -> old <= 0 -> tstep c s (Spin k max t spin) c s (Spin k max t (spin - 1))
| t_spin_cas s k max t spin old : tstep old s (SpinCas k max t spin old) (lower k max old) s (Done (old - lower k max old))
| t_spin_fails c s k max t spin old : c <> old -> tstep c s (SpinCas k max t spin old) c s (Spin k max t spin)
| t_dec c s k max t : 0 < c -> tstep c s (Dec k max t) (wrap 64 (c - 1)) s (got_one k max)
| t_dec_wait c s k max t : c <= 0 -> tstep c s (Dec k max t) (wrap 64 (c - 1)) s (match t with Never => Block k max | After => Sleep k max end)
| t_block c s k max : 0 < s -> tstep c s (Block k max) c (s - 1) (got_one k max)
| t_sleep c s k max : 0 < s -> tstep c s (Sleep k max) c (s - 1) (got_one k max)
| t_timeout c s k max : tstep c s (Sleep k max) c s (Adjust k max)
| t_adjust c s k max old : tstep c s (Adjust k max) c s (AdjustOld k max old)
| t_adjust_take c s k max old : 0 <= old -> 0 < s -> tstep c s (AdjustOld k max old) c (s - 1) (got_one k max)
| t_adjust_again c s k max old : 0 <= old -> s <= 0 -> tstep c s (AdjustOld k max old) c s (Adjust k max)
| t_adjust_back s k max old : old < 0 -> tstep old s (AdjustOld k max old) (old + 1) s (Done 0)
| t_adjust_fails c s k max old : old < 0 -> c <> old -> tstep c s (AdjustOld k max old) c s (Adjust k max)
(* signal 396-405; the count of the kernel semaphore's signal is an int *)
| t_add_release c s n : 0 < Z.min (- c) n -> tstep c s (Add n) (wrap 64 (c + n)) s (Post (wrap 32 (Z.min (- c) n)))
| t_add c s n : Z.min (- c) n <= 0 -> tstep c s (Add n) (wrap 64 (c + n)) s (Done 0)
| t_post c s n : 0 < n -> s < SEM_VALUE_MAX -> tstep c s (Post n) c (s + 1) (Post (n - 1))
| t_post_full c s n : 0 < n -> SEM_VALUE_MAX <= s -> tstep c s (Post n) c s (Post n)
| t_posted c s n : n <= 0 -> tstep c s (Post n) c s (Done 0).

(** The whole system: the two counters, the threads with their last or current
    call, and, for the statements, the permits all finished calls returned
    and the counts of all calls of signal. *)
Record sys : Type := mkSys { count : Z; sema : Z; threads : list (call * pc); granted : Z; signalled : Z }.
(** 339-342: any number of permits >= 0, any number of threads *)
Definition init (permits : Z) (n : nat) : sys := mkSys permits 0 (repeat (Nothing, Done 0) n) 0 0.
Definition returned (p : pc) : Z := match p with Done r => r | _ => 0 end.
Definition given (c : call) : Z := match c with Signal n => n | _ => 0 end.
(** a step inside a call *)
Inductive step : sys -> sys -> Prop :=
| s_run c s ts g r i k p c' s' p' : nth_error ts i = Some (k, p) -> tstep c s p c' s' p' ->
    step (mkSys c s ts g r) (mkSys c' s' (upd ts i (k, p')) (g + returned p') r).
(** a thread calls a function *)
Inductive calls : sys -> sys -> Prop :=
| s_call c s ts g r i k0 res k : nth_error ts i = Some (k0, Done res) -> valid k ->
    calls (mkSys c s ts g r) (mkSys c s (upd ts i (k, start k)) g (r + given k)).
Inductive reach (permits : Z) (n : nat) : sys -> Prop :=
| r_init : reach permits n (init permits n)
| r_step a b : reach permits n a -> step a b -> reach permits n b
| r_call a b : reach permits n a -> calls a b -> reach permits n b.
(** 407-411 *)
Definition availableApprox (s : sys) : Z := if 0 <? count s then count s else 0.
