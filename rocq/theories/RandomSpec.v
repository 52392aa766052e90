(** The documented generator: a linear congruential sequence of 48-bit
    states; every draw returns the high bits of the next state. *)

From Coq Require Import ZArith List Bool.
From Verif Require Import Base.
Import ListNotations.
Open Scope Z_scope.

Definition lcg (x : Z) : Z := (x * 25214903917 + 11) mod 2 ^ 48.
(** The state after [n] draws. *)
Fixpoint state_after (n : nat) (x : Z) : Z := match n with O => x | S k => state_after k (lcg x) end.
Definition scrambled (seed : Z) : Z := (Z.lxor seed 25214903917) mod 2 ^ 48.
(** The [bits] high bits of a state, read as a 32-bit signed number. *)
Definition high (bits x : Z) : Z :=
  let v := x / 2 ^ (48 - bits) in if v <? 2 ^ 31 then v else v - 2 ^ 32.
(** A 64-bit signed number modulo 2^64. *)
Definition signed64 (v : Z) : Z := (v + 2 ^ 63) mod 2 ^ 64 - 2 ^ 63.

Inductive rcall : Type := NextInt | NextBounded (bound : Z) | NextBoolean | NextLong | NextFloat | NextDouble | SetSeed (seed : Z).
(** [RFraction n d]: the number n / 2^d. *)
Inductive ranswer : Type := RInt (v : Z) | RBool (b : bool) | RLong (v : Z) | RFraction (n d : Z) | RDone | RThrown (e : exn).

(** A draw [u] < 2^31 is unusable for [bound] when its group of [bound] numbers is incomplete. *)
Definition unusable (bound u : Z) : Prop := 2 ^ 31 < (u / bound + 1) * bound.

(** [gives x c a x']: in state [x] the call [c] answers [a] and leaves [x']. *)
Inductive gives (x : Z) : rcall -> ranswer -> Z -> Prop :=
| G_int : gives x NextInt (RInt (high 32 (lcg x))) (lcg x)
| G_bad b : b <= 0 -> gives x (NextBounded b) (RThrown InterruptedException) x
| G_pow k : 0 <= k < 31 -> gives x (NextBounded (2 ^ k)) (RInt (lcg x / 2 ^ (48 - k))) (lcg x)
| G_bound b n : 0 < b <= int_max -> (forall k, 0 <= k -> b <> 2 ^ k) ->
    (forall i, (i < n)%nat -> unusable b (high 31 (state_after (S i) x))) ->
    ~ unusable b (high 31 (state_after (S n) x)) ->
    gives x (NextBounded b) (RInt (high 31 (state_after (S n) x) mod b)) (state_after (S n) x)
| G_bool : gives x NextBoolean (RBool (2 ^ 47 <=? lcg x)) (lcg x)
| G_long : gives x NextLong (RLong (signed64 (high 32 (lcg x) * 2 ^ 32 + high 32 (lcg (lcg x))))) (lcg (lcg x))
| G_float : gives x NextFloat (RFraction (high 24 (lcg x)) 24) (lcg x)
| G_double : gives x NextDouble (RFraction (high 26 (lcg x) * 2 ^ 27 + high 27 (lcg (lcg x))) 53) (lcg (lcg x))
| G_seed s : gives x (SetSeed s) RDone (scrambled s).

Inductive gives_all (x : Z) : list rcall -> list ranswer -> Z -> Prop :=
| GA_nil : gives_all x [] [] x
| GA_cons c cs a l x1 x2 : gives x c a x1 -> gives_all x1 cs l x2 -> gives_all x (c :: cs) (a :: l) x2.
