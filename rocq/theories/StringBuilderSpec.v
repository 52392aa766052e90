(** Specification of java.lang.StringBuilder editing on character sequences. *)

From Coq Require Import ZArith List Bool.
From Verif Require Import Base CppText.
Import ListNotations.
Open Scope Z_scope.

(** [w] with the characters from [i] to [j] (excluded) replaced by [t]; the part from [i] to [j]. *)
Definition splice (w : str) (i j : Z) (t : str) : str := firstn (Z.to_nat i) w ++ t ++ skipn (Z.to_nat j) w.
Definition part (w : str) (i j : Z) : str := firstn (Z.to_nat (j - i)) (skipn (Z.to_nat i) w).

Inductive sop : Type :=
| SAppend (t : str) | SAppendChar (c : Z) | SAppendPart (t : str) (i j : Z) | SAppendArray (t : str) (offset len : Z)
| SInsert (at_ : Z) (t : str) | SInsertChar (at_ : Z) (c : Z) | SInsertPart (at_ : Z) (t : str) (i j : Z) | SInsertArray (at_ : Z) (t : str) (offset len : Z)
| SDelete (i j : Z) | SDeleteCharAt (i : Z) | SReplace (i j : Z) (t : str) | SReverse | SSetCharAt (i c : Z) | SSetLength (n : Z)
| SEnsureCapacity (n : Z) | STrimToSize
| SCharAt (i : Z) | SLength | SSubstring (i j : Z) | SToString.
Inductive sans : Type := SUnit | SChar (c : Z) | SInt (n : Z) | SStr (t : str) | SBad.

(** [sstep w o w' a]: the call turns [w] into [w'] and answers [a]; [SBad] is
    an exception, which leaves the sequence unchanged. *)
Definition sstep (w : str) (o : sop) (w' : str) (a : sans) : Prop :=
  let n := zlen w in
  let check (ok : Prop) (good : Prop) := (ok /\ good) \/ (~ ok /\ w' = w /\ a = SBad) in
  match o with
  | SAppend t => w' = w ++ t /\ a = SUnit
  | SAppendChar c => w' = w ++ [c] /\ a = SUnit
  | SAppendPart t i j => check (0 <= i <= j /\ j <= zlen t) (w' = w ++ part t i j /\ a = SUnit)
  | SAppendArray t off len => check (0 <= off /\ 0 <= len /\ off + len <= zlen t) (w' = w ++ part t off (off + len) /\ a = SUnit)
  | SInsert p t => check (0 <= p <= n) (w' = splice w p p t /\ a = SUnit)
  | SInsertChar p c => check (0 <= p <= n) (w' = splice w p p [c] /\ a = SUnit)
  | SInsertPart p t i j => check (0 <= p <= n /\ 0 <= i <= j /\ j <= zlen t) (w' = splice w p p (part t i j) /\ a = SUnit)
  | SInsertArray p t off len => check (0 <= p <= n /\ 0 <= off /\ 0 <= len /\ off + len <= zlen t) (w' = splice w p p (part t off (off + len)) /\ a = SUnit)
  | SDelete i j => check (0 <= i <= Z.min j n) (w' = splice w i (Z.min j n) [] /\ a = SUnit)
  | SDeleteCharAt i => check (0 <= i < n) (w' = splice w i (i + 1) [] /\ a = SUnit)
  | SReplace i j t => check (0 <= i <= n /\ i <= j) (w' = splice w i (Z.min j n) t /\ a = SUnit)
  | SReverse => w' = rev w /\ a = SUnit
  | SSetCharAt i c => check (0 <= i < n) (w' = splice w i (i + 1) [c] /\ a = SUnit)
  | SSetLength k => check (0 <= k) (w' = firstn (Z.to_nat k) w ++ repeat 0 (Z.to_nat k - length w) /\ a = SUnit)
  | SEnsureCapacity _ | STrimToSize => w' = w /\ a = SUnit
  | SCharAt i => check (0 <= i < n) (w' = w /\ exists c, znth w i = Some c /\ a = SChar c)
  | SLength => w' = w /\ a = SInt n
  | SSubstring i j => check (0 <= i <= j /\ j <= n) (w' = w /\ a = SStr (part w i j))
  | SToString => w' = w /\ a = SStr w
  end.
Inductive srun : str -> list sop -> str -> list sans -> Prop :=
| srun_nil w : srun w [] w []
| srun_cons w o w1 a ops w2 as_ : sstep w o w1 a -> srun w1 ops w2 as_ -> srun w (o :: ops) w2 (a :: as_).
