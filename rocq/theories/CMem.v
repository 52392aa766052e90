(** Raw memory blocks of bytes: calloc, realloc, memmove and pointer access.
    This file models the C library contract, not a file of /repo.  A byte is
    [None] while indeterminate.  Allocation never fails (simplification). *)

From Coq Require Import ZArith List Lia Bool.
From Verif Require Import Base CppText.
Import ListNotations.
Open Scope Z_scope.

Definition block := list (option Z).

Definition c_calloc (n : Z) : block := repeat (Some 0) (Z.to_nat n).
(** [realloc]: keeps the common prefix, the rest is indeterminate. *)
Definition c_realloc (b : block) (n : Z) : block := firstn (Z.to_nat n) b ++ repeat None (Z.to_nat n - length b).
(** [p[i]] and [p[i] = v]. *)
Definition mget (b : block) (i : Z) : outcome Z :=
  match znth b i with Some (Some c) => Ok c | Some None => UB Uninitialised | None => UB OutOfBounds end.
Definition mset (b : block) (i : Z) (v : Z) : outcome block :=
  match znth b i with Some _ => Ok (zupd b i (Some v)) | None => UB OutOfBounds end.
(** [memmove(p + dst, p + src, (size_t) n)]: a negative [n] converts to a
    huge size.  Indeterminate bytes may be copied. *)
Definition memmove (b : block) (dst src n : Z) : outcome block :=
  if (0 <=? n) && (0 <=? src) && (src + n <=? zlen b) && (0 <=? dst) && (dst + n <=? zlen b)
  then Ok (firstn (Z.to_nat dst) b ++ firstn (Z.to_nat n) (skipn (Z.to_nat src) b) ++ skipn (Z.to_nat (dst + n)) b)
  else UB OutOfBounds.
(** [for (; src < stop; src++, dst++) p[dst] = rd(src);] *)
Fixpoint copy_in (fuel : nat) (rd : Z -> outcome Z) (b : block) (dst src stop : Z) : outcome block :=
  match fuel with
  | O => OutOfFuel
  | S f => if src <? stop then let* x := rd src in let* b' := mset b dst x in copy_in f rd b' (dst + 1) (src + 1) stop
           else Ok b
  end.
