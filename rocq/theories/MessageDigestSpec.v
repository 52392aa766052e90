(** What a message digest object promises: it remembers the bytes given so
    far, [digest] answers their hash, [reset] forgets them. *)

From Coq Require Import ZArith List Bool.
From Verif Require Import Base CppText.
Import ListNotations.
Open Scope Z_scope.

(** The calls: [Update p n] with the bytes readable at the pointer ([None]:
    null pointer); [Digest p n] with the number of bytes writable there. *)
Inductive call : Type :=
| Update (data : option (list Z)) (len : Z)
| Digest (buf : option Z) (len : Z)
| Reset.
Inductive answer : Type := Done | Hash (l : list Z) | Thrown (e : exn).

(** [H]: the hash function, [size] the length of its results, [after msg]:
    what the object remembers when [digest] has answered. *)
Section Promise.
Variables (H : list Z -> list Z) (size : Z) (after : list Z -> list Z).
Definition reply (msg : list Z) (c : call) : list Z * answer :=
  match c with
  | Update None _ => (msg, Thrown InterruptedException)
  | Update (Some d) n => if n =? 0 then (msg, Thrown InterruptedException) else (msg ++ firstn (Z.to_nat n) d, Done)
  | Digest None _ => (msg, Thrown InterruptedException)
  | Digest (Some _) n => if n <? size then (msg, Thrown InterruptedException) else (after msg, Hash (H msg))
  | Reset => ([], Done)
  end.
Fixpoint replies (msg : list Z) (cs : list call) : list answer :=
  match cs with
  | [] => []
  | c :: r => let (msg', a) := reply msg c in a :: replies msg' r
  end.
End Promise.

(** A caller that tells the truth about its buffers. *)
Definition honest (c : call) : Prop :=
  match c with
  | Update (Some d) n => 0 <= n <= zlen d /\ n <= int_max /\ Forall byte_ok d
  | Digest (Some room) n => n <= room
  | _ => True
  end.
