(** Model of /repo/library/Java/Security/MessageDigest/MessageDigest.cpp,
    MD5MessageDigest.cpp and SHA1MessageDigest.cpp. *)

From Coq Require Import ZArith List Bool String.
From Verif Require Import Base TextSpec CppText CMem Md5Model Sha1Model MessageDigestSpec.
Import ListNotations.
Open Scope Z_scope.

(** MD5MessageDigest.hpp and SHA1MessageDigest.hpp: state, hash, isFinished *)
Inductive engine : Type :=
| Md5Engine (state : md5_state) (hash : list Z) (isFinished : bool)
| Sha1Engine (state : sha_ctx) (hash : list Z) (isFinished : bool).

(** MD5MessageDigest.cpp:52-54, SHA1MessageDigest.cpp:30-32 (hash is byte[16], byte[20]) *)
Definition digest_length (e : engine) : Z := match e with Md5Engine _ _ _ => 16 | Sha1Engine _ _ _ => 20 end.
(** MD5MessageDigest.cpp:56-60, SHA1MessageDigest.cpp:34-38 *)
Definition engineReset (e : engine) : engine :=
  match e with
  | Md5Engine s _ _ => Md5Engine (md5_init (mbuf s)) (repeat 0 16) false
  | Sha1Engine _ _ _ => Sha1Engine SHA1_Init (repeat 0 20) false
  end.
(** MD5MessageDigest.cpp:31-33, SHA1MessageDigest.cpp:9-11: [new] gives indeterminate members, then engineReset *)
Definition new_md5 (junk : block) : engine := engineReset (Md5Engine (mkMd5 0 0 0 0 0 0 junk) [] false).
Definition new_sha1 : engine := engineReset (Sha1Engine SHA1_Init [] false).

(** MessageDigest.cpp:35-45 *)
Definition getInstance (junk : block) (algorithm : list Z) : outcome engine :=
  if str_eqb algorithm (T "MD5") then Ok (new_md5 junk)
  else if str_eqb algorithm (T "SHA1") then Ok new_sha1
  else Throw NoSuchAlgorithmException.

Section Modes.
Variable m : cpp.

(** MD5MessageDigest.cpp:62-64, SHA1MessageDigest.cpp:40-42 *)
Definition engineUpdate (e : engine) (d : list Z) (n : Z) : outcome engine :=
  match e with
  | Md5Engine s h f => let* s' := md5_append m s d n in Ok (Md5Engine s' h f)
  | Sha1Engine c h f => let* c' := SHA1_Update c d n in Ok (Sha1Engine c' h f)
  end.
(** MD5MessageDigest.cpp:39-50, SHA1MessageDigest.cpp:17-28 (after the length
    test): the bytes copied to the caller's buffer of [room] bytes *)
Definition engineDigest (e : engine) (room : Z) : outcome (engine * list Z) :=
  let* ' (e', h) :=
    match e with
    | Md5Engine s h f =>
        if negb f then let* ' (s', h') := md5_finish m s in Ok (Md5Engine s' h' f, h') else Ok (e, h)
    | Sha1Engine c h f =>
        if negb f then let* ' (c', h') := SHA1_Final c in Ok (Sha1Engine c' h' f, h') else Ok (e, h)
    end in
  if room <? zlen h then UB OutOfBounds else Ok (e', h).

(** MessageDigest.cpp:61-80: digest, reset, update; a throw leaves the object as it is *)
Definition invoke (e : engine) (c : call) : outcome (engine * answer) :=
  match c with
  | Update None _ => Ok (e, Thrown InterruptedException)
  | Update (Some d) n =>
      if n =? 0 then Ok (e, Thrown InterruptedException)
      else let* e' := engineUpdate e d n in Ok (e', Done)
  | Digest None _ => Ok (e, Thrown InterruptedException)
  | Digest (Some room) n =>
      if n <? digest_length e then Ok (e, Thrown InterruptedException)
      else let* ' (e', h) := engineDigest e room in Ok (e', Hash h)
  | Reset => Ok (engineReset e, Done)
  end.
Fixpoint invoke_all (e : engine) (cs : list call) : outcome (engine * list answer) :=
  match cs with
  | [] => Ok (e, [])
  | c :: r => let* ' (e', a) := invoke e c in let* ' (e2, l) := invoke_all e' r in Ok (e2, a :: l)
  end.
End Modes.

(** The object holds a pointer [spi] to its engine.  There is no user-written
    copy constructor, so a copy holds the same pointer, and ~MessageDigest
    (MessageDigest.cpp:47-51) deletes it.  [heap]: which engines are alive. *)
Definition heap := list bool.
Definition copy_object (spi : nat) : nat := spi.
Definition destroy (h : heap) (spi : nat) : outcome heap :=
  match nth_error h spi with
  | Some true => Ok (upd h spi false)
  | Some false => UB DoubleFree
  | None => UB OutOfBounds
  end.
