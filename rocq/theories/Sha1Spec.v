(** Specification of SHA-1 (FIPS 180) on byte sequences. *)

From Coq Require Import ZArith List Bool.
From Verif Require Import Base Md5Spec.
Import ListNotations.
Open Scope Z_scope.

(** High-order byte first. *)
Definition be_bytes (n : nat) (x : Z) : list Z := rev (le_bytes n x).
Definition be_word32 (l : list Z) (k : Z) : Z :=
  16777216 * byte_at l (4 * k) + 65536 * byte_at l (4 * k + 1) + 256 * byte_at l (4 * k + 2) + byte_at l (4 * k + 3).

(** The message schedule: 16 words of the block, then 64 more. *)
Definition next_word (w : list Z) (t : nat) : Z :=
  rotl32 (Z.lxor (Z.lxor (Z.lxor (nth (t - 3) w 0) (nth (t - 8) w 0)) (nth (t - 14) w 0)) (nth (t - 16) w 0)) 1.
Definition schedule (block : list Z) : list Z :=
  fold_left (fun w t => w ++ [next_word w t]) (seq 16 64) (map (fun k => be_word32 block (Z.of_nat k)) (seq 0 16)).

Definition sha_f (t : nat) (x y z : Z) : Z :=
  if (t <? 20)%nat then Z.lxor (Z.land x y) (Z.land (not32 x) z)
  else if (t <? 40)%nat then Z.lxor (Z.lxor x y) z
  else if (t <? 60)%nat then Z.lxor (Z.lxor (Z.land x y) (Z.land x z)) (Z.land y z)
  else Z.lxor (Z.lxor x y) z.
Definition sha_K (t : nat) : Z :=
  if (t <? 20)%nat then 0x5a827999 else if (t <? 40)%nat then 0x6ed9eba1 else if (t <? 60)%nat then 0x8f1bbcdc else 0xca62c1d6.

Definition quint : Type := Z * Z * Z * Z * Z.
Definition sha_step (w : list Z) (h : quint) (t : nat) : quint :=
  let '(a, b, c, d, e) := h in
  (add32 (add32 (add32 (add32 (rotl32 a 5) (sha_f t b c d)) e) (sha_K t)) (nth t w 0), a, rotl32 b 30, c, d).
Definition sha_block (h : quint) (block : list Z) : quint :=
  let '(a, b, c, d, e) := h in
  let '(a', b', c', d', e') := fold_left (sha_step (schedule block)) (seq 0 80) h in
  (add32 a a', add32 b b', add32 c c', add32 d d', add32 e e').
Fixpoint sha_blocks (n : nat) (h : quint) (l : list Z) : quint :=
  match n with
  | O => h
  | S k => sha_blocks k (sha_block h (firstn 64 l)) (skipn 64 l)
  end.

Definition sha_pad (msg : list Z) : list Z :=
  msg ++ [128] ++ repeat 0 (Z.to_nat ((55 - zlen msg) mod 64)) ++ be_bytes 8 (8 * zlen msg).
Definition sha_iv : quint := (0x67452301, 0xefcdab89, 0x98badcfe, 0x10325476, 0xc3d2e1f0).
Definition sha1 (msg : list Z) : list Z :=
  let p := sha_pad msg in
  let '(a, b, c, d, e) := sha_blocks (length p / 64) sha_iv p in
  be_bytes 4 a ++ be_bytes 4 b ++ be_bytes 4 c ++ be_bytes 4 d ++ be_bytes 4 e.
