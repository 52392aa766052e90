(** Specification of MD5 (RFC 1321) on byte sequences. *)

From Coq Require Import ZArith List Bool.
From Verif Require Import Base.
Import ListNotations.
Open Scope Z_scope.

Definition W32 : Z := 4294967296.
(** 32-bit words: sum, complement, rotation to the left. *)
Definition add32 (a b : Z) : Z := (a + b) mod W32.
Definition not32 (a : Z) : Z := (W32 - 1 - a) mod W32.
Definition rotl32 (x n : Z) : Z := (x * 2 ^ n) mod W32 + x / 2 ^ (32 - n).

(** Section 3.4: the table T (integer part of 2^32 * abs(sin(i)), i in radians), the auxiliary functions, the message index and the shift of step [i] = 0..63. *)
Definition md5_T : list Z :=
  [0xd76aa478; 0xe8c7b756; 0x242070db; 0xc1bdceee;
   0xf57c0faf; 0x4787c62a; 0xa8304613; 0xfd469501;
   0x698098d8; 0x8b44f7af; 0xffff5bb1; 0x895cd7be;
   0x6b901122; 0xfd987193; 0xa679438e; 0x49b40821;
   0xf61e2562; 0xc040b340; 0x265e5a51; 0xe9b6c7aa;
   0xd62f105d; 0x02441453; 0xd8a1e681; 0xe7d3fbc8;
   0x21e1cde6; 0xc33707d6; 0xf4d50d87; 0x455a14ed;
   0xa9e3e905; 0xfcefa3f8; 0x676f02d9; 0x8d2a4c8a;
   0xfffa3942; 0x8771f681; 0x6d9d6122; 0xfde5380c;
   0xa4beea44; 0x4bdecfa9; 0xf6bb4b60; 0xbebfbc70;
   0x289b7ec6; 0xeaa127fa; 0xd4ef3085; 0x04881d05;
   0xd9d4d039; 0xe6db99e5; 0x1fa27cf8; 0xc4ac5665;
   0xf4292244; 0x432aff97; 0xab9423a7; 0xfc93a039;
   0x655b59c3; 0x8f0ccc92; 0xffeff47d; 0x85845dd1;
   0x6fa87e4f; 0xfe2ce6e0; 0xa3014314; 0x4e0811a1;
   0xf7537e82; 0xbd3af235; 0x2ad7d2bb; 0xeb86d391].
Definition md5_aux (round : Z) (x y z : Z) : Z :=
  if round =? 0 then Z.lor (Z.land x y) (Z.land (not32 x) z)
  else if round =? 1 then Z.lor (Z.land x z) (Z.land y (not32 z))
  else if round =? 2 then Z.lxor (Z.lxor x y) z
  else Z.lxor y (Z.lor x (not32 z)).
Definition md5_index (i : Z) : Z :=
  if i <? 16 then i else if i <? 32 then (5 * i + 1) mod 16 else if i <? 48 then (3 * i + 5) mod 16 else (7 * i) mod 16.
Definition md5_shift (i : Z) : Z :=
  nth (Z.to_nat (4 * (i / 16) + i mod 4)) [7; 12; 17; 22; 5; 9; 14; 20; 4; 11; 16; 23; 6; 10; 15; 21] 0.

(** Low-order byte first. *)
Definition le_bytes (n : nat) (x : Z) : list Z := map (fun i => (x / 256 ^ Z.of_nat i) mod 256) (seq 0 n).
Definition byte_at (l : list Z) (i : Z) : Z := nth (Z.to_nat i) l 0.
Definition le_word32 (l : list Z) (k : Z) : Z :=
  byte_at l (4 * k) + 256 * byte_at l (4 * k + 1) + 65536 * byte_at l (4 * k + 2) + 16777216 * byte_at l (4 * k + 3).

Definition quad : Type := Z * Z * Z * Z.
Definition md5_step (block : list Z) (h : quad) (i : Z) : quad :=
  let '(a, b, c, d) := h in
  let sum := add32 (add32 (add32 a (md5_aux (i / 16) b c d)) (le_word32 block (md5_index i))) (nth (Z.to_nat i) md5_T 0) in
  (d, add32 b (rotl32 sum (md5_shift i)), b, c).
Definition md5_block (h : quad) (block : list Z) : quad :=
  let '(a, b, c, d) := h in
  let '(a', b', c', d') := fold_left (md5_step block) (map Z.of_nat (seq 0 64)) h in
  (add32 a a', add32 b b', add32 c c', add32 d d').
(** [n] blocks of 64 bytes. *)
Fixpoint md5_blocks (n : nat) (h : quad) (l : list Z) : quad :=
  match n with
  | O => h
  | S k => md5_blocks k (md5_block h (firstn 64 l)) (skipn 64 l)
  end.

(** Sections 3.1 and 3.2: a byte 128, zero bytes up to 56 modulo 64, and the length in bits as 8 bytes. *)
Definition md5_pad (msg : list Z) : list Z :=
  msg ++ [128] ++ repeat 0 (Z.to_nat ((55 - zlen msg) mod 64)) ++ le_bytes 8 (8 * zlen msg).
Definition md5_iv : quad := (0x67452301, 0xefcdab89, 0x98badcfe, 0x10325476).
Definition md5 (msg : list Z) : list Z :=
  let p := md5_pad msg in
  let '(a, b, c, d) := md5_blocks (length p / 64) md5_iv p in
  le_bytes 4 a ++ le_bytes 4 b ++ le_bytes 4 c ++ le_bytes 4 d.
