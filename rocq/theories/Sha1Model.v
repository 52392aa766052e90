(** Model of /repo/library/Java/Security/MessageDigest/sha1.cpp and sha1.hpp.
    [unsigned int] is a 32-bit unsigned number. *)

From Coq Require Import ZArith List Bool.
From Verif Require Import Base.
Import ListNotations.
Open Scope Z_scope.

(** sha1.hpp: SHA_CTX; [cH] are the five words H[0..4], [cW] the array W[80] *)
Record sha_ctx := mkSha { cH : Z * Z * Z * Z * Z; cW : list Z; lenW : Z; sizeHi : Z; sizeLo : Z }.

(** sha1.cpp:38 *)
Definition SHA_ROT (x n : Z) : Z := Z.lor (uwrap 32 (Z.shiftl x n)) (Z.shiftr x (32 - n)).

(** sha1.cpp:42-58 *)
Definition SHA1_Init : sha_ctx :=
  mkSha (0x67452301, 0xefcdab89, 0x98badcfe, 0x10325476, 0xc3d2e1f0) (repeat 0 80) 0 0 0.

(** sha1.cpp:116-118; the indices run over 0..79, inside W *)
Definition expand (w : list Z) : list Z :=
  fold_left (fun w t => upd w t (SHA_ROT (Z.lxor (Z.lxor (Z.lxor (nth (t - 3) w 0) (nth (t - 8) w 0)) (nth (t - 14) w 0)) (nth (t - 16) w 0)) 1))
    (seq 16 64) w.
(** The body of the loops sha1.cpp:126-141, for the function and the constant of the loop *)
Definition sha_round (f : Z -> Z -> Z -> Z) (k : Z) (w : list Z) (r : Z * Z * Z * Z * Z) (t : nat) : Z * Z * Z * Z * Z :=
  let '(A, B, C, D, E) := r in
  let TEMP := uwrap 32 (SHA_ROT A 5 + f B C D + E + nth t w 0 + k) in
  (TEMP, A, SHA_ROT B 30, C, D).
(** sha1.cpp:127, 131 and 139, 135 *)
Definition sha_ch (B C D : Z) : Z := Z.lxor (Z.land (Z.lxor C D) B) D.
Definition sha_parity (B C D : Z) : Z := Z.lxor (Z.lxor B C) D.
Definition sha_maj (B C D : Z) : Z := Z.lor (Z.land B C) (Z.land D (Z.lor B C)).
(** sha1.cpp:112-148 *)
Definition shaHashBlock (c : sha_ctx) : sha_ctx :=
  let w := expand (cW c) in
  let r0 := cH c in
  let r1 := fold_left (sha_round sha_ch 0x5a827999 w) (seq 0 20) r0 in
  let r2 := fold_left (sha_round sha_parity 0x6ed9eba1 w) (seq 20 20) r1 in
  let r3 := fold_left (sha_round sha_maj 0x8f1bbcdc w) (seq 40 20) r2 in
  let r4 := fold_left (sha_round sha_parity 0xca62c1d6 w) (seq 60 20) r3 in
  let '(a, b, c0, d, e) := r0 in
  let '(A, B, C, D, E) := r4 in
  mkSha (uwrap 32 (a + A), uwrap 32 (b + B), uwrap 32 (c0 + C), uwrap 32 (d + D), uwrap 32 (e + E)) w (lenW c) (sizeHi c) (sizeLo c).

(** The body of the loop sha1.cpp:66-75 for the byte [x] *)
Definition sha_byte (c : sha_ctx) (x : Z) : outcome sha_ctx :=
  let* v := raw_get (cW c) (Z.quot (lenW c) 4) in
  let* w := raw_set (cW c) (Z.quot (lenW c) 4) (Z.lor (uwrap 32 (Z.shiftl v 8)) x) in
  let n := lenW c + 1 in
  let c1 := mkSha (cH c) w n (sizeHi c) (sizeLo c) in
  let c2 := if Z.rem n 64 =? 0 then
              let h := shaHashBlock c1 in mkSha (cH h) (cW h) 0 (sizeHi h) (sizeLo h)
            else c1 in
  let lo := uwrap 32 (sizeLo c2 + 8) in
  let hi := uwrap 32 (sizeHi c2 + (if lo <? 8 then 1 else 0)) in
  Ok (mkSha (cH c2) (cW c2) (lenW c2) hi lo).
(** sha1.cpp:60-76; [rest] are the readable bytes from dataIn[i] on *)
Fixpoint sha_loop (c : sha_ctx) (rest : list Z) (left : nat) {struct left} : outcome sha_ctx :=
  match left with
  | O => Ok c
  | S k => match rest with
           | [] => UB OutOfBounds
           | x :: r => let* c' := sha_byte c x in sha_loop c' r k
           end
  end.
Definition SHA1_Update (c : sha_ctx) (data : list Z) (len : Z) : outcome sha_ctx := sha_loop c data (Z.to_nat len).

(** The loop sha1.cpp:95-96 *)
Fixpoint sha_zeroes (fuel : nat) (c : sha_ctx) : outcome sha_ctx :=
  match fuel with
  | O => OutOfFuel
  | S f => if lenW c =? 56 then Ok c else let* c' := SHA1_Update c [0] 1 in sha_zeroes f c'
  end.
(** The four values written from one word by sha1.cpp:101-104: the top byte, then the word moves 8 bits to the left *)
Definition top_bytes (x : Z) : list Z :=
  let s1 := uwrap 32 (Z.shiftl x 8) in
  let s2 := uwrap 32 (Z.shiftl s1 8) in
  let s3 := uwrap 32 (Z.shiftl s2 8) in
  map (fun y => uwrap 8 (Z.shiftr y 24)) [x; s1; s2; s3].
(** sha1.cpp:78-110: the digest and the context after the call *)
Definition SHA1_Final (c : sha_ctx) : outcome (sha_ctx * list Z) :=
  let byte x n := uwrap 8 (Z.land (Z.shiftr x n) 255) in
  let padlen := [byte (sizeHi c) 24; byte (sizeHi c) 16; byte (sizeHi c) 8; byte (sizeHi c) 0;
                 byte (sizeLo c) 24; byte (sizeLo c) 16; byte (sizeLo c) 8; byte (sizeLo c) 0] in
  let* c1 := SHA1_Update c [0x80] 1 in
  let* c2 := sha_zeroes 65 c1 in
  let* c3 := SHA1_Update c2 padlen 8 in
  let '(a, b, c0, d, e) := cH c3 in
  Ok (SHA1_Init, top_bytes a ++ top_bytes b ++ top_bytes c0 ++ top_bytes d ++ top_bytes e).
