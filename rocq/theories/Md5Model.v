(** Model of /repo/library/Java/Security/MessageDigest/md5.cpp and md5.hpp.

    [md5_word_t] is a 32-bit unsigned number, [md5_byte_t] a byte.  The state
    is md5.hpp: struct md5_state_s.  Big-endian branches (BYTE_ORDER > 0, the
    dynamic test failing) are not modelled: the machine is little-endian.
    Casting the byte pointer to [const md5_word_t *] when aligned reads the
    same words as the memcpy of the other branch (the strict aliasing rule is
    not modelled). *)

From Coq Require Import ZArith List Bool.
From Verif Require Import Base CMem.
Import ListNotations.
Open Scope Z_scope.

Record md5_state := mkMd5 { count0 : Z; count1 : Z; abcd0 : Z; abcd1 : Z; abcd2 : Z; abcd3 : Z; mbuf : block }.

(** md5.cpp:64 *)
Definition T_MASK : Z := uwrap 32 (Z.lnot 0).
(** md5.cpp:196 *)
Definition ROTATE_LEFT (x n : Z) : Z := Z.lor (uwrap 32 (Z.shiftl x n)) (Z.shiftr x (32 - n)).
(** md5.cpp:201, 227, 253, 279 *)
Definition md5_F (x y z : Z) : Z := Z.lor (Z.land x y) (Z.land (uwrap 32 (Z.lnot x)) z).
Definition md5_G (x y z : Z) : Z := Z.lor (Z.land x z) (Z.land y (uwrap 32 (Z.lnot z))).
Definition md5_H (x y z : Z) : Z := Z.lxor (Z.lxor x y) z.
Definition md5_I (x y z : Z) : Z := Z.lxor y (Z.lor x (uwrap 32 (Z.lnot z))).

Inductive register := RA | RB | RC | RD.
(** One line [SET(r, ..., k, s, Ti)]: the register assigned, the auxiliary
    function of the round, k, s and Ti.  The other three arguments follow
    [r] cyclically in every line of the file: (a,b,c,d), (d,a,b,c),
    (c,d,a,b), (b,c,d,a). *)
Record set_line := SET { target : register; aux : Z -> Z -> Z -> Z; sk : Z; ss : Z; sT : Z }.
(** The 64 lines of md5.cpp:206-221, 232-247, 258-273, 284-299 *)
Definition set_lines : list set_line :=
  [SET RA md5_F 0 7 (Z.lxor T_MASK 0x28955b87);
   SET RD md5_F 1 12 (Z.lxor T_MASK 0x173848a9);
   SET RC md5_F 2 17 0x242070db;
   SET RB md5_F 3 22 (Z.lxor T_MASK 0x3e423111);
   SET RA md5_F 4 7 (Z.lxor T_MASK 0x0a83f050);
   SET RD md5_F 5 12 0x4787c62a;
   SET RC md5_F 6 17 (Z.lxor T_MASK 0x57cfb9ec);
   SET RB md5_F 7 22 (Z.lxor T_MASK 0x02b96afe);
   SET RA md5_F 8 7 0x698098d8;
   SET RD md5_F 9 12 (Z.lxor T_MASK 0x74bb0850);
   SET RC md5_F 10 17 (Z.lxor T_MASK 0x0000a44e);
   SET RB md5_F 11 22 (Z.lxor T_MASK 0x76a32841);
   SET RA md5_F 12 7 0x6b901122;
   SET RD md5_F 13 12 (Z.lxor T_MASK 0x02678e6c);
   SET RC md5_F 14 17 (Z.lxor T_MASK 0x5986bc71);
   SET RB md5_F 15 22 0x49b40821;
   SET RA md5_G 1 5 (Z.lxor T_MASK 0x09e1da9d);
   SET RD md5_G 6 9 (Z.lxor T_MASK 0x3fbf4cbf);
   SET RC md5_G 11 14 0x265e5a51;
   SET RB md5_G 0 20 (Z.lxor T_MASK 0x16493855);
   SET RA md5_G 5 5 (Z.lxor T_MASK 0x29d0efa2);
   SET RD md5_G 10 9 0x02441453;
   SET RC md5_G 15 14 (Z.lxor T_MASK 0x275e197e);
   SET RB md5_G 4 20 (Z.lxor T_MASK 0x182c0437);
   SET RA md5_G 9 5 0x21e1cde6;
   SET RD md5_G 14 9 (Z.lxor T_MASK 0x3cc8f829);
   SET RC md5_G 3 14 (Z.lxor T_MASK 0x0b2af278);
   SET RB md5_G 8 20 0x455a14ed;
   SET RA md5_G 13 5 (Z.lxor T_MASK 0x561c16fa);
   SET RD md5_G 2 9 (Z.lxor T_MASK 0x03105c07);
   SET RC md5_G 7 14 0x676f02d9;
   SET RB md5_G 12 20 (Z.lxor T_MASK 0x72d5b375);
   SET RA md5_H 5 4 (Z.lxor T_MASK 0x0005c6bd);
   SET RD md5_H 8 11 (Z.lxor T_MASK 0x788e097e);
   SET RC md5_H 11 16 0x6d9d6122;
   SET RB md5_H 14 23 (Z.lxor T_MASK 0x021ac7f3);
   SET RA md5_H 1 4 (Z.lxor T_MASK 0x5b4115bb);
   SET RD md5_H 4 11 0x4bdecfa9;
   SET RC md5_H 7 16 (Z.lxor T_MASK 0x0944b49f);
   SET RB md5_H 10 23 (Z.lxor T_MASK 0x4140438f);
   SET RA md5_H 13 4 0x289b7ec6;
   SET RD md5_H 0 11 (Z.lxor T_MASK 0x155ed805);
   SET RC md5_H 3 16 (Z.lxor T_MASK 0x2b10cf7a);
   SET RB md5_H 6 23 0x04881d05;
   SET RA md5_H 9 4 (Z.lxor T_MASK 0x262b2fc6);
   SET RD md5_H 12 11 (Z.lxor T_MASK 0x1924661a);
   SET RC md5_H 15 16 0x1fa27cf8;
   SET RB md5_H 2 23 (Z.lxor T_MASK 0x3b53a99a);
   SET RA md5_I 0 6 (Z.lxor T_MASK 0x0bd6ddbb);
   SET RD md5_I 7 10 0x432aff97;
   SET RC md5_I 14 15 (Z.lxor T_MASK 0x546bdc58);
   SET RB md5_I 5 21 (Z.lxor T_MASK 0x036c5fc6);
   SET RA md5_I 12 6 0x655b59c3;
   SET RD md5_I 3 10 (Z.lxor T_MASK 0x70f3336d);
   SET RC md5_I 10 15 (Z.lxor T_MASK 0x00100b82);
   SET RB md5_I 1 21 (Z.lxor T_MASK 0x7a7ba22e);
   SET RA md5_I 8 6 0x6fa87e4f;
   SET RD md5_I 15 10 (Z.lxor T_MASK 0x01d3191f);
   SET RC md5_I 6 15 (Z.lxor T_MASK 0x5cfebceb);
   SET RB md5_I 13 21 0x4e0811a1;
   SET RA md5_I 4 6 (Z.lxor T_MASK 0x08ac817d);
   SET RD md5_I 11 10 (Z.lxor T_MASK 0x42c50dca);
   SET RC md5_I 2 15 0x2ad7d2bb;
   SET RB md5_I 9 21 (Z.lxor T_MASK 0x14792c6e)].
(** The macro SET: md5.cpp:202-204, 228-230, 254-256, 280-282 *)
Definition do_set (X : Z -> Z) (st : Z * Z * Z * Z) (l : set_line) : Z * Z * Z * Z :=
  let '(a, b, c, d) := st in
  let go a b c d :=
    let t := uwrap 32 (a + aux l b c d + X (sk l) + sT l) in
    uwrap 32 (ROTATE_LEFT t (ss l) + b) in
  match target l with
  | RA => (go a b c d, b, c, d)
  | RD => (a, b, c, go d a b c)
  | RC => (a, b, go c d a b, d)
  | RB => (a, go b c d a, c, d)
  end.
(** [X\[k\]]: the 32-bit object at byte 4k of [data] on a little-endian machine *)
Definition word_of (data : list Z) (k : Z) : Z :=
  let b i := nth (Z.to_nat (4 * k + i)) data 0 in
  b 0 + 2 ^ 8 * b 1 + 2 ^ 16 * b 2 + 2 ^ 24 * b 3.
(** md5.cpp:130-309 *)
Definition md5_process (s : md5_state) (data : list Z) : md5_state :=
  let '(a, b, c, d) := fold_left (do_set (word_of data)) set_lines (abcd0 s, abcd1 s, abcd2 s, abcd3 s) in
  mkMd5 (count0 s) (count1 s) (uwrap 32 (abcd0 s + a)) (uwrap 32 (abcd1 s + b)) (uwrap 32 (abcd2 s + c)) (uwrap 32 (abcd3 s + d)) (mbuf s).

(** md5.cpp:311-318; [buf] keeps its (at first indeterminate) content *)
Definition md5_init (b : block) : md5_state :=
  mkMd5 0 0 0x67452301 (Z.lxor T_MASK 0x10325476) (Z.lxor T_MASK 0x67452301) 0x10325476 b.

(** [memcpy(buf + offset, p + from, n)] from the caller's bytes *)
Definition copy_bytes (b : block) (offset : Z) (data : list Z) (from n : Z) : outcome block :=
  if (0 <=? n) && (0 <=? from) && (from + n <=? zlen data) && (0 <=? offset) && (offset + n <=? zlen b)
  then Ok (firstn (Z.to_nat offset) b ++ map Some (firstn (Z.to_nat n) (skipn (Z.to_nat from) data)) ++ skipn (Z.to_nat (offset + n)) b)
  else UB OutOfBounds.
(** Reading 64 bytes of the state's buffer, or of the caller's bytes *)
Fixpoint all_bytes_of (b : block) : outcome (list Z) :=
  match b with
  | [] => Ok []
  | Some x :: r => let* l := all_bytes_of r in Ok (x :: l)
  | None :: _ => UB Uninitialised
  end.
Definition read_block (data : list Z) (p : Z) : outcome (list Z) :=
  if (0 <=? p) && (p + 64 <=? zlen data) then Ok (firstn 64 (skipn (Z.to_nat p) data)) else UB OutOfBounds.

Section Md5.
Variable m : cpp.

(** The loop md5.cpp:349-350 *)
Fixpoint full_blocks (fuel : nat) (s : md5_state) (data : list Z) (p left : Z) : outcome (md5_state * Z * Z) :=
  match fuel with
  | O => OutOfFuel
  | S f =>
    if 64 <=? left then
      let* blk := read_block data p in
      full_blocks f (md5_process s blk) data (p + 64) (left - 64)
    else Ok (s, p, left)
  end.
(** The end of md5_append: md5.cpp:348-354 *)
Definition append_rest (s : md5_state) (data : list Z) (p left : Z) : outcome md5_state :=
  let* ' (s1, p1, left1) := full_blocks (S (length data)) s data p left in
  if left1 =? 0 then Ok s1
  else
    let* b := copy_bytes (mbuf s1) 0 data p1 left1 in
    Ok (mkMd5 (count0 s1) (count1 s1) (abcd0 s1) (abcd1 s1) (abcd2 s1) (abcd3 s1) b).
(** md5.cpp:320-355 *)
Definition md5_append (s : md5_state) (data : list Z) (nbytes : Z) : outcome md5_state :=
  let offset := Z.land (Z.shiftr (count0 s) 3) 63 in
  let* sh := sshl m 32 nbytes 3 in
  let nbits := uwrap 32 sh in
  if nbytes <=? 0 then Ok s
  else
    let c1 := uwrap 32 (count1 s + uwrap 32 (Z.shiftr nbytes 29)) in
    let c0 := uwrap 32 (count0 s + nbits) in
    let c1 := if c0 <? nbits then uwrap 32 (c1 + 1) else c1 in
    let s1 := mkMd5 c0 c1 (abcd0 s) (abcd1 s) (abcd2 s) (abcd3 s) (mbuf s) in
    if negb (offset =? 0) then
      let* e := sadd m 32 offset nbytes in
      let copy := if 64 <? e then 64 - offset else nbytes in
      let* b := copy_bytes (mbuf s1) offset data 0 copy in
      let s2 := mkMd5 c0 c1 (abcd0 s1) (abcd1 s1) (abcd2 s1) (abcd3 s1) b in
      let* e2 := sadd m 32 offset copy in
      if e2 <? 64 then Ok s2
      else
        let* blk := all_bytes_of b in
        append_rest (md5_process s2 blk) data copy (nbytes - copy)
    else append_rest s1 data 0 nbytes.

(** md5.cpp:357-377: the state after the call and the digest *)
Definition md5_pad_bytes : list Z := 0x80 :: repeat 0 63.
Definition bytes_of_word (x : Z) : list Z := map (fun i => uwrap 8 (Z.shiftr x (Z.shiftl (Z.of_nat i) 3))) (seq 0 4).
Definition md5_finish (s : md5_state) : outcome (md5_state * list Z) :=
  let data := bytes_of_word (count0 s) ++ bytes_of_word (count1 s) in
  let* s1 := md5_append s md5_pad_bytes (Z.land (uwrap 32 (55 - Z.shiftr (count0 s) 3)) 63 + 1) in
  let* s2 := md5_append s1 data 8 in
  Ok (s2, bytes_of_word (abcd0 s2) ++ bytes_of_word (abcd1 s2) ++ bytes_of_word (abcd2 s2) ++ bytes_of_word (abcd3 s2)).
End Md5.
