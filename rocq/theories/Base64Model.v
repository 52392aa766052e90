(** Model of java.util.Base64 (/repo/library/Java/Util/Base64/Base64.cpp). *)

From Coq Require Import ZArith List Bool String.
From Verif Require Import Base CppText TextSpec.
Import ListNotations.
Open Scope Z_scope.

(** Base64.cpp:33-39 Encoder::toBase64, 41-47 Encoder::toBase64Url. *)
Definition toBase64 : list Z := T "ABCDEFGHIJKLMNOPQRSTUVWXYZabcdefghijklmnopqrstuvwxyz0123456789+/".
Definition toBase64Url : list Z := T "ABCDEFGHIJKLMNOPQRSTUVWXYZabcdefghijklmnopqrstuvwxyz0123456789-_".
Definition indexTable (isUrl : bool) : list Z := if isUrl then toBase64Url else toBase64.

(** Base64.hpp Encoder fields newLine, lineMax, isUrl, doPadding. *)
Record encoder := mkEnc { isUrl : bool; newLine : list Z; lineMax : Z; doPadding : bool }.

(** Base64.cpp:51-58: RFC4648, RFC4648_URLSAFE, RFC2045 (mimeLineMax = 76, Base64.hpp). *)
Definition getEncoder : encoder := mkEnc false [] (-1) true.
Definition getUrlEncoder : encoder := mkEnc true [] (-1) true.
Definition getMimeEncoder : encoder := mkEnc false [13; 10] 76 true.
(** Base64.cpp:103-108 Encoder::withoutPadding. *)
Definition withoutPadding (e : encoder) : encoder := mkEnc (isUrl e) (newLine e) (lineMax e) false.

(** Base64.cpp:226-246: the tables fromBase64 / fromBase64Url: 256 cells of
    -1, the index of each alphabet character, -2 for '='. *)
Fixpoint fill_table (t : list Z) (alphabet : list Z) (i : Z) : list Z :=
  match alphabet with [] => t | c :: r => fill_table (zupd t c i) r (i + 1) end.
Definition fromTable (url : bool) : list Z := zupd (fill_table (repeat (-1) 256) (indexTable url) 0) 61 (-2).

(** Base64.cpp:442-458 getMimeEncoder(lineLength, lineSeparator). The check is
    [lineLength < 0]; shifting a non-negative int right and back left by 2. *)
Fixpoint separator_ok (l : list Z) : outcome bool :=
  match l with
  | [] => Ok true
  | b :: r => let* x := at_ (fromTable false) (Z.land b 255) in if x =? -1 then separator_ok r else Ok false
  end.
Definition getMimeEncoderWith (lineLength : Z) (lineSeparator : list Z) : outcome encoder :=
  let* ok := separator_ok lineSeparator in
  if negb ok then Throw InterruptedException
  else if lineLength <? 0 then Ok getEncoder
  else Ok (mkEnc false lineSeparator (Z.shiftl (Z.shiftr lineLength 2) 2) true).

(** Base64.cpp:110-129 Encoder::outLength, [int] arithmetic. *)
Definition outLength (m : cpp) (e : encoder) (sourceLength : Z) : outcome Z :=
  let* length :=
    if doPadding e then
      let* a := sadd m 32 sourceLength 2 in smul m 32 4 (Z.quot a 3)
    else
      let left := Z.rem sourceLength 3 in
      let* b := smul m 32 4 (Z.quot sourceLength 3) in
      if left =? 0 then Ok b else let* c := sadd m 32 b left in sadd m 32 c 1 in
  if lineMax e >? 0 then
    let* k := smul m 32 (Z.quot (length - 1) (lineMax e)) (zlen (newLine e)) in sadd m 32 length k
  else Ok length.

(** Base64.cpp:193-197: the range-for that appends the separator. *)
Fixpoint put_all (dst : list Z) (pos : Z) (l : list Z) : outcome (list Z * Z) :=
  match l with
  | [] => Ok (dst, pos)
  | b :: r => let* dst := at_set dst pos b in put_all dst (pos + 1) r
  end.

(** Base64.cpp:164-198: the inner [for]. [sp], [dp] are sourcePosition and
    destinationPosition, updated inside the loop body as in the source; [cp],
    [cd] the chunk positions. The three [source\[p++\]] are unsequenced: ISO
    C++ gives them no meaning, gcc evaluates left to right. *)
Fixpoint inner (m : cpp) (e : encoder) (tbl src : list Z) (end_ pause : Z) (fuel : nat)
    (cp cd sp dp : Z) (dst : list Z) : outcome (Z * Z * list Z) :=
  if cp <? pause then
    match fuel with
    | O => OutOfFuel
    | S f =>
      match m with
      | ISO => UB Unsequenced
      | HW =>
        let* b0 := at_ src cp in
        let* b1 := at_ src (cp + 1) in
        let* b2 := at_ src (cp + 2) in
        let g := Z.lor (Z.lor (Z.shiftl (Z.land b0 255) 16) (Z.shiftl (Z.land b1 255) 8)) (Z.land b2 255) in
        let* c0 := at_ tbl (Z.land (Z.shiftr g 18) 63) in
        let* dst := at_set dst cd c0 in
        let* c1 := at_ tbl (Z.land (Z.shiftr g 12) 63) in
        let* dst := at_set dst (cd + 1) c1 in
        let* c2 := at_ tbl (Z.land (Z.shiftr g 6) 63) in
        let* dst := at_set dst (cd + 2) c2 in
        let* c3 := at_ tbl (Z.land g 63) in
        let* dst := at_set dst (cd + 3) c3 in
        let encodedLength := Z.quot (pause - sp) 3 * 4 in
        let dp := dp + encodedLength in
        let sp := pause in
        let* ' (dst, dp) := if (encodedLength =? lineMax e) && (sp <? end_) then put_all dst dp (newLine e) else Ok (dst, dp) in
        inner m e tbl src end_ pause f (cp + 3) (cd + 4) sp dp dst
      end
    end
  else Ok (sp, dp, dst).

(** Base64.cpp:160-199: the outer [while]. *)
Fixpoint outer (m : cpp) (e : encoder) (tbl src : list Z) (end_ stop chunk : Z) (fuel : nat)
    (sp dp : Z) (dst : list Z) : outcome (Z * Z * list Z) :=
  if sp <? stop then
    match fuel with
    | O => OutOfFuel
    | S f =>
      let pause := Z.min (sp + chunk) stop in
      let* ' (sp, dp, dst) := inner m e tbl src end_ pause (Z.to_nat (pause - sp)) sp dp sp dp dst in
      outer m e tbl src end_ stop chunk f sp dp dst
    end
  else Ok (sp, dp, dst).

(** Base64.cpp:201-220: the 1 or 2 bytes left over. *)
Definition leftover (e : encoder) (tbl src : list Z) (end_ sp dp : Z) (dst : list Z) : outcome (Z * list Z) :=
  if sp <? end_ then
    let* b0 := at_ src sp in
    let first := Z.land b0 255 in
    let sp := sp + 1 in
    let* c0 := at_ tbl (Z.shiftr first 2) in
    let* dst := at_set dst dp c0 in
    if sp =? end_ then
      let* c1 := at_ tbl (Z.land (Z.shiftl first 4) 63) in
      let* dst := at_set dst (dp + 1) c1 in
      if doPadding e then
        let* dst := at_set dst (dp + 2) 61 in
        let* dst := at_set dst (dp + 3) 61 in Ok (dp + 4, dst)
      else Ok (dp + 2, dst)
    else
      let* b1 := at_ src sp in
      let second := Z.land b1 255 in
      let* c1 := at_ tbl (Z.lor (Z.land (Z.shiftl first 4) 63) (Z.shiftr second 4)) in
      let* dst := at_set dst (dp + 1) c1 in
      let* c2 := at_ tbl (Z.land (Z.shiftl second 2) 63) in
      let* dst := at_set dst (dp + 2) c2 in
      if doPadding e then
        let* dst := at_set dst (dp + 3) 61 in Ok (dp + 4, dst)
      else Ok (dp + 3, dst)
  else Ok (dp, dst).

(** Base64.cpp:131-223 Encoder::encoding, with offset 0 and end = source.length
    (its only uses, lines 81 and 95). Positions stay within the array length,
    so their [int] additions cannot overflow and are plain. *)
Definition encoding (m : cpp) (e : encoder) (src dst : list Z) : outcome (Z * list Z) :=
  let tbl := indexTable (isUrl e) in
  let end_ := zlen src in
  let sourceLength := Z.quot end_ 3 * 3 in
  let lineSource := Z.quot (lineMax e) 4 * 3 in
  let chunk := if (lineMax e >? 0) && (sourceLength >? lineSource) then lineSource else sourceLength in
  let* ' (sp, dp, dst) := outer m e tbl src end_ sourceLength chunk (Z.to_nat sourceLength) 0 0 dst in
  leftover e tbl src end_ sp dp dst.

(** /repo/library/Java/Util/Arrays/Arrays.hpp:579-595 copyOfOrigin when
    shortening: the first newLength cells. *)
Definition shorten (l : list Z) (n : Z) : list Z := firstn (Z.to_nat n) l ++ repeat 0 (Z.to_nat (n - zlen l)).

(** [Array<byte>(length)] (Java.hpp:105-108): zero bytes; a negative length
    converts to a huge size_t and resize throws. *)
Definition newArray (n : Z) : outcome (list Z) := if n <? 0 then Throw BadAlloc else Ok (repeat 0 (Z.to_nat n)).

(** Base64.cpp:78-86 Encoder::encode(source). *)
Definition encode (m : cpp) (e : encoder) (src : list Z) : outcome (list Z) :=
  let* length := outLength m e (zlen src) in
  let* dst := newArray length in
  let* ' (n, dst) := encoding m e src dst in
  if length =? n then Ok dst else Ok (shorten dst n).
(** Base64.cpp:88-96 Encoder::encode(source, destination): the new content of
    the destination and the returned count. *)
Definition encodeInto (m : cpp) (e : encoder) (src dst : list Z) : outcome (Z * list Z) :=
  let* length := outLength m e (zlen src) in
  if zlen dst <? length then Throw InterruptedException else encoding m e src dst.
(** Base64.cpp:98-101 Encoder::encodeToString: String(bytes) copies every
    byte (String.cpp:90-97). *)
Definition encodeToString (m : cpp) (e : encoder) (src : list Z) : outcome str := encode m e src.

(** ** Decoder *)

(** Base64.hpp Decoder fields; Base64.cpp:248-255 the three instances. *)
Record decoder := mkDec { dUrl : bool; isMime : bool }.
Definition getDecoder := mkDec false false.
Definition getUrlDecoder := mkDec true false.
Definition getMimeDecoder := mkDec false true.

(** Base64.cpp:317-331: the MIME branch of outLength; [currentByteDecoded] is
    read from [source], not from the table, exactly as written. *)
Fixpoint mime_scan (src : list Z) (end_ : Z) (fuel : nat) (sp length nonAlphabet : Z) : outcome Z :=
  if sp <? end_ then
    match fuel with
    | O => OutOfFuel
    | S f =>
      let* b := at_ src sp in
      let currentByte := Z.land b 255 in
      let sp := sp + 1 in
      if currentByte =? 61 then Ok (length - (end_ - sp + 1) - nonAlphabet)
      else
        let* d := at_ src currentByte in
        mime_scan src end_ f sp length (if d =? -1 then nonAlphabet + 1 else nonAlphabet)
    end
  else Ok (length - nonAlphabet).

(** Base64.cpp:294-344 Decoder::outLength with offset 0, end = source.length. *)
Definition decOutLength (m : cpp) (d : decoder) (src : list Z) : outcome Z :=
  let n := zlen src in
  if n =? 0 then Ok 0
  else if n <? 2 then
    let* x := at_ (fromTable (dUrl d)) 0 in
    if isMime d && (x =? -1) then Ok 0 else Throw InterruptedException
  else
    let* ' (length, padding) :=
      if isMime d then let* l := mime_scan src n (Z.to_nat n) 0 n 0 in Ok (l, 0)
      else
        let* x := at_ src (n - 1) in
        if x =? 61 then
          let* y := at_ src (n - 2) in
          Ok (n, if y =? 61 then 2 else 1)
        else Ok (n, 0) in
    let padding := if (padding =? 0) && negb (Z.land length 3 =? 0) then 4 - Z.land length 3 else padding in
    let* a := sadd m 32 length 3 in
    let* b := smul m 32 3 (Z.quot a 4) in
    ssub m 32 b padding.

(** Base64.cpp:418-420: the message of the last exception is
    ["Input byte array has incorrect ending byte at " + sourcePosition], pointer
    arithmetic into a 46-character literal; beyond its terminator the
    resulting pointer is read out of bounds. *)
Definition ending_message (sp : Z) : outcome unit :=
  if sp <=? 46 then Throw InterruptedException else UB OutOfBounds.

(** Base64.cpp:412-421: whatever follows the padding. *)
Fixpoint ending (d : decoder) (tbl src : list Z) (stop : Z) (fuel : nat) (sp : Z) : outcome unit :=
  if sp <? stop then
    match fuel with
    | O => OutOfFuel
    | S f =>
      if isMime d then
        let* b := at_ src sp in
        let sp := sp + 1 in
        let* x := at_ tbl b in
        if x <? 0 then ending d tbl src stop f sp else ending_message sp
      else ending_message sp
    end
  else Ok tt.

(** Base64.cpp:364-399: the main loop. Returns sourcePosition,
    destinationPosition, groupBits, shiftTo and the destination. *)
Fixpoint decode_loop (d : decoder) (tbl src : list Z) (stop : Z) (fuel : nat)
    (sp dp group shiftTo : Z) (dst : list Z) : outcome (Z * Z * Z * Z * list Z) :=
  if sp <? stop then
    match fuel with
    | O => OutOfFuel
    | S f =>
      let* b := at_ src sp in
      let sp := sp + 1 in
      let* x := at_ tbl (Z.land b 255) in
      if x <? 0 then
        if x =? -2 then
          if shiftTo =? 6 then
            if sp =? stop then Throw InterruptedException
            else
              let* y := at_ src sp in
              let sp := sp + 1 in
              if y =? 61 then Ok (sp, dp, group, shiftTo, dst) else Throw InterruptedException
          else if shiftTo =? 18 then Throw InterruptedException
          else Ok (sp, dp, group, shiftTo, dst)
        else if isMime d then decode_loop d tbl src stop f sp dp group shiftTo dst
        else Throw InterruptedException
      else
        let group := Z.lor group (Z.shiftl x shiftTo) in
        let shiftTo := shiftTo - 6 in
        if shiftTo <? 0 then
          let* dst := at_set dst dp (uwrap 8 (Z.shiftr group 16)) in
          let* dst := at_set dst (dp + 1) (uwrap 8 (Z.shiftr group 8)) in
          let* dst := at_set dst (dp + 2) (uwrap 8 group) in
          decode_loop d tbl src stop f sp (dp + 3) 0 18 dst
        else decode_loop d tbl src stop f sp dp group shiftTo dst
    end
  else Ok (sp, dp, group, shiftTo, dst).

(** Base64.cpp:346-424 Decoder::decoding with offset 0, end = source.length.
    [groupBits] stays below 2^24, so its shifts are plain. *)
Definition decoding (d : decoder) (src dst : list Z) : outcome (Z * list Z) :=
  let tbl := fromTable (dUrl d) in
  let stop := zlen src in
  let* ' (sp, dp, group, shiftTo, dst) := decode_loop d tbl src stop (Z.to_nat stop) 0 0 0 18 dst in
  let* ' (dp, dst) :=
    if shiftTo =? 6 then
      let* dst := at_set dst dp (uwrap 8 (Z.shiftr group 16)) in Ok (dp + 1, dst)
    else if shiftTo =? 0 then
      let* dst := at_set dst dp (uwrap 8 (Z.shiftr group 16)) in
      let* dst := at_set dst (dp + 1) (uwrap 8 (Z.shiftr group 8)) in Ok (dp + 2, dst)
    else if shiftTo =? 12 then Throw InterruptedException
    else Ok (dp, dst) in
  let* _ := ending d tbl src stop (Z.to_nat stop) sp in
  Ok (dp, dst).

(** Base64.cpp:270-278 Decoder::decode(source), 280-288 decode(source, destination),
    290-292 decode(String) (getBytes copies every byte, String.cpp:195-201). *)
Definition decode (m : cpp) (d : decoder) (src : list Z) : outcome (list Z) :=
  let* length := decOutLength m d src in
  let* dst := newArray length in
  let* ' (n, dst) := decoding d src dst in
  if n =? length then Ok dst else Ok (shorten dst n).
Definition decodeInto (m : cpp) (d : decoder) (src dst : list Z) : outcome (Z * list Z) :=
  let* length := decOutLength m d src in
  if zlen dst <? length then Throw InterruptedException else decoding d src dst.
Definition decodeString (m : cpp) (d : decoder) (s : str) : outcome (list Z) := decode m d s.
