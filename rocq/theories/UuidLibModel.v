(** Model of /repo/library/Java/Util/UUID/libuuid: pack.c, unpack.c,
    parse.c, unparse.c, compare.c, isnull.c, uuid_time.c, gen_uuid.c.

    A uuid_t is a list of 16 bytes.  Not modelled: get_node_id (the node is a
    parameter: any six bytes), the uuidd daemon (absent: HAVE_UUIDD is not
    defined), random_get_bytes (its bytes are a parameter).  gen_uuid.c keeps
    the clock state in static variables and in a file; what is read back from
    the file is what was written, and the lock on it makes a call of
    get_clock one atomic step, so the model has one clock state. *)

From Coq Require Import ZArith List Bool.
From Verif Require Import Base CppText UuidSpec.
Import ListNotations.
Open Scope Z_scope.

(** uuidP.h:47-53 *)
Record uuid := mkU { time_low : Z; time_mid : Z; time_hi_and_version : Z; clock_seq : Z; node : list Z }.

(** pack.c:38-68: the bytes by index (the order of the stores does not matter) *)
Definition uuid_pack (u : uuid) : list Z :=
  [ uwrap 8 (Z.shiftr (time_low u) 24); uwrap 8 (Z.shiftr (time_low u) 16);
    uwrap 8 (Z.shiftr (time_low u) 8); uwrap 8 (time_low u);
    uwrap 8 (Z.shiftr (time_mid u) 8); uwrap 8 (time_mid u);
    uwrap 8 (Z.shiftr (time_hi_and_version u) 8); uwrap 8 (time_hi_and_version u);
    uwrap 8 (Z.shiftr (clock_seq u) 8); uwrap 8 (clock_seq u) ] ++ node u.

(** unpack.c:43-46 and the like: tmp = ( tmp << 8 ) | *ptr++, starting from the first byte *)
Definition gather (l : list Z) : Z := fold_left (fun tmp b => Z.lor (uwrap 32 (Z.shiftl tmp 8)) b) l 0.
(** unpack.c:38-62 *)
Definition uuid_unpack (l : list Z) : uuid :=
  mkU (gather (firstn 4 l)) (uwrap 16 (gather (firstn 2 (skipn 4 l)))) (uwrap 16 (gather (firstn 2 (skipn 6 l))))
      (uwrap 16 (gather (firstn 2 (skipn 8 l)))) (firstn 6 (skipn 10 l)).

(** isxdigit *)
Definition is_xdigit_c (c : Z) : bool := match digit_val c with Some d => d <? 16 | None => false end.
(** strtoul(s, NULL, 16) on a text that starts with a hexadecimal digit: the value of the longest
    prefix of digits, at most ULONG_MAX *)
Fixpoint hex_prefix (s : str) : list Z :=
  match s with
  | c :: r => match digit_val c with Some d => if d <? 16 then d :: hex_prefix r else [] | None => [] end
  | [] => []
  end.
Definition strtoul16 (s : str) : Z := Z.min (numval 16 (hex_prefix s)) (2 ^ 64 - 1).

Section Modes.
Variable m : cpp.
(** parse.c:51-64, from index [i] on; the text ends before index 36, where the terminator is found *)
Fixpoint parse_check (s : str) (i : Z) : outcome bool :=
  match s with
  | [] => Ok true
  | c :: r =>
    if (i =? 8) || (i =? 13) || (i =? 18) || (i =? 23) then
      if c =? 45 then parse_check r (i + 1) else Ok false
    else
      let* x := ctype m is_xdigit_c c in
      if (x : bool) then parse_check r (i + 1) else Ok false
  end.
(** parse.c:69-75 *)
Fixpoint parse_node (n : nat) (cp : str) : list Z :=
  match n with
  | O => []
  | S k => uwrap 8 (strtoul16 (firstn 2 cp)) :: parse_node k (skipn 2 cp)
  end.
(** parse.c:42-79; [None]: the result -1.  [s]: the text before the terminator *)
Definition uuid_parse (s : str) : outcome (option (list Z)) :=
  if negb (zlen s =? 36) then Ok None
  else
    let* ok := parse_check s 0 in
    if (ok : bool) then
      Ok (Some (uuid_pack (mkU (uwrap 32 (strtoul16 s)) (uwrap 16 (strtoul16 (skipn 9 s))) (uwrap 16 (strtoul16 (skipn 14 s)))
                               (uwrap 16 (strtoul16 (skipn 19 s))) (parse_node 6 (skipn 24 s)))))
    else Ok None.
End Modes.

(** printf's %0[w]x *)
Definition format_x (w : nat) (v : Z) : str := let t := utoa 16 v in repeat 48 (w - List.length t) ++ t.
(** unparse.c:53-62 with fmt_lower (39-40) *)
Definition uuid_unparse_lower (l : list Z) : str :=
  let u := uuid_unpack l in
  format_x 8 (time_low u) ++ [45] ++ format_x 4 (time_mid u) ++ [45] ++ format_x 4 (time_hi_and_version u) ++ [45] ++
  format_x 2 (Z.shiftr (clock_seq u) 8) ++ format_x 2 (Z.land (clock_seq u) 255) ++ [45] ++ List.concat (map (format_x 2) (node u)).
(** printf's %0[w]X *)
Definition format_X (w : nat) (v : Z) : str := map c_toupper (format_x w v).
(** unparse.c:53-62 with fmt_upper (42-43) *)
Definition uuid_unparse_upper (l : list Z) : str :=
  let u := uuid_unpack l in
  format_X 8 (time_low u) ++ [45] ++ format_X 4 (time_mid u) ++ [45] ++ format_X 4 (time_hi_and_version u) ++ [45] ++
  format_X 2 (Z.shiftr (clock_seq u) 8) ++ format_X 2 (Z.land (clock_seq u) 255) ++ [45] ++ List.concat (map (format_X 2) (node u)).

(** memcmp: only the sign of its result is specified; -1, 0 or 1 here *)
Fixpoint memcmp (a b : list Z) : Z :=
  match a, b with
  | x :: a', y :: b' => if x <? y then -1 else if y <? x then 1 else memcmp a' b'
  | _, _ => 0
  end.
(** compare.c:40, 42-55 *)
Definition uucmp (a b k : Z) : Z := if negb (a =? b) then (if a <? b then -1 else 1) else k.
Definition uuid_compare (l1 l2 : list Z) : Z :=
  let u1 := uuid_unpack l1 in let u2 := uuid_unpack l2 in
  uucmp (time_low u1) (time_low u2) (uucmp (time_mid u1) (time_mid u2)
    (uucmp (time_hi_and_version u1) (time_hi_and_version u2) (uucmp (clock_seq u1) (clock_seq u2) (memcmp (node u1) (node u2))))).
(** isnull.c:37-47 *)
Fixpoint uuid_is_null (l : list Z) : Z := match l with [] => 1 | b :: r => if b =? 0 then uuid_is_null r else 0 end.

(** 0x01B21DD213814000: uuid_time.c:66, gen_uuid.c:348 *)
Definition OFFSET : Z := uwrap 64 (Z.shiftl 0x01B21DD2 32) + 0x13814000.
(** uuid_time.c:56-74: seconds and microseconds *)
Definition uuid_time (l : list Z) : Z * Z :=
  let u := uuid_unpack l in
  let high := Z.lor (time_mid u) (Z.shiftl (Z.land (time_hi_and_version u) 0xFFF) 16) in
  let clock_reg := uwrap 64 (Z.lor (time_low u) (uwrap 64 (Z.shiftl high 32)) - OFFSET) in
  (clock_reg / 10000000, (clock_reg mod 10000000) / 10).
(** uuid_time.c:76-82 *)
Definition uuid_type (l : list Z) : Z := Z.land (Z.shiftr (time_hi_and_version (uuid_unpack l)) 12) 0xF.
(** uuid_time.c:84-100: NCS 0, DCE 1, MICROSOFT 2, OTHER 3 *)
Definition uuid_variant (l : list Z) : Z :=
  let var := clock_seq (uuid_unpack l) in
  if Z.land var 0x8000 =? 0 then 0 else if Z.land var 0x4000 =? 0 then 1 else if Z.land var 0x2000 =? 0 then 2 else 3.

(** gen_uuid.c:540-561 with n = 1; [buf]: the bytes of the random source *)
Definition uuid_generate_random (buf : list Z) : list Z :=
  let u := uuid_unpack buf in
  uuid_pack (mkU (time_low u) (time_mid u) (Z.lor (Z.land (time_hi_and_version u) 0x0FFF) 0x4000)
                 (Z.lor (Z.land (clock_seq u) 0x3FFF) 0x8000) (node u)).

(** The static variables of get_clock, gen_uuid.c:269-273 *)
Record clock := mkK { seq_ : Z; last : reading; adjustment : Z }.
(** gen_uuid.c:321-326: the first call; [r]: two random bytes, [now]: the reading of line 324 *)
Definition first_clock (r : Z) (now : reading) : clock := mkK (Z.land r 0x3FFF) (fst now - 1, snd now) 0.
(** gen_uuid.c:328-348 and 372-375, [num] being null; one reading of the clock for each pass of
    try_again.  The result: clock_reg, the new state, the readings left *)
Fixpoint get_clock (k : clock) (readings : list reading) : outcome (Z * clock * list reading) :=
  match readings with
  | [] => OutOfFuel
  | (s, u) :: rest =>
    let reg (adj : Z) := uwrap 64 (uwrap 64 (uwrap 64 (u * 10 + adj) + uwrap 64 (s * 10000000)) + OFFSET) in
    if (s <? fst (last k)) || ((s =? fst (last k)) && (u <? snd (last k))) then
      Ok (reg 0, mkK (Z.land (seq_ k + 1) 0x3FFF) (s, u) 0, rest)
    else if (s =? fst (last k)) && (u =? snd (last k)) then
      if 10 <=? adjustment k then get_clock k rest
      else Ok (reg (adjustment k + 1), mkK (seq_ k) (last k) (adjustment k + 1), rest)
    else Ok (reg 0, mkK (seq_ k) (s, u) 0, rest)
  end.
(** gen_uuid.c:444-471, called from 520 with a null [num] *)
Definition uuid_generate_time (nd : list Z) (k : clock) (readings : list reading) : outcome (list Z * clock * list reading) :=
  let* ' (reg, k', rest) := get_clock k readings in
  let clock_mid := Z.shiftr reg 32 in
  Ok (uuid_pack (mkU (uwrap 32 reg) (uwrap 16 clock_mid) (Z.lor (Z.land (Z.shiftr clock_mid 16) 0x0FFF) 0x1000)
                     (Z.lor (seq_ k') 0x8000) nd), k', rest).
(** [n] calls, one after the other *)
Fixpoint generate_times (n : nat) (nd : list Z) (k : clock) (readings : list reading) : outcome (list (list Z)) :=
  match n with
  | O => Ok []
  | S j =>
    let* ' (u, k', rest) := uuid_generate_time nd k readings in
    let* l := generate_times j nd k' rest in
    Ok (u :: l)
  end.
