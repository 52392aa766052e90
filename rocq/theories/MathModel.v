(** Model of /repo/library/Java/Lang/Math/Math.cpp, integer operations.
    The int and long overloads have the same text; [w] is 32 or 64. *)

From Coq Require Import ZArith List Lia Bool.
From Verif Require Import Base.
Import ListNotations.
Open Scope Z_scope.

(** Math.cpp:77-83 (int), 69-75 (long): the sum is formed before the test. *)
Definition addExact (m : cpp) (w a b : Z) : outcome Z :=
  let* r := sadd m w a b in
  if Z.land (Z.lxor a r) (Z.lxor b r) <? 0 then Throw ArithmeticException else Ok r.
(** Math.cpp:466-472 (int), 458-464 (long) *)
Definition subtractExact (m : cpp) (w a b : Z) : outcome Z :=
  let* r := ssub m w a b in
  if Z.land (Z.lxor a b) (Z.lxor a r) <? 0 then Throw ArithmeticException else Ok r.
(** Math.cpp:227-232 (int), 234-239 (long) *)
Definition incrementExact (m : cpp) (w a : Z) : outcome Z :=
  if a =? smax w then Throw ArithmeticException else sadd m w a 1.
(** Math.cpp:122-127 (int), 115-120 (long) *)
Definition decrementExact (m : cpp) (w a : Z) : outcome Z :=
  if a =? smin w then Throw ArithmeticException else ssub m w a 1.
(** Math.cpp:317-322 (int), 324-329 (long) *)
Definition negateExact (m : cpp) (w a : Z) : outcome Z :=
  if a =? smin w then Throw ArithmeticException else sneg m w a.
(** Math.cpp:291-297 *)
Definition multiplyExact_int (m : cpp) (a b : Z) : outcome Z :=
  let* r := smul m 64 a b in
  let* d := ssub m 64 r (wrap 32 r) in
  if 0 <? d then Throw ArithmeticException else Ok (wrap 32 r).
(** Math.cpp:33-35 (int), 41-43 (long) *)
Definition abs (m : cpp) (w a : Z) : outcome Z := if 0 <=? a then Ok a else sneg m w a.
(** Math.cpp:299-315; [(unsigned) abs(x)] keeps 32 bits. *)
Definition multiplyExact_long (m : cpp) (a b : Z) : outcome Z :=
  if (a =? long_min) && (b =? -1) then Throw ArithmeticException
  else
    let* r := smul m 64 a b in
    let* aa := abs m 64 a in
    let* ab := abs m 64 b in
    if negb (Z.shiftr (Z.lor (uwrap 32 aa) (uwrap 32 ab)) 31 =? 0) then
      if b =? 0 then Ok r
      else let* q := sdiv 64 r b in
           if negb (q =? a) then Throw ArithmeticException else Ok r
    else Ok r.
(** Math.cpp:486-491 *)
Definition toIntExact (m : cpp) (v : Z) : outcome Z :=
  let* d := ssub m 64 v (wrap 32 v) in
  if 0 <? d then Throw ArithmeticException else Ok (wrap 32 v).

(** Math.cpp:141-151 (int), 153-163 (long); [&&] is lazy. *)
Definition floorDiv (m : cpp) (w a b : Z) : outcome Z :=
  if b =? 0 then Throw ArithmeticException
  else
    let* q := sdiv w a b in
    if Z.lxor a b <? 0 then
      let* p := smul m w q b in
      if negb (p =? a) then ssub m w q 1 else Ok q
    else Ok q.
(** Math.cpp:165-167 (int), 169-171 (long) *)
Definition floorMod (m : cpp) (w a b : Z) : outcome Z :=
  let* q := floorDiv m w a b in
  let* p := smul m w q b in
  ssub m w a p.

(** Math.cpp:259-261, 267-269, 275-277, 283-285 *)
Definition max (a b : Z) : Z := if b <? a then a else b.
Definition min (a b : Z) : Z := if a <? b then a else b.
