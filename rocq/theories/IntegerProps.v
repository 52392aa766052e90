(** Property theorems C01-C06: java.lang.Integer.
    [HW] is the gcc/x86-64 reading (wrap-around, masked shift counts); the
    [_iso] theorems say where the ISO C++11 reading differs. *)

From Coq Require Import ZArith List Lia Bool String.
From Verif Require Import Base Bits CppText TextSpec TextLemmas BitSpec BitLemmas
  StringModel StringSpec StringProofs IntegerModel IntegerProofs IntegerProofs2 IntegerProofs3.
Import ListNotations.
Open Scope Z_scope.

Ltac isint := unfold is_int, int_min, int_max; lia.

(** ** C01 bit queries *)

Theorem C01_bitCount : forall x, is_int x -> bitCount x = Ok (popcount 32 x).
Proof. exact bitCount_ok. Qed.
Print Assumptions C01_bitCount.
Theorem C01_highestOneBit : forall x, is_int x -> is_highest_one 32 x (highestOneBit x).
Proof. exact highestOneBit_ok. Qed.
Print Assumptions C01_highestOneBit.
Theorem C01_lowestOneBit : forall x, is_int x ->
  exists r, lowestOneBit HW x = Ok r /\ is_lowest_one 32 x r.
Proof. exact lowestOneBit_ok. Qed.
Print Assumptions C01_lowestOneBit.
(** ISO: only MIN_VALUE is affected. *)
Theorem C01_lowestOneBit_iso : forall x, is_int x ->
  lowestOneBit ISO x = if x =? int_min then UB SignedOverflow else lowestOneBit HW x.
Proof. exact lowestOneBit_iso. Qed.
Print Assumptions C01_lowestOneBit_iso.
Theorem C01_numberOfLeadingZeros : forall m x, is_int x ->
  exists r, numberOfLeadingZeros m x = Ok r /\ is_nlz 32 x r.
Proof. exact nlz_ok. Qed.
Print Assumptions C01_numberOfLeadingZeros.
Theorem C01_numberOfTrailingZeros : forall x, is_int x ->
  exists r, numberOfTrailingZeros x = Ok r /\ is_ntz 32 x r.
Proof. exact ntz_ok. Qed.
Print Assumptions C01_numberOfTrailingZeros.
(** The four specifications determine the result. *)
Lemma queries_unique w x r r' : 
  (is_highest_one w x r -> is_highest_one w x r' -> r = r') /\
  (is_lowest_one w x r -> is_lowest_one w x r' -> r = r') /\
  (is_nlz w x r -> is_nlz w x r' -> r = r') /\ (is_ntz w x r -> is_ntz w x r' -> r = r').
Proof.
  assert (Z0 : forall k, ~ (Z.testbit 0 k = true)) by (intros k H; rewrite Z.bits_0 in H; discriminate).
  repeat split; (intros [[-> ->]|(k & Hk & ->)] [[E ->]|(l & Hl & ->)]; auto;
    [exfalso; destruct Hl as (_ & Hl & _); eapply Z0; eauto |
     exfalso; subst; destruct Hk as (_ & Hk & _); eapply Z0; eauto |
     f_equal; eauto using highest_at_fun, lowest_at_fun]).
Qed.
Theorem C01_specifications_unique : forall w x r r',
  (is_highest_one w x r -> is_highest_one w x r' -> r = r') /\
  (is_lowest_one w x r -> is_lowest_one w x r' -> r = r') /\
  (is_nlz w x r -> is_nlz w x r' -> r = r') /\ (is_ntz w x r -> is_ntz w x r' -> r = r').
Proof. exact queries_unique. Qed.
Print Assumptions C01_specifications_unique.
Example C01_ex : bitCount (-1) = Ok 32 /\ highestOneBit (-5) = int_min /\ highestOneBit 100 = 64
  /\ lowestOneBit HW int_min = Ok int_min /\ lowestOneBit ISO 12 = Ok 4
  /\ numberOfLeadingZeros ISO 1 = Ok 31 /\ numberOfLeadingZeros ISO (-1) = Ok 0
  /\ numberOfTrailingZeros int_min = Ok 31 /\ numberOfTrailingZeros 40 = Ok 3 /\ popcount 32 (-1) = 32.
Proof. vm_compute; repeat split. Qed.

(** ** C02 bit permutations *)

Theorem C02_reverse : forall x, is_int x -> exists r, reverse HW x = Ok r /\ permutes 32 (mirror 32) x r.
Proof. exact reverse_ok. Qed.
Print Assumptions C02_reverse.
Theorem C02_reverseBytes : forall x, is_int x ->
  exists r, reverseBytes HW x = Ok r /\ permutes 32 (byte_mirror 32) x r.
Proof. exact reverseBytes_ok. Qed.
Print Assumptions C02_reverseBytes.
Theorem C02_rotateLeft : forall x d, is_int x ->
  exists r, rotateLeft HW x d = Ok r /\ permutes 32 (rotl 32 d) x r.
Proof. exact rotateLeft_ok. Qed.
Print Assumptions C02_rotateLeft.
Theorem C02_rotateRight : forall x d, is_int x ->
  exists r, rotateRight HW x d = Ok r /\ permutes 32 (rotr 32 d) x r.
Proof. exact rotateRight_ok. Qed.
Print Assumptions C02_rotateRight.
Theorem C02_reverse_involutive : forall x, is_int x -> exists r, reverse HW x = Ok r /\ reverse HW r = Ok x.
Proof. exact reverse_involutive. Qed.
Print Assumptions C02_reverse_involutive.
Theorem C02_reverseBytes_involutive : forall x, is_int x ->
  exists r, reverseBytes HW x = Ok r /\ reverseBytes HW r = Ok x.
Proof. exact reverseBytes_involutive. Qed.
Print Assumptions C02_reverseBytes_involutive.
Theorem C02_rotations_inverse : forall x d, is_int x ->
  (exists r, rotateLeft HW x d = Ok r /\ rotateRight HW r d = Ok x) /\
  (exists r, rotateRight HW x d = Ok r /\ rotateLeft HW r d = Ok x).
Proof. exact rotate_inverse. Qed.
Print Assumptions C02_rotations_inverse.
(** ISO: every rotation by a non-zero distance shifts by a negative count. *)
Theorem C02_rotate_iso : forall x d, d <> 0 ->
  (exists u, rotateLeft ISO x d = UB u) /\ (exists u, rotateRight ISO x d = UB u).
Proof. exact rotate_iso. Qed.
Print Assumptions C02_rotate_iso.
Theorem C02_reverse_iso : exists x, is_int x /\ reverse ISO x = UB BadShift /\ reverseBytes ISO x = UB BadShift.
Proof. exists (-1). split; [isint|]. vm_compute; auto. Qed.
Print Assumptions C02_reverse_iso.
Example C02_ex : reverse HW 1 = Ok int_min /\ reverse HW 0x12345678 = Ok 0x1e6a2c48
  /\ reverseBytes HW 0x12345678 = Ok 0x78563412 /\ rotateLeft HW (-2) 33 = Ok (-3)
  /\ rotateRight HW 1 1 = Ok int_min /\ rotateLeft HW 5 (-1) = rotateRight HW 5 1.
Proof. vm_compute; repeat split. Qed.

(** ** C03 unsigned arithmetic *)

Theorem C03_compareUnsigned : forall a b, is_int a -> is_int b ->
  compareUnsigned HW a b =
    Ok (match unsigned 32 a ?= unsigned 32 b with Lt => -1 | Eq => 0 | Gt => 1 end).
Proof. exact compareUnsigned_ok. Qed.
Print Assumptions C03_compareUnsigned.
Theorem C03_compareUnsigned_iso : forall a b, is_int a -> is_int b ->
  compareUnsigned ISO a b = if (a <? 0) || (b <? 0) then UB SignedOverflow else compareUnsigned HW a b.
Proof. exact compareUnsigned_iso. Qed.
Print Assumptions C03_compareUnsigned_iso.
Theorem C03_divide_remainder : forall a b, is_int a -> is_int b ->
  (b = 0 -> divideUnsigned a b = Throw ArithmeticException /\ remainderUnsigned a b = Throw ArithmeticException) /\
  (b <> 0 -> exists q r, divideUnsigned a b = Ok q /\ remainderUnsigned a b = Ok r /\ is_int q /\ is_int r /\
     unsigned 32 q = unsigned 32 a / unsigned 32 b /\ unsigned 32 r = unsigned 32 a mod unsigned 32 b).
Proof. exact divideUnsigned_ok. Qed.
Print Assumptions C03_divide_remainder.
Example C03_ex : compareUnsigned HW (-1) 1 = Ok 1 /\ divideUnsigned (-1) 2 = Ok 2147483647
  /\ remainderUnsigned (-1) 10 = Ok 5 /\ divideUnsigned int_min (-1) = Ok 0.
Proof. vm_compute; repeat split. Qed.

(** ** C04 text round trip *)

Theorem C04_round_trip : forall x r s, is_int x -> 2 <= r <= 32 -> toString HW x r = Ok s ->
  canonical_signed r s x /\ parseInt s r = Ok x.
Proof. exact toString_parse. Qed.
Print Assumptions C04_round_trip.
(** A text is returned for radix 2, 8, 10 and 16 (and for 0 in any radix). *)
Theorem C04_toString_domain : forall x r, is_int x -> 2 <= r <= 32 ->
  (x = 0 \/ supported r -> exists s, toString HW x r = Ok s /\ canonical_signed r s x) /\
  (x <> 0 -> ~ supported r -> toString HW x r = Throw UnsupportedOperationException).
Proof. exact toString_ok. Qed.
Print Assumptions C04_toString_domain.
Theorem C04_toUnsignedString : forall x r, is_int x -> supported r ->
  exists s, toUnsignedString x r = Ok s /\ canonical_unsigned r s (unsigned 32 x).
Proof. exact toUnsignedString_ok. Qed.
Print Assumptions C04_toUnsignedString.
Theorem C04_toString_iso : forall x r, is_int x ->
  toString ISO x r = if x =? int_min then UB SignedOverflow else toString HW x r.
Proof. exact toString_iso. Qed.
Print Assumptions C04_toString_iso.
Example C04_ex : toString HW int_min 10 = Ok (T "-2147483648") /\ toString ISO (-255) 16 = Ok (T "-ff")
  /\ toBinaryString 10 = Ok (T "1010") /\ toHexString (-1) = Ok (T "ffffffff")
  /\ parseInt (T "-2147483648") 10 = Ok int_min /\ supported 16.
Proof. unfold supported. vm_compute; repeat split; auto. Qed.

(** ** C05 parseInt *)

Theorem C05_accepts : forall b s v, 2 <= b <= 32 -> signed_numeral b s v -> small s -> is_int v ->
  parseInt s b = Ok v.
Proof. exact parse_accepts. Qed.
Print Assumptions C05_accepts.
Theorem C05_rejects_out_of_range_partial : forall b s v, 2 <= b <= 32 -> signed_numeral b s v -> small s ->
  ~ is_int v -> is_long v \/ v <= - 2 ^ 64 \/ 2 ^ 64 <= v -> parseInt s b = Throw NumberFormatException.
Proof. exact parse_rejects_range. Qed.
Print Assumptions C05_rejects_out_of_range_partial.
(** Whatever the string, the call returns an int or raises an exception. *)
Theorem C05_total : forall s b, small s ->
  (exists v, parseInt s b = Ok v /\ is_int v) \/ parseInt s b = Throw NumberFormatException \/
  (s = [45] /\ parseInt s b = Throw StringIndexOutOfBoundsException).
Proof. exact parseInt_total. Qed.
Print Assumptions C05_total.
Example C05_ex : parseInt (T "-7fFf") 16 = Ok (-32767) /\ parseInt (T "2147483648") 10 = Throw NumberFormatException
  /\ signed_numeral 10 (T "12") 12.
Proof.
  split; [reflexivity|]. split; [reflexivity|]. left. split; [discriminate|]. exists [1; 2].
  split; [|reflexivity]. repeat constructor.
Qed.
(** Numerals between 2^63 and 2^64 are accepted with a wrapped value. *)
Theorem C05_range_refuted : exists s v, signed_numeral 10 s v /\ ~ is_int v /\ parseInt s 10 = Ok (-1).
Proof.
  exists (T "18446744073709551615"), 18446744073709551615. split.
  - left. split; [discriminate|].
    exists [1;8;4;4;6;7;4;4;0;7;3;7;0;9;5;5;1;6;1;5]. split; [|reflexivity]. repeat constructor.
  - split; [isint|reflexivity].
Qed.
Print Assumptions C05_range_refuted.
(** Texts that are not numerals are accepted: trailing garbage, blanks, '+', "0x". *)
Lemma not_numeral b s v c : In c s -> c <> 45 -> digit_val c = None -> ~ signed_numeral b s v.
Proof.
  intros I N D.
  assert (G : forall t w, In c t -> ~ numeral b t w).
  { intros t w It (_ & ds & F & _). clear -F It D. induction F as [|x d t ds [H _] F IH]; [destruct It|].
    destruct It as [->|It]; [congruence|auto]. }
  intros [H|(t & w & -> & H & _)]; [eapply G; eauto|].
  destruct I as [I|I]; [congruence|]. eapply G; eauto.
Qed.
Lemma accepts_garbage : 
  (parseInt (T "12abc") 10 = Ok 12 /\ forall v, ~ signed_numeral 10 (T "12abc") v) /\
  (parseInt (T " 7") 10 = Ok 7 /\ forall v, ~ signed_numeral 10 (T " 7") v) /\
  (parseInt (T "+7") 10 = Ok 7 /\ forall v, ~ signed_numeral 10 (T "+7") v) /\
  (parseInt (T "- 7") 10 = Ok (-7) /\ forall v, ~ signed_numeral 10 (T "- 7") v) /\
  (parseInt (T "0x1F") 16 = Ok 31 /\ forall v, ~ signed_numeral 16 (T "0x1F") v).
Proof.
  split; [split; [reflexivity|]|].
  { intros v H. destruct H as [(_ & ds & F & _)|(t & w & E & _)]; [|discriminate].
    inversion F as [|? ? ? ? _ F1]; subst. inversion F1 as [|? ? ? ? _ F2]; subst.
    inversion F2 as [|? ? ? ? [D L] _]; subst. vm_compute in D. inversion D; subst. lia. }
  split; [split; [reflexivity|]; intros v; apply (not_numeral _ _ _ 32); [left; reflexivity|lia|reflexivity]|].
  split; [split; [reflexivity|]; intros v; apply (not_numeral _ _ _ 43); [left; reflexivity|lia|reflexivity]|].
  split; [split; [reflexivity|]; intros v; apply (not_numeral _ _ _ 32); [right; left; reflexivity|lia|reflexivity]|].
  split; [reflexivity|]. intros v H. destruct H as [(_ & ds & F & _)|(t & w & E & _)]; [|discriminate].
  inversion F as [|? ? ? ? _ F1]; subst. inversion F1 as [|? ? ? ? [D L] F2]; subst.
  vm_compute in D. inversion D; subst. lia.
Qed.
Theorem C05_garbage_refuted :
  (parseInt (T "12abc") 10 = Ok 12 /\ forall v, ~ signed_numeral 10 (T "12abc") v) /\
  (parseInt (T " 7") 10 = Ok 7 /\ forall v, ~ signed_numeral 10 (T " 7") v) /\
  (parseInt (T "+7") 10 = Ok 7 /\ forall v, ~ signed_numeral 10 (T "+7") v) /\
  (parseInt (T "- 7") 10 = Ok (-7) /\ forall v, ~ signed_numeral 10 (T "- 7") v) /\
  (parseInt (T "0x1F") 16 = Ok 31 /\ forall v, ~ signed_numeral 16 (T "0x1F") v).
Proof. exact accepts_garbage. Qed.
Print Assumptions C05_garbage_refuted.

(** ** C06 operators *)

Theorem C06_exact : forall m o a b, is_int a -> is_int b -> is_int (int_math o a b) ->
  (b <> 0 \/ (o <> IDiv /\ o <> IMod)) -> ~ (o = IMod /\ a = int_min /\ b = -1) ->
  int_op m o a b = Ok (int_math o a b).
Proof. exact int_op_exact. Qed.
Print Assumptions C06_exact.
Theorem C06_zero_divisor : forall m o a, o = IDiv \/ o = IMod -> int_op m o a 0 = Throw ArithmeticException.
Proof. exact int_op_zero. Qed.
Print Assumptions C06_zero_divisor.
Theorem C06_overflow : forall o a b, o = IAdd \/ o = ISub \/ o = IMul -> ~ is_int (int_math o a b) ->
  int_op HW o a b = Ok (wrap 32 (int_math o a b)) /\ int_op ISO o a b = UB SignedOverflow.
Proof. exact int_op_overflow. Qed.
Print Assumptions C06_overflow.
Theorem C06_text_follows_value : forall m l x x', canonical_signed 10 (itext x) (ival x) ->
  assign_all m x l = Ok x' -> canonical_signed 10 (itext x') (ival x').
Proof. exact assign_all_text. Qed.
Print Assumptions C06_text_follows_value.
Example C06_ex : int_op ISO IDiv (-7) 2 = Ok (-3) /\ int_op ISO IMod (-7) 2 = Ok (-1)
  /\ int_op HW IMul 65536 65536 = Ok 0
  /\ (exists x, assign_all ISO (mk_integer 5) [(IAdd, 7); (IMul, -3)] = Ok x /\ itext x = T "-36")
  /\ canonical_signed 10 (itext (mk_integer 5)) 5.
Proof. repeat split; try (eexists; split; reflexivity). exact (itoa_canonical 5). Qed.
(** MIN_VALUE / -1 and MIN_VALUE % -1 trap, although the latter is exactly 0. *)
Theorem C06_min_by_minus_one_refuted : forall m,
  int_op m IDiv int_min (-1) = UB SignedOverflow /\ int_op m IMod int_min (-1) = UB SignedOverflow
  /\ int_math IMod int_min (-1) = 0.
Proof. intros m. vm_compute; auto. Qed.
Print Assumptions C06_min_by_minus_one_refuted.
