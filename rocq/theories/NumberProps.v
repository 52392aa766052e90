(** * C72: Integer.parseUnsignedInt and decode; C73: the small functions and
    operators of Integer and Long *)

From Coq Require Import ZArith List Lia Bool String.
From Verif Require Import Base Bits CppText TextSpec TextLemmas BitSpec BitLemmas StringProofs IntegerModel IntegerProofs IntegerProofs2 IntegerProofs3 NumberProofs.
From Verif Require LongModel.
Import ListNotations.
Open Scope string_scope.
Open Scope list_scope.
Open Scope Z_scope.

(** ** C72 parseUnsignedInt *)

(** An optional '+' and a numeral: the int with these 32 bits if the value is
    below 2^32, else NumberFormatException. *)
Theorem C72_unsigned_accepts m b sg s v :
  2 <= b <= 32 -> sg = T "" \/ sg = T "+" -> numeral b s v -> small (sg ++ s) -> v < 2 ^ 32 ->
  exists x, parseUnsignedInt m (sg ++ s) b = Ok x /\ is_int x /\ unsigned 32 x = v.
Proof.
  intros B SG N S V. rewrite (parseUnsigned_plus m b s v sg) by assumption. unfold u_result.
  pose proof (numeral_pos b s v ltac:(lia) N) as V0. destruct (Z.ltb_spec v (2 ^ 32)); [|lia]. exists (wrap 32 v).
  split; [reflexivity|]. split; [apply (proj2 (is_int_s _)); apply wrap_range; lia|].
  change (uwrap 32 (wrap 32 v) = v). rewrite uwrap_wrap by lia. apply uwrap_id; lia.
Qed.
Print Assumptions C72_unsigned_accepts.
Theorem C72_unsigned_range m b sg s v :
  2 <= b <= 32 -> sg = T "" \/ sg = T "+" -> numeral b s v -> small (sg ++ s) -> 2 ^ 32 <= v ->
  parseUnsignedInt m (sg ++ s) b = Throw NumberFormatException.
Proof.
  intros B SG N S V. rewrite (parseUnsigned_plus m b s v sg) by assumption. unfold u_result. destruct (Z.ltb_spec v (2 ^ 32)); [lia|reflexivity].
Qed.
Print Assumptions C72_unsigned_range.
Theorem C72_unsigned_minus m b t : small (T "-" ++ t) -> parseUnsignedInt m (T "-" ++ t) b = Throw NumberFormatException.
Proof. apply parseUnsigned_minus. Qed.
Print Assumptions C72_unsigned_minus.
(** Every string gives an int or an exception. *)
Theorem C72_unsigned_total s b : small s ->
  (exists v, parseUnsignedInt HW s b = Ok v /\ is_int v) \/ parseUnsignedInt HW s b = Throw NumberFormatException \/
  (s = T "+" /\ parseUnsignedInt HW s b = Throw StringIndexOutOfBoundsException).
Proof. apply parseUnsigned_total. Qed.
Print Assumptions C72_unsigned_total.
(** Texts that are not numerals are accepted, even negative ones; in ISO C++ a
    first character above 127 is undefined behaviour. *)
Theorem C72_unsigned_garbage_refuted : forall m,
  parseUnsignedInt m (T "12abc") 10 = Ok 12 /\ parseUnsignedInt m (T " 7") 10 = Ok 7 /\
  parseUnsignedInt m (T "+ 7") 10 = Ok 7 /\ parseUnsignedInt m (T "0x1F") 16 = Ok 31 /\
  parseUnsignedInt m (T " -18446744073709551615") 10 = Ok 1.
Proof. intros m. destruct m; vm_compute; auto. Qed.
Print Assumptions C72_unsigned_garbage_refuted.
Theorem C72_unsigned_iso : forall m s b, small s -> (forall c, hd_error s = Some c -> 0 <= c < 128) ->
  parseUnsignedInt m s b = parseUnsignedInt HW s b.
Proof.
  intros m s b S A. unfold parseUnsignedInt. destruct s as [|c t]; [reflexivity|]. rewrite charAt_hd by exact S. cbn [bind].
  rewrite !ctype_ascii by (apply A; reflexivity). reflexivity.
Qed.
Print Assumptions C72_unsigned_iso.
Theorem C72_unsigned_iso_refuted : parseUnsignedInt ISO [200] 10 = UB Precondition.
Proof. reflexivity. Qed.
Print Assumptions C72_unsigned_iso_refuted.

(** ** C72 decode *)

(** A literal: decimal without leading zero, 0 and octal digits, or 0x/0X and
    hexadecimal digits, optionally after '-'; the magnitude is at most 2^31 - 1. *)
Theorem C72_decode_partial m (neg : bool) pre r t w :
  (pre = T "" /\ r = 10 /\ hd 0 t <> 48) \/ (pre = T "0" /\ r = 8) \/ (pre = T "0x" /\ r = 16) \/ (pre = T "0X" /\ r = 16) ->
  numeral r t w -> is_int w -> small ((if neg then T "-" else T "") ++ pre ++ t) ->
  decode m ((if neg then T "-" else T "") ++ pre ++ t) = Ok (if neg then - w else w).
Proof.
  intros LT N W S.
  destruct neg; [apply (decode_literal m true pre r t w)|apply (decode_literal m false pre r t w)]; assumption.
Qed.
Print Assumptions C72_decode_partial.
(** Zero is "0"; but "-0" and the least int are rejected, a '+' before 0x gives
    zero, and '#' is not recognised. *)
Theorem C72_decode_refuted m :
  decode m (T "0") = Ok 0 /\
  decode m (T "-0") = Throw StringIndexOutOfBoundsException /\
  decode m (T "-2147483648") = Throw NumberFormatException /\
  decode m (T "+0x10") = Ok 0 /\ decode m (T "#10") = Throw NumberFormatException.
Proof. destruct m; vm_compute; auto. Qed.
Print Assumptions C72_decode_refuted.
Ltac decimal ds := split; [discriminate|]; exists ds; split; [repeat constructor; reflexivity|reflexivity].
Example C72_ex m : decode m (T "-0x1f") = Ok (-31) /\ decode m (T "017") = Ok 15.
Proof.
  split.
  - apply (C72_decode_partial m true (T "0x") 16 (T "1f") 31); [auto|decimal [1;15]|unfold is_int, int_min, int_max; lia|unfold small, int_max; cbn; lia].
  - apply (C72_decode_partial m false (T "0") 8 (T "17") 15); [auto|decimal [1;7]|unfold is_int, int_min, int_max; lia|unfold small, int_max; cbn; lia].
Qed.
Example C72_ex2 m : parseUnsignedInt m (T "+4294967295") 10 = Ok (-1).
Proof. destruct m; reflexivity. Qed.

(** ** C73 *)

(** the sign, the order *)
Theorem C73_signum x : signum x = Z.sgn x.
Proof. unfold signum. destruct x; reflexivity. Qed.
Print Assumptions C73_signum.
Theorem C73_long_compare x y : LongModel.compare x y = Z.sgn (x - y).
Proof. unfold LongModel.compare. destruct (Z.ltb_spec x y); [rewrite Z.sgn_neg; lia|]. destruct (Z.eqb_spec x y); [subst; rewrite Z.sub_diag; reflexivity|rewrite Z.sgn_pos; lia]. Qed.
Print Assumptions C73_long_compare.
Theorem C73_int_compare x y : compare x y = Z.sgn (x - y).
Proof. unfold compare. destruct (Z.ltb_spec x y); [rewrite Z.sgn_neg; lia|]. destruct (Z.ltb_spec y x); [rewrite Z.sgn_pos; lia|]. assert (x = y) as -> by lia. rewrite Z.sub_diag. reflexivity. Qed.
Print Assumptions C73_int_compare.
(** the sum: exact, else it wraps (undefined in ISO C++) *)
Theorem C73_sum m a b : is_int (a + b) -> sum m a b = Ok (a + b).
Proof. intros H. unfold sum, sadd. apply sres_ok. now apply (proj1 (is_int_s _)). Qed.
Print Assumptions C73_sum.
Theorem C73_sum_wraps a b : sum HW a b = Ok (wrap 32 (a + b)).
Proof. unfold sum, sadd. apply sres_HW. lia. Qed.
Print Assumptions C73_sum_wraps.
(** hexadecimal and octal text of the 32 bits *)
Theorem C73_hex x : is_int x -> exists s, toHexString x = Ok s /\ canonical_unsigned 16 s (unsigned 32 x).
Proof. intros X. apply toUnsignedString_ok; [exact X|unfold supported; auto]. Qed.
Print Assumptions C73_hex.
Theorem C73_octal x : is_int x -> exists s, toOctalString x = Ok s /\ canonical_unsigned 8 s (unsigned 32 x).
Proof. intros X. apply toUnsignedString_ok; [exact X|unfold supported; auto]. Qed.
Print Assumptions C73_octal.
(** Long.hashCode: the exclusive or of the two halves *)
Theorem C73_long_hash x k : 0 <= k < 32 ->
  Z.testbit (LongModel.hashCode x) k = xorb (Z.testbit x k) (Z.testbit x (k + 32)).
Proof.
  intros K. unfold LongModel.hashCode. rewrite wrap_bits_low by lia. rewrite Z.lxor_spec, Z.shiftr_spec by lia. reflexivity.
Qed.
Print Assumptions C73_long_hash.
Theorem C73_long_hash_range x : is_int (LongModel.hashCode x).
Proof. apply (proj2 (is_int_s _)). apply wrap_range. lia. Qed.
Print Assumptions C73_long_hash_range.
(** the operators of Long *)
Definition long_math (o : LongModel.lop) (a b : Z) : Z :=
  match o with LongModel.LAdd => a + b | LongModel.LSub => a - b | LongModel.LMul => a * b | LongModel.LDiv => Z.quot a b | LongModel.LMod => Z.rem a b end.
Theorem C73_long_exact m o a b : is_long a -> is_long b -> is_long (long_math o a b) ->
  (b <> 0 \/ (o <> LongModel.LDiv /\ o <> LongModel.LMod)) -> ~ (o = LongModel.LMod /\ a = long_min /\ b = -1) ->
  LongModel.long_op m o a b = Ok (long_math o a b).
Proof.
  intros A B R D E. destruct o; cbn [LongModel.long_op long_math] in *.
  - unfold sadd. apply sres_ok. now apply (proj1 (is_long_s _)).
  - unfold ssub. apply sres_ok. now apply (proj1 (is_long_s _)).
  - unfold smul. apply sres_ok. now apply (proj1 (is_long_s _)).
  - unfold sdiv. destruct (Z.eqb_spec b 0); [tauto|]. destruct (in_sb 64 (Z.quot a b)) eqn:I; [reflexivity|].
    apply (proj1 (is_long_s _)) in R. apply in_s_b in R. congruence.
  - unfold srem. destruct (Z.eqb_spec b 0); [tauto|]. destruct (in_sb 64 (Z.quot a b)) eqn:I; [reflexivity|]. exfalso. apply E. split; [reflexivity|].
    assert (NI : ~ in_s 64 (Z.quot a b)) by (intros X; apply in_s_b in X; congruence).
    unfold in_s, smin, smax in NI. change (2 ^ (64 - 1)) with 9223372036854775808 in NI. unfold is_long, long_min, long_max in A, B |- *.
    assert (Q : a = b * Z.quot a b + Z.rem a b) by apply Z.quot_rem'.
    pose proof (Z.rem_bound_abs a b ltac:(lia)).
    assert (AB : Z.abs (Z.quot a b) * Z.abs b <= Z.abs a).
    { rewrite <- Z.quot_abs by lia. pose proof (Z.mul_quot_le (Z.abs a) (Z.abs b) ltac:(lia) ltac:(lia)). lia. }
    assert (b = 1 \/ b = -1 \/ 2 <= Z.abs b) as [-> |[-> |H2]] by lia.
    + rewrite Z.quot_1_r in NI. lia.
    + split; [|reflexivity]. lia.
    + nia.
Qed.
Print Assumptions C73_long_exact.
Theorem C73_long_overflow o a b : o = LongModel.LAdd \/ o = LongModel.LSub \/ o = LongModel.LMul -> ~ is_long (long_math o a b) ->
  LongModel.long_op HW o a b = Ok (wrap 64 (long_math o a b)) /\ LongModel.long_op ISO o a b = UB SignedOverflow.
Proof.
  intros H R. assert (NI : in_sb 64 (long_math o a b) = false).
  { destruct (in_sb 64 (long_math o a b)) eqn:E; [|reflexivity]. exfalso. apply R. apply (proj2 (is_long_s _)). now apply in_s_b. }
  destruct H as [-> |[-> | ->]]; cbn [LongModel.long_op long_math] in *; unfold sadd, ssub, smul; rewrite sres_HW by lia; (split; [reflexivity|]); unfold sres; rewrite NI; reflexivity.
Qed.
Print Assumptions C73_long_overflow.
(** Unlike Integer, Long does not test the divisor: the process is killed. *)
Theorem C73_long_division_refuted m a :
  LongModel.long_op m LongModel.LDiv a 0 = UB DivideByZero /\ LongModel.long_op m LongModel.LMod a 0 = UB DivideByZero /\
  LongModel.long_op m LongModel.LDiv long_min (-1) = UB SignedOverflow /\ LongModel.long_op m LongModel.LMod long_min (-1) = UB SignedOverflow.
Proof. destruct m; repeat split. Qed.
Print Assumptions C73_long_division_refuted.
Example C73_ex : LongModel.long_op ISO LongModel.LMod (-7) 2 = Ok (-1) /\ LongModel.hashCode 4294967297 = 0 /\ sum ISO 3 4 = Ok 7.
Proof. vm_compute. auto. Qed.
