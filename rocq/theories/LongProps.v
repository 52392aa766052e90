(** Property theorems C07-C11: java.lang.Long.
    [HW] is the gcc/x86-64 reading; [m] means both readings. *)

From Coq Require Import ZArith List Lia Bool String.
From Verif Require Import IntegerProofs2 Base Bits CppText TextSpec TextLemmas BitSpec BitLemmas StringModel StringProofs
  CharacterModel LongModel LongProofs LongProofs2.
Import ListNotations.
Open Scope Z_scope.

Ltac islong := unfold is_long, long_min, long_max; lia.

(** ** C07 bit queries *)

Theorem C07_bitCount : forall x, is_long x -> bitCount HW x = Ok (popcount 64 x).
Proof. intros; apply bitCount_gen; auto. Qed.
Print Assumptions C07_bitCount.
(** ISO: the first subtraction overflows exactly below -2^62. *)
Theorem C07_bitCount_iso : forall x, is_long x ->
  bitCount ISO x = if x <? - 2 ^ 62 then UB SignedOverflow else Ok (popcount 64 x).
Proof.
  intros x Hx. destruct (Z.ltb_spec x (- 2 ^ 62)); [apply bitCount_iso_ub; auto|apply bitCount_gen; auto].
Qed.
Print Assumptions C07_bitCount_iso.
Theorem C07_highestOneBit_partial : forall m x, is_long x -> 0 <= x ->
  exists r, highestOneBit m x = Ok r /\ is_highest_one 64 x r.
Proof. exact highestOneBit_nonneg. Qed.
Print Assumptions C07_highestOneBit_partial.
(** Every negative value: 0 instead of MIN_VALUE. *)
Theorem C07_highestOneBit_negative : forall m x, is_long x -> x < 0 -> highestOneBit m x = Ok 0.
Proof. exact highestOneBit_neg. Qed.
Print Assumptions C07_highestOneBit_negative.
Theorem C07_highestOneBit_refuted : forall m x, is_long x -> x < 0 ->
  ~ (exists r, highestOneBit m x = Ok r /\ is_highest_one 64 x r).
Proof.
  intros m x Hx N (r & E & H). rewrite highestOneBit_neg in E by auto. inversion E; subst.
  destruct H as [[-> _]|(k & Hk & H)]; [lia|].
  destruct Hk as (A & B & D).
  assert (k = 63).
  { destruct (Z.eq_dec k 63); auto. specialize (D 63 ltac:(lia)).
    rewrite (signed_bits_high 64) in D; [lia|lia|apply (proj1 (is_long_s _)); auto|lia]. }
  subst. vm_compute in H. discriminate.
Qed.
Print Assumptions C07_highestOneBit_refuted.
Theorem C07_lowestOneBit : forall x, is_long x ->
  exists r, lowestOneBit HW x = Ok r /\ is_lowest_one 64 x r.
Proof. exact lowestOneBit_ok. Qed.
Print Assumptions C07_lowestOneBit.
Theorem C07_lowestOneBit_iso : forall x, is_long x ->
  lowestOneBit ISO x = if x =? long_min then UB SignedOverflow else lowestOneBit HW x.
Proof. exact lowestOneBit_iso. Qed.
Print Assumptions C07_lowestOneBit_iso.
Theorem C07_numberOfLeadingZeros : forall m x, is_long x ->
  exists r, numberOfLeadingZeros m x = Ok r /\ is_nlz 64 x r.
Proof. exact nlz_ok. Qed.
Print Assumptions C07_numberOfLeadingZeros.
Theorem C07_numberOfTrailingZeros : forall m x, is_long x ->
  exists r, numberOfTrailingZeros m x = Ok r /\ is_ntz 64 x r.
Proof. exact ntz_ok. Qed.
Print Assumptions C07_numberOfTrailingZeros.
(** signum is right for zero and negative values ... *)
Theorem C07_signum_partial : forall x, is_long x -> x <= 0 -> signum HW x = Ok (Z.sgn x).
Proof.
  intros x Hx N. rewrite signum_ok by auto. destruct (Z.eqb_spec x 0) as [->|]; [reflexivity|].
  rewrite Z.sgn_neg by lia. reflexivity.
Qed.
Print Assumptions C07_signum_partial.
(** ... and -1 instead of 1 for every positive value. *)
Theorem C07_signum_refuted : forall x, is_long x -> 0 < x -> signum HW x = Ok (-1) /\ Z.sgn x = 1.
Proof. 
  intros x Hx N. rewrite signum_ok by auto. replace (x =? 0) with false by lia. split; auto. apply Z.sgn_pos; lia.
Qed.
Print Assumptions C07_signum_refuted.
Example C07_ex : bitCount HW (-1) = Ok 64 /\ bitCount HW 255 = Ok 8 /\ bitCount ISO long_min = UB SignedOverflow
  /\ highestOneBit HW (-5) = Ok 0 /\ highestOneBit ISO 100 = Ok 64
  /\ lowestOneBit HW long_min = Ok long_min /\ lowestOneBit ISO 12 = Ok 4
  /\ numberOfLeadingZeros ISO 1 = Ok 63 /\ numberOfTrailingZeros ISO (2 ^ 40) = Ok 40
  /\ signum HW 7 = Ok (-1).
Proof. vm_compute; repeat split. Qed.

(** ** C08 bit permutations *)

(** reverse and reverseBytes return their argument. *)
Theorem C08_reverse_refuted :
  (exists x, is_long x /\ ~ permutes 64 (mirror 64) x (reverse x)) /\
  (exists x, is_long x /\ ~ permutes 64 (byte_mirror 64) x (reverseBytes x)) /\
  (forall x, reverse x = x /\ reverseBytes x = x).
Proof.
  repeat split; try reflexivity; (exists 1; split; [islong|]; intros [_ H]; specialize (H 0 ltac:(lia)); vm_compute in H; discriminate).
Qed.
Print Assumptions C08_reverse_refuted.
Theorem C08_rotateLeft_partial : forall x d, is_long x -> 0 <= x ->
  exists r, rotateLeft HW x d = Ok r /\ permutes 64 (rotl 64 d) x r.
Proof.
  intros x d Hx N. destruct (rotateLeft_exact x d Hx) as (r & E & R & B). exists r. split; auto. split; auto.
  intros i Hi. rewrite B by auto. replace (x <? 0) with false by lia. rewrite andb_false_r. auto.
Qed.
Print Assumptions C08_rotateLeft_partial.
Theorem C08_rotateRight_partial : forall x d, is_long x -> 0 <= x ->
  exists r, rotateRight HW x d = Ok r /\ permutes 64 (rotr 64 d) x r.
Proof.
  intros x d Hx N. destruct (rotateRight_exact x d Hx) as (r & E & R & B). exists r. split; auto. split; auto.
  intros i Hi. rewrite B by auto. replace (x <? 0) with false by lia. rewrite andb_false_r. auto.
Qed.
Print Assumptions C08_rotateRight_partial.
(** Exact result for all values: for negative ones every bit that is not
    rotated around is set to one. *)
Theorem C08_rotateLeft_exact : forall x d, is_long x -> exists r, rotateLeft HW x d = Ok r /\ in_s 64 r /\
  forall i, 0 <= i < 64 -> Z.testbit r i =
    if (d mod 64 <=? i) && negb (d mod 64 =? 0) && (x <? 0) then true else Z.testbit x (rotl 64 d i).
Proof. exact rotateLeft_exact. Qed.
Print Assumptions C08_rotateLeft_exact.
Theorem C08_rotateRight_exact : forall x d, is_long x -> exists r, rotateRight HW x d = Ok r /\ in_s 64 r /\
  forall i, 0 <= i < 64 -> Z.testbit r i =
    if (64 <=? i + d mod 64) && (x <? 0) then true else Z.testbit x (rotr 64 d i).
Proof. exact rotateRight_exact. Qed.
Print Assumptions C08_rotateRight_exact.
Theorem C08_rotate_refuted : exists x d, is_long x /\
  (forall r, rotateLeft HW x d = Ok r -> ~ permutes 64 (rotl 64 d) x r) /\
  (forall r, rotateRight HW x d = Ok r -> ~ permutes 64 (rotr 64 d) x r).
Proof.
  exists long_min, 1. split; [islong|].
  split; intros r E; vm_compute in E; inversion E; subst; intros [_ H].
  - specialize (H 5 ltac:(lia)). vm_compute in H. discriminate.
  - specialize (H 63 ltac:(lia)). vm_compute in H. discriminate.
Qed.
Print Assumptions C08_rotate_refuted.
Theorem C08_rotate_iso : forall x d, d <> 0 ->
  (exists u, rotateLeft ISO x d = UB u) /\ (exists u, rotateRight ISO x d = UB u).
Proof. exact rotate_iso. Qed.
Print Assumptions C08_rotate_iso.
Example C08_ex : rotateLeft HW 1 63 = Ok long_min /\ rotateRight HW 1 1 = Ok long_min
  /\ rotateLeft HW long_min 1 = Ok (-1) /\ rotateLeft HW 5 (-1) = rotateRight HW 5 1.
Proof. vm_compute; repeat split. Qed.

(** ** C09 parsing *)

(** Radix 10 and 16: a legal numeral with lower-case digits is parsed exactly. *)
Theorem C09_parseLong_partial : forall m r s v, r = 10 \/ r = 16 -> Forall byte_ok s ->
  legal_numeral r s v -> lower s -> is_long v -> parseLong m s r = Ok v.
Proof.
  intros m r s v Hr B H Lo Hv. rewrite (proj1 (parseLong_exact m r s Hr B) v H Lo).
  unfold parse_outcome. unfold is_long in Hv. replace (_ && _) with true by lia. reflexivity.
Qed.
Print Assumptions C09_parseLong_partial.
(** ... and everything else gives -1. *)
Theorem C09_parseLong_otherwise : forall m r s, r = 10 \/ r = 16 -> Forall byte_ok s ->
  ~ (exists v, legal_numeral r s v /\ lower s /\ is_long v) -> parseLong m s r = Ok (-1).
Proof.
  intros m r s Hr B H. destruct (parseLong_exact m r s Hr B) as [P1 P2].
  destruct (legal_dec r s Hr B) as [(v & Hv & Lo)|N]; [|auto].
  rewrite (P1 v Hv Lo). unfold parse_outcome. destruct (_ && _) eqn:E; auto.
  exfalso. apply H. exists v. split; auto. split; auto. unfold is_long. lia.
Qed.
Print Assumptions C09_parseLong_otherwise.
(** Any other radix: no numeral is ever accepted; radix 0 and (for a leading
    minus sign) -1 are undefined. *)
Theorem C09_parseLong_other_radix : forall m r s, r <> 10 -> r <> 16 -> r <> 0 -> r <> -1 -> parseLong m s r = Ok (-1).
Proof. exact parseLong_other. Qed.
Print Assumptions C09_parseLong_other_radix.
Theorem C09_parseLong_bad_radix_refuted : forall m,
  parseLong m (T "1") 0 = UB DivideByZero /\ parseLong m (T "-1") (-1) = UB SignedOverflow /\
  parseLong m (T "101") 2 = Ok (-1) /\ numeral 2 (T "101") 5.
Proof.
  intros m. repeat split; try (destruct m; reflexivity); [discriminate|].
  exists [1; 0; 1]. split; [|reflexivity]. repeat constructor.
Qed.
Print Assumptions C09_parseLong_bad_radix_refuted.
(** A malformed or out-of-range text cannot be told from the legal "-1". *)
Theorem C09_distinguishable_refuted : forall m,
  parseLong m (T "-1") 10 = Ok (-1) /\ legal_numeral 10 (T "-1") (-1) /\
  parseLong m (T "12x") 10 = Ok (-1) /\ ~ (exists v, legal_numeral 10 (T "12x") v) /\
  parseLong m (T "9223372036854775808") 10 = Ok (-1).
Proof.
  intros m. repeat split; try (destruct m; reflexivity).
  - right; right. exists (T "1"), 1. repeat split; [discriminate|]. exists [1]. split; [repeat constructor|reflexivity].
  - intros (v & [[_ (ds & F & _)]|[(t & E & _)|(t & w & E & _)]]); try discriminate.
    inversion F as [|? ? ? ? _ F1]; subst. inversion F1 as [|? ? ? ? _ F2]; subst. inversion F2 as [|? ? ? ? H3 _]; subst.
    destruct H3 as [H3 H4]. vm_compute in H3. inversion H3; subst. lia.
Qed.
Print Assumptions C09_distinguishable_refuted.
(** decode: sign, then 0x/0X/# (hexadecimal) or a decimal numeral. *)
Theorem C09_decode_partial : forall m sg pre r t w,
  sg = [] \/ sg = [45] \/ sg = [43] -> decode_prefix r pre t ->
  numeral r t w -> lower t -> zlen t <= 1000000 -> w <= long_max ->
  decode m (sg ++ pre ++ t) = Ok (if match sg with [45] => true | _ => false end then - w else w).
Proof.
  intros m sg pre r t w Hs Hp N Lo L Hw. rewrite (decode_ok m sg pre r t w) by auto.
  assert (Hr : 0 < r) by (destruct Hp as [[-> _]|[-> _]]; lia).
  pose proof (numeral_range r t w Hr N) as H0.
  assert (P : parse_outcome w = w).
  { unfold parse_outcome. replace (_ && _) with true; auto. unfold long_min. lia. }
  rewrite P. destruct Hs as [-> |[-> | ->]]; auto.
  unfold sneg. rewrite sres_ok; auto. apply (proj1 (is_long_s _)). unfold is_long, long_min, long_max in *. lia.
Qed.
Print Assumptions C09_decode_partial.
(** decode accepts no octal literal, and MIN_VALUE decodes to 1. *)
Theorem C09_decode_refuted : forall m,
  decode m (T "-9223372036854775808") = Ok 1 /\ decode m (T "017") = Ok (-1) /\ decode m (T "-017") = Ok 1.
Proof. intros []; vm_compute; repeat split. Qed.
Print Assumptions C09_decode_refuted.
Example C09_ex : parseLong ISO (T "-9223372036854775808") 10 = Ok long_min
  /\ parseLong ISO (T "+42") 10 = Ok 42 /\ parseLong ISO (T "7fffffffffffffff") 16 = Ok long_max
  /\ parseLong ISO (T "FF") 16 = Ok (-1) /\ decode ISO (T "-0xff") = Ok (-255) /\ decode ISO (T "0") = Ok 0.
Proof. vm_compute; repeat split. Qed.

(** ** C10 power-of-two formatting *)

Theorem C10_toBinaryString : forall m x, is_long x ->
  exists t, toBinaryString m x = Ok t /\ canonical_unsigned 2 t (unsigned 64 x).
Proof. intros m x Hx. apply (format_unsigned m x 1); auto. Qed.
Print Assumptions C10_toBinaryString.
Theorem C10_toHexString : forall m x, is_long x ->
  exists t, toHexString m x = Ok t /\ canonical_unsigned 16 t (unsigned 64 x).
Proof. intros m x Hx. apply (format_unsigned m x 4); auto. Qed.
Print Assumptions C10_toHexString.
Theorem C10_toOctalString_partial : forall m x, is_long x -> 0 <= x ->
  exists t, toOctalString m x = Ok t /\ canonical_unsigned 8 t (unsigned 64 x).
Proof.
  intros m x Hx N. unfold unsigned. rewrite Z.mod_small by (unfold is_long, long_max in Hx; lia).
  apply (format_nonneg m x 3); auto; lia.
Qed.
Print Assumptions C10_toOctalString_partial.
(** A negative value is shown modulo 2^66 instead of 2^64 (first digit 7
    instead of 1). *)
Theorem C10_toOctalString_negative : forall m x, is_long x -> x < 0 ->
  exists t, toOctalString m x = Ok t /\ canonical_unsigned 8 t (unsigned 66 x) /\ ~ canonical_unsigned 8 t (unsigned 64 x).
Proof.
  intros m x Hx N. destruct (format_neg m x 3 Hx ltac:(lia) N) as (t & E & C). exists t. split; auto. split; auto.
  intros [C' _]. destruct C as [C _]. pose proof (numeral_fun _ _ _ _ C C') as F.
  change (3 * ((63 + 3) / 3)) with 66 in F. unfold unsigned in F.
  unfold is_long, long_min in Hx.
  rewrite <- (Z.mod_unique x (2 ^ 66) (-1) (x + 2 ^ 66)) in F by lia.
  rewrite <- (Z.mod_unique x (2 ^ 64) (-1) (x + 2 ^ 64)) in F by lia. lia.
Qed.
Print Assumptions C10_toOctalString_negative.
Theorem C10_toOctalString_refuted : forall m,
  toOctalString m (-1) = Ok (T "7777777777777777777777").
Proof. intros []; reflexivity. Qed.
Print Assumptions C10_toOctalString_refuted.
Example C10_ex : toHexString ISO (-1) = Ok (T "ffffffffffffffff") /\ toHexString ISO 0 = Ok (T "0")
  /\ toBinaryString ISO 10 = Ok (T "1010") /\ toOctalString ISO 64 = Ok (T "100")
  /\ toHexString ISO long_min = Ok (T "8000000000000000").
Proof. vm_compute; repeat split. Qed.

(** ** C11 toString *)

(** The static toString returns the decimal text of the argument of the
    first call, for every later call. *)
Theorem C11_static_toString_exact : forall i l,
  toString_calls None (i :: l) = map (fun _ => itoa i) (i :: l) /\ canonical_signed 10 (itoa i) i.
Proof. intros i l. split; [apply (toString_calls_ok (i :: l) None)|apply itoa_canonical]. Qed.
Print Assumptions C11_static_toString_exact.
Theorem C11_static_toString_refuted : forall i j, i <> j ->
  exists s, toString_calls None [i; j] = [s; s] /\ ~ canonical_signed 10 s j.
Proof.
  intros i j N. exists (itoa i). split; [reflexivity|]. intros C.
  pose proof (itoa_canonical i) as C'. apply N. eapply canonical_signed_fun with (b := 10); eauto; lia.
Qed.
Print Assumptions C11_static_toString_refuted.
(** The text of a Long object is that of the last value given by the
    constructor or a plain assignment; compound assignments do not renew it. *)
Theorem C11_object_text_exact : forall m v l y,
  long_steps m (mk_long v) l = Ok y -> ltext y = itoa (last_assigned v l).
Proof. intros m v l y E. eapply text_stale; eauto. Qed.
Print Assumptions C11_object_text_exact.
Theorem C11_object_text_partial : forall m v l y, Forall (fun s => match s with LAssign _ => True | LCompound _ _ => False end) l ->
  long_steps m (mk_long v) l = Ok y -> canonical_signed 10 (ltext y) (lval y).
Proof.
  intros m v l y F. revert v. induction F as [|[w|] l H F IH]; intros v0 E.
  - inversion E; subst. apply itoa_canonical.
  - apply (IH w). exact E.
  - contradiction.
Qed.
Print Assumptions C11_object_text_partial.
Theorem C11_object_text_refuted : forall m, exists y,
  long_steps m (mk_long 5) [LCompound LAdd 2] = Ok y /\ lval y = 7 /\ ltext y = T "5".
Proof. intros m. eexists. split; [destruct m; reflexivity|]. split; reflexivity. Qed.
Print Assumptions C11_object_text_refuted.
Example C11_ex : toString_calls None [7; 8; -1] = [T "7"; T "7"; T "7"]
  /\ exists y, long_steps ISO (mk_long 1) [LAssign 4; LCompound LMul 3; LCompound LMod 5] = Ok y /\ lval y = 2 /\ ltext y = T "4".
Proof. split; [reflexivity|]. eexists. split; [reflexivity|]. split; reflexivity. Qed.
