(** C123: conversions and comparisons of Integer and Long. *)

From Coq Require Import ZArith List Lia Bool.
From Verif Require Import Base Bits NarrowModel.
From Verif Require IntegerModel LongModel.
Open Scope Z_scope.

(** Specification: [r] is the two's complement number of [w] bits with the low
    [w] bits of [x]. *)
Definition narrows (w x r : Z) : Prop :=
  - 2 ^ (w - 1) <= r < 2 ^ (w - 1) /\ exists k, x = r + 2 ^ w * k.

(** Specification: the operators and compareTo are those of the order of numbers. *)
Definition ordered_as_numbers (c : comparisons) : Prop := forall a b,
  (eqb c a b = true <-> a = b) /\ (neb c a b = true <-> a <> b) /\
  (ltb c a b = true <-> a < b) /\ (gtb c a b = true <-> a > b) /\
  (leb c a b = true <-> a <= b) /\ (geb c a b = true <-> a >= b) /\
  (a < b -> compareTo c a b < 0) /\ (a = b -> compareTo c a b = 0) /\ (a > b -> compareTo c a b > 0).

Lemma wrap_narrows w x : 0 < w -> narrows w x (wrap w x).
Proof.
  intros W. pose proof (wrap_range w x W) as R. unfold in_s, smin, smax in R. split; [lia|].
  pose proof (wrap_mod w x W) as M. exists (x / 2 ^ w - wrap w x / 2 ^ w).
  assert (0 < 2 ^ w) by (apply Z.pow_pos_nonneg; lia).
  pose proof (Z.div_mod x (2 ^ w) ltac:(lia)). pose proof (Z.div_mod (wrap w x) (2 ^ w) ltac:(lia)). nia.
Qed.

(** A narrowed number is determined by the specification. *)
Lemma narrows_unique w x r s : 0 < w -> narrows w x r -> narrows w x s -> r = s.
Proof.
  intros W (R & k & Ek) (S1 & l & El).
  assert (P : 2 ^ w = 2 * 2 ^ (w - 1)) by (replace w with (1 + (w - 1)) at 1 by lia; rewrite Z.pow_add_r by lia; reflexivity).
  rewrite P in *. remember (2 ^ (w - 1)) as p. assert (k = l) by nia. subst l. lia.
Qed.

Theorem C123_short : forall x r,
  (narrows 16 x r <-> Integer_shortValue x = r) /\ (narrows 16 x r <-> Long_shortValue x = r).
Proof.
  intros x r. assert (H : narrows 16 x r <-> wrap 16 x = r).
  { split; intros H; [|subst; apply wrap_narrows; lia]. eapply narrows_unique; [|apply wrap_narrows; lia|exact H]; lia. }
  split; exact H.
Qed.
Print Assumptions C123_short.

Theorem C123_long_int_byte : forall x r,
  (narrows 32 x r <-> Long_intValue x = r) /\ (narrows 8 x r <-> Long_byteValue x = r).
Proof.
  intros x r. split.
  - unfold Long_intValue. split; intros H; [|subst; apply wrap_narrows; lia]. eapply narrows_unique; [|apply wrap_narrows; lia|exact H]; lia.
  - assert (E : Long_byteValue x = wrap 8 x).
    { unfold Long_byteValue. apply wrap_id; [lia|]. pose proof (wrap_range 8 x ltac:(lia)) as R. unfold in_s, smin, smax in *.
      change (2 ^ (8 - 1)) with 128 in R. change (2 ^ (32 - 1)) with 2147483648. lia. }
    rewrite E. split; intros H; [|subst; apply wrap_narrows; lia]. eapply narrows_unique; [|apply wrap_narrows; lia|exact H]; lia.
Qed.
Print Assumptions C123_long_int_byte.

(** Widening an Integer and narrowing it again gives it back. *)
Theorem C123_widen : forall x, - 2 ^ 31 <= x < 2 ^ 31 -> Integer_longValue x = x /\ Long_intValue (Integer_longValue x) = x.
Proof.
  intros x R. assert (E : Integer_longValue x = x).
  { apply wrap_id; [lia|]. unfold in_s, smin, smax. change (2 ^ 31) with 2147483648 in R. change (2 ^ (64 - 1)) with 9223372036854775808. lia. }
  rewrite E. split; [reflexivity|]. apply wrap_id; [lia|]. unfold in_s, smin, smax. change (2 ^ 31) with 2147483648 in R. change (2 ^ (32 - 1)) with 2147483648. lia.
Qed.
Print Assumptions C123_widen.

(** Integer.byteValue is right exactly when the eighth bit is clear: byte is unsigned. *)
Theorem C123_integer_byte_partial : forall x,
  narrows 8 x (Integer_byteValue x) <-> Z.testbit x 7 = false.
Proof.
  intros x. unfold Integer_byteValue, narrows. change (2 ^ (8 - 1)) with 128. change (2 ^ 8) with 256.
  pose proof (Z.mod_pos_bound x 256 ltac:(lia)) as B. pose proof (Z.div_mod x 256 ltac:(lia)) as D.
  assert (T7 : Z.testbit x 7 = (128 <=? x mod 256)).
  { rewrite Z.testbit_eqb by lia. change (2 ^ 7) with 128.
    assert (x / 128 = 2 * (x / 256) + (x mod 256) / 128) as ->.
    { rewrite D at 1. replace (256 * (x / 256) + x mod 256) with (x mod 256 + (2 * (x / 256)) * 128) by lia. rewrite Z.div_add by lia. lia. }
    rewrite Z.add_comm, Z.mul_comm, Z.mod_add by lia.
    destruct (Z.leb_spec 128 (x mod 256)).
    - replace (x mod 256 / 128) with 1 by (apply Z.div_unique with (x mod 256 - 128); lia). reflexivity.
    - rewrite Z.div_small by lia. reflexivity. }
  rewrite T7. split.
  - intros (R & _). lia.
  - intros H. split; [lia|]. exists (x / 256). lia.
Qed.
Print Assumptions C123_integer_byte_partial.
Theorem C123_integer_byte_refuted :
  Integer_byteValue (-1) = 255 /\ narrows 8 (-1) (-1) /\ Long_byteValue (-1) = -1.
Proof. split; [reflexivity|]. split; [|reflexivity]. split; [cbn; lia|]. exists 0. lia. Qed.
Print Assumptions C123_integer_byte_refuted.

Theorem C123_integer_order : ordered_as_numbers Integer_comparisons.
Proof.
  intros a b. cbn. rewrite negb_true_iff, Z.eqb_neq, Z.eqb_eq. unfold IntegerModel.compare.
  destruct (Z.ltb_spec a b), (Z.ltb_spec b a), (Z.leb_spec a b), (Z.leb_spec b a); intuition (try lia; try discriminate).
Qed.
Print Assumptions C123_integer_order.
Theorem C123_long_order : ordered_as_numbers Long_comparisons.
Proof.
  intros a b. cbn. unfold LongModel.compare.
  destruct (Z.eqb_spec a b), (Z.ltb_spec a b), (Z.ltb_spec b a); cbn; intuition (try lia; try discriminate).
Qed.
Print Assumptions C123_long_order.

(** max and min return the larger and the smaller of their arguments. *)
Theorem C123_extremes : forall a b,
  (Integer_max a b = a \/ Integer_max a b = b) /\ a <= Integer_max a b /\ b <= Integer_max a b /\
  (Integer_min a b = a \/ Integer_min a b = b) /\ Integer_min a b <= a /\ Integer_min a b <= b.
Proof. intros a b. unfold Integer_max, Integer_min. destruct (Z.ltb_spec b a), (Z.ltb_spec a b); lia. Qed.
Print Assumptions C123_extremes.

Example C123_ex : Integer_shortValue 40000 = -25536 /\ Long_intValue 4294967295 = -1 /\ Long_byteValue 200 = -56
  /\ Integer_byteValue 200 = 200 /\ Integer_byteValue 100 = 100 /\ leb Long_comparisons 3 3 = true
  /\ compareTo Long_comparisons 2 5 = -1 /\ Integer_max (-3) (-7) = -3.
Proof. vm_compute; repeat split. Qed.
