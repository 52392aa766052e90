(** C80-C82: the floating point functions of Math. *)

From Coq Require Import ZArith List Bool Lia.
From Verif Require Import Base Bits Ieee IeeeProofs FloatBitsSpec FloatBitsModel FloatBitsProofs FloatBitsProofs2 FloatBitsProofs4 FloatBitsProofs5 MathFloatSpec MathFloatModel MathFloatProofs.
Import ListNotations.
Open Scope Z_scope.

(** The two types: [F64] double, [F32] float. *)
Definition format (F : fmt) : Prop := F = F64 \/ F = F32.
Lemma format_ok F : format F -> fmt_ok F. Proof. intros [-> | ->]; [apply F64_ok|apply F32_ok]. Qed.
Lemma isNaN_false x : x <> NaN -> isNaN x = false.
Proof. intros N. unfold isNaN, feq, fcmp. destruct x as [|n|n v]; [congruence|now destruct n|now rewrite Z.compare_refl]. Qed.
Lemma feq_inf x n : feq x (Inf n) = true <-> x = Inf n.
Proof. unfold feq, fcmp. destruct x as [|n'|n' v]; [split; discriminate| |destruct n; split; discriminate]. destruct n, n'; cbn; split; congruence. Qed.
Lemma feq_inf_false x n : x <> Inf n -> feq x (Inf n) = false.
Proof. intros N. apply not_true_iff_false. now rewrite feq_inf. Qed.
Lemma feq_fin x n v : feq x (Fin n v) = true <-> exists n' v', x = Fin n' v' /\ signed n' v' = signed n v.
Proof.
  unfold feq, fcmp. destruct x as [|n'|n' v']; [split; [discriminate|intros (? & ? & [=] & _)]|destruct n'; split; [discriminate|intros (? & ? & [=] & _)|discriminate|intros (? & ? & [=] & _)]|].
  destruct (Z.compare_spec (signed n' v') (signed n v)); split; intros Q; try discriminate; eauto; destruct Q as (? & ? & [= <- <-] & Q); lia.
Qed.
Lemma feq_zero x F : value F x -> feq x zero = true <-> exists n, x = Fin n 0.
Proof.
  intros V. unfold zero. rewrite feq_fin. split; [intros (n & v & -> & E)|intros (n & ->); exists n, 0; split; auto; now destruct n].
  exists n. f_equal. destruct n; cbn [signed] in E; lia.
Qed.
Lemma feq_zero_false x F : value F x -> (forall n, x <> Fin n 0) -> feq x zero = false.
Proof. intros V N. apply not_true_iff_false. rewrite (feq_zero x F V). intros (n & E). now apply (N n). Qed.

(** *** C80: abs, copySign, signum, max, min *)

Theorem C80_abs_partial : forall F x, format F -> value F x -> x <> Fin true 0 -> abs_double x = java_abs x /\ abs_float x = java_abs x.
Proof.
  intros F x FF V N. unfold abs_double, abs_float. destruct x as [|n|n v]; [split; reflexivity|destruct n; split; reflexivity|].
  rewrite isNaN_false by discriminate. unfold fge, zero. rewrite fle_fin. cbn [java_abs]. destruct V as [[V0 _] _]. destruct n; cbn [signed neg negb].
  - destruct (Z.leb_spec 0 (- v)); auto. assert (v = 0) by lia. congruence.
  - destruct (Z.leb_spec 0 v); auto. lia.
Qed.
Print Assumptions C80_abs_partial.
(** The absolute value of -0.0 is -0.0. *)
Theorem C80_abs_refuted : abs_double (Fin true 0) = Fin true 0 /\ abs_float (Fin true 0) = Fin true 0 /\ java_abs (Fin true 0) = Fin false 0.
Proof. repeat split. Qed.
Print Assumptions C80_abs_refuted.

Theorem C80_copySign : forall x s, copySign x s = java_copySign x s.
Proof. intros [|n|n v] [|n'|n' v']; cbn; auto; destruct n'; auto. Qed.
Print Assumptions C80_copySign.

Theorem C80_signum : forall x, (value F64 x -> signum_double x = java_signum F64 x) /\ (value F32 x -> signum_float x = java_signum F32 x).
Proof.
  assert (G : forall F x, value F x -> (if feq x zero || isNaN x then x else copySign (Fin false (one F)) x) = java_signum F x).
  { intros F x V. destruct x as [|n|n v]; cbn [java_signum]; [reflexivity|rewrite isNaN_false by discriminate; destruct n; reflexivity|]. rewrite isNaN_false, orb_false_r by discriminate. destruct (Z.eqb_spec v 0) as [->|N].
    - assert (Z0 : feq (Fin n 0) zero = true) by (apply (feq_zero _ F); eauto). now rewrite Z0.
    - rewrite (feq_zero_false _ F); auto. intros n' Q. congruence. }
  intros x. split; intros V; [now apply G|]. rewrite <- (G F32 x V). unfold signum_float. now destruct (feq x zero).
Qed.
Print Assumptions C80_signum.

Lemma java_lt_fin n v n' v' : 0 <= v -> 0 <= v' -> java_lt (Fin n v) (Fin n' v') <-> signed n v < signed n' v' \/ (n = true /\ v = 0 /\ n' = false /\ v' = 0).
Proof.
  intros V V'. unfold java_lt, fcmp. assert (Q : Some (signed n v ?= signed n' v') = Some Lt <-> signed n v < signed n' v') by (unfold Z.lt; split; congruence).
  destruct n, v, n', v'; try rewrite Q; cbn [signed]; split; intros H; try tauto; try lia; try (left; lia); auto.
Qed.

(** max is right unless the first argument alone is NaN, or for (0.0, -0.0). *)
Theorem C80_max_partial : forall F a b, value F a -> value F b ->
  java_max a b (max a b) <-> ~ (a = NaN /\ b <> NaN) /\ ~ (a = Fin false 0 /\ b = Fin true 0).
Proof.
  intros F a b VA VB. unfold max, fgt. destruct a as [|n|n v].
  { replace (flt b NaN) with false by (destruct b; reflexivity). split.
    - intros [[_ ->]|(A & _)]; [split; intros [A B]; congruence|congruence].
    - intros [A _]. destruct b; [left; auto|exfalso; apply A; split; [auto|discriminate]|exfalso; apply A; split; [auto|discriminate]]. }
  all: destruct b as [|n'|n' v']; try (cbn [flt fcmp]; split; [intros _; split; intros [A B]; congruence|intros _; left; split; [auto|reflexivity]]).
  - cbn. split; [intros _; split; intros [A B]; congruence|intros _; right]. destruct n, n'; cbn; repeat split; try discriminate; auto.
  - split; [intros _; split; intros [A B]; congruence|intros _; right]. destruct n; cbn; repeat split; try discriminate; auto; destruct n', v'; cbn; rewrite ?Pos.compare_refl; try discriminate; auto.
  - split; [intros _; split; intros [A B]; congruence|intros _; right]. destruct n'; cbn; repeat split; try discriminate; auto; destruct n, v; cbn; rewrite ?Pos.compare_refl; try discriminate; auto.
  - destruct VA as [[V0 _] _], VB as [[V0' _] _]. rewrite flt_fin. unfold java_max. split.
    + intros [[[A|A] _]|(_ & _ & _ & LA & LB)]; try discriminate. split; intros [A B]; [discriminate|]. injection A as -> ->. injection B as -> ->. apply LA. exact Logic.I.
    + intros [_ N]. right. split; [discriminate|]. split; [discriminate|]. destruct (Z.ltb_spec (signed n' v') (signed n v)) as [L|L].
      * split; auto. rewrite !java_lt_fin by auto. split; intros [Q|(-> & -> & A & B)]; try discriminate; try lia. subst. cbn in L. lia.
      * split; auto. rewrite !java_lt_fin by auto. split; intros [Q|(-> & -> & A & B)]; try discriminate; try lia. subst. apply N. auto.
Qed.
Print Assumptions C80_max_partial.
(** min: unless the first argument alone is NaN, or for (-0.0, 0.0). *)
Theorem C80_min_partial : forall F a b, value F a -> value F b ->
  java_min a b (min a b) <-> ~ (a = NaN /\ b <> NaN) /\ ~ (a = Fin true 0 /\ b = Fin false 0).
Proof.
  intros F a b VA VB. unfold min. destruct a as [|n|n v].
  { replace (flt NaN b) with false by (destruct b; reflexivity). split.
    - intros [[_ ->]|(A & _)]; [split; intros [A B]; congruence|congruence].
    - intros [A _]. destruct b; [left; auto|exfalso; apply A; split; [auto|discriminate]|exfalso; apply A; split; [auto|discriminate]]. }
  all: destruct b as [|n'|n' v']; try (cbn [flt fcmp]; split; [intros _; split; intros [A B]; congruence|intros _; left; split; [auto|reflexivity]]).
  - cbn. split; [intros _; split; intros [A B]; congruence|intros _; right]. destruct n, n'; cbn; repeat split; try discriminate; auto.
  - split; [intros _; split; intros [A B]; congruence|intros _; right]. destruct n; cbn; repeat split; try discriminate; auto; destruct n', v'; cbn; rewrite ?Pos.compare_refl; try discriminate; auto.
  - split; [intros _; split; intros [A B]; congruence|intros _; right]. destruct n'; cbn; repeat split; try discriminate; auto; destruct n, v; cbn; rewrite ?Pos.compare_refl; try discriminate; auto.
  - destruct VA as [[V0 _] _], VB as [[V0' _] _]. rewrite flt_fin. unfold java_min. split.
    + intros [[[A|A] _]|(_ & _ & _ & LA & LB)]; try discriminate. split; intros [A B]; [discriminate|]. injection A as -> ->. injection B as -> ->. apply LA. exact Logic.I.
    + intros [_ N]. right. split; [discriminate|]. split; [discriminate|]. destruct (Z.ltb_spec (signed n v) (signed n' v')) as [L|L].
      * split; auto. rewrite !java_lt_fin by auto. split; intros [Q|(-> & -> & A & B)]; try discriminate; try lia. subst. cbn in L. lia.
      * split; auto. rewrite !java_lt_fin by auto. split; intros [Q|(-> & -> & A & B)]; try discriminate; try lia. subst. apply N. auto.
Qed.
Print Assumptions C80_min_partial.
Theorem C80_max_min_refuted : max NaN (Fin false 1) = Fin false 1 /\ min NaN (Fin false 1) = Fin false 1 /\ max (Fin false 0) (Fin true 0) = Fin true 0 /\ min (Fin true 0) (Fin false 0) = Fin false 0.
Proof. repeat split. Qed.
Print Assumptions C80_max_min_refuted.
Example C80_ex : value F64 (Fin true (3 * one F64)) /\ abs_double (Fin true (3 * one F64)) = Fin false (3 * one F64) /\ max (Fin true (3 * one F64)) (Inf true) = Fin true (3 * one F64).
Proof. split; [split; [split|]; vm_compute; auto; discriminate|]. split; vm_compute; reflexivity. Qed.

(** *** C81: exponents, units in the last place, neighbours *)

Lemma exponent_of F n v : format F -> 0 < v ->
  getExponent F (Fin n v) = let e := Z.log2 v - one_exp F in if negb n && (e <? 1 - bias F) then - bias F else e.
Proof.
  intros FF V. unfold getExponent. rewrite isNaN_false, !feq_inf_false by discriminate. replace (feq (Fin n v) zero) with false by (symmetry; apply not_true_iff_false; intros Q; apply feq_fin in Q; destruct Q as (? & ? & [= <- <-] & Q); destruct n; cbn in Q; lia). cbn [orb].
  pose proof (mantissa_test F n v V) as MT. unfold frexp in *. cbn [fst] in MT. rewrite MT. unfold MIN_EXPONENT. replace (Z.log2 v + 1 - one_exp F - 1) with (Z.log2 v - one_exp F) by lia. cbv zeta. destruct (negb n); cbn [andb]; auto. destruct (_ <? _); lia.
Qed.
Lemma normal_log2 F v : format F -> 0 <= v -> (v <? 2 ^ mbits F) = (v <=? 0) || (Z.log2 v - one_exp F <? 1 - bias F).
Proof.
  intros FF V. pose proof (format_ok F FF) as K. pose proof (ok_m F K). assert (OE : one_exp F = bias F + mbits F - 1) by reflexivity. destruct (Z.leb_spec v 0) as [L|L]; cbn [orb].
  - apply Z.ltb_lt. pose proof (pow_pos (mbits F)). lia.
  - pose proof (Z.log2_spec v L) as [A B]. destruct (Z.ltb_spec v (2 ^ mbits F)) as [Q|Q]; symmetry; [apply Z.ltb_lt|apply Z.ltb_ge].
    + assert (Z.log2 v < mbits F) by (apply Z.log2_lt_pow2; lia). lia.
    + assert (mbits F <= Z.log2 v) by (apply Z.log2_le_pow2; lia). lia.
Qed.

(** getExponent is right for all but the negative subnormal numbers. *)
Theorem C81_getExponent_partial : forall F x, format F -> value F x ->
  match x with Fin true v => v = 0 \/ 2 ^ (mbits F - 1) <= v | _ => True end -> java_exponent F x (getExponent F x).
Proof.
  intros F x FF V NS. pose proof (format_ok F FF) as K. pose proof (ok_m F K) as m0. assert (OE : one_exp F = bias F + mbits F - 1) by reflexivity. destruct x as [|n|n v]; [reflexivity|destruct n; reflexivity|]. cbn [java_exponent]. destruct V as [[V0 V1] _].
  destruct (Z.eq_dec v 0) as [->|N]. { replace (0 <? 2 ^ mbits F) with true by (symmetry; apply Z.ltb_lt; apply pow_pos; lia). destruct FF as [-> | ->], n; reflexivity. }
  rewrite (exponent_of F n v FF) by lia. cbv zeta. rewrite (normal_log2 F v FF V0). replace (v <=? 0) with false by lia. cbn [orb]. pose proof (Z.log2_spec v ltac:(lia)) as [A B]. destruct (Z.ltb_spec (Z.log2 v - one_exp F) (1 - bias F)) as [L|L].
  - destruct n; cbn [negb andb]; auto. destruct NS as [NS|NS]; [lia|]. assert (mbits F - 1 <= Z.log2 v) by (apply Z.log2_le_pow2; lia). lia.
  - rewrite andb_false_r. pose proof (Z.log2_nonneg v). split; [lia|]. replace (one_exp F + (Z.log2 v - one_exp F)) with (Z.log2 v) by lia. auto.
Qed.
Print Assumptions C81_getExponent_partial.
(** For the negative numbers below half the least normal number it is wrong. *)
Theorem C81_getExponent_refuted : forall F v, format F -> 0 < v < 2 ^ (mbits F - 1) -> ~ java_exponent F (Fin true v) (getExponent F (Fin true v)).
Proof.
  intros F v FF R. pose proof (format_ok F FF) as K. pose proof (ok_m F K) as m0. assert (OE : one_exp F = bias F + mbits F - 1) by reflexivity. pose proof (pow_le (mbits F - 1) (mbits F)). cbn [java_exponent]. replace (v <? 2 ^ mbits F) with true by lia. rewrite (exponent_of F true v FF) by lia. cbn [negb andb].
  assert (Z.log2 v < mbits F - 1) by (apply Z.log2_lt_pow2; lia). lia.
Qed.
Print Assumptions C81_getExponent_refuted.

(** ulp is right for NaN, the infinities and the largest numbers. *)
Theorem C81_ulp_partial : forall m x, (x = NaN \/ (exists n, x = Inf n) -> exists r r', ulp_double m x = Ok r /\ java_ulp F64 x r /\ ulp_float x = Ok r' /\ java_ulp F32 x r') /\
  (forall n, exists r, ulp_double m (Fin n (maxv F64)) = Ok r /\ java_ulp F64 (Fin n (maxv F64)) r) /\
  (forall n, exists r, ulp_float (Fin n (maxv F32)) = Ok r /\ java_ulp F32 (Fin n (maxv F32)) r).
Proof.
  intros m x. split; [|split].
  - intros [->|([|] & ->)]; do 2 eexists; repeat split; vm_compute; reflexivity.
  - intros n. exists (Fin false (2 ^ 2045)). split; [destruct n; vm_compute; reflexivity|]. exists 2045. split; [lia|]. split; [reflexivity|]. split; vm_compute; congruence.
  - intros n. exists (Fin false (2 ^ 253)). split; [destruct n; vm_compute; reflexivity|]. exists 253. split; [lia|]. split; [reflexivity|]. split; vm_compute; congruence.
Qed.
Print Assumptions C81_ulp_partial.

(** For every other finite float it is wrong: 2^-126, 0.0f or AssertionError. *)
Theorem C81_ulp_float_refuted : forall n v, value F32 (Fin n v) -> v <> maxv F32 ->
  ulp_float (Fin n v) = Throw AssertionError \/ exists r, ulp_float (Fin n v) = Ok r /\ ~ java_ulp F32 (Fin n v) r.
Proof.
  intros n v V NM. unfold ulp_float. destruct (V) as [[V0 V1] _].
  assert (E0 : feq (Fin n v) (MAX_VALUE F32) || feq (Fin n v) (neg (MAX_VALUE F32)) = false).
  { apply orb_false_intro; apply not_true_iff_false; unfold MAX_VALUE; cbn [neg]; rewrite feq_fin; intros (n' & v' & [= <- <-] & E); destruct n; cbn [signed negb] in E; pose proof (maxv_pos F32 F32_ok); lia. }
  rewrite E0. set (e := getExponent F32 (Fin n v)).
  assert (ER : e <= 127). { unfold e. destruct (Z.eq_dec v 0) as [->|N]; [destruct n; vm_compute; discriminate|]. rewrite (exponent_of F32 n v) by (lia || now right). cbv zeta. change (one_exp F32) with 149. change (bias F32) with 127. assert (Z.log2 v <= 276) by (change 276 with (Z.log2 (maxv F32)); apply Z.log2_le_mono; lia). destruct (_ && _); lia. }
  change (MAX_EXPONENT F32) with 127. change (MIN_EXPONENT F32) with (-126). replace (e =? 127 + 1) with false by lia.
  assert (U : forall r, java_ulp F32 (Fin n v) r -> exists k, r = Fin false k /\ 0 < k /\ (v < 2 ^ 24 -> k = 1)).
  { intros r. cbn [java_ulp]. change (mbits F32) with 23. change (23 + 1) with 24. destruct (Z.ltb_spec v (2 ^ 24)); [intros ->; exists 1; repeat split; lia|]. intros (k & K0 & -> & _). exists (2 ^ k). repeat split; [apply pow_pos; auto|lia]. }
  destruct (Z.eqb_spec e (-126 - 1)) as [EM|EM].
  - right. eexists. split; [reflexivity|]. intros J. apply U in J. destruct J as (k & Q & _ & K1). unfold MIN_VALUE in Q. injection Q as Q. rewrite K1 in Q; [vm_compute in Q; discriminate|].
    unfold e in EM. destruct (Z.eq_dec v 0) as [->|N]; [reflexivity|]. rewrite (exponent_of F32 n v) in EM by (lia || now right). cbv zeta in EM. change (one_exp F32) with 149 in EM. change (bias F32) with 127 in EM.
    assert (LV : Z.log2 v < 24) by (destruct (negb n && _) eqn:C in EM; [apply andb_prop in C; destruct C as [_ C]; apply Z.ltb_lt in C; lia|lia]). apply Z.log2_lt_pow2; lia.
  - destruct (Z.ltb_spec 127 e); [lia|]. destruct (Z.ltb_spec e (-126)) as [L|L]; cbn [orb]; [auto|]. right. exists zero. split; [|intros J; apply U in J; destruct J as (k & Q & K0 & _); injection Q; lia].
    change (SIGNIFICAND_WIDTH F32 - 1) with 23. destruct (Z.leb_spec (-126) (e - 23)) as [Q|Q]; auto. unfold powerOfTwoF. change (MIN_EXPONENT F32) with (-126). change (MAX_EXPONENT F32) with 127. replace (e - 23 <? -126) with false by lia. replace (127 <? e - 23) with false by lia. reflexivity.
Qed.
Print Assumptions C81_ulp_float_refuted.

Lemma land_mask_low x : 0 <= x < 2 ^ 52 -> Z.land x EXP_BIT_MASK = 0.
Proof.
  intros R. apply Z.bits_inj'. intros i I0. rewrite Z.land_spec, Z.bits_0. destruct (Z.lt_ge_cases i 52) as [L|L].
  - change EXP_BIT_MASK with (2047 * 2 ^ 52). rewrite Z.mul_pow2_bits_low by lia. apply andb_false_r.
  - replace (Z.testbit x i) with false; auto. symmetry. destruct (Z.eq_dec x 0) as [->|N]; [apply Z.bits_0|]. apply Z.bits_above_log2; [lia|]. assert (Z.log2 x < 52) by (apply Z.log2_lt_pow2; lia). lia.
Qed.
Lemma from_zero m : from_bits m CDouble 0 = Ok (Fin false (2 ^ 51)).
Proof. rewrite (from_bits_ok CDouble CDouble_ok m 0); [reflexivity|split; reflexivity]. Qed.
Lemma powerOfTwoD_value m e : -1022 <= e <= 1023 -> powerOfTwoD m e = match m with ISO => UB BadShift | HW => Ok (Fin false (2 ^ 51)) end.
Proof.
  intros R. unfold powerOfTwoD. change (MIN_EXPONENT F64) with (-1022). change (MAX_EXPONENT F64) with 1023. change (EXP_BIAS F64) with 1023. change (SIGNIFICAND_WIDTH F64 - 1) with 52.
  replace (e <? -1022) with false by lia. replace (1023 <? e) with false by lia. cbn [orb]. unfold sadd. rewrite sres_ok by (unfold in_s, smin, smax; change (2 ^ (32 - 1)) with 2147483648; lia). cbn [bind].
  destruct m; cbn [sshl]; [reflexivity|]. cbn [bind]. change (52 mod 32) with 20. rewrite Z.shiftl_mul_pow2 by lia.
  rewrite wrap_id by (change (2 ^ 20) with 1048576; unfold in_s, smin, smax; change (2 ^ (32 - 1)) with 2147483648; lia). rewrite land_mask_low by (change (2 ^ 20) with 1048576; change (2 ^ 52) with 4503599627370496; lia). apply from_zero.
Qed.
(** The shifts of small normal numbers: none of the 52 results is the unit. *)
Definition shifted (k : Z) : Z := wrap 32 (2 ^ (k mod 32)).
Lemma from_shifted m k : 0 <= k <= 51 -> exists y, from_bits m CDouble (shifted k) = Ok y /\ y <> Fin false (2 ^ k).
Proof.
  intros R.
  assert (A : exists i, (i < 52)%nat /\ k = Z.of_nat i) by (exists (Z.to_nat k); lia). destruct A as (i & I & ->). clear R.
  assert (B : forall b y r, - 2 ^ 63 < b < 2 ^ 63 -> (from_bits m CDouble b = Ok y -> y <> r) -> from_bits m CDouble b = Ok y -> exists y, from_bits m CDouble b = Ok y /\ y <> r) by eauto.
  do 52 (destruct i as [|i]; [eexists; split; [rewrite (from_bits_ok CDouble CDouble_ok m); [reflexivity|split; reflexivity]|vm_compute; discriminate]|]). lia.
Qed.

(** For every finite double but the largest the answer of ulp is wrong: an
    AssertionError, another number or (ISO C++) an undefined shift. *)
Theorem C81_ulp_double_refuted : forall m n v, value F64 (Fin n v) -> v <> maxv F64 ->
  match ulp_double m (Fin n v) with
  | Ok r => ~ java_ulp F64 (Fin n v) r
  | Throw e => e = AssertionError
  | UB _ => m = ISO
  | OutOfFuel => False
  end.
Proof.
  intros m n v V NM. unfold ulp_double. destruct (V) as [[V0 V1] _].
  assert (E0 : feq (Fin n v) (MAX_VALUE F64) || feq (Fin n v) (neg (MAX_VALUE F64)) = false).
  { apply orb_false_intro; apply not_true_iff_false; unfold MAX_VALUE; cbn [neg]; rewrite feq_fin; intros (n' & v' & [= <- <-] & E); destruct n; cbn [signed negb] in E; pose proof (maxv_pos F64 F64_ok); lia. }
  rewrite E0. remember (getExponent F64 (Fin n v)) as e eqn:EE.
  assert (LM : Z.log2 v <= 2097) by (change 2097 with (Z.log2 (maxv F64)); apply Z.log2_le_mono; lia).
  assert (EX : v <> 0 -> e = let e := Z.log2 v - 1074 in if negb n && (e <? -1022) then -1023 else e) by (intros N; rewrite EE, (exponent_of F64 n v) by (lia || now left); reflexivity).
  assert (EV : v = 0 -> e = -1023) by (intros ->; subst e; destruct n; vm_compute; reflexivity). clear EE.
  assert (ER : e <= 1023) by (destruct (Z.eq_dec v 0) as [Q|Q]; [rewrite EV by auto; lia|rewrite EX by auto; cbv zeta; destruct (_ && _); lia]).
  change (MAX_EXPONENT F64) with 1023. change (MIN_EXPONENT F64) with (-1022). change (SIGNIFICAND_WIDTH F64 - 1) with 52. replace (e =? 1023 + 1) with false by lia.
  assert (U : forall r, java_ulp F64 (Fin n v) r -> exists k, r = Fin false (2 ^ k) /\ 0 <= k /\ (v < 2 ^ 53 -> k = 0) /\ (2 ^ 53 <= v -> k = Z.log2 v - 52)).
  { intros r. cbn [java_ulp]. change (mbits F64) with 52. change (52 + 1) with 53. destruct (Z.ltb_spec v (2 ^ 53)); [intros ->; exists 0; repeat split; lia|]. intros (k & K0 & -> & KR). exists k. split; [auto|]. split; [auto|]. split; [lia|]. intros _. rewrite (Z.log2_unique v (k + 52)); auto; lia. }
  destruct (Z.eqb_spec e (-1022 - 1)) as [EM|EM].
  - intros J. apply U in J. destruct J as (k & Q & K0 & K1 & _). unfold MIN_VALUE in Q. injection Q as Q. change (mbits F64) with 52 in Q. rewrite K1 in Q; [vm_compute in Q; discriminate|].
    destruct (Z.eq_dec v 0) as [->|N]; [reflexivity|]. rewrite EX in EM by auto. cbv zeta in EM.
    assert (LV : Z.log2 v < 53) by (destruct (negb n && _) eqn:C in EM; [apply andb_prop in C; destruct C as [_ C]; apply Z.ltb_lt in C; lia|lia]). apply Z.log2_lt_pow2; lia.
  - destruct (Z.ltb_spec 1023 e); [lia|]. destruct (Z.ltb_spec e (-1022)) as [L|L]; cbn [orb]; [reflexivity|].
    assert (N : v <> 0) by (intros Q; rewrite EV in L by auto; lia).
    assert (EL : e = Z.log2 v - 1074). { rewrite EX by auto. cbv zeta. destruct (Z.ltb_spec (Z.log2 v - 1074) (-1022)) as [Q|Q]; [|now rewrite andb_false_r]. exfalso. specialize (EX N). cbv zeta in EX. replace (Z.log2 v - 1074 <? -1022) with true in EX by lia. destruct n; cbn [negb andb] in EX; lia. }
    assert (UK : forall r, java_ulp F64 (Fin n v) r -> r = Fin false (2 ^ (Z.log2 v - 52))).
    { intros r J. apply U in J. destruct J as (k & -> & _ & A & B). do 2 f_equal. destruct (Z.lt_ge_cases v (2 ^ 53)) as [Q|Q]; [|auto]. rewrite A by auto. assert (Z.log2 v < 53) by (apply Z.log2_lt_pow2; lia). lia. }
    destruct (Z.leb_spec (-1022) (e - 52)) as [Q|Q].
    + rewrite powerOfTwoD_value by lia. destruct m; [reflexivity|]. intros J. apply UK in J. injection J as J. pose proof (pow_lt 51 (Z.log2 v - 52)) as PL. lia.
    + replace (e - 52 - (-1022 - 52)) with (Z.log2 v - 52) by lia. set (k := Z.log2 v - 52) in *. assert (KR : 0 <= k <= 51) by lia.
      assert (SH : sshl m 32 1 k = Ok (shifted k) \/ (m = ISO /\ exists u, sshl m 32 1 k = UB u)).
      { destruct m; cbn [sshl].
        - destruct (Z.ltb_spec k 32) as [K3|K3]; [|right; split; auto; exists BadShift; replace (0 <=? k) with true by lia; reflexivity]. left. replace (0 <=? k) with true by lia. rewrite Z.shiftl_1_l. replace (2 ^ k <? 2 ^ 32) with true by (symmetry; apply Z.ltb_lt, pow_lt; lia). cbn [andb Z.leb]. unfold shifted. now rewrite Z.mod_small by lia.
        - left. unfold shifted. now rewrite Z.shiftl_1_l. }
      destruct SH as [->|(-> & u & ->)]; cbn [bind]; [|reflexivity]. destruct (from_shifted m k KR) as (y & -> & NE). intros J. apply UK in J. congruence.
Qed.
Print Assumptions C81_ulp_double_refuted.

(** nextUp: the adjacent number above. *)
Theorem C81_nextUp : forall F x, format F -> value F x ->
  (x = NaN \/ x = Inf false -> nextUp F x = x) /\ (x <> NaN -> x <> Inf false -> adjacent_above F x (nextUp F x)).
Proof.
  intros F x FF V. unfold nextUp. split; [intros [-> | ->]; reflexivity|]. intros NN NI. rewrite isNaN_false, feq_inf_false by auto. cbn [orb]. unfold nexttoward.
  assert (C : fcmp x (Inf false) = Some Lt) by (destruct x as [|[|]|]; try reflexivity; congruence). rewrite C. apply next_above_ok; auto. now apply format_ok.
Qed.
Print Assumptions C81_nextUp.
Theorem C81_nextDown_partial : forall F x, format F -> value F x -> (forall n, x <> Fin n 0) ->
  (x = NaN \/ x = Inf true -> nextDown F x = x) /\ (x <> NaN -> x <> Inf true -> adjacent_below F x (nextDown F x)).
Proof.
  intros F x FF V NZ. unfold nextDown. split; [intros [-> | ->]; reflexivity|]. intros NN NI. rewrite isNaN_false, feq_inf_false by auto. cbn [orb]. rewrite (feq_zero_false x F) by auto. unfold nexttoward.
  assert (C : fcmp x (Inf true) = Some Gt) by (destruct x as [|[|]|]; try reflexivity; congruence). rewrite C. apply next_below_ok; auto. now apply format_ok.
Qed.
Print Assumptions C81_nextDown_partial.
(** Below zero it jumps over all subnormal numbers. *)
Theorem C81_nextDown_zero_refuted : forall F n, format F -> nextDown F (Fin n 0) = Fin true (2 ^ mbits F) /\ ~ adjacent_below F (Fin n 0) (nextDown F (Fin n 0)).
Proof.
  intros F n FF. pose proof (format_ok F FF) as K. assert (E : nextDown F (Fin n 0) = Fin true (2 ^ mbits F)) by (unfold nextDown; rewrite isNaN_false, feq_inf_false by discriminate; cbn [orb]; replace (feq (Fin n 0) zero) with true by (now destruct n); reflexivity). split; auto. rewrite E. intros (_ & _ & L & _).
  specialize (L (Fin true 1) (fits_1 F K)). rewrite flt_fin, fle_fin in L. assert (2 ^ 1 <= 2 ^ mbits F) by (apply pow_le; pose proof (ok_m F K); lia). assert (Q : (signed true 1 <? signed n 0) = true) by (destruct n; reflexivity). specialize (L Q). apply Z.leb_le in L. cbn [signed] in L. lia.
Qed.
Print Assumptions C81_nextDown_zero_refuted.

(** nextAfter: NaN, the direction itself when equal, otherwise the adjacent
    number on the side of the direction.  The direction of the float version
    is a double. *)
Definition moves (F : fmt) (wide : fl -> fl) (start direction r : fl) : Prop :=
  ((start = NaN \/ direction = NaN) /\ r = NaN) \/
  (feq (wide start) direction = true /\ (wide r = direction)) \/
  (flt (wide start) direction = true /\ adjacent_above F start r) \/
  (flt direction (wide start) = true /\ adjacent_below F start r).
Lemma toward_moves F wide x y : fmt_ok F -> value F x -> (forall n v, exists v', wide (Fin n v) = Fin n v' /\ (forall n', wide (Fin n' v) = Fin n' v') /\ (v' = 0 <-> v = 0) /\ (0 <= v -> 0 <= v')) -> wide NaN = NaN -> (forall n, wide (Inf n) = Inf n) ->
  match y with Fin _ w => 0 <= w | _ => True end -> moves F wide x y (nexttoward F wide x y).
Proof.
  intros K V WF WN WI Y0. unfold nexttoward, moves. destruct (fcmp (wide x) y) as [[| |]|] eqn:C.
  - right. left. split; [unfold feq; now rewrite C|]. destruct x as [|n|n v]; [rewrite WN in C; discriminate| |].
    + rewrite WI in *. destruct y as [|n'|n' w]; [discriminate| |destruct n; discriminate]. destruct n, n'; cbn in C; try discriminate; auto.
    + destruct (WF n v) as (v' & E & A & Z0 & P). rewrite E in C. destruct y as [|n'|n' w]; [discriminate|destruct n'; discriminate|]. rewrite A. f_equal. cbn [fcmp] in C. injection C as C. apply Z.compare_eq in C. destruct V as [[V0 _] _]. specialize (P V0). destruct n, n'; cbn [signed] in C; lia.
  - right. right. left. split; [unfold flt; now rewrite C|]. apply next_above_ok; auto; intros ->; [rewrite WN in C; discriminate|rewrite WI in C; destruct y as [|[|]|]; discriminate].
  - right. right. right. split; [|apply next_below_ok; auto; intros ->; [rewrite WN in C; discriminate|rewrite WI in C; destruct y as [|[|]|]; discriminate]].
    unfold flt. replace (fcmp y (wide x)) with (Some Lt); auto. rewrite <- (neg_neg y), <- (neg_neg (wide x)), fcmp_neg. destruct (wide x) as [|n|n v], y as [|n'|n' w]; try discriminate; try (destruct n, n'; cbn in *; congruence); try (destruct n; cbn in *; congruence); try (destruct n'; cbn in *; congruence).
    cbn [fcmp neg] in *. injection C as C. rewrite !signed_neg. f_equal. symmetry. apply Z.compare_lt_iff. apply Z.compare_gt_iff in C. lia.
  - left. split; auto. destruct x as [|n|n v]; auto; [rewrite WI in C|destruct (WF n v) as (v' & E & _); rewrite E in C]; destruct y as [|n'|n' w]; auto; discriminate.
Qed.
Theorem C81_nextAfter : forall x y, (value F64 x -> value F64 y -> moves F64 (fun x => x) x y (nextAfter_double x y)) /\ (value F32 x -> value F64 y -> moves F32 widen x y (nextAfter_float x y)).
Proof.
  intros x y. split; intros VX VY; (apply toward_moves; [apply F64_ok || apply F32_ok|auto| |reflexivity|reflexivity|]).
  - intros n v. exists v. repeat split; auto.
  - destruct y; auto. apply VY.
  - intros n v. exists (v * 2 ^ (one_exp F64 - one_exp F32)). pose proof (pow_pos (one_exp F64 - one_exp F32) ltac:(vm_compute; discriminate)) as P. split; [reflexivity|]. split; [reflexivity|]. generalize dependent (2 ^ (one_exp F64 - one_exp F32)). intros q P. split; [split; nia|nia].
  - destruct y; auto. apply VY.
Qed.
Print Assumptions C81_nextAfter.
Example C81_ex : value F32 (Fin true 5) /\ nextUp F32 (Fin true 5) = Fin true 4 /\ nextUp F64 (Fin false (maxv F64)) = Inf false /\ nextUp F32 (Fin false (2 ^ 24 - 1)) = Fin false (2 ^ 24) /\ nextDown F32 (Fin false (2 ^ 30)) = Fin false (2 ^ 30 - 2 ^ 6)
  /\ ulp_double HW (Fin false (7 * 2 ^ 75)) = Ok (Fin false (2 ^ 51 + 2 ^ 24)).
Proof. split; [split; [split|]; vm_compute; auto; discriminate|]. split; [reflexivity|]. split; [vm_compute; reflexivity|]. split; [reflexivity|]. split; [reflexivity|]. vm_compute; reflexivity. Qed.

(** *** C82: conversions to integers, round, IEEEremainder *)

Lemma to_int_fin F w n v : to_int F w (Fin n v) = if in_sb w (signed n (v / one F)) then Ok (signed n (v / one F)) else UB Precondition.
Proof. reflexivity. Qed.
Lemma clamp_in w z : 0 < w -> in_s w z -> clamp w z = z.
Proof. unfold in_s, clamp, smin, smax. lia. Qed.

(** (short), (int), (long): towards zero, when the result is in range. *)
Theorem C82_cast_partial : forall F w n v, format F -> 0 < w -> value F (Fin n v) -> in_s w (signed n (v / one F)) ->
  exists r, cast F w (Fin n v) = Ok r /\ java_cast F w (Fin n v) r.
Proof.
  intros F w n v FF W0 V R. unfold cast. rewrite to_int_fin. rewrite (proj2 (in_s_b _ _) R). eexists. split; [reflexivity|]. exists (v / one F). split; [symmetry; now apply clamp_in|]. pose proof (one_pos F (format_ok F FF)) as O. pose proof (Z.div_mod v (one F) ltac:(lia)). pose proof (Z.mod_pos_bound v (one F) O). lia.
Qed.
Print Assumptions C82_cast_partial.
(** Otherwise (Java: the nearest integer, 0 for NaN) undefined. *)
Theorem C82_cast_refuted : forall F w x, match x with Fin n v => ~ in_s w (signed n (v / one F)) | _ => True end -> cast F w x = UB Precondition.
Proof. intros F w [|n|n v] N; auto. unfold cast. rewrite to_int_fin. replace (in_sb w _) with false; auto. symmetry. apply not_true_iff_false. rewrite in_s_b. auto. Qed.
Print Assumptions C82_cast_refuted.
Theorem C82_byteValue_partial : forall F n v, format F -> value F (Fin n v) -> 0 <= signed n (v / one F) <= 255 ->
  exists r, byteValue F (Fin n v) = Ok r /\ r = signed n (v / one F).
Proof. intros F n v FF V R. unfold byteValue. replace (0 <=? _) with true by lia. replace (_ <=? 255) with true by lia. eexists. split; reflexivity. Qed.
Print Assumptions C82_byteValue_partial.
Theorem C82_byteValue_refuted : forall F, format F -> byteValue F (Fin true (one F)) = UB Precondition /\ java_cast F 8 (Fin true (one F)) (-1).
Proof. intros F [-> | ->]; split; try reflexivity; (exists 1; split; [reflexivity|vm_compute; split; congruence]). Qed.
Print Assumptions C82_byteValue_refuted.

(** round: right when in range, except for negative halves. *)
Theorem C82_round_partial : forall F w n v, format F -> 0 < w -> value F (Fin n v) ->
  let z := signed n ((2 * v + one F) / (2 * one F)) in
  in_s w z -> ~ (n = true /\ exists t, 2 * v = one F * (2 * t + 1)) ->
  round F w (Fin n v) = Ok z /\ java_round F w (Fin n v) z.
Proof.
  intros F w n v FF W0 V z R NT. pose proof (one_pos F (format_ok F FF)) as O. unfold round, round_away. rewrite to_int_fin, Z.div_mul by lia. fold z. rewrite (proj2 (in_s_b _ _) R). split; auto. exists z. split; [symmetry; now apply clamp_in|].
  unfold z. set (q := (2 * v + one F) / (2 * one F)) in *. pose proof (Z.div_mod (2 * v + one F) (2 * one F) ltac:(lia)) as D. fold q in D. pose proof (Z.mod_pos_bound (2 * v + one F) (2 * one F) ltac:(lia)) as B. destruct n; cbn [signed].
  - assert (2 * v <> one F * (2 * (q - 1) + 1)) by (intros E; apply NT; split; auto; exists (q - 1); auto). nia.
  - nia.
Qed.
Print Assumptions C82_round_partial.
(** -(t + 1/2) goes to -(t + 1); Java answers -t. *)
Theorem C82_round_tie_refuted : forall F w v t, format F -> 0 < w -> 0 <= t -> 2 * v = one F * (2 * t + 1) -> in_s w (- (t + 1)) ->
  round F w (Fin true v) = Ok (- (t + 1)) /\ java_round F w (Fin true v) (- t) /\ ~ java_round F w (Fin true v) (- (t + 1)).
Proof.
  intros F w v t FF W0 T0 E R. pose proof (one_pos F (format_ok F FF)) as O. assert (Q : (2 * v + one F) / (2 * one F) = t + 1) by (symmetry; apply Z.div_unique with 0; lia).
  assert (RT : in_s w (- t)) by (unfold in_s, smin, smax in *; pose proof (Z.pow_nonneg 2 (w - 1)); lia).
  unfold round, round_away. rewrite to_int_fin, Z.div_mul, Q by lia. cbn [signed]. rewrite (proj2 (in_s_b _ _) R). split; auto. split.
  - exists (- t). split; [symmetry; now apply clamp_in|]. cbn [signed]. lia.
  - intros (z & Z1 & Z2). cbn [signed] in Z2. assert (z = - t) by nia. subst z. rewrite clamp_in in Z1 by auto. lia.
Qed.
Print Assumptions C82_round_tie_refuted.
Theorem C82_round_range_refuted : forall F w x, format F -> match x with Fin n v => ~ in_s w (signed n ((2 * v + one F) / (2 * one F))) | _ => True end -> round F w x = UB Precondition.
Proof.
  intros F w x FF N. pose proof (one_pos F (format_ok F FF)) as O. destruct x as [|n|n v]; auto. unfold round, round_away. rewrite to_int_fin, Z.div_mul by lia. replace (in_sb w _) with false; auto. symmetry. apply not_true_iff_false. rewrite in_s_b. auto.
Qed.
Print Assumptions C82_round_range_refuted.

(** IEEEremainder of an exact multiple is zero. *)
Theorem C82_remainder_partial : forall na nb k w, fits F64 w -> 0 < w -> fits F64 (k * w) -> 0 <= k -> fits F64 (k * one F64) ->
  exists n, IEEERemainder (Fin na (k * w)) (Fin nb w) = Fin n 0 /\ java_remainder (signed na (k * w)) (signed nb w) 0.
Proof.
  intros na nb k w FW W0 FA K0 FK. exists false. split.
  - unfold IEEERemainder. assert (D : div F64 (Fin na (k * w)) (Fin nb w) = Fin (xorb na nb) (k * one F64)).
    { cbn [div]. replace (w =? 0) with false by lia. replace (k * w * one F64 / w) with (k * one F64) by (rewrite <- Z.mul_assoc, (Z.mul_comm w), Z.mul_assoc, Z.div_mul; lia). fold (excess F64 (k * one F64)). set (e := excess F64 (k * one F64)).
      pose proof (excess_nonneg F64 (k * one F64)) as E0. fold e in E0. pose proof (fits_divide F64 (k * one F64) FK) as [t T]. fold e in T. pose proof (pow_pos e E0).
      replace (k * w * one F64) with (t * (w * 2 ^ e)) by (transitivity (w * (k * one F64)); [rewrite T; ring|ring]). rewrite rne_exact by nia. rewrite <- T. destruct FK as [[_ FK] _]. replace (maxv F64 <? k * one F64) with false by lia. auto. }
    rewrite D. cbn [round_away]. pose proof (one_pos F64 F64_ok) as O. replace ((2 * (k * one F64) + one F64) / (2 * one F64)) with k by (apply Z.div_unique with (one F64); lia).
    rewrite (mul_exact F64 F64_ok (xorb na nb) (k * one F64) nb w (k * w)); [|ring|auto]. replace (xorb (xorb na nb) nb) with na by (destruct na, nb; reflexivity). unfold sub, add. cbn [neg]. rewrite signed_neg. replace (signed na (k * w) + - signed na (k * w)) with 0 by lia. cbn [Z.eqb]. destruct na; reflexivity.
  - exists (if xorb na nb then - k else k). split; [destruct na, nb; cbn [signed xorb]; ring|]. left. destruct nb; cbn [signed]; lia.
Qed.
Print Assumptions C82_remainder_partial.
(** A tie goes to the odd integer: the remainder of 1 by 2 is -1, Java's is 1;
    with an infinite divisor the answer is NaN, Java's is the dividend. *)
Theorem C82_remainder_refuted : IEEERemainder (Fin false (one F64)) (Fin false (2 * one F64)) = Fin true (one F64) /\ (forall r, java_remainder (one F64) (2 * one F64) r -> r = one F64) /\
  forall n v n', fits F64 v -> IEEERemainder (Fin n v) (Inf n') = NaN.
Proof.
  split; [vm_compute; reflexivity|]. split.
  - pose proof (one_pos F64 F64_ok) as O. generalize dependent (one F64). intros U O r (k & -> & L). replace (U - k * (2 * U)) with ((1 - 2 * k) * U) in * by ring. rewrite Z.abs_mul, (Z.abs_eq U), (Z.abs_eq (2 * U)) in L by lia. destruct L as [L|[L E]].
    + assert (1 <= Z.abs (1 - 2 * k)) by lia. nia.
    + assert (Z.abs (1 - 2 * k) = 1) by nia. assert (k = 0 \/ k = 1) as [-> | ->] by lia; [lia|discriminate].
  - intros n v n' V. unfold IEEERemainder. pose proof (one_pos F64 F64_ok) as O. cbn [div round_away]. rewrite Z.mul_0_r, Z.add_0_l, (Z.div_small (one F64)), Z.mul_0_l by lia. reflexivity.
Qed.
Print Assumptions C82_remainder_refuted.
Example C82_ex : round F64 64 (Fin false (7 * 2 ^ 1073)) = Ok 4 /\ round F32 32 (Fin true (7 * 2 ^ 148)) = Ok (-4) /\ value F64 (Fin false (7 * 2 ^ 1073)) /\ cast F32 16 (Fin true (7 * 2 ^ 148)) = Ok (-3) /\ fits F64 (12 * one F64).
Proof. split; [vm_compute; reflexivity|]. split; [vm_compute; reflexivity|]. split; [split; [split|]; vm_compute; auto; discriminate|]. split; [vm_compute; reflexivity|]. split; [split|]; vm_compute; auto; discriminate. Qed.
