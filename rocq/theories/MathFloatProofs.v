(** The neighbours of a floating point number, and rounding. *)

From Coq Require Import ZArith List Bool Lia.
From Verif Require Import Base Bits Ieee IeeeProofs FloatBitsSpec FloatBitsModel MathFloatSpec MathFloatModel.
Import ListNotations.
Open Scope Z_scope.

Lemma multiples_apart d a b : 0 < d -> (d | a) -> (d | b) -> a < b -> d <= b - a.
Proof. intros D [x ->] [y ->] L. apply Z.mul_lt_mono_pos_r in L; auto. nia. Qed.
Lemma excess_mono F a b : 0 <= a <= b -> excess F a <= excess F b.
Proof. intros R. unfold excess. pose proof (Z.log2_le_mono a b ltac:(lia)). lia. Qed.
Lemma divide_excess F a e : fits F a -> 0 <= e <= excess F a -> (2 ^ e | a).
Proof. intros H R. eapply Z.divide_trans; [apply (pow_divide e (excess F a)); lia|]. now apply fits_divide. Qed.

Section Neighbours.
Variable F : fmt.
Hypothesis K : fmt_ok F.

Lemma up_gt v : v < up F v. Proof. unfold up. pose proof (pow_pos (excess F v) (excess_nonneg F v)). lia. Qed.
Lemma up_fits v : fits F v -> up F v <= maxv F -> fits F (up F v).
Proof.
  intros H L. pose proof (excess_nonneg F v) as E. pose proof (pow_pos _ E) as P. pose proof (fits_lt F K v H) as LT. pose proof (fits_divide F v H) as D. destruct (ok_m F K) as [m0 _] || pose proof (ok_m F K) as m0.
  assert (B : 2 ^ excess F v <= 2 ^ (excess F v + mbits F + 1) - v) by (apply multiples_apart; auto; apply pow_divide; lia).
  destruct (Z.eq_dec (up F v) (2 ^ (excess F v + mbits F + 1))) as [Q|Q]; [rewrite Q in *; apply fits_pow; auto; lia|].
  apply (fits_intro F K _ (excess F v)); auto; [destruct H; unfold up in *; lia|]. unfold up. apply Z.divide_add_r; auto. apply Z.divide_refl.
Qed.
Lemma up_least v z : fits F v -> fits F z -> v < z -> up F v <= z.
Proof.
  intros H HZ L. pose proof (excess_nonneg F v) as E. destruct (H) as [[V0 _] _]. assert (2 ^ excess F v <= z - v); [|unfold up; lia]. apply multiples_apart; auto; [now apply pow_pos|now apply fits_divide|]. apply (divide_excess F); auto. split; auto. apply excess_mono. lia.
Qed.
Lemma down_lt v : down F v < v. Proof. unfold down. pose proof (pow_pos (excess F (v - 1)) (excess_nonneg F (v - 1))). lia. Qed.
Lemma down_divide v : fits F v -> 0 < v -> (2 ^ excess F (v - 1) | v).
Proof. intros H V. apply (divide_excess F); auto. split; [apply excess_nonneg|apply excess_mono; lia]. Qed.
Lemma down_fits v : fits F v -> 0 < v -> fits F (down F v).
Proof.
  intros H V. pose proof (excess_nonneg F (v - 1)) as E. pose proof (pow_pos _ E) as P. pose proof (down_divide v H V) as D. pose proof (down_lt v) as L. pose proof (Z.divide_pos_le _ _ V D) as G. pose proof (ok_m F K) as m0.
  apply (fits_intro F K _ (excess F (v - 1))); auto.
  - split; [unfold down; lia|]. apply Z.le_lt_trans with (v - 1); [lia|]. destruct (Z.eq_dec v 1) as [->|N]; [apply pow_pos; lia|]. pose proof (Z.log2_spec (v - 1) ltac:(lia)) as [_ LS]. apply Z.lt_le_trans with (1 := LS). apply pow_le. pose proof (Z.log2_nonneg (v - 1)). unfold excess. lia.
  - unfold down. apply Z.divide_sub_r; auto. apply Z.divide_refl.
  - destruct H. lia.
Qed.
Lemma down_greatest v z : fits F v -> 0 < v -> fits F z -> z < v -> z <= down F v.
Proof.
  intros H V HZ L. pose proof (excess_nonneg F (v - 1)) as E. pose proof (pow_pos _ E) as P. pose proof (down_divide v H V) as D. destruct (HZ) as [[Z0 _] _]. pose proof (ok_m F K) as m0.
  destruct (Z.le_gt_cases (excess F (v - 1)) (excess F z)) as [EL|EG].
  - assert (2 ^ excess F (v - 1) <= v - z) by (apply multiples_apart; auto; apply (divide_excess F); auto). unfold down. lia.
  - remember (Z.log2 (v - 1)) as L1 eqn:LE. assert (EE : excess F (v - 1) = L1 - mbits F) by (unfold excess in *; lia). assert (LZ : Z.log2 z < L1) by (unfold excess in *; lia).
    assert (V1 : 0 < v - 1). { destruct (Z.eq_dec (v - 1) 0) as [Q|]; [|lia]. rewrite Q in LE. change (Z.log2 0) with 0 in LE. lia. }
    pose proof (Z.log2_spec (v - 1) V1) as [LS _]. rewrite <- LE in LS. pose proof (Z.log2_nonneg z).
    assert (ZL : z < 2 ^ L1). { destruct (Z.eq_dec z 0) as [->|N]; [apply pow_pos; lia|]. pose proof (Z.log2_spec z ltac:(lia)) as [_ ZS]. apply Z.lt_le_trans with (1 := ZS). apply pow_le. lia. }
    assert (2 ^ excess F (v - 1) <= v - 2 ^ L1) by (apply multiples_apart; auto; [apply pow_divide; lia|lia]). unfold down. lia.
Qed.

Lemma fits_1 : fits F 1.
Proof. change 1 with (2 ^ 0). apply fits_pow; auto; try lia. pose proof (maxv_lower F K). pose proof (pow_le 0 (one_exp F + 35)). destruct K. unfold one_exp in *. lia. Qed.
Lemma maxv_fits : fits F (maxv F).
Proof.
  pose proof (ok_m F K) as m0. pose proof (ok_e F K) as e0. assert (8 <= 2 ^ ebits F) by (change 8 with (2 ^ 3); apply pow_le; destruct K; lia). pose proof (pow_pos (mbits F + 1)). apply (fits_intro F K _ (2 ^ ebits F - 3)); try lia.
  - unfold maxv. split; [apply Z.mul_nonneg_nonneg; [lia|apply Z.pow_nonneg; lia]|]. replace (2 ^ ebits F - 3 + mbits F + 1) with (mbits F + 1 + (2 ^ ebits F - 3)) by lia. rewrite (pow_split (mbits F + 1) (2 ^ ebits F - 3)) by lia. apply Z.mul_lt_mono_pos_r; [apply pow_pos; lia|lia].
  - unfold maxv. apply Z.divide_factor_r.
Qed.
Lemma maxv_pos : 0 < maxv F.
Proof. pose proof (maxv_lower F K). pose proof (pow_pos (one_exp F + 35)). destruct K. unfold one_exp in *. lia. Qed.

Lemma flt_fin n v n' v' : flt (Fin n v) (Fin n' v') = (signed n v <? signed n' v').
Proof. unfold flt, fcmp, Z.ltb. destruct (_ ?= _); auto. Qed.
Lemma fle_fin n v n' v' : fle (Fin n v) (Fin n' v') = (signed n v <=? signed n' v').
Proof. unfold fle, fcmp, Z.leb. destruct (_ ?= _); auto. Qed.

Lemma next_above_ok x : value F x -> x <> NaN -> x <> Inf false -> adjacent_above F x (next_above F x).
Proof.
  intros V NN NI. destruct x as [|[|]|[|] v]; try congruence; cbn [next_above].
  - split; [apply maxv_fits|]. split; [reflexivity|]. split; [|discriminate]. intros [|[|]|n z] VZ; try discriminate; [reflexivity|]. intros _. rewrite fle_fin. apply Z.leb_le. destruct VZ as [[Z0 Z1] _]. pose proof maxv_pos. destruct n; cbn [signed]; lia.
  - cbn in V. destruct (V) as [[V0 V1] _]. destruct (Z.eqb_spec v 0) as [->|N].
    + split; [apply fits_1|]. split; [reflexivity|]. split; [|discriminate]. intros [|[|]|n z] VZ; try discriminate; [reflexivity|]. rewrite flt_fin, fle_fin. destruct VZ as [[Z0 Z1] _]. intros L. apply Z.ltb_lt in L. apply Z.leb_le. destruct n; cbn [signed] in *; lia.
    + split; [apply down_fits; auto; lia|]. pose proof (down_lt v). split; [rewrite flt_fin; apply Z.ltb_lt; cbn [signed]; lia|]. split; [|discriminate]. intros [|[|]|n z] VZ; try discriminate; [reflexivity|]. rewrite flt_fin, fle_fin. destruct (VZ) as [[Z0 Z1] _]. intros L. apply Z.ltb_lt in L. apply Z.leb_le.
      pose proof (down_fits v V ltac:(lia)) as [[D0 _] _]. destruct n; cbn [signed] in *; [|lia]. pose proof (down_greatest v z V ltac:(lia) VZ ltac:(lia)). lia.
  - cbn in V. destruct (V) as [[V0 V1] _]. pose proof (up_gt v) as G. destruct (Z.ltb_spec (maxv F) (up F v)) as [L|L].
    + split; [exact Logic.I|]. split; [reflexivity|]. split; [|discriminate]. intros [|[|]|n z] VZ; try discriminate; [reflexivity|]. rewrite flt_fin. destruct (VZ) as [[Z0 Z1] _]. intros Q. apply Z.ltb_lt in Q. destruct n; cbn [signed] in *; [lia|]. pose proof (up_least v z V VZ Q). lia.
    + split; [now apply up_fits|]. split; [rewrite flt_fin; apply Z.ltb_lt; auto|]. split; [|intros Q; injection Q; lia]. intros [|[|]|n z] VZ; try discriminate; [reflexivity|]. rewrite flt_fin, fle_fin. destruct (VZ) as [[Z0 Z1] _]. intros Q. apply Z.ltb_lt in Q. apply Z.leb_le. destruct n; cbn [signed] in *; [lia|]. now apply up_least.
Qed.
End Neighbours.

Lemma signed_neg n v : signed (negb n) v = - signed n v. Proof. destruct n; cbn; lia. Qed.
Lemma fcmp_neg a b : fcmp (neg a) (neg b) = fcmp b a.
Proof. destruct a as [|n|n v], b as [|n'|n' v']; cbn; auto; try (destruct n; auto); try (destruct n'; auto). all: cbn [negb signed]; f_equal; rewrite ?Z.compare_opp, ?Z.opp_involutive; auto. all: try (rewrite <- Z.compare_opp; now rewrite ?Z.opp_involutive). Qed.
Lemma flt_neg a b : flt (neg a) (neg b) = flt b a. Proof. unfold flt. now rewrite fcmp_neg. Qed.
Lemma fle_neg a b : fle (neg a) (neg b) = fle b a. Proof. unfold fle. now rewrite fcmp_neg. Qed.
Lemma neg_neg x : neg (neg x) = x. Proof. destruct x as [|n|n v]; cbn; rewrite ?negb_involutive; auto. Qed.
Lemma value_neg F x : value F (neg x) <-> value F x. Proof. destruct x; reflexivity. Qed.
Lemma next_below_ok F x : fmt_ok F -> value F x -> x <> NaN -> x <> Inf true -> adjacent_below F x (neg (next_above F (neg x))).
Proof.
  intros K V NN NI. destruct (next_above_ok F K (neg x)) as (A & B & C & D); [now apply value_neg|intros Q; apply NN; now rewrite <- (neg_neg x), Q|intros Q; apply NI; now rewrite <- (neg_neg x), Q|]. set (y := next_above F (neg x)) in *. split; [now apply value_neg|].
  split; [rewrite <- flt_neg, neg_neg; auto|]. split; [|intros E; apply D; rewrite <- (neg_neg y), E; reflexivity]. intros z VZ L. rewrite <- (neg_neg z), fle_neg. apply C; [now apply value_neg|]. now rewrite flt_neg.
Qed.

(** ** Rounding keeps powers of two as lower bounds *)
Lemma rne_ge a d : 0 < d -> a / d <= rne a d.
Proof. intros D. unfold rne. destruct (_ <? _); [lia|]. destruct (_ <? _); [lia|]. destruct (Z.even _); lia. Qed.
Lemma rounded_ge F n a k p : fmt_ok F -> 0 <= k -> 0 <= p -> 2 ^ (k + p) <= a ->
  rounded F n a k = Inf n \/ exists w, rounded F n a k = Fin n w /\ 2 ^ p <= w.
Proof.
  intros K K0 P0 L. unfold rounded. set (e := Z.max 0 (Z.log2 a - k - mbits F)). destruct (_ <? _); [auto|]. right. eexists. split; [reflexivity|]. pose proof (ok_m F K) as m0.
  assert (A0 : 0 < a) by (pose proof (pow_pos (k + p)); lia). pose proof (rne_ge a (2 ^ (e + k)) ltac:(apply pow_pos; lia)) as R. pose proof (pow_pos e ltac:(lia)) as PE.
  destruct (Z.le_gt_cases e p) as [EP|EP].
  - assert (2 ^ (p - e) <= a / 2 ^ (e + k)). { apply Z.div_le_lower_bound; [apply pow_pos; lia|]. rewrite <- pow_split by lia. now replace (e + k + (p - e)) with (k + p) by lia. }
    replace p with (p - e + e) by lia. rewrite pow_split by lia. nia.
  - assert (LA : k + p <= Z.log2 a) by (apply Z.log2_le_pow2; auto). pose proof (Z.log2_spec a A0) as [LS _]. assert (1 <= a / 2 ^ (e + k)). { apply Z.div_le_lower_bound; [apply pow_pos; lia|]. rewrite Z.mul_1_r. apply Z.le_trans with (2 := LS). apply pow_le. lia. }
    pose proof (pow_lt p e ltac:(lia)). nia.
Qed.

(** ** Exponents *)
Section Exponent.
Variable F : fmt.
Hypothesis FF : F = F64 \/ F = F32.
Lemma FF_ok : fmt_ok F. Proof. destruct FF as [-> | ->]; [apply F64_ok|apply F32_ok]. Qed.

(** mantissa times ten is at least one exactly for positive numbers *)
Lemma mantissa_test n v : 0 < v -> fge (mul F64 (fst (frexp F n v)) (of_int F64 10)) (of_int F64 1) = negb n.
Proof.
  intros V. unfold frexp. cbn [fst]. set (k := Z.log2 v + 1). pose proof (Z.log2_nonneg v) as L0. pose proof (Z.log2_spec v V) as [LS _]. set (d := one_exp F64 - k). 
  rewrite !(of_int_small F64 F64_ok) by lia. set (a := if 0 <=? d then _ else _).
  assert (A : 2 ^ (one_exp F64 - 1) <= a).
  { unfold a. destruct (Z.leb_spec 0 d) as [D|D].
    - replace (one_exp F64 - 1) with (Z.log2 v + d) by (unfold d, k; lia). rewrite pow_split by lia. apply Z.mul_le_mono_nonneg_r; auto. apply Z.pow_nonneg. lia.
    - apply Z.div_le_lower_bound; [apply pow_pos; lia|]. rewrite <- pow_split by (try change (one_exp F64) with 1074; lia). replace (- d + (one_exp F64 - 1)) with (Z.log2 v) by (unfold d, k; lia). auto. }
  clearbody a. unfold mul. rewrite xorb_false_r. destruct (rounded_ge F64 n (a * (10 * one F64)) (one_exp F64) (one_exp F64) F64_ok) as [->|(w & -> & W)]; try (change (one_exp F64) with 1074; lia).
  - rewrite pow_split by (change (one_exp F64) with 1074; lia). fold (one F64). pose proof (one_pos F64 F64_ok). assert (one F64 = 2 * 2 ^ (one_exp F64 - 1)) by (unfold one; rewrite <- Z.pow_succ_r by (change (one_exp F64) with 1074; lia); f_equal; lia). nia.
  - destruct n; reflexivity.
  - unfold fge. rewrite fle_fin. fold (one F64) in W. pose proof (one_pos F64 F64_ok). rewrite Z.mul_1_l. destruct n; cbn [signed negb]; [apply Z.leb_gt|apply Z.leb_le]; lia.
Qed.
End Exponent.
