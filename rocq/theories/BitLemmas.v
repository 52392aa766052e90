(** Lemmas relating bit-level specifications to arithmetic. *)

From Coq Require Import ZArith List Lia Bool.
From Verif Require Import Base Bits BitSpec.
Import ListNotations.
Open Scope Z_scope.

Lemma in_positions w i : In i (positions w) <-> 0 <= i < w.
Proof.
  unfold positions. rewrite in_map_iff. split.
  - intros (n & <- & H). apply in_seq in H. lia.
  - intros H. exists (Z.to_nat i). split; [lia|]. apply in_seq. lia.
Qed.

(** Proving a statement for each of finitely many positions. *)
Lemma forall_positions w (P : Z -> Prop) : Forall P (positions w) -> forall i, 0 <= i < w -> P i.
Proof. rewrite Forall_forall. intros H i Hi. apply H, in_positions, Hi. Qed.

Ltac each_position w :=
  apply (forall_positions w); cbn [positions map seq Z.to_nat Pos.to_nat Pos.iter_op Nat.add Z.of_nat Pos.of_succ_nat Pos.succ];
  repeat (apply Forall_cons); try apply Forall_nil.

Lemma testbit_true_ex x : 0 < x -> exists k, 0 <= k /\ Z.testbit x k = true /\ 2 ^ k <= x < 2 ^ (k + 1).
Proof.
  intros H. exists (Z.log2 x). split; [apply Z.log2_nonneg|]. split.
  - apply Z.bit_log2; auto.
  - pose proof (Z.log2_spec x H). replace (Z.log2 x + 1) with (Z.succ (Z.log2 x)) by lia. auto.
Qed.

Lemma highest_at_uwrap w x k : 0 < w -> highest_at w x k <-> highest_at w (uwrap w x) k.
Proof.
  intros Hw. unfold highest_at. split; intros (A & B & C); repeat split; try lia.
  - rewrite uwrap_bits by lia. replace (k <? w) with true by lia. exact B.
  - intros j Hj. rewrite uwrap_bits by lia. rewrite C by lia. apply andb_false_r.
  - rewrite uwrap_bits in B by lia. apply andb_true_iff in B. tauto.
  - intros j Hj. specialize (C j Hj). rewrite uwrap_bits in C by lia.
    replace (j <? w) with true in C by lia. exact C.
Qed.

(** For an unsigned value the highest bit is the logarithm. *)
Lemma highest_at_bounds w u k : 0 <= u < 2 ^ w ->
  highest_at w u k <-> (0 <= k < w /\ 2 ^ k <= u < 2 ^ (k + 1)).
Proof.
  intros Hu. unfold highest_at. split.
  - intros (A & B & C). split; auto.
    assert (0 < u). { destruct (Z.eq_dec u 0) as [->|]; [|lia]. rewrite Z.bits_0 in B; discriminate. }
    destruct (testbit_true_ex u ltac:(lia)) as (l & L1 & L2 & L3).
    assert (l = k).
    { destruct (Z.lt_trichotomy l k) as [G|[G|G]]; auto.
      - rewrite (testbit_above (l + 1) u k) in B by lia. discriminate.
      - destruct (Z.lt_ge_cases l w).
        + rewrite (C l) in L2 by lia. discriminate.
        + rewrite (testbit_above w u l) in L2 by lia. discriminate. }
    subst; auto.
  - intros (A & B). repeat split; try lia.
    + assert (Z.log2 u = k). { apply Z.log2_unique; [lia|]. replace (Z.succ k) with (k + 1) by lia. auto. }
      subst k. apply Z.bit_log2.
      pose proof (pow2_pos (Z.log2 u) ltac:(lia)). lia.
    + intros j Hj. apply (testbit_above (k + 1)); [|lia]. pose proof (pow2_pos k ltac:(lia)); lia.
Qed.

Lemma highest_at_ex w x : 0 < w -> uwrap w x <> 0 -> exists k, highest_at w x k /\
   2 ^ k <= uwrap w x < 2 ^ (k + 1).
Proof.
  intros Hw Hx. pose proof (uwrap_range w x ltac:(lia)) as R.
  destruct (testbit_true_ex (uwrap w x) ltac:(lia)) as (k & A & B & C).
  assert (k < w).
  { destruct (Z.lt_ge_cases k w); auto. rewrite (testbit_above w) in B by lia. discriminate. }
  exists k. split; auto. apply highest_at_uwrap; auto. apply highest_at_bounds; auto.
Qed.

Lemma uwrap_0_iff w x : 0 < w -> in_s w x -> uwrap w x = 0 <-> x = 0.
Proof.
  intros Hw Hx. split.
  - intros H. rewrite <- (wrap_id w x) by auto. rewrite <- wrap_uwrap, H by auto.
    unfold wrap. rewrite Z.add_0_l, Z.mod_small; [lia|].
    rewrite (pow2_double w) by auto. pose proof (pow2_pos (w - 1)). lia.
  - intros ->. apply uwrap_id. pose proof (pow2_pos w). lia.
Qed.

Lemma highest_at_fun w x k l : highest_at w x k -> highest_at w x l -> k = l.
Proof.
  intros (A & B & C) (A' & B' & C').
  destruct (Z.lt_trichotomy k l) as [G|[G|G]]; auto.
  - rewrite C in B' by lia. discriminate.
  - rewrite C' in B by lia. discriminate.
Qed.
Lemma lowest_at_fun w x k l : lowest_at w x k -> lowest_at w x l -> k = l.
Proof.
  intros (A & B & C) (A' & B' & C').
  destruct (Z.lt_trichotomy k l) as [G|[G|G]]; auto.
  - rewrite C' in B by lia. discriminate.
  - rewrite C in B' by lia. discriminate.
Qed.

(** Least one bit: x = 2^k * odd. *)
Lemma lowest_factor x : x <> 0 -> exists k o, 0 <= k /\ x = 2 ^ k * (2 * o + 1).
Proof.
  intros Hx.
  assert (G : forall n x, x <> 0 -> Z.abs x <= Z.of_nat n -> exists k o, 0 <= k /\ x = 2 ^ k * (2 * o + 1)).
  { induction n as [|n IH]; intros y Hy Hn; [lia|].
    destruct (Z.odd y) eqn:E.
    - exists 0, (y / 2). split; [lia|]. change (2 ^ 0) with 1.
      rewrite Zodd_mod in E. apply Zeq_bool_eq in E.
      pose proof (Z.div_mod y 2). lia.
    - assert (Ev : y mod 2 = 0).
      { rewrite Zmod_odd, E. reflexivity. }
      pose proof (Z.div_mod y 2 ltac:(lia)) as D.
      destruct (IH (y / 2)) as (k & o & Hk & Ho); [lia|lia|].
      exists (k + 1), o. split; [lia|]. rewrite Z.pow_add_r by lia. change (2 ^ 1) with 2. lia. }
  apply (G (Z.to_nat (Z.abs x))); lia.
Qed.

Lemma testbit_factor k o : 0 <= k -> Z.testbit (2 ^ k * (2 * o + 1)) k = true /\
  forall j, 0 <= j < k -> Z.testbit (2 ^ k * (2 * o + 1)) j = false.
Proof.
  intros Hk. rewrite Z.mul_comm, <- Z.shiftl_mul_pow2 by lia. split.
  - rewrite Z.shiftl_spec by lia. replace (k - k) with 0 by lia.
    rewrite Z.add_comm, Z.mul_comm. change (1 + o * 2) with (1 + o * 2).
    rewrite Z.bit0_odd. rewrite Z.mul_comm. rewrite Z.odd_add_mul_2. reflexivity.
  - intros j Hj. apply Z.shiftl_spec_low. lia.
Qed.

Lemma lowest_at_ex w x : 0 < w -> uwrap w x <> 0 -> exists k, lowest_at w x k.
Proof.
  intros Hw Hx. destruct (lowest_factor (uwrap w x) Hx) as (k & o & Hk & E).
  destruct (testbit_factor k o Hk) as [T1 T2]. rewrite <- E in T1, T2.
  assert (k < w).
  { destruct (Z.lt_ge_cases k w); auto.
    rewrite (testbit_above w) in T1; [discriminate| apply uwrap_range; lia | lia]. }
  exists k. repeat split; try lia.
  - rewrite uwrap_bits in T1 by lia. apply andb_true_iff in T1. tauto.
  - intros j Hj. specialize (T2 j Hj). rewrite uwrap_bits in T2 by lia.
    replace (j <? w) with true in T2 by lia. exact T2.
Qed.

(** ** The smearing cascade x |= x >> 1, 2, 4, ... *)
Definition smeared (x n y : Z) : Prop :=
  forall i, 0 <= i -> (Z.testbit y i = true <-> exists j, 0 <= j < n /\ Z.testbit x (i + j) = true).

Lemma smeared_1 x : smeared x 1 x.
Proof.
  intros i Hi. split.
  - intros H. exists 0. rewrite Z.add_0_r. split; [lia|auto].
  - intros (j & Hj & H). replace (i + j) with i in H by lia. auto.
Qed.

Lemma smeared_step x n y : 0 <= n -> smeared x n y -> smeared x (2 * n) (Z.lor y (Z.shiftr y n)).
Proof.
  intros Hn H i Hi. rewrite Z.lor_spec, Z.shiftr_spec, orb_true_iff by lia.
  rewrite (H i), (H (i + n)) by lia. split.
  - intros [(j & Hj & T) | (j & Hj & T)].
    + exists j; split; [lia|auto].
    + exists (n + j). split; [lia|]. rewrite Z.add_assoc. auto.
  - intros (j & Hj & T). destruct (Z.lt_ge_cases j n).
    + left; exists j; auto with zarith.
    + right. exists (j - n). split; [lia|]. replace (i + n + (j - n)) with (i + j) by lia. auto.
Qed.

(** A fully smeared value: ones up to the highest bit of x. *)
Lemma smeared_value w x y : 0 < w -> in_s w x -> smeared x w y ->
  (x = 0 -> uwrap w y = 0) /\
  forall k, highest_at w x k -> uwrap w y = 2 ^ (k + 1) - 1.
Proof.
  intros Hw Hx S. split.
  - intros ->. apply (unsigned_ext w); [apply uwrap_range; lia | pose proof (pow2_pos w); lia |].
    intros i Hi. rewrite uwrap_bits, Z.bits_0 by lia.
    destruct (Z.testbit y i) eqn:E; [|apply andb_false_r].
    apply S in E; [|lia]. destruct E as (j & _ & T). rewrite Z.bits_0 in T; discriminate.
  - intros k (A & B & C).
    assert (P : 2 ^ (k + 1) <= 2 ^ w) by (apply Z.pow_le_mono_r; lia).
    pose proof (pow2_pos (k + 1) ltac:(lia)).
    apply (unsigned_ext w); [apply uwrap_range; lia | lia |].
    intros i Hi. rewrite uwrap_bits by lia. replace (i <? w) with true by lia. simpl.
    replace (2 ^ (k + 1) - 1) with (Z.ones (k + 1)) by (rewrite Z.ones_equiv; lia).
    destruct (Z.le_gt_cases i k).
    + rewrite Z.ones_spec_low by lia. apply S; [lia|]. exists (k - i). split; [lia|].
      replace (i + (k - i)) with k by lia. auto.
    + rewrite Z.ones_spec_high by lia. destruct (Z.testbit y i) eqn:E; auto.
      apply S in E; [|lia]. destruct E as (j & Hj & T).
      destruct (Z.lt_ge_cases (i + j) w).
      * rewrite C in T by lia. discriminate.
      * (* beyond the width: sign bit, equal to bit w-1 *)
        rewrite (signed_bits_high w) in T by (auto; lia).
        assert (Z.testbit x (w - 1) = true) by (rewrite (signed_bits_high w) by (auto; lia); auto).
        rewrite C in H2 by lia. discriminate.
Qed.

(** ** Isolating the lowest bit: x & -x *)
Lemma land_opp_lowest k o : 0 <= k ->
  Z.land (2 ^ k * (2 * o + 1)) (- (2 ^ k * (2 * o + 1))) = 2 ^ k.
Proof.
  intros Hk. replace (- (2 ^ k * (2 * o + 1))) with (2 ^ k * (2 * (- o - 1) + 1)) by lia.
  rewrite !(Z.mul_comm (2 ^ k)), <- !Z.shiftl_mul_pow2 by lia.
  rewrite <- Z.shiftl_land.
  replace (Z.land (2 * o + 1) (2 * (- o - 1) + 1)) with 1.
  - rewrite Z.shiftl_1_l. reflexivity.
  - symmetry. apply Z.bits_inj'. intros n Hn. rewrite Z.land_spec.
    destruct (Z.eq_dec n 0) as [->|].
    + rewrite !Z.testbit_odd_0. reflexivity.
    + replace n with (Z.succ (n - 1)) by lia. rewrite !Z.testbit_odd_succ by lia.
      replace (- o - 1) with (Z.lnot o) by (unfold Z.lnot; lia).
      rewrite Z.lnot_spec by lia. rewrite andb_negb_r.
      symmetry. change 1 with (2 * 0 + 1). rewrite Z.testbit_odd_succ by lia. apply Z.bits_0.
Qed.

Lemma lowest_at_factor w x k : 0 < w -> lowest_at w x k ->
  exists o, x = 2 ^ k * (2 * o + 1).
Proof.
  intros Hw (A & B & C).
  assert (Hx : x <> 0). { intros ->. rewrite Z.bits_0 in B; discriminate. }
  destruct (lowest_factor x Hx) as (l & o & Hl & E). exists o.
  destruct (testbit_factor l o Hl) as [T1 T2]. rewrite <- E in T1, T2.
  assert (l = k); [|subst; auto].
  destruct (Z.lt_trichotomy l k) as [G|[G|G]]; auto.
  - rewrite C in T1 by lia. discriminate.
  - rewrite T2 in B by lia. discriminate.
Qed.

Lemma land_opp_wrap w x k : 0 < w -> in_s w x -> lowest_at w x k ->
  Z.land x (wrap w (- x)) = single_bit w k.
Proof.
  intros Hw Hx Hk. destruct (lowest_at_factor w x k Hw Hk) as (o & E).
  destruct Hk as (A & B & C). unfold single_bit.
  apply (signed_ext w); auto.
  - (* range *)
    assert (Hr : in_s w (wrap w (- x))) by (apply wrap_range; auto).
    destruct (Z.eq_dec k (w - 1)) as [->|Hne].
    + assert (x = - 2 ^ (w - 1)).
      { unfold in_s, smin, smax in Hx. assert (0 < 2 ^ (w - 1)) by (apply pow2_pos; lia).
        assert (-1 <= 2 * o + 1) by nia. assert (2 * o + 1 < 1) by nia.
        assert (o = -1) by lia. subst o. lia. }
      assert (- x = 2 ^ (w - 1)) by lia.
      replace (wrap w (- x)) with x.
      * rewrite Z.land_diag. auto.
      * rewrite H0. unfold wrap. rewrite (pow2_double w) by auto.
        replace (2 ^ (w - 1) + 2 ^ (w - 1)) with (1 * (2 * 2 ^ (w - 1))) by lia.
        rewrite Z.mod_mul; [lia|]. pose proof (pow2_pos (w-1)); lia.
    + rewrite wrap_id; auto.
      * rewrite E, land_opp_lowest by lia.
        unfold in_s, smin, smax. pose proof (pow2_pos (w - 1) ltac:(lia)).
        assert (2 ^ k < 2 ^ (w - 1)) by (apply Z.pow_lt_mono_r; lia).
        pose proof (pow2_pos k ltac:(lia)). lia.
      * unfold in_s, smin, smax in *.
        assert (x <> - 2 ^ (w - 1)).
        { intros ->. 
          assert (Z.testbit (- 2 ^ (w - 1)) k = false).
          { replace (- 2 ^ (w - 1)) with (Z.shiftl (-1) (w - 1)) by (rewrite Z.shiftl_mul_pow2 by lia; lia).
            apply Z.shiftl_spec_low. lia. }
          congruence. }
        lia.
  - apply wrap_range; auto.
  - intros i Hi. rewrite Z.land_spec, !wrap_bits_low by lia.
    rewrite <- Z.land_spec. rewrite E, land_opp_lowest by lia. reflexivity.
Qed.
