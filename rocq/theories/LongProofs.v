(** Proofs about Long: bit queries and permutations. *)

From Coq Require Import ZArith List Lia Bool.
From Verif Require Import Base Bits CppText TextSpec TextLemmas BitSpec BitLemmas Swar LongModel IntegerProofs2.
Import ListNotations.
Open Scope Z_scope.

(** ** bitCount *)

Lemma popcount_sum w x : popcount w x = sumz (map (fun i => Z.b2z (Z.testbit x i)) (positions w)).
Proof.
  unfold popcount. induction (positions w) as [|p l IH]; auto.
  cbn [filter map sumz fold_right]. fold (sumz (map (fun i => Z.b2z (Z.testbit x i)) l)).
  destruct (Z.testbit x p); cbn [Z.b2z]; rewrite <- IH; [rewrite zlen_cons|]; lia.
Qed.
Lemma popcount_bits x : popcount 64 x = sumz (bits_of (uwrap 64 x) 64).
Proof.
  rewrite popcount_sum. unfold bits_of, positions. rewrite map_map. f_equal. apply map_ext_in.
  intros i Hi. apply in_seq in Hi. rewrite uwrap_bits by lia. change (Z.to_nat 64) with 64%nat in Hi.
  replace (Z.of_nat i <? 64) with true by lia. reflexivity.
Qed.

Lemma digits_of_bound s k l : k < 2 ^ s -> Forall (fun d => 0 <= d <= k) l -> digits_ok s l.
Proof. intros Hk H. eapply Forall_impl; [|exact H]. cbv beta. intros; lia. Qed.

Lemma wrap_val64 x : 0 <= x <= long_max -> wrap 64 x = x.
Proof. intros. apply wrap_id; [lia|]. apply (proj1 (is_long_s _)). unfold is_long, long_min, long_max in *. lia. Qed.

Lemma swar_tail f0 f1 f2 f3 f4 f5 f6 f7 : let x := val 8 [f0;f1;f2;f3;f4;f5;f6;f7] in
  Forall (fun d => 0 <= d <= 8) [f0;f1;f2;f3;f4;f5;f6;f7] ->
  exists x1 x2 x3, x1 = x + Z.shiftr x 8 /\ x2 = x1 + Z.shiftr x1 16 /\ x3 = x2 + Z.shiftr x2 32 /\
  0 <= x1 <= long_max /\ 0 <= x2 <= long_max /\ 0 <= x3 <= long_max /\ x3 mod 256 = f0+f1+f2+f3+f4+f5+f6+f7.
Proof.
  intros x H. subst x. do 3 eexists. split; [reflexivity|]. split; [reflexivity|]. split; [reflexivity|].
  repeat match goal with H : Forall _ (_ :: _) |- _ => inversion H; clear H; subst end.
  unfold long_max.
  assert (S1 : forall d t, 0 <= d < 2 ^ 8 -> Z.shiftr (val 8 (d :: t)) 8 = val 8 t) by (intros; apply shiftr_val; lia).
  rewrite S1 by lia.
  replace (val 8 [f0; f1; f2; f3; f4; f5; f6; f7] + val 8 [f1; f2; f3; f4; f5; f6; f7])
    with (val 8 [f0+f1; f1+f2; f2+f3; f3+f4; f4+f5; f5+f6; f6+f7; f7]) by (cbn [val]; lia).
  change 16 with (8 + 8). rewrite <- Z.shiftr_shiftr by lia. rewrite !S1 by lia.
  replace (val 8 [f0+f1; f1+f2; f2+f3; f3+f4; f4+f5; f5+f6; f6+f7; f7] + val 8 [f2+f3; f3+f4; f4+f5; f5+f6; f6+f7; f7])
    with (val 8 [f0+f1+f2+f3; f1+f2+f3+f4; f2+f3+f4+f5; f3+f4+f5+f6; f4+f5+f6+f7; f5+f6+f7; f6+f7; f7]) by (cbn [val]; lia).
  change 32 with (8 + 8 + 8 + 8). rewrite <- !Z.shiftr_shiftr by lia. rewrite !S1 by lia.
  replace (val 8 [f0+f1+f2+f3; f1+f2+f3+f4; f2+f3+f4+f5; f3+f4+f5+f6; f4+f5+f6+f7; f5+f6+f7; f6+f7; f7] + val 8 [f4+f5+f6+f7; f5+f6+f7; f6+f7; f7])
    with (val 8 [f0+f1+f2+f3+f4+f5+f6+f7; f1+f2+f3+f4+f5+f6+f7; f2+f3+f4+f5+f6+f7; f3+f4+f5+f6+f7; f4+f5+f6+f7; f5+f6+f7; f6+f7; f7]) by (cbn [val]; lia).
  repeat split; try (cbn [val]; change (2 ^ 8) with 256; lia).
  cbn [val]. change (2 ^ 8) with 256.
  rewrite Z.mul_comm, Z.mod_add by lia. apply Z.mod_small. lia.
Qed.

Lemma land_bound x M : 0 <= M -> 0 <= Z.land x M <= M.
Proof.
  intros HM. split; [apply Z.land_nonneg; auto|].
  destruct (Z.eq_dec M 0) as [->|N]; [rewrite Z.land_0_r; lia|].
  assert (E : M = Z.land x M + Z.ldiff M x).
  { rewrite Z.add_nocarry_lxor.
    - apply Z.bits_inj'. intros n Hn. rewrite Z.lxor_spec, Z.land_spec, Z.ldiff_spec by lia.
      destruct (Z.testbit x n), (Z.testbit M n); reflexivity.
    - apply Z.bits_inj'. intros n Hn. rewrite !Z.land_spec, Z.ldiff_spec, Z.bits_0 by lia.
      destruct (Z.testbit x n), (Z.testbit M n); reflexivity. }
  assert (0 <= Z.ldiff M x) by (apply Z.ldiff_nonneg; auto). lia.
Qed.
Lemma pow2_le_testbit x k : 0 <= k -> 0 <= x -> Z.testbit x k = true -> 2 ^ k <= x.
Proof.
  intros Hk Hx T. destruct (Z.lt_ge_cases x (2 ^ k)) as [L|L]; auto.
  rewrite (testbit_above k) in T; [discriminate| |]; lia.
Qed.
Lemma sres_gen m w x : m = HW \/ in_s w x -> 0 < w -> sres m w x = Ok (wrap w x).
Proof.
  intros [->|H] Hw; [apply sres_HW; auto|]. rewrite sres_ok by auto. rewrite wrap_id; auto.
Qed.
Lemma sres_nn m x : 0 <= x <= long_max -> sres m 64 x = Ok x.
Proof. intros. apply sres_ok. apply (proj1 (is_long_s _)). unfold is_long, long_min, long_max in *. lia. Qed.

Lemma bitCount_gen m i : is_long i -> (m = HW \/ - 2 ^ 62 <= i) -> bitCount m i = Ok (popcount 64 i).
Proof.
  intros Hi Hm. rewrite popcount_bits. set (u := uwrap 64 i).
  assert (Hu : 0 <= u < 2 ^ 64) by (apply uwrap_range; lia).
  set (b := bits_of u 64). assert (Lb : length b = (2 * 32)%nat) by (unfold b, bits_of; rewrite map_length, seq_length; reflexivity).
  assert (Ub : val 1 b = u) by (apply bits_of_val; exact Hu).
  assert (Db : digits_ok 1 b) by apply bits_of_ok.
  assert (Bb : Forall (fun d => 0 <= d <= 1) b) by (eapply Forall_impl; [|exact Db]; cbv beta; change (2 ^ 1) with 2; intros; lia).
  unfold bitCount, ssub, sadd.
  (* first step *)
  destruct (evs_val 1 32 ltac:(lia) b Lb Db) as (E1 & E2 & E3 & E4).
  change (val 1 (alt (2 ^ 1 - 1) 32)) with 0x5555555555555555 in E1, E2. rewrite Ub in E1, E2, E3.
  change (2 * 1) with 2 in *.
  rewrite (land_uwrap 64 i 1) by lia. fold u. rewrite E2.
  rewrite sres_gen; [|..|lia].
  2:{ destruct Hm as [Hm|Hm]; [auto|right]. apply (proj1 (is_long_s _)). unfold is_long, long_min, long_max in *.
      pose proof (land_bound (Z.shiftr u 1) 6148914691236517205 ltac:(lia)) as L2. rewrite E2 in L2.
      pose proof (land_bound u 6148914691236517205 ltac:(lia)) as L1. rewrite E1 in L1.
      destruct (Z.lt_ge_cases i 0) as [N|N]; [|lia].
      assert (Eu : u = i + 2 ^ 64) by (unfold u, uwrap; symmetry; apply Z.mod_unique with (-1); lia).
      assert (T : forall j, 62 <= j < 64 -> Z.testbit u j = true).
      { intros j Hj. unfold u. rewrite uwrap_bits by lia. replace (j <? 64) with true by lia. cbn [andb].
        rewrite (signed_bits_high 63); [lia|lia| |lia]. unfold in_s, smin, smax. change (63 - 1) with 62. lia. }
      assert (B2 : 2 ^ 62 <= val 2 (ods b)).
      { apply pow2_le_testbit; [lia|lia|]. rewrite <- E2, Z.land_spec, Z.shiftr_spec by lia. rewrite T by lia. reflexivity. }
      assert (B1 : 2 ^ 62 <= val 2 (evs b)).
      { apply pow2_le_testbit; [lia|lia|]. rewrite <- E1, Z.land_spec. rewrite T by lia. reflexivity. }
      change (2 ^ 1) with 2 in E3. lia. }
  cbn [bind].
  set (c := pairs b) in *. assert (Lc : length c = (2 * 16)%nat) by (apply pairs_length; auto).
  assert (Bc : Forall (fun d => 0 <= d <= 2) c) by (apply (pairs_bound 1 32); auto).
  assert (Dc : digits_ok 2 c) by (apply (digits_of_bound 2 2); auto; reflexivity).
  assert (Uc : uwrap 64 (wrap 64 (i - val 2 (ods b))) = val 2 c).
  { rewrite uwrap_wrap by lia.
    pose proof (val_bound 2 c ltac:(lia) Dc) as V. replace (2 * zlen c) with 64 in V by (unfold zlen; rewrite Lc; reflexivity).
    rewrite <- (uwrap_id 64 (val 2 c)) by auto. rewrite <- E4.
    unfold uwrap. rewrite <- Zminus_mod_idemp_l. fold (uwrap 64 i). fold u. rewrite E3. f_equal. change (2 ^ 1) with 2. lia. }
  set (i1 := wrap 64 (i - val 2 (ods b))) in *.
  (* second step *)
  destruct (evs_val 2 16 ltac:(lia) c Lc Dc) as (F1 & F2 & _ & F4).
  change (val 2 (alt (2 ^ 2 - 1) 16)) with 0x3333333333333333 in F1, F2. change (2 * 2) with 4 in *.
  rewrite (land_uwrap 64 i1 2) by lia.
  rewrite (land_uwrap0 64 i1) by lia.
  rewrite Uc, F1, F2, F4.
  set (e := pairs c) in *. assert (Le : length e = (2 * 8)%nat) by (apply pairs_length; auto).
  assert (Be : Forall (fun d => 0 <= d <= 4) e) by (apply (pairs_bound 2 16); auto).
  assert (De : digits_ok 4 e) by (apply (digits_of_bound 4 4); auto; reflexivity).
  assert (V63 : forall l, length l = 16%nat -> Forall (fun d => 0 <= d <= 7) l -> 0 <= val 4 l <= long_max).
  { intros l Ll Bl. do 17 (destruct l as [|? l]; try discriminate). cbn [val]. unfold long_max.
    repeat match goal with H : Forall _ (_ :: _) |- _ => inversion H; clear H; subst end. change (2 ^ 4) with 16. lia. }
  assert (V63b : forall l, length l = 16%nat -> Forall (fun d => 0 <= d <= 8) l -> last l 0 <= 7 -> 0 <= val 4 l <= long_max).
  { intros l Ll Bl La. do 17 (destruct l as [|? l]; try discriminate). cbn [val last] in *. unfold long_max.
    repeat match goal with H : Forall _ (_ :: _) |- _ => inversion H; clear H; subst end. change (2 ^ 4) with 16. lia. }
  rewrite (sres_nn m (val 4 e)); [cbn [bind]|].
  2:{ apply V63; auto. eapply Forall_impl; [|exact Be]; cbv beta; intros; lia. }
  (* third step *)
  rewrite (nsum_val 4) by (auto; lia). set (n := nsum e).
  assert (Ln : length n = 16%nat) by (unfold n; rewrite nsum_length; auto).
  assert (Bn : Forall (fun d => 0 <= d <= 8) n) by (apply (nsum_bound 4); auto; lia).
  assert (Nl : last n 0 <= 7).
  { unfold n. clear -Be Le. do 17 (destruct e as [|? e]; try discriminate). cbn [nsum last].
    repeat match goal with H : Forall _ (_ :: _) |- _ => inversion H; clear H; subst end. lia. }
  rewrite (sres_nn m (val 4 n)) by (apply V63b; auto). cbn [bind].
  assert (Dn : digits_ok 4 n) by (apply (digits_of_bound 4 8); auto; reflexivity).
  destruct (evs_val 4 8 ltac:(lia) n ltac:(exact Ln) Dn) as (G1 & _).
  change (val 4 (alt (2 ^ 4 - 1) 8)) with 0x0f0f0f0f0f0f0f0f in G1. change (2 * 4) with 8 in G1.
  rewrite G1. unfold n. rewrite (evs_nsum 8) by auto.
  set (f := pairs e). assert (Lf : length f = 8%nat) by (apply pairs_length; auto).
  assert (Bf : Forall (fun d => 0 <= d <= 8) f) by (apply (pairs_bound 4 8); auto).
  assert (Sf : sumz f = sumz b).
  { unfold f, e, c. rewrite (sumz_pairs 8), (sumz_pairs 16), (sumz_pairs 32); auto. }
  rewrite <- Sf. clearbody f. clear - Lf Bf.
  do 9 (destruct f as [|? f]; try discriminate).
  destruct (swar_tail z z0 z1 z2 z3 z4 z5 z6 Bf) as (x1 & x2 & x3 & -> & -> & -> & R1 & R2 & R3 & M).
  rewrite sres_nn by auto. cbn [bind].
  rewrite sres_nn by auto. cbn [bind].
  rewrite sres_nn by auto. cbn [bind].
  f_equal. match goal with |- Z.land (wrap 32 ?y) _ = _ => set (x := y) in * end.
  change 0x7f with (2 ^ 7 - 1). rewrite land_ones_mod by lia.
  assert (W : wrap 32 x mod 2 ^ 7 = x mod 2 ^ 7).
  { pose proof (wrap_mod 32 x ltac:(lia)) as W.
    assert (Q : forall y, (y mod 2 ^ 32) mod 2 ^ 7 = y mod 2 ^ 7).
    { intros y. change (2 ^ 32) with (2 ^ 7 * 2 ^ 25). rewrite Z.rem_mul_r by lia.
      rewrite (Z.mul_comm (2 ^ 7)), Z.mod_add by lia. apply Zmod_mod. }
    rewrite <- (Q (wrap 32 x)), W. apply Q. }
  rewrite W. assert (Q : x mod 2 ^ 7 = (x mod 256) mod 2 ^ 7).
  { change 256 with (2 ^ 7 * 2). rewrite Z.rem_mul_r by lia. rewrite (Z.mul_comm (2 ^ 7)), Z.mod_add by lia. rewrite Zmod_mod. auto. }
  rewrite Q, M. cbn [sumz fold_right].
  repeat match goal with H : Forall _ (_ :: _) |- _ => inversion H; clear H; subst end.
  rewrite Z.mod_small by (change (2 ^ 7) with 128; lia). lia.
Qed.

Lemma bitCount_iso_ub i : is_long i -> i < - 2 ^ 62 -> bitCount ISO i = UB SignedOverflow.
Proof.
  intros Hi H. unfold bitCount, ssub. rewrite sres_ISO_ub; [reflexivity|].
  intros C. apply (proj2 (is_long_s _)) in C. unfold is_long, long_min, long_max in *.
  assert (2 ^ 62 <= Z.land (Z.shiftr i 1) 6148914691236517205); [|lia].
  pose proof (land_bound (Z.shiftr i 1) 6148914691236517205 ltac:(lia)) as B.
  assert (T : Z.testbit (Z.land (Z.shiftr i 1) 6148914691236517205) 62 = true).
  { rewrite Z.land_spec, Z.shiftr_spec by lia. change (62 + 1) with 63.
    rewrite (signed_bits_high 64) by (try lia; apply (proj1 (is_long_s _)); unfold is_long, long_min, long_max; lia).
    replace (i <? 0) with true by lia. reflexivity. }
  destruct (Z.lt_ge_cases (Z.land (Z.shiftr i 1) 6148914691236517205) (2 ^ 62)) as [L|L]; auto.
  rewrite (testbit_above 62) in T; [discriminate| |]; lia.
Qed.

(** ** highestOneBit, lowestOneBit *)

Definition smear64 (x : Z) : Z :=
  let i := Z.lor x (Z.shiftr x 1) in
  let i := Z.lor i (Z.shiftr i 2) in
  let i := Z.lor i (Z.shiftr i 4) in
  let i := Z.lor i (Z.shiftr i 8) in
  let i := Z.lor i (Z.shiftr i 16) in
  Z.lor i (Z.shiftr i 32).
Lemma smear64_ok x : smeared x 64 (smear64 x).
Proof.
  unfold smear64. change 64 with (2 * 32). apply smeared_step; [lia|].
  change 32 with (2 * 16). apply smeared_step; [lia|].
  change 16 with (2 * 8). apply smeared_step; [lia|].
  change 8 with (2 * 4). apply smeared_step; [lia|].
  change 4 with (2 * 2). apply smeared_step; [lia|].
  change 2 with (2 * 1). apply smeared_step; [lia|]. apply smeared_1.
Qed.
Lemma highestOneBit_smear m x : highestOneBit m x = ssub m 64 (smear64 x) (Z.shiftr (smear64 x) 1).
Proof. reflexivity. Qed.
Lemma smear64_neg x : is_long x -> x < 0 -> smear64 x = -1.
Proof.
  intros Hx N. apply Z.bits_inj'. intros n Hn. rewrite Z.bits_m1 by lia.
  apply (smear64_ok x n); auto. exists 63. split; [lia|].
  rewrite (signed_bits_high 64); [lia|lia|apply (proj1 (is_long_s _)); auto|lia].
Qed.
Lemma smear64_nonneg x : is_long x -> 0 <= x -> uwrap 64 (smear64 x) = smear64 x.
Proof.
  intros Hx N. apply Z.bits_inj'. intros n Hn. rewrite uwrap_bits by lia.
  destruct (Z.ltb_spec n 64); cbn [andb]; auto. symmetry.
  apply not_true_is_false. intros T. apply (smear64_ok x n) in T; auto. destruct T as (j & Hj & T).
  rewrite (signed_bits_high 64) in T; [lia|lia|apply (proj1 (is_long_s _)); auto|lia].
Qed.
Lemma highestOneBit_nonneg m x : is_long x -> 0 <= x -> exists r, highestOneBit m x = Ok r /\ is_highest_one 64 x r.
Proof.
  intros Hx Hp. pose proof (proj1 (is_long_s x) Hx) as Hx'.
  destruct (smeared_value 64 x (smear64 x) ltac:(lia) Hx' (smear64_ok x)) as [V0 V1].
  rewrite (smear64_nonneg x Hx Hp) in V0, V1. rewrite highestOneBit_smear.
  destruct (Z.eq_dec x 0) as [E|E].
  - exists 0. split; [|left; auto]. rewrite V0 by auto. reflexivity.
  - assert (N : uwrap 64 x <> 0) by (rewrite uwrap_0_iff; auto; lia).
    destruct (highest_at_ex 64 x ltac:(lia) N) as (k & Hk & _).
    assert (K : 0 <= k < 63).
    { destruct Hk as (A & B & _). destruct (Z.eq_dec k 63) as [->|]; [|lia].
      rewrite (signed_bits_high 64) in B; [lia|lia|auto|lia]. }
    exists (2 ^ k). split.
    + rewrite (V1 k Hk). rewrite Z.shiftr_div_pow2 by lia. change (2 ^ 1) with 2.
      replace (2 ^ (k + 1)) with (2 * 2 ^ k) by (rewrite Z.pow_add_r by lia; lia).
      replace ((2 * 2 ^ k - 1) / 2) with (2 ^ k - 1) by (apply Z.div_unique with 1; lia).
      unfold ssub. replace (2 * 2 ^ k - 1 - (2 ^ k - 1)) with (2 ^ k) by lia.
      apply sres_nn. unfold long_max. pose proof (pow2_pos k ltac:(lia)). pose proof (Z.pow_lt_mono_r 2 k 63 ltac:(lia) ltac:(lia) ltac:(lia)). lia.
    + right. exists k. split; auto. unfold single_bit. rewrite wrap_id; auto; [lia|].
      apply (proj1 (is_long_s _)). unfold is_long, long_min, long_max.
      pose proof (pow2_pos k ltac:(lia)). pose proof (Z.pow_lt_mono_r 2 k 63 ltac:(lia) ltac:(lia) ltac:(lia)). lia.
Qed.
Lemma highestOneBit_neg m x : is_long x -> x < 0 -> highestOneBit m x = Ok 0.
Proof. intros Hx N. rewrite highestOneBit_smear, smear64_neg by auto. destruct m; reflexivity. Qed.

Lemma lowestOneBit_ok x : is_long x -> exists r, lowestOneBit HW x = Ok r /\ is_lowest_one 64 x r.
Proof.
  intros Hx. apply (proj1 (is_long_s _)) in Hx. unfold lowestOneBit, sneg. rewrite sres_HW by lia. cbn [bind].
  eexists; split; [reflexivity|].
  destruct (Z.eq_dec x 0) as [->|E].
  - left. split; auto.
  - right. assert (N : uwrap 64 x <> 0) by (rewrite uwrap_0_iff; auto; lia).
    destruct (lowest_at_ex 64 x ltac:(lia) N) as (k & Hk). exists k. split; auto.
    apply land_opp_wrap; auto; lia.
Qed.
Lemma lowestOneBit_iso x : is_long x ->
  lowestOneBit ISO x = if x =? long_min then UB SignedOverflow else lowestOneBit HW x.
Proof.
  intros Hx. unfold lowestOneBit, sneg.
  destruct (Z.eqb_spec x long_min) as [->|N]; [reflexivity|].
  assert (in_s 64 (- x)). { apply (proj1 (is_long_s _)). unfold is_long, long_min, long_max in *. lia. }
  rewrite !sres_ok by auto. reflexivity.
Qed.

(** ** Leading and trailing zeros *)

Lemma sshl_1 m k : 0 <= k < 64 -> sshl m 64 1 k = Ok (wrap 64 (2 ^ k)).
Proof.
  intros Hk. unfold sshl. destruct m.
  - replace (_ && _) with true; [rewrite Z.shiftl_1_l; auto|].
    rewrite Z.shiftl_1_l. pose proof (Z.pow_lt_mono_r 2 k 64 ltac:(lia) ltac:(lia) ltac:(lia)). lia.
  - rewrite Z.mod_small by lia. rewrite Z.shiftl_1_l; auto.
Qed.
Lemma land_pow2 x k : in_s 64 x -> 0 <= k < 64 -> negb (Z.land x (wrap 64 (2 ^ k)) =? 0) = Z.testbit x k.
Proof.
  intros Hx Hk. destruct (Z.testbit x k) eqn:T.
  - apply negb_true_iff. apply Z.eqb_neq. intros E.
    assert (C : Z.testbit (Z.land x (wrap 64 (2 ^ k))) k = true).
    { rewrite Z.land_spec, T, wrap_bits_low by lia. rewrite Z.pow2_bits_true by lia. auto. }
    rewrite E, Z.bits_0 in C. discriminate.
  - apply negb_false_iff. apply Z.eqb_eq. apply Z.bits_inj'. intros n Hn. rewrite Z.bits_0, Z.land_spec.
    destruct (Z.lt_ge_cases n 64).
    + rewrite wrap_bits_low by lia. destruct (Z.eq_dec n k) as [->|N]; [rewrite T; auto|].
      rewrite Z.pow2_bits_false by lia. apply andb_false_r.
    + rewrite (signed_bits_high 64 x) by (auto; lia).
      rewrite (signed_bits_high 64 (wrap 64 (2 ^ k))) by (auto using wrap_range with zarith; lia).
      rewrite <- (signed_bits_high 64 x 63) by (auto; lia).
      rewrite <- (signed_bits_high 64 (wrap 64 (2 ^ k)) 63) by (auto using wrap_range with zarith; lia).
      rewrite wrap_bits_low by lia. destruct (Z.eq_dec 63 k) as [<-|N]; [rewrite T; auto|].
      rewrite Z.pow2_bits_false by lia. apply andb_false_r.
Qed.
Lemma nlz_loop_ok m x k : in_s 64 x -> highest_at 64 x k ->
  forall n, k < Z.of_nat n <= 64 -> nlz_loop m x n = Ok (63 - k).
Proof.
  intros Hx (Hk & T & F). induction n as [|n IH]; intros Hn; [lia|].
  cbn [nlz_loop]. rewrite sshl_1 by lia. cbn [bind]. rewrite land_pow2 by (auto; lia).
  destruct (Z.eq_dec (Z.of_nat n) k) as [E|E].
  - rewrite E, T. reflexivity.
  - rewrite F by lia. apply IH; lia.
Qed.
Lemma nlz_ok m x : is_long x -> exists r, numberOfLeadingZeros m x = Ok r /\ is_nlz 64 x r.
Proof.
  intros Hx. apply (proj1 (is_long_s _)) in Hx. unfold numberOfLeadingZeros.
  destruct (Z.eqb_spec x 0) as [->|E]; [eexists; split; [reflexivity|left; auto]|].
  assert (N : uwrap 64 x <> 0) by (rewrite uwrap_0_iff; auto; lia).
  destruct (highest_at_ex 64 x ltac:(lia) N) as (k & Hk & _).
  exists (63 - k). split; [|right; exists k; split; auto].
  apply nlz_loop_ok; auto. destruct Hk; lia.
Qed.
Lemma ntz_loop_ok m x k : in_s 64 x -> lowest_at 64 x k ->
  forall n, (n <= 64)%nat -> 64 - Z.of_nat n <= k -> ntz_loop m x n = Ok k.
Proof.
  intros Hx (Hk & T & F). induction n as [|n IH]; intros Hn Hl; [lia|].
  cbn [ntz_loop]. rewrite sshl_1 by lia. cbn [bind]. rewrite land_pow2 by (auto; lia).
  destruct (Z.eq_dec (64 - Z.of_nat (S n)) k) as [E|E].
  - rewrite E, T. reflexivity.
  - rewrite F by lia. apply IH; lia.
Qed.
Lemma ntz_ok m x : is_long x -> exists r, numberOfTrailingZeros m x = Ok r /\ is_ntz 64 x r.
Proof.
  intros Hx. apply (proj1 (is_long_s _)) in Hx. unfold numberOfTrailingZeros.
  destruct (Z.eqb_spec x 0) as [->|E]; [eexists; split; [reflexivity|left; auto]|].
  assert (N : uwrap 64 x <> 0) by (rewrite uwrap_0_iff; auto; lia).
  destruct (lowest_at_ex 64 x ltac:(lia) N) as (k & Hk).
  exists k. split; [|right; exists k; split; auto].
  apply ntz_loop_ok; auto. destruct Hk; lia.
Qed.

(** ** signum *)

Lemma shiftr63 x : is_long x -> Z.shiftr x 63 = if x <? 0 then -1 else 0.
Proof.
  intros Hx. unfold is_long, long_min, long_max in Hx. rewrite Z.shiftr_div_pow2 by lia.
  destruct (Z.ltb_spec x 0).
  - symmetry. apply Z.div_unique with (x + 2 ^ 63); lia.
  - apply Z.div_small. lia.
Qed.
Lemma signum_ok x : is_long x -> signum HW x = Ok (if x =? 0 then 0 else -1).
Proof.
  intros Hx. unfold signum, sneg. rewrite sres_HW by lia. cbn [bind].
  assert (W : is_long (wrap 64 (- x))) by (apply (proj2 (is_long_s _)); apply wrap_range; lia).
  rewrite !shiftr63 by auto. destruct (Z.eqb_spec x 0) as [->|N]; [reflexivity|].
  f_equal. destruct (Z.ltb_spec x 0); [rewrite Z.lor_m1_l; reflexivity|].
  rewrite (wrap_id 64); [|lia|apply (proj1 (is_long_s _)); unfold is_long, long_min, long_max in *; lia].
  replace (- x <? 0) with true by lia. reflexivity.
Qed.

(** ** Rotations *)

Lemma in_s_lor w a b : 0 < w -> in_s w a -> in_s w b -> in_s w (Z.lor a b).
Proof.
  intros Hw Ha Hb. rewrite <- (wrap_id w a), <- (wrap_id w b) by auto.
  replace (Z.lor (wrap w a) (wrap w b)) with (wrap w (Z.lor a b)); [apply wrap_range; auto|].
  apply Z.bits_inj'. intros n Hn. rewrite Z.lor_spec.
  destruct (Z.lt_ge_cases n w).
  - rewrite !wrap_bits_low, Z.lor_spec by lia. auto.
  - rewrite (signed_bits_high w (wrap w (Z.lor a b))), (signed_bits_high w (wrap w a)), (signed_bits_high w (wrap w b))
      by (auto using wrap_range; lia).
    rewrite <- (signed_bits_high w (wrap w (Z.lor a b)) (w-1)), <- (signed_bits_high w (wrap w a) (w-1)),
      <- (signed_bits_high w (wrap w b) (w-1)) by (auto using wrap_range; lia).
    rewrite !wrap_bits_low, Z.lor_spec by lia. auto.
Qed.
Lemma in_s_shiftr w x s : 0 < w -> in_s w x -> 0 <= s -> in_s w (Z.shiftr x s).
Proof.
  intros Hw [A B] Hs. rewrite Z.shiftr_div_pow2 by lia. pose proof (pow2_pos s Hs). unfold in_s, smin, smax in *.
  pose proof (pow2_pos (w - 1) ltac:(lia)). split.
  - apply Z.div_le_lower_bound; auto. nia.
  - apply Z.div_le_upper_bound; auto. nia.
Qed.
Lemma neg_mod64 d : wrap 32 (- d) mod 64 = (- d) mod 64.
Proof.
  unfold wrap. rewrite <- (Zminus_mod_idemp_l _ _ 64).
  change (2 ^ 32) with (64 * 2 ^ 26).
  rewrite Z.rem_mul_r by lia. rewrite (Z.mul_comm 64 (_ mod _)), Z.mod_add, Zmod_mod by lia.
  rewrite Zminus_mod_idemp_l. f_equal. lia.
Qed.
Lemma rotate_bits x a b i : in_s 64 x -> 0 <= a < 64 -> 0 <= b < 64 -> 0 <= i < 64 ->
  Z.testbit (Z.lor (wrap 64 (Z.shiftl x a)) (Z.shiftr x b)) i =
    Z.testbit x (i - a) || (if i + b <? 64 then Z.testbit x (i + b) else x <? 0).
Proof.
  intros Hx Ha Hb Hi. rewrite Z.lor_spec, wrap_bits_low, Z.shiftl_spec, Z.shiftr_spec by lia. f_equal.
  destruct (Z.ltb_spec (i + b) 64); auto. apply (signed_bits_high 64); auto; lia.
Qed.
(** Exact result of the two rotations: as specified for non-negative values;
    for negative values the positions filled from the sign are all ones. *)
Lemma rotateLeft_exact x d : is_long x -> exists r, rotateLeft HW x d = Ok r /\ in_s 64 r /\
  forall i, 0 <= i < 64 -> Z.testbit r i =
    if (d mod 64 <=? i) && negb (d mod 64 =? 0) && (x <? 0) then true else Z.testbit x (rotl 64 d i).
Proof.
  intros Hx. apply (proj1 (is_long_s _)) in Hx. unfold rotateLeft, sshl, sneg, sshr. rewrite sres_HW by lia. cbn [bind].
  eexists; split; [reflexivity|]. rewrite neg_mod64.
  pose proof (Z.mod_pos_bound d 64 ltac:(lia)). pose proof (Z.mod_pos_bound (-d) 64 ltac:(lia)).
  split; [apply in_s_lor; [lia|apply wrap_range; lia|apply in_s_shiftr; auto; lia]|].
  intros i Hi. rewrite rotate_bits by (auto; lia). unfold rotl. rewrite <- Zminus_mod_idemp_r.
  destruct (Z.eq_dec (d mod 64) 0) as [E|E].
  - rewrite Z.mod_opp_l_z by lia. rewrite E, Z.sub_0_r, Z.add_0_r, Z.mod_small by lia.
    replace (i <? 64) with true by lia. rewrite Z.eqb_refl, andb_false_r. cbn [andb]. apply orb_diag.
  - rewrite Z.mod_opp_l_nz by lia. replace (d mod 64 =? 0) with false by lia. cbn [negb]. rewrite andb_true_r.
    destruct (Z.leb_spec (d mod 64) i).
    + replace (i + (64 - d mod 64) <? 64) with false by lia. cbn [andb].
      rewrite (Z.mod_small (i - _)) by lia. destruct (x <? 0); [apply orb_true_r|apply orb_false_r].
    + rewrite Z.testbit_neg_r by lia. replace (i + (64 - d mod 64) <? 64) with true by lia. cbn [orb andb].
      f_equal. rewrite <- (Z.mod_add (i - d mod 64) 1 64) by lia. rewrite (Z.mod_small (i - d mod 64 + 1 * 64)); lia.
Qed.
Lemma rotateRight_exact x d : is_long x -> exists r, rotateRight HW x d = Ok r /\ in_s 64 r /\
  forall i, 0 <= i < 64 -> Z.testbit r i =
    if (64 <=? i + d mod 64) && (x <? 0) then true else Z.testbit x (rotr 64 d i).
Proof.
  intros Hx. apply (proj1 (is_long_s _)) in Hx. unfold rotateRight, sshl, sneg, sshr. rewrite sres_HW by lia. cbn [bind].
  eexists; split; [reflexivity|]. rewrite neg_mod64.
  pose proof (Z.mod_pos_bound d 64 ltac:(lia)). pose proof (Z.mod_pos_bound (-d) 64 ltac:(lia)).
  split; [apply in_s_lor; [lia|apply in_s_shiftr; auto; lia|apply wrap_range; lia]|].
  intros i Hi. rewrite Z.lor_comm. rewrite rotate_bits by (auto; lia). unfold rotr. rewrite <- Zplus_mod_idemp_r.
  destruct (Z.eq_dec (d mod 64) 0) as [E|E].
  - rewrite Z.mod_opp_l_z by lia. rewrite E, Z.sub_0_r, Z.add_0_r, Z.mod_small by lia.
    replace (i <? 64) with true by lia. replace (64 <=? i) with false by lia. cbn [andb]. apply orb_diag.
  - rewrite Z.mod_opp_l_nz by lia.
    destruct (Z.leb_spec 64 (i + d mod 64)).
    + replace (i + d mod 64 <? 64) with false by lia. cbn [andb].
      rewrite <- (Z.mod_add (i + d mod 64) (-1) 64) by lia. rewrite (Z.mod_small (i + d mod 64 + -1 * 64)) by lia.
      replace (i - (64 - d mod 64)) with (i + d mod 64 + -1 * 64) by lia.
      destruct (x <? 0); [apply orb_true_r|apply orb_false_r].
    + rewrite (Z.testbit_neg_r x (i - _)) by lia. replace (i + d mod 64 <? 64) with true by lia. cbn [orb andb].
      f_equal. rewrite (Z.mod_small (i + _)); lia.
Qed.
Lemma rotate_iso x d : d <> 0 ->
  (exists u, rotateLeft ISO x d = UB u) /\ (exists u, rotateRight ISO x d = UB u).
Proof.
  intros Hd. unfold rotateLeft, rotateRight, sshl, sshr, sneg, sres.
  split.
  - destruct ((0 <=? d) && (d <? 64) && (0 <=? x) && (Z.shiftl x d <? 2 ^ 64)) eqn:E; cbn [bind]; eauto.
    destruct (in_sb 32 (- d)); cbn [bind]; eauto.
    replace ((0 <=? - d) && (- d <? 64)) with false by lia. cbn [bind]. eauto.
  - destruct ((0 <=? d) && (d <? 64)) eqn:E; cbn [bind]; eauto.
    destruct (in_sb 32 (- d)); cbn [bind]; eauto.
    replace ((0 <=? - d) && (- d <? 64)) with false by lia. cbn [andb bind]. eauto.
Qed.
