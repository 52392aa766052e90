(** The text of a finite number. *)

From Coq Require Import ZArith List Bool Lia.
From Verif Require Import Base Bits CppText CMem Ieee IeeeProofs FloatBitsSpec FloatBitsModel StringModel TextLemmas StringProofs ArraysProofs FloatBitsProofs.
From Verif Require StringBuilderModel.
Import ListNotations.
Open Scope Z_scope.

Lemma zupd_same {A} (l : list A) i x : znth l i = Some x -> zupd l i x = l.
Proof.
  intros H. pose proof (znth_Some_lt _ _ _ H). apply znth_ext; [apply zupd_len|]. intros j J. rewrite znth_zupd by auto. destruct (Z.eqb_spec j i) as [->|]; congruence.
Qed.
Lemma testbit_div a k i : 0 <= k -> 0 <= i -> Z.testbit (a / 2 ^ k) i = Z.testbit a (i + k).
Proof. intros. rewrite <- Z.shiftr_div_pow2, Z.shiftr_spec by lia. auto. Qed.
Lemma testbit_pack e f k i : 0 <= k -> 0 <= f < 2 ^ k -> Z.testbit (e * 2 ^ k + f) i = if i <? k then Z.testbit f i else Z.testbit e (i - k).
Proof.
  intros K R. destruct (Z.ltb_spec i 0) as [N|N]; [replace (i <? k) with true by lia; rewrite !Z.testbit_neg_r by lia; auto|].
  destruct (Z.ltb_spec i k) as [J|J].
  - rewrite <- (Z.mod_pow2_bits_low (e * 2 ^ k + f) k i) by lia. rewrite Z.add_comm, Z_mod_plus_full, Z.mod_small by lia. auto.
  - replace i with ((i - k) + k) at 1 by lia. rewrite <- testbit_div by lia. rewrite Z.div_add_l by (pose proof (pow_pos k K); lia). rewrite (Z.div_small f) by lia. f_equal. lia.
Qed.
Lemma testbit_high a k i : 0 <= a < 2 ^ k -> k <= i -> Z.testbit a i = false.
Proof. intros R I. destruct (Z.eq_dec a 0) as [->|]; [apply Z.testbit_0_l|]. apply Z.bits_above_log2; [lia|]. apply Z.log2_lt_pow2; [lia|]. assert (0 <= k) by (destruct (Z.le_gt_cases 0 k); auto; rewrite Z.pow_neg_r in R; lia). eapply Z.lt_le_trans; [apply R|]. now apply pow_le. Qed.
Lemma blen_high a i : 0 <= a -> blen a <= i -> Z.testbit a i = false.
Proof. intros A I. unfold blen in I. destruct (Z.eqb_spec a 0) as [->|]; [apply Z.testbit_0_l|]. apply Z.bits_above_log2; lia. Qed.
Lemma digit_ne0 b : digit b <> 0. Proof. destruct b; discriminate. Qed.

Section Fits.
Variable F : fmt.
Hypothesis K : fmt_ok F.
Lemma fits_mod x k : 0 <= k -> fits F x -> fits F (x mod 2 ^ k).
Proof using K.
  intros K0 H. pose proof (fits_divide F x H) as D. pose proof (excess_nonneg F x) as E0. pose proof (pow_pos k K0). assert (R : 0 <= x) by (destruct H; lia).
  pose proof (Z.mod_le x (2 ^ k) R ltac:(lia)). pose proof (Z.mod_pos_bound x (2 ^ k) ltac:(lia)).
  destruct (Z.le_gt_cases k (excess F x)) as [J|J].
  - assert (Q : (2 ^ k | x)) by (eapply Z.divide_trans; [apply pow_divide; split; [exact K0|exact J]|exact D]). apply Z.mod_divide in Q; [|lia]. rewrite Q. now apply fits_0.
  - apply (fits_sub' F K x); auto; [lia|]. rewrite Z.mod_eq by lia. apply Z.divide_sub_r; auto. apply Z.divide_mul_l, pow_divide. lia.
Qed.
Lemma fits_high x k : 0 <= k -> fits F x -> fits F (x / 2 ^ k * 2 ^ k).
Proof using K.
  intros K0 H. pose proof (fits_divide F x H) as D. pose proof (excess_nonneg F x) as E0. pose proof (pow_pos k K0). assert (R : 0 <= x) by (destruct H; lia).
  pose proof (Z.mod_pos_bound x (2 ^ k) ltac:(lia)). pose proof (Z.mod_le x (2 ^ k) R ltac:(lia)).
  replace (x / 2 ^ k * 2 ^ k) with (x - x mod 2 ^ k) by (rewrite (Z.mod_eq x) by lia; lia).
  destruct (Z.le_gt_cases k (excess F x)) as [J|J].
  - assert (Q : (2 ^ k | x)) by (eapply Z.divide_trans; [apply pow_divide; split; [exact K0|exact J]|exact D]). apply Z.mod_divide in Q; [|lia]. rewrite Q. now rewrite Z.sub_0_r.
  - apply (fits_sub' F K x); auto; [lia|]. rewrite (Z.mod_eq x) by lia. replace (x - (x - 2 ^ k * (x / 2 ^ k))) with (2 ^ k * (x / 2 ^ k)) by lia. apply Z.divide_mul_l, pow_divide. lia.
Qed.

Lemma seen_bits v i : 0 <= v -> Z.testbit (seen F v) i = (one_exp F - 1 - mbits F <=? i) && negb ((one F <=? v) && (i =? one_exp F - 1)) && Z.testbit v i.
Proof using K.
  intros V. destruct K as [m0 e0 e1 me bb b2]. unfold seen. set (k := one_exp F - 1 - mbits F). cbv zeta. set (w := v / 2 ^ k * 2 ^ k). assert (K0 : 0 <= k) by (unfold k; lia).
  assert (WB : forall j, Z.testbit w j = (k <=? j) && Z.testbit v j).
  { intros j. unfold w. destruct (Z.ltb_spec j 0); [rewrite !Z.testbit_neg_r by lia; now rewrite andb_false_r|]. rewrite <- (Z.add_0_r (_ * _)). rewrite testbit_pack by (pose proof (pow_pos k K0); lia).
    destruct (Z.ltb_spec j k); [replace (k <=? j) with false by lia; now rewrite Z.testbit_0_l|]. replace (k <=? j) with true by lia. rewrite testbit_div by lia. cbn [andb]. f_equal. lia. }
  destruct (one F <=? v); cbn [andb negb].
  - destruct (Z.testbit v (one_exp F - 1)) eqn:TB.
    + rewrite Z.sub_nocarry_ldiff.
      * rewrite Z.ldiff_spec, WB, Z.pow2_bits_eqb by lia. rewrite (Z.eqb_sym (one_exp F - 1) i). destruct (k <=? i), (Z.testbit v i), (i =? one_exp F - 1); auto.
      * apply Z.bits_inj'. intros j J. rewrite Z.ldiff_spec, WB, Z.pow2_bits_eqb, Z.testbit_0_l by lia. destruct (Z.eqb_spec (one_exp F - 1) j) as [<-|]; [|auto]. rewrite TB. replace (k <=? one_exp F - 1) with true by (unfold k; lia). auto.
    + rewrite WB. destruct (Z.eqb_spec i (one_exp F - 1)) as [->|]; [rewrite TB; now rewrite !andb_false_r|]. now rewrite andb_true_r.
  - rewrite WB. now rewrite andb_true_r.
Qed.
Lemma seen_nonneg v : 0 <= v -> 0 <= seen F v.
Proof using K.
  intros V. apply Z.bits_iff_nonneg_ex. exists (Z.log2 v). intros j J. rewrite seen_bits by auto. rewrite (Z.bits_above_log2 v j) by auto. now rewrite andb_false_r.
Qed.
End Fits.

Lemma c_string_of (g : Z -> Z) : forall (b : block) n, 0 <= n -> (forall j, 0 <= j < n -> znth b j = Some (Some (g j)) /\ g j <> 0) -> znth b n = Some (Some 0) ->
  exists t, StringBuilderModel.c_string b = Ok t /\ zlen t = n /\ forall j, 0 <= j < n -> znth t j = Some (g j).
Proof.
  intros b. revert g. induction b as [|x b IH]; intros g n N G E.
  - apply znth_Some_lt in E. change (zlen (@nil (option Z))) with 0 in E. lia.
  - assert (SH : forall {A} (y : A) l j, 0 <= j -> znth (y :: l) (j + 1) = znth l j).
    { intros A y l j J. rewrite !znth_nth by lia. replace (Z.to_nat (j + 1)) with (S (Z.to_nat j)) by lia. auto. }
    destruct (Z.eq_dec n 0) as [->|N0].
    + cbv in E. injection E as ->. exists []. split; [auto|]. split; auto. intros; lia.
    + destruct (G 0 ltac:(lia)) as [G0 G1]. assert (E0 : znth (x :: b) 0 = Some x) by reflexivity. rewrite E0 in G0. injection G0 as ->. cbn [StringBuilderModel.c_string]. replace (g 0 =? 0) with false by lia.
      destruct (IH (fun j => g (j + 1)) (n - 1)) as (t & -> & L & T); [lia| | |].
      { intros j J. rewrite <- (SH _ (Some (g 0)) b j) by lia. apply G. lia. }
      { rewrite <- (SH _ (Some (g 0)) b (n - 1)) by lia. replace (n - 1 + 1) with n by lia. auto. }
      cbn [bind]. exists (g 0 :: t). split; auto. split; [rewrite zlen_cons; lia|]. intros j J. destruct (Z.eq_dec j 0) as [->|]; [reflexivity|]. replace j with (j - 1 + 1) by lia. rewrite SH by lia. rewrite T by lia. auto.
Qed.

Record code_ok (c : code) : Prop := {
  co_fmt : fmt_ok (cfmt c);
  co_int : mbits (cfmt c) + 2 <= nInteger c; co_int2 : 32 <= nInteger c;
  co_frac : mbits (cfmt c) + 2 <= nFraction c;
  co_form : width (cfmt c) + 1 <= nNormal c; co_form2 : mbits (cfmt c) + 40 <= nNormal c;
  co_w : width (cfmt c) <= 64 }.
Lemma CDouble_ok : code_ok CDouble. Proof. constructor; try apply F64_ok; vm_compute; discriminate. Qed.
Lemma CFloat_ok : code_ok CFloat. Proof. constructor; try apply F32_ok; vm_compute; discriminate. Qed.

Section Text.
Variable c : code.
Hypothesis CK : code_ok c.
Let F := cfmt c.
Let M := mbits F.
Let B := one_exp F.
Let U := one F.
Let K : fmt_ok F := co_fmt c CK.

Lemma alloc_len n : 0 <= n -> zlen (alloc c n) = n.
Proof using. intros N. unfold alloc, c_calloc, zlen. destruct (zeroed c); rewrite repeat_length; lia. Qed.

(** ** The fraction *)
Definition fd (v j : Z) : bool := negb ((j =? 0) && (U <=? v)) && Z.testbit v (B - 1 - j).
Definition fr (v t : Z) : Z := if t =? 0 then v else (2 ^ t * v) mod U.

Lemma U_pos : 0 < U. Proof using K. apply one_pos, K. Qed.
Lemma to_int_ok z : 0 <= z < 2 ^ 31 -> to_int F 32 (Fin false (z * U)) = Ok z.
Proof using K. intros Z0. pose proof U_pos. unfold to_int. cbn [signed]. change (one F) with U. rewrite Z.div_mul by lia. unfold in_sb, smin, smax. change (2 ^ (32 - 1)) with (2 ^ 31). replace ((- 2 ^ 31 <=? z) && (z <=? 2 ^ 31 - 1)) with true by lia. auto. Qed.
Lemma of_int_fits z : 0 <= z -> fits F (z * U) -> of_int F z = Fin false (z * U).
Proof using K. intros Z0 H. unfold of_int. replace (z <? 0) with false by lia. rewrite Z.abs_eq by lia. now apply rounded_exact0. Qed.
Lemma below_max x : 0 <= x < 2 ^ 35 * U -> x <= maxv F.
Proof using K. intros R. etransitivity; [|apply maxv_lower, K]. fold B. rewrite (Z.add_comm B), pow_split by (destruct K; unfold B; lia). change (2 ^ B) with U. lia. Qed.

(** one doubling: integer part, and the rest *)
Lemma double_step f : fits F f -> f < 2 ^ 30 * U ->
  mul F (Fin false f) (of_int F 2) = Fin false (2 * f) /\ to_int F 32 (floor F (Fin false (2 * f))) = Ok (2 * f / U) /\
  sub F (Fin false (2 * f)) (of_int F (2 * f / U)) = Fin false (2 * f mod U) /\ fits F (2 * f mod U).
Proof using K.
  intros H R. pose proof U_pos. assert (f0 : 0 <= f) by (destruct H; lia). assert (H2 : fits F (2 * f)) by (apply fits_double; auto; apply below_max; lia).
  assert (B0 : 0 <= B) by (destruct K; unfold B; lia).
  split; [|split; [|split]].
  - rewrite of_int_small by (auto; change (2 ^ 21) with 2097152; lia). change (one F) with U. change false with (xorb false false) at 3. apply mul_exact; auto. change (one F) with U. lia.
  - unfold floor. cbv iota. change (one F) with U. apply to_int_ok. split; [apply Z.div_pos; lia|]. apply Z.div_lt_upper_bound; [lia|]. change (2 ^ 31) with (2 * 2 ^ 30). lia.
  - rewrite of_int_fits; [|apply Z.div_pos; lia|apply (fits_high F K (2 * f) B); auto]. assert (Q : 2 * f - 2 * f / U * U = 2 * f mod U) by (rewrite (Z.mod_eq (2 * f)) by lia; lia). rewrite sub_pos; auto; rewrite Q; auto. now apply (fits_mod F K (2 * f) B).
  - now apply (fits_mod F K (2 * f) B).
Qed.

Lemma fr_step v t : 0 <= v -> 0 <= t -> 2 * fr v t mod U = fr v (t + 1).
Proof using K.
  intros V T. pose proof U_pos. unfold fr. replace (t + 1 =? 0) with false by lia. destruct (Z.eqb_spec t 0) as [->|N]; [change (2 ^ (0 + 1)) with 2; auto|].
  rewrite Z.mul_mod_idemp_r by lia. f_equal. rewrite Z.pow_add_r by lia. change (2 ^ 1) with 2. lia.
Qed.
Lemma fr_digit v t : 0 <= v -> 0 <= t <= M -> (t = 0 -> v < U) -> 2 * fr v t / U = Z.b2z (fd v t).
Proof using K.
  intros V T S0. pose proof U_pos. destruct K as [m0 e0 e1 me bb b2].
  assert (R : 0 <= fr v t < U) by (unfold fr; destruct (Z.eqb_spec t 0); [split; auto|apply Z.mod_pos_bound; lia]).
  assert (Q : fd v t = Z.testbit (fr v t) (B - 1)).
  { unfold fd, fr. destruct (Z.eqb_spec t 0) as [->|N].
    - replace (U <=? v) with false by (specialize (S0 eq_refl); lia). cbn [andb negb]. f_equal. lia.
    - cbn [andb negb]. unfold U, one. fold B. rewrite Z.mod_pow2_bits_low by lia. rewrite Z.mul_comm, <- Z.shiftl_mul_pow2, Z.shiftl_spec by (unfold B, M in *; lia). auto. }
  rewrite Q. assert (UE : U = 2 ^ B) by reflexivity. rewrite UE in *. assert (B1 : 2 ^ B = 2 ^ (B - 1) * 2) by (replace B with (B - 1 + 1) at 1 by lia; rewrite pow_split by (unfold B, M in *; lia); auto).
  rewrite B1, (Z.mul_comm _ 2). rewrite Z.div_mul_cancel_l by (try lia; pose proof (pow_pos (B - 1)); unfold B, M in *; lia).
  rewrite Z.testbit_spec' by (unfold B, M in *; lia). symmetry. apply Z.mod_small. split; [apply Z.div_pos; [lia|apply pow_pos; unfold B, M in *; lia]|]. apply Z.div_lt_upper_bound; [apply pow_pos; unfold B, M in *; lia|lia].
Qed.
Lemma fr_zero v s : 0 <= v -> 0 <= s -> fr v s = 0 -> forall j, s <= j <= M -> fd v j = false.
Proof using K.
  intros V S0 Z0 j J. destruct K as [m0 e0 e1 me bb b2]. unfold fd. assert (Z.testbit v (B - 1 - j) = false); [|rewrite H; apply andb_false_r]. unfold fr in Z0. destruct (Z.eqb_spec s 0) as [->|N]; [subst v; apply Z.testbit_0_l|].
  replace (B - 1 - j) with (B - 1 - j + s - s) by lia. rewrite <- (Z.shiftl_spec v s) by (unfold B, M in *; lia). rewrite Z.shiftl_mul_pow2, Z.mul_comm by lia.
  rewrite <- (Z.mod_pow2_bits_low _ B) by (unfold B, M in *; lia). unfold U, one in Z0. fold B in Z0. rewrite Z0. apply Z.testbit_0_l.
Qed.

Lemma fraction_ok v : fits F v -> v < 2 ^ 30 * U -> forall fuel (b : block) t, 0 <= t <= M + 1 -> M + 1 - t < Z.of_nat fuel -> M + 1 <= zlen b -> (forall j, t <= j <= M -> znth b j = Some (Some c0)) ->
  (t <> 0 -> fits F (fr v t)) ->
  exists b' s, fraction_loop c fuel b (Fin false (fr v t)) t = Ok (b', s) /\ t <= s <= M + 1 /\ (forall j, s <= j <= M -> fd v j = false) /\ written b b' t s (fun j => digit (fd v j)).
Proof using K.
  intros H R. pose proof U_pos. assert (V : 0 <= v) by (destruct H; lia).
  induction fuel as [|f IH]; intros b t T FU L C0 FT; cbn [fraction_loop]; [lia|]. fold F. change (mbits F) with M.
  assert (FZ : fits F (fr v t)) by (destruct (Z.eq_dec t 0) as [->|]; auto).
  assert (FB : fr v t < 2 ^ 30 * U).
  { destruct (Z.eq_dec t 0) as [->|N]; [exact R|]. unfold fr. replace (t =? 0) with false by lia. pose proof (Z.mod_pos_bound (2 ^ t * v) U). change (2 ^ 30) with 1073741824. lia. }
  assert (ZE : feq (Fin false (fr v t)) zero = (fr v t =? 0)). { unfold feq, zero, fcmp, signed. rewrite Z.eqb_compare. destruct (fr v t ?= 0); auto. }
  rewrite ZE. destruct (Z.eqb_spec (fr v t) 0) as [Q|Q]; cbn [negb andb].
  { exists b, t. split; auto. split; [lia|]. split; [apply fr_zero; auto; lia|apply written_refl; lia]. }
  destruct (Z.ltb_spec t (M + 1)) as [J|J].
  2:{ exists b, t. split; auto. split; [lia|]. split; [intros; lia|apply written_refl; lia]. }
  destruct (double_step (fr v t) FZ FB) as (D1 & D2 & D3 & D4). rewrite D1, D2. cbn [bind]. rewrite D3. rewrite fr_step in D4 |- * by lia.
  assert (NX : exists b1, (if 2 * fr v t / U =? 1 then mset b t c1 else if 2 * fr v t / U =? 0 then mset b t c0 else Ok b) = Ok b1 /\ b1 = zupd b t (Some (digit (fd v t)))).
  { destruct (Z.eq_dec t 0) as [->|N0]; [destruct (Z.le_gt_cases U v) as [UV|UV]|].
    - assert (2 <= 2 * fr v 0 / U) by (apply Z.div_le_lower_bound; [lia|]; change (fr v 0) with v; lia). replace (2 * fr v 0 / U =? 1) with false by lia. replace (2 * fr v 0 / U =? 0) with false by lia. exists b. split; auto.
      unfold fd. replace (U <=? v) with true by lia. cbn [Z.eqb andb negb digit]. symmetry. apply zupd_same. apply C0. destruct K; unfold M; lia.
    - rewrite fr_digit by lia. rewrite !mset_ok by lia. destruct (fd v 0); eexists; split; reflexivity.
    - rewrite fr_digit by lia. rewrite !mset_ok by lia. destruct (fd v t); eexists; split; reflexivity. }
  destruct NX as (b1 & -> & E1). cbn [bind].
  destruct (IH b1 (t + 1)) as (b' & s & -> & S1 & S2 & S3); try lia; try (subst b1; rewrite zupd_len; lia).
  { intros j Jj. subst b1. rewrite znth_zupd by lia. replace (j =? t) with false by lia. apply C0. lia. }
  { intros _. auto. }
  exists b', s. split; auto. split; [lia|]. split; auto. subst b1. apply (written_cons _ _ _ _ _ (digit (fd v t))); auto; lia.
Qed.
End Text.
