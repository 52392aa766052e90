(** What the computed bits denote, and the conversion back. *)

From Coq Require Import ZArith List Bool Lia.
From Verif Require Import Base Bits CppText CMem Ieee IeeeProofs FloatBitsSpec FloatBitsModel StringModel TextLemmas StringProofs ArraysProofs FloatBitsProofs FloatBitsProofs2 FloatBitsProofs3 FloatBitsProofs4.
From Verif Require StringBuilderModel.
Import ListNotations.
Open Scope Z_scope.

Lemma rne_scale a d k : 0 < d -> 0 < k -> rne (a * k) (d * k) = rne a d.
Proof.
  intros D K. unfold rne. rewrite Z.div_mul_cancel_r by lia. rewrite Z.mul_mod_distr_r by lia.
  replace (2 * (a mod d * k) <? d * k) with (2 * (a mod d) <? d). 2:{ destruct (Z.ltb_spec (2 * (a mod d)) d), (Z.ltb_spec (2 * (a mod d * k)) (d * k)); auto; nia. }
  replace (d * k <? 2 * (a mod d * k)) with (d <? 2 * (a mod d)). 2:{ destruct (Z.ltb_spec d (2 * (a mod d))), (Z.ltb_spec (d * k) (2 * (a mod d * k))); auto; nia. }
  auto.
Qed.
Lemma isNaN_rounded F n a k : isNaN (rounded F n a k) = false.
Proof. unfold rounded. destruct (maxv F <? _); [destruct n; reflexivity|apply isNaN_fin]. Qed.
(** low bits zero *)
Lemma divide_bits x k : 0 <= k -> (forall i, 0 <= i < k -> Z.testbit x i = false) -> (2 ^ k | x).
Proof.
  intros K H. apply Z.mod_divide; [pose proof (pow_pos k K); lia|]. apply Z.bits_inj'. intros i I. rewrite Z.testbit_0_l. destruct (Z.lt_ge_cases i k); [rewrite Z.mod_pow2_bits_low by lia; apply H; lia|apply Z.mod_pow2_bits_high; lia].
Qed.
Lemma bits_divide x k i : (2 ^ k | x) -> 0 <= i < k -> Z.testbit x i = false.
Proof. intros D I. apply Z.mod_divide in D; [|pose proof (pow_pos k); lia]. rewrite <- (Z.mod_pow2_bits_low x k i) by lia. rewrite D. apply Z.testbit_0_l. Qed.

Lemma bits_loop_neg : forall fuel b n index, n < 0 -> -1 <= index < zlen b -> index + 1 < Z.of_nat fuel -> bits_loop fuel b n index = UB OutOfBounds.
Proof.
  induction fuel as [|f IH]; intros b n index N I FU; cbn [bits_loop]; [lia|]. replace (n =? 0) with false by lia. cbn [negb orb].
  destruct (Z.eq_dec index (-1)) as [->|]; [reflexivity|]. rewrite mset_ok by lia. cbn [bind]. apply IH; [|rewrite zupd_len; lia|lia]. now apply Z.shiftr_neg.
Qed.

Section Text.
Variable c : code.
Hypothesis CK : code_ok c.
Let F := cfmt c.
Let M := mbits F.
Let eb := ebits F.
Let B := one_exp F.
Let U := one F.
Let W := width F.
Let K : fmt_ok F := co_fmt c CK.

Lemma gfacts : 20 <= M /\ 8 <= eb <= 11 /\ 2 * M + 40 <= B /\ B = bias F + M - 1 /\ 2 * bias F = 2 ^ eb - 2 /\ W = 1 + eb + M /\ W <= 64 /\ 256 <= 2 ^ eb.
Proof using K. pose proof (ffacts c CK) as X. fold F in X. fold M eb B W in X. lia. Qed.

(** ** What the bits denote *)
Lemma log2_seen v : 0 < v -> seen F v <> 0 -> Z.log2 (seen F v) = Z.log2 v.
Proof using K.
  intros V N. destruct gfacts as (m0 & e0 & me & bb & _). pose proof (seen_nonneg F K v ltac:(lia)) as SN. pose proof (Z.bit_log2 (seen F v) ltac:(lia)) as T. rewrite (seen_bits F K) in T by lia. apply andb_prop in T as [T T3]. apply andb_prop in T as [T1 _]. apply Z.leb_le in T1.
  assert (L1 : Z.log2 (seen F v) <= Z.log2 v). { destruct (Z.le_gt_cases (Z.log2 (seen F v)) (Z.log2 v)); auto. rewrite Z.bits_above_log2 in T3 by lia. discriminate. }
  assert (L2 : Z.log2 v <= Z.log2 (seen F v)); [|lia]. pose proof (Z.bit_log2 v ltac:(lia)) as TV.
  assert (TS : Z.testbit (seen F v) (Z.log2 v) = true).
  { rewrite (seen_bits F K) by lia. rewrite TV. fold B M U. fold B M in T1. replace (B - 1 - M <=? Z.log2 v) with true by lia. cbn [andb]. rewrite andb_true_r. destruct (Z.leb_spec U v) as [J|J]; cbn [andb negb]; auto.
    assert (B <= Z.log2 v) by (apply Z.log2_le_pow2; auto). replace (Z.log2 v =? B - 1) with false by lia. auto. }
  destruct (Z.le_gt_cases (Z.log2 v) (Z.log2 (seen F v))); auto. rewrite Z.bits_above_log2 in TS by lia. discriminate.
Qed.

Lemma seen_divide v : fits F v -> 0 < v -> seen F v <> 0 -> (2 ^ (Z.log2 (seen F v) - M) | seen F v).
Proof using K.
  intros H V N. destruct gfacts as (m0 & e0 & me & bb & _). pose proof (fits_divide F v H) as DV. rewrite log2_seen by auto. unfold excess in DV. fold M in DV.
  destruct (Z.le_gt_cases (Z.log2 v - M) 0) as [J|J].
  - destruct (Z.eq_dec (Z.log2 v - M) 0) as [->|]; [apply Z.divide_1_l|]. exfalso. pose proof (Z.bit_log2 (seen F v) ltac:(pose proof (seen_nonneg F K v); lia)) as T. rewrite log2_seen in T by auto. rewrite (seen_bits F K) in T by lia. apply andb_prop in T as [T _]. apply andb_prop in T as [T _]. apply Z.leb_le in T. fold B M in T. lia.
  - rewrite Z.max_r in DV by lia. apply divide_bits; [lia|]. intros i I. rewrite (seen_bits F K) by lia. rewrite (bits_divide v _ i DV I). apply andb_false_r.
Qed.

Theorem denoted_pattern v : fits F v -> 0 < v < 2 ^ 30 * U -> seen F v <> 0 -> denoted F (pattern F v) = Fin false (seen F v).
Proof using K.
  intros H R N. destruct gfacts as (m0 & e0 & me & bb & b2 & w0 & w64 & e8). pose proof (pattern_range c CK v R) as PR. fold F in PR. fold W in PR.
  pose proof (exponent_range c CK v R N) as ER. fold F in ER. fold B eb in ER. pose proof (q0_range c CK v R N) as (Q & _). fold F in Q. unfold q0 in Q. fold F in Q. fold B M in Q. pose proof (nint_le c CK v) as N2. fold F in N2. fold U in N2.
  assert (ER2 : Z.log2 (seen F v) - B + bias F < 2 ^ eb - 1) by lia. pose proof (pow_pos M ltac:(lia)) as MP. pose proof (seen_nonneg F K v ltac:(lia)) as SN.
  unfold denoted. set (P := pattern F v) in *. assert (SB : sign_bit F P = false). { unfold sign_bit. fold eb M. apply (testbit_high P (W - 1)); lia. }
  set (L := Z.log2 (seen F v)) in *. set (f := (seen F v / 2 ^ (L - M)) mod 2 ^ M).
  assert (PE : P = (L - M + 1) * 2 ^ M + f). { unfold P, pattern. fold M. replace (seen F v =? 0) with false by lia. reflexivity. }
  assert (FR : 0 <= f < 2 ^ M) by (apply Z.mod_pos_bound; lia).
  assert (EF : exponent_field F P = L - M + 1). { unfold exponent_field. fold M eb. rewrite PE, Z.div_add_l, (Z.div_small f), Z.add_0_r by lia. apply Z.mod_small. lia. }
  assert (FF : fraction_field F P = f). { unfold fraction_field. fold M. rewrite PE, Z.add_comm, Z_mod_plus_full. apply Z.mod_small. lia. }
  rewrite SB, EF, FF. fold eb M. replace (L - M + 1 =? 0) with false by lia. replace (L - M + 1 =? 2 ^ eb - 1) with false by lia. f_equal.
  destruct (seen_divide v H ltac:(lia) N) as [q QE]. fold L in QE. pose proof (pow_pos (L - M) ltac:(lia)) as LP.
  assert (QD : seen F v / 2 ^ (L - M) = q) by (rewrite QE, Z.div_mul; lia). unfold f. rewrite QD.
  assert (QR : 2 ^ M <= q < 2 * 2 ^ M).
  { destruct (Z.log2_spec (seen F v) ltac:(lia)) as [L1 L2]. fold L in L1, L2. replace (Z.succ L) with (Z.succ M + (L - M)) in L2 by lia. replace L with (M + (L - M)) in L1 at 1 by lia. rewrite pow_split in L1, L2 by lia. rewrite Z.pow_succ_r in L2 by lia. rewrite QE in L1, L2. split; [apply Z.mul_le_mono_pos_r in L1|apply Z.mul_lt_mono_pos_r in L2]; lia. }
  replace (L - M + 1 - 1) with (L - M) by lia. rewrite QE. f_equal. rewrite <- (Z_mod_plus_full q (-1)), Z.mod_small by lia. lia.
Qed.

(** ** Bits to number *)
Lemma int_text_ok m bits : - 2 ^ (W - 1) < bits < 2 ^ (W - 1) -> exists t, int_text m c bits = Ok t /\ text_of W t (bits <? 0) (Z.abs bits).
Proof using K.
  intros R. destruct gfacts as (m0 & e0 & me & bb & b2 & w0 & w64 & e8). unfold int_text. fold F. fold W. destruct (filled c CK (W + 1) W W ltac:(lia) ltac:(lia)) as (b & b1 & -> & E1 & L1 & L2 & C1 & C2). cbn [bind]. rewrite E1. cbn [bind].
  set (b2' := if bits <? 0 then zupd b1 0 (Some c1) else b1).
  assert (E2 : (if bits <? 0 then mset b1 0 c1 else Ok b1) = Ok b2') by (unfold b2'; destruct (bits <? 0); auto; apply mset_ok; lia). rewrite E2. cbn [bind].
  assert (E3 : (if bits <? 0 then sneg m W bits else Ok bits) = Ok (Z.abs bits)). { destruct (Z.ltb_spec bits 0); [|f_equal; lia]. unfold sneg. rewrite sres_ok; [f_equal; lia|]. unfold in_s, smin, smax. lia. }
  rewrite E3. cbn [bind]. assert (L3 : zlen b2' = W + 1) by (unfold b2'; destruct (bits <? 0); rewrite ?zupd_len; auto).
  pose proof (blen_lt (Z.abs bits) (W - 1) ltac:(lia) ltac:(lia)) as BL.
  destruct (bits_loop_ok (Z.to_nat W + 1) b2' (Z.abs bits) (W - 1)) as (b3 & lo & -> & A1 & A2 & A3 & [Z3 Wr]); try lia. cbn [bind].
  assert (L0 : forall j, znth b2' j = if j =? 0 then Some (Some (digit (bits <? 0))) else znth b1 j).
  { intros j. unfold b2'. destruct (bits <? 0); [rewrite znth_zupd by lia; auto|]. destruct (Z.eqb_spec j 0) as [->|]; auto. apply C2. lia. }
  destruct (c_string_of (fun j => if j =? 0 then digit (bits <? 0) else digit (Z.testbit (Z.abs bits) (W - 1 - j))) b3 W) as (t & -> & TL & TD).
  { lia. }
  { intros j J. split; [|destruct (j =? 0); apply digit_ne0]. rewrite Wr. destruct (Z.leb_spec lo j) as [J1|J1]; cbn [andb].
    - replace (j <? W - 1 + 1) with true by lia. destruct (Z.eqb_spec j 0) as [->|]; auto. lia.
    - rewrite L0. destruct (Z.eqb_spec j 0) as [->|]; auto. rewrite C2 by lia. rewrite blen_high by lia. auto. }
  { rewrite Wr. replace (W <? W - 1 + 1) with false by lia. rewrite andb_false_r, L0. replace (W =? 0) with false by lia. auto. }
  exists t. split; auto. split; auto. split; [rewrite TD by lia; auto|]. intros i I. rewrite TD by lia. replace (i =? 0) with false by lia. auto.
Qed.

Lemma sum_powers_ok t s P : text_of W t s P -> forall n i e temp a nan lo w, 1 <= i -> lo = W - i - Z.of_nat n -> 0 <= lo -> w = B + e - Z.of_nat n + 1 -> 0 <= w ->
  0 <= a -> (2 ^ w | a) -> a + 2 ^ (w + Z.of_nat n) <= 2 ^ (w + M + 1) -> a + 2 ^ (w + Z.of_nat n) <= 2 ^ (B + 35) ->
  exists temp', sum_powers c n t i e temp (Fin false a) nan = Ok (Fin false (a + (P / 2 ^ lo) mod 2 ^ (Z.of_nat n) * 2 ^ w), nan && ((P / 2 ^ lo) mod 2 ^ (Z.of_nat n) =? 2 ^ (Z.of_nat n) - 1), temp').
Proof using K.
  intros T. destruct gfacts as (m0 & e0 & me & bb & b2 & w0 & w64 & e8). pose proof (maxv_lower F K) as ML. fold B in ML. induction n as [|n IH]; intros i e temp a nan lo w I LO L0 WE W0 A DA B1 B2; cbn [sum_powers].
  - exists temp. change (2 ^ Z.of_nat 0) with 1. rewrite Z.mod_1_r. cbn [Z.sub Z.eqb]. change (0 =? 1 - 1) with true. rewrite andb_true_r. do 4 f_equal. lia.
  - destruct T as (TL & T0 & TD). rewrite (charAt_znth _ _ _ (text_small c CK t s P (conj TL (conj T0 TD))) (TD i ltac:(lia))). cbn [bind]. rewrite bit_of_digit.
    replace (W - 1 - i) with (Z.of_nat n + lo) by lia. rewrite <- testbit_div by lia. set (X := P / 2 ^ lo) in *. set (bit := Z.testbit X (Z.of_nat n)).
    replace (Z.of_nat (S n)) with (Z.of_nat n + 1) in * by lia. rewrite top_bit by lia. fold bit. pose proof (pow_pos (Z.of_nat n) ltac:(lia)) as NP. pose proof (Z.mod_pos_bound X (2 ^ Z.of_nat n) ltac:(lia)) as XB.
    assert (EW : B + e = Z.of_nat n + w) by lia. assert (HP : 2 ^ (w + (Z.of_nat n + 1)) = 2 * 2 ^ (w + Z.of_nat n)) by (replace (w + (Z.of_nat n + 1)) with (Z.succ (w + Z.of_nat n)) by lia; apply Z.pow_succ_r; lia).
    pose proof (pow_pos (w + Z.of_nat n) ltac:(lia)) as WP.
    assert (MU : mul F (of_int F (Z.b2z bit)) (pow2 F e) = Fin false (Z.b2z bit * 2 ^ (w + Z.of_nat n))).
    { rewrite (of_int_small F K) by (destruct bit; cbn; lia). rewrite (pow2_exact F K e) by (fold B; rewrite ?EW, ?(Z.add_comm (Z.of_nat n)); lia). fold B. rewrite EW, (Z.add_comm (Z.of_nat n)). change false with (xorb false false) at 3. apply mul_exact; auto; [lia|].
      destruct bit; [rewrite Z.mul_1_l; apply fits_pow; auto; lia|apply fits_0; auto]. }
    fold F. rewrite MU. set (a' := a + Z.b2z bit * 2 ^ (w + Z.of_nat n)). assert (A' : 0 <= a') by (unfold a'; destruct bit; cbn [Z.b2z]; lia).
    assert (DA' : (2 ^ w | a')). { unfold a'. apply Z.divide_add_r; auto. apply Z.divide_mul_r, pow_divide. lia. }
    assert (FA : fits F a'). { apply (fits_intro F K a' w); auto. - fold M. split; auto. unfold a'. destruct bit; cbn [Z.b2z]; lia. - unfold a'. destruct bit; cbn [Z.b2z]; lia. }
    rewrite add_pos by auto. fold a'.
    destruct (IH (i + 1) (e - 1) (Z.b2z bit) a' (nan && negb (digit bit =? c0)) lo w) as (temp' & IE); try lia; auto; try (unfold a'; destruct bit; cbn [Z.b2z]; lia).
    rewrite IE. exists temp'. fold X. f_equal. f_equal. f_equal.
    + f_equal. unfold a'. rewrite (Z.add_comm w), pow_split by lia. ring.
    + rewrite <- andb_assoc. f_equal. replace (2 ^ (Z.of_nat n + 1)) with (2 * 2 ^ Z.of_nat n) by (rewrite pow_split by lia; change (2 ^ 1) with 2; lia). destruct bit; cbn [digit Z.b2z]; [change (c1 =? c0) with false|change (c0 =? c0) with true]; cbn [negb andb]; lia.
Qed.

Lemma text_value_ok t s P : text_of W t s P -> 0 <= P < 2 ^ (W - 1) ->
  text_value c t = Ok (if nanText c && (P =? 2 ^ (W - 1) - 1) then NaN
    else if exponent_field F P =? 2 ^ eb - 1 then Inf s
    else if exponent_field F P =? 0 then Fin s (rne (2 ^ M + fraction_field F P) 2)
    else Fin s ((2 ^ M + fraction_field F P) * 2 ^ (exponent_field F P - 1))).
Proof using K.
  intros T R. destruct gfacts as (m0 & e0 & me & bb & b2 & w0 & w64 & e8). pose proof (maxv_lower F K) as ML. fold B in ML. pose proof (pow_pos M ltac:(lia)) as MP.
  pose proof (pow_pos B ltac:(lia)) as BP. pose proof (U_pos c CK) as UP. fold F in UP. fold U in UP. assert (UE : U = 2 ^ B) by reflexivity.
  unfold text_value. fold F. fold M eb. pose proof T as (TL & T0 & TD). rewrite (charAt_znth _ _ _ (text_small c CK t s P T) T0). cbn [bind].
  rewrite (of_int_small F K 0) by lia. change (0 * one F) with 0.
  assert (P2048 : 2 ^ eb <= 2048) by (change 2048 with (2 ^ 11); apply pow_le; lia).
  destruct (sum_powers_ok t s P T (Z.to_nat eb) 1 (eb - 1) 0 0 true M B) as (temp1 & E1); try lia; [apply Z.divide_0_r|apply pow_le; lia|apply pow_le; lia|].
  rewrite Z2Nat.id in E1 by lia. rewrite E1. cbn [bind]. rewrite Z.add_0_l. fold (exponent_field F P) in *. 
  replace ((P / 2 ^ M) mod 2 ^ eb) with (exponent_field F P) by reflexivity. set (E := exponent_field F P). assert (ER : 0 <= E < 2 ^ eb) by (apply Z.mod_pos_bound; lia).
  destruct (sum_powers_ok t s P T (Z.to_nat M) (eb + 1) (-1) temp1 0 (true && (E =? 2 ^ eb - 1)) 0 (B - M)) as (temp2 & E2); try lia; [apply Z.divide_0_r|apply pow_le; lia|apply pow_le; lia|].
  rewrite Z2Nat.id in E2 by lia. rewrite Z.pow_0_r, Z.div_1_r in E2. rewrite E2. cbn [bind]. rewrite Z.add_0_l. replace (P mod 2 ^ M) with (fraction_field F P) by reflexivity. set (f := fraction_field F P). assert (FR : 0 <= f < 2 ^ M) by (apply Z.mod_pos_bound; lia).
  (* the adjusted exponent *)
  assert (AE : pow2_of c (sub F (Fin false (E * 2 ^ B)) (of_int F (bias F))) = pow2 F (E - bias F)).
  { rewrite (of_int_small F K (bias F)) by (change (2 ^ 21) with 2097152; lia). change (one F) with U. rewrite UE. destruct (Z.le_gt_cases (bias F) E) as [J|J].
    - rewrite sub_pos; auto. 2:{ replace (E * 2 ^ B - bias F * 2 ^ B) with ((E - bias F) * one F) by (change (one F) with U; rewrite UE; ring). apply fits_int; auto. pose proof (two21 F K). change (2 ^ 21) with 2097152 in H. lia. }
      unfold pow2_of. fold F. cbn [signed]. change (one F) with (2 ^ B). replace (E * 2 ^ B - bias F * 2 ^ B) with ((E - bias F) * 2 ^ B) by ring. rewrite Z.div_mul by lia. auto.
    - unfold sub. cbn [neg negb]. assert (SM : signed false (E * 2 ^ B) + signed true (bias F * 2 ^ B) = - ((bias F - E) * 2 ^ B)) by (cbn [signed]; ring).
      assert (X0 : 0 < (bias F - E) * 2 ^ B) by (apply Z.mul_pos_pos; lia).
      rewrite add_exact; auto; rewrite ?SM; [| |lia].
      + rewrite Z.abs_opp, Z.abs_eq by lia. replace (- ((bias F - E) * 2 ^ B) <? 0) with true by lia. unfold pow2_of. fold F. change (one F) with (2 ^ B). rewrite Z.div_mul by lia. cbn [signed]. f_equal. lia.
      + rewrite Z.abs_opp, Z.abs_eq by lia. apply (fits_int F K). pose proof (two21 F K). change (2 ^ 21) with 2097152 in H. lia. }
  rewrite AE.
  (* sign and mantissa *)
  assert (FM : fits F ((2 ^ M + f) * 2 ^ (B - M))).
  { apply (fits_intro F K _ (B - M)); [lia|..].
    - fold M. split; [pose proof (pow_pos (B - M)); nia|]. replace (B - M + M + 1) with (M + 1 + (B - M)) by lia. rewrite pow_split by lia. apply Z.mul_lt_mono_pos_r; [apply pow_pos; lia|]. replace (M + 1) with (Z.succ M) by lia. rewrite Z.pow_succ_r by lia. lia.
    - exists (2 ^ M + f). auto.
    - etransitivity; [|exact ML]. replace (B + 35) with (M + 35 + (B - M)) by lia. rewrite pow_split by lia. apply Z.mul_le_mono_nonneg_r; [apply Z.pow_nonneg; lia|]. assert (2 ^ (M + 1) <= 2 ^ (M + 35)) by (apply pow_le; lia). replace (M + 1) with (Z.succ M) in H by lia. rewrite Z.pow_succ_r in H by lia. lia. }
  assert (ME : mul F (of_int F (if digit s =? c1 then -1 else 1)) (add F (of_int F 1) (Fin false (f * 2 ^ (B - M)))) = Fin s ((2 ^ M + f) * 2 ^ (B - M))).
  { rewrite (of_int_small F K 1) by (change (2 ^ 21) with 2097152; lia). rewrite Z.mul_1_l. change (one F) with U. rewrite UE. replace (2 ^ B) with (2 ^ M * 2 ^ (B - M)) by (rewrite <- pow_split by lia; f_equal; lia). rewrite add_pos; auto; replace (2 ^ M * 2 ^ (B - M) + f * 2 ^ (B - M)) with ((2 ^ M + f) * 2 ^ (B - M)) by ring; auto.
    assert (SG : of_int F (if digit s =? c1 then -1 else 1) = Fin s U).
    { destruct s; cbn [digit]; [change (c1 =? c1) with true; cbv iota|change (c0 =? c1) with false; cbv iota; rewrite (of_int_small F K 1) by (change (2 ^ 21) with 2097152; lia); f_equal; change (one F) with U; lia].
      unfold of_int. change (-1 <? 0) with true. change (Z.abs (-1)) with 1. rewrite rounded_exact0; auto; [f_equal; change (one F) with U; lia|]. apply (fits_int F K). pose proof (two21 F K). change (2 ^ 21) with 2097152 in H. lia. }
    rewrite SG. replace s with (xorb s false) at 2 by apply xorb_false_r. apply mul_exact; auto. change (one F) with U. ring. }
  rewrite ME. assert (NB : true && (E =? 2 ^ eb - 1) && (f =? 2 ^ M - 1) = (P =? 2 ^ (W - 1) - 1)).
  { assert (PE : P = E * 2 ^ M + f). { unfold E, f, exponent_field, fraction_field. fold M eb. rewrite (Z.mod_small (P / 2 ^ M)); [rewrite Z.mul_comm; apply Z.div_mod; lia|]. split; [apply Z.div_pos; lia|]. apply Z.div_lt_upper_bound; [lia|]. rewrite <- pow_split by lia. replace (M + eb) with (W - 1) by lia. lia. }
    replace (2 ^ (W - 1)) with (2 ^ eb * 2 ^ M) by (rewrite <- pow_split by lia; f_equal; lia). cbn [andb]. destruct (Z.eqb_spec E (2 ^ eb - 1)) as [->|NE], (Z.eqb_spec f (2 ^ M - 1)) as [->|NF]; cbn [andb]; symmetry; rewrite ?Z.eqb_eq, ?Z.eqb_neq; nia. }
  rewrite NB. destruct (nanText c && (P =? 2 ^ (W - 1) - 1)); auto. f_equal. clear NB E1 E2 AE ME.
  assert (MX : maxv F = (2 ^ (M + 1) - 1) * 2 ^ (2 ^ eb - 3)) by reflexivity. assert (M1 : 2 ^ (M + 1) = 2 * 2 ^ M) by (replace (M + 1) with (Z.succ M) by lia; apply Z.pow_succ_r; lia). pose proof (pow_pos (2 ^ eb - 3) ltac:(lia)) as EP. pose proof (pow_pos (B - M) ltac:(lia)) as BMP.
  destruct (Z.eqb_spec E (2 ^ eb - 1)) as [EE|EE].
  - assert (PI : pow2 F (E - bias F) = Inf false).
    { unfold pow2. fold B. replace (0 <=? B + (E - bias F)) with true by lia. replace (2 ^ (B + (E - bias F))) with (2 ^ (B + (E - bias F)) * 2 ^ 0) by (rewrite Z.pow_0_r; lia). apply rounded_big; auto; [lia| |].
      - rewrite MX. replace (B + (E - bias F)) with (M + 1 + (2 ^ eb - 3)) by lia. rewrite (pow_split (M + 1) (2 ^ eb - 3)) by lia. nia.
      - apply Z.mod_divide; [pose proof (pow_pos _ (excess_nonneg F (2 ^ (B + (E - bias F))))); lia|]. apply pow_divide. split; [apply excess_nonneg|]. unfold excess. rewrite Z.log2_pow2 by lia. fold M. lia. }
    rewrite PI. cbn [mul]. replace ((2 ^ M + f) * 2 ^ (B - M) =? 0) with false by nia. now rewrite xorb_false_r.
  - assert (PX : pow2 F (E - bias F) = Fin false (2 ^ (B + (E - bias F)))).
    { rewrite (pow2_exact F K); auto; fold B; [lia|]. rewrite MX. transitivity (2 ^ (M + (2 ^ eb - 3))); [apply pow_le; lia|]. rewrite (pow_split M (2 ^ eb - 3)) by lia. rewrite M1. nia. }
    rewrite PX. destruct (Z.eqb_spec E 0) as [E0|E0].
    + cbn [mul]. fold B. rewrite xorb_false_r. replace (B + (E - bias F)) with (M - 1) by lia. rewrite <- Z.mul_assoc, <- pow_split by lia. replace (B - M + (M - 1)) with (B - 1) by lia.
      unfold rounded. fold M. rewrite Z.log2_mul_pow2 by lia.
      assert (LM : Z.log2 (2 ^ M + f) = M) by (apply Z.log2_unique; [lia|]; rewrite Z.pow_succ_r by lia; lia). rewrite LM. replace (Z.max 0 (B - 1 + M - B - M)) with 0 by lia. rewrite Z.pow_0_r, Z.mul_1_r, Z.add_0_l.
      replace (2 ^ B) with (2 * 2 ^ (B - 1)) by (rewrite <- Z.pow_succ_r by lia; f_equal; lia). rewrite rne_scale by (try apply pow_pos; lia).
      assert (RB : 0 <= rne (2 ^ M + f) 2 <= 2 ^ M + f). { unfold rne. pose proof (Z.div_pos (2 ^ M + f) 2). pose proof (Z.div_lt (2 ^ M + f) 2). destruct (_ <? 2); [lia|]. destruct (2 <? _); [lia|]. destruct (Z.even _); lia. }
      assert (RM : 2 ^ M + f <= maxv F). { etransitivity; [|exact ML]. transitivity (2 ^ (M + 1)); [lia|]. apply pow_le. lia. }
      replace (maxv F <? rne (2 ^ M + f) 2) with false by lia. auto.
    + rewrite <- (xorb_false_r s) at 2. apply mul_exact; auto.
      * change (one F) with U. rewrite UE. rewrite <- !Z.mul_assoc, <- !pow_split by lia. do 2 f_equal. lia.
      * apply (fits_intro F K _ (E - 1)); [lia|..].
        -- fold M. pose proof (pow_pos (E - 1) ltac:(lia)). split; [nia|]. replace (E - 1 + M + 1) with (M + 1 + (E - 1)) by lia. rewrite pow_split by lia. apply Z.mul_lt_mono_pos_r; lia.
        -- exists (2 ^ M + f). auto.
        -- rewrite MX. apply Z.mul_le_mono_nonneg; try lia. apply pow_le. lia.
Qed.

Theorem from_bits_ok m bits : - 2 ^ (W - 1) < bits < 2 ^ (W - 1) ->
  from_bits m c bits = Ok (let P := Z.abs bits in let s := bits <? 0 in
    if nanText c && (P =? 2 ^ (W - 1) - 1) then NaN
    else if exponent_field F P =? 2 ^ eb - 1 then Inf s
    else if exponent_field F P =? 0 then Fin s (rne (2 ^ M + fraction_field F P) 2)
    else Fin s ((2 ^ M + fraction_field F P) * 2 ^ (exponent_field F P - 1))).
Proof using K.
  intros R. unfold from_bits. fold F. unfold of_int. rewrite isNaN_rounded. destruct (int_text_ok m bits R) as (t & -> & T). cbn [bind]. apply (text_value_ok _ _ _ T). lia.
Qed.

(** ** The most negative bits *)
Theorem from_bits_min m : exists u, from_bits m c (- 2 ^ (W - 1)) = UB u.
Proof using K.
  destruct gfacts as (m0 & e0 & me & bb & b2 & w0 & w64 & e8). pose proof (pow_pos (W - 1) ltac:(lia)) as WP. unfold from_bits. fold F. unfold of_int. rewrite isNaN_rounded. unfold int_text. fold F. fold W.
  destruct (filled c CK (W + 1) W W ltac:(lia) ltac:(lia)) as (b & b1 & -> & E1 & L1 & L2 & C1 & C2). cbn [bind]. rewrite E1. cbn [bind]. replace (- 2 ^ (W - 1) <? 0) with true by lia. rewrite mset_ok by lia. cbn [bind].
  unfold sneg. rewrite Z.opp_involutive. assert (NI : ~ in_s W (2 ^ (W - 1))) by (unfold in_s, smin, smax; lia). destruct m.
  - rewrite sres_ISO_ub by auto. eexists. reflexivity.
  - rewrite sres_HW by lia. cbn [bind]. assert (WE : wrap W (2 ^ (W - 1)) = - 2 ^ (W - 1)).
    { rewrite (wrap_eq_mod W _ (- 2 ^ (W - 1))); [apply wrap_id; [lia|]; unfold in_s, smin, smax; lia|lia|]. rewrite <- (Z_mod_plus_full (- 2 ^ (W - 1)) 1). f_equal. replace W with (Z.succ (W - 1)) at 3 by lia. rewrite Z.pow_succ_r by lia. lia. }
    rewrite WE. rewrite bits_loop_neg; [eexists; reflexivity|lia|rewrite zupd_len; lia|lia].
Qed.
End Text.
