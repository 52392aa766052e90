(** C77-C79: the bits of floating point numbers, and comparison by them. *)

From Coq Require Import ZArith List Bool Lia.
From Verif Require Import Base Bits Ieee IeeeProofs FloatBitsSpec FloatBitsModel FloatBitsProofs FloatBitsProofs2 FloatBitsProofs3 FloatBitsProofs4 FloatBitsProofs5 FloatBitsProofs6.
Import ListNotations.
Open Scope Z_scope.

(** [CDouble] is Double.cpp, [CFloat] is Float.cpp. *)
Definition java_float (c : code) : Prop := c = CDouble \/ c = CFloat.
Lemma java_float_ok c : java_float c -> code_ok c.
Proof. intros [-> | ->]; [apply CDouble_ok|apply CFloat_ok]. Qed.

Lemma uwrap_pos W P : 0 < W -> 0 <= P < 2 ^ (W - 1) -> uwrap W P = P /\ in_s W P.
Proof. intros W0 R. assert (2 ^ W = 2 * 2 ^ (W - 1)) by (rewrite <- Z.pow_succ_r by lia; f_equal; lia). split; [unfold uwrap; apply Z.mod_small; lia|unfold in_s, smin, smax; lia]. Qed.
Lemma uwrap_opp W P : 0 < W -> 0 < P < 2 ^ (W - 1) -> uwrap W (- P) = 2 ^ (W - 1) + (2 ^ (W - 1) - P).
Proof.
  intros W0 R. assert (2 ^ W = 2 * 2 ^ (W - 1)) by (rewrite <- Z.pow_succ_r by lia; f_equal; lia). unfold uwrap. rewrite <- (Z_mod_plus_full (- P) 1), Z.mod_small by lia. lia.
Qed.

Lemma fields_unique A e f e' f' : 0 <= f < A -> 0 <= f' < A -> e * A + f = e' * A + f' -> e = e' /\ f = f'.
Proof. intros R R' E. assert (e = e') by nia. subst. split; lia. Qed.

(** *** C77: number to bits *)

(** For faithful numbers, zero and infinity the bits are the IEEE 754 layout. *)
Theorem C77_bits_partial : forall m c x, java_float c -> faithful_value (cfmt c) x -> x <> NaN ->
  match x with Fin n _ | Inf n => n = false | NaN => True end ->
  exists r, raw_bits m c x = Ok r /\ java_bits (cfmt c) x r.
Proof.
  intros m c x J FV NN POS. pose proof (java_float_ok c J) as CK. exists (key c x). split; [apply raw_key; auto|].
  destruct (hf c CK) as (m0 & e0 & bb & b2 & w0 & w64 & e8 & MP & WE & WE2). destruct (key_range c CK x FV NN) as [R1 R2].
  assert (KP : 0 <= key c x) by (destruct x as [|n|n v]; cbn [key] in *; [congruence|subst n; cbn [signed]; lia|]; destruct (Z.eqb_spec v 0); [lia|]; destruct FV as [|FV]; [lia|]; subst n; destruct (faithful_bits c CK v FV) as (R & _); cbn [signed]; lia).
  destruct (uwrap_pos (width (cfmt c)) (key c x) ltac:(lia) ltac:(lia)) as [UW IS]. unfold java_bits. rewrite UW. split; auto. split; [|congruence].
  destruct x as [|n|n v]; [congruence| |]; subst n; cbn [key signed].
  - unfold infinity. destruct J as [-> | ->]; reflexivity.
  - destruct (Z.eqb_spec v 0) as [->|N].
    + rewrite (denoted_pos c CK) by lia. unfold mag, exponent_field, fraction_field. rewrite !Zmod_0_l. reflexivity.
    + destruct FV as [|FV]; [lia|]. apply (faithful_bits c CK v FV).
Qed.
Print Assumptions C77_bits_partial.

(** What the bits of any other positive number below 2^30 denote: the digits
    that were seen. *)
Theorem C77_seen_partial : forall m c v, java_float c -> let F := cfmt c in fits F v -> 0 < v < 2 ^ 30 * one F -> seen F v <> 0 ->
  exists r, raw_bits m c (Fin false v) = Ok r /\ 0 <= r < 2 ^ (width F - 1) /\ denoted F r = Fin false (seen F v).
Proof.
  intros m c v J F H R N. pose proof (java_float_ok c J) as CK. exists (pattern F v). split; [apply (raw_finite c CK m false v H R)|]. split; [apply (pattern_range c CK v R)|apply (denoted_pattern c CK v H R N)].
Qed.
Print Assumptions C77_seen_partial.

(** The conversion of a negative number negates the integer. *)
Theorem C77_negated_partial : forall m c v, java_float c -> fits (cfmt c) v -> 0 < v < 2 ^ 30 * one (cfmt c) ->
  exists r, raw_bits m c (Fin false v) = Ok r /\ raw_bits m c (Fin true v) = Ok (- r).
Proof. intros m c v J H R. pose proof (java_float_ok c J) as CK. exists (pattern (cfmt c) v). split; apply (raw_finite c CK m); auto. Qed.
Print Assumptions C77_negated_partial.

(** So of all faithful negative numbers only -2.0 has the right bits. *)
Theorem C77_negative_refuted : forall m c v, java_float c -> faithful (cfmt c) v ->
  exists r, raw_bits m c (Fin true v) = Ok r /\ (java_bits (cfmt c) (Fin true v) r <-> v = 2 * one (cfmt c)).
Proof.
  intros m c v J FV. pose proof (java_float_ok c J) as CK. exists (- pattern (cfmt c) v). set (F := cfmt c) in *. split; [apply (raw_finite c CK m true v); apply FV|].
  destruct (hf c CK) as (m0 & e0 & bb & b2 & w0 & w64 & e8 & MP & WE & WE2). fold F in m0, e0, bb, b2, w0, w64, e8, MP, WE, WE2. destruct (faithful_bits c CK v FV) as (R & MV & DV). fold F in R, MV, DV. unfold infinity in R. fold F in R.
  set (P := pattern F v) in *. set (W := width F) in *. assert (PB : 0 < P < 2 ^ (W - 1)) by nia.
  unfold java_bits. fold W. rewrite (uwrap_opp W P) by lia. pose proof (denoted_neg c CK (2 ^ (W - 1) - P) ltac:(fold F; fold W; lia)) as DN. fold F in DN. fold W in DN. rewrite DN.
  assert (HE : 2 ^ ebits F = 2 * (bias F + 1)) by lia.
  assert (TP : forall Q, 0 <= Q < 2 ^ (W - 1) -> mag c Q = 2 * one F -> Q = (bias F + 1) * 2 ^ mbits F).
  { intros Q QR QM. apply (mag_inj c CK); fold F; fold W; auto; [nia|]. rewrite QM. unfold mag, exponent_field, fraction_field. fold F. rewrite Z.div_mul, Z_mod_mult by lia. rewrite (Z.mod_small (bias F + 1)) by lia. replace (bias F + 1 =? 0) with false by lia. rewrite Z.add_0_r.
    unfold one. rewrite <- Z.pow_succ_r by (unfold one_exp; lia). rewrite <- pow_split by lia. f_equal. unfold one_exp. lia. }
  split.
  - intros (_ & D & _). set (Q := 2 ^ (W - 1) - P) in *. assert (QR : 0 <= Q < 2 ^ (W - 1)) by lia.
    assert (DQ : denoted F Q = Fin false v) by (destruct (denoted F Q) as [| |[|]]; cbn in D; congruence).
    assert (QI : Q < infinity c). { destruct (Z.lt_ge_cases Q (infinity c)) as [|G]; auto. exfalso. unfold infinity in G. fold F in G. destruct (fields c CK Q QR) as (QE & E & f & S). fold F in QE, E, f, S. unfold denoted in DQ. assert (EX : exponent_field F Q = 2 ^ ebits F - 1) by nia. rewrite EX in DQ. replace (2 ^ ebits F - 1 =? 0) with false in DQ by lia. rewrite Z.eqb_refl in DQ. destruct (_ =? 0) in DQ; discriminate. }
    pose proof (denoted_pos c CK Q ltac:(lia)) as DP. fold F in DP. rewrite DP in DQ. assert (QV : mag c Q = v) by congruence. assert (PQ : P = Q) by (apply (mag_inj c CK); fold F; fold W; auto; lia || congruence).
    (* then P = 2^(W-2), the bits of 2.0 *)
    assert (PE : P = (bias F + 1) * 2 ^ mbits F) by (unfold Q in PQ; rewrite WE, HE in PQ; lia). rewrite <- MV. rewrite PE. unfold mag, exponent_field, fraction_field. fold F. rewrite Z.div_mul, Z_mod_mult by lia. rewrite (Z.mod_small (bias F + 1)) by lia. replace (bias F + 1 =? 0) with false by lia. rewrite Z.add_0_r.
    unfold one. rewrite <- (Z.pow_succ_r 2 (one_exp F)) by (unfold one_exp; lia). rewrite <- pow_split by lia. f_equal. unfold one_exp. lia.
  - intros V2. assert (PE : P = (bias F + 1) * 2 ^ mbits F) by (apply TP; [lia|congruence]).
    replace (2 ^ (W - 1) - P) with P by (rewrite WE, HE; lia). rewrite DV. cbn [neg negb]. split; [unfold in_s, smin, smax; fold W; lia|]. split; [auto|discriminate].
Qed.
Print Assumptions C77_negative_refuted.

(** Negative zero has the bits of zero. *)
Theorem C77_minus_zero_refuted : forall m c, java_float c -> raw_bits m c (Fin true 0) = Ok 0 /\ ~ java_bits (cfmt c) (Fin true 0) 0.
Proof. intros m c J. split; [apply (raw_zero c (java_float_ok c J))|]. intros (_ & D & _). destruct J as [-> | ->]; vm_compute in D; discriminate. Qed.
Print Assumptions C77_minus_zero_refuted.

(** From 1 on the digit for one half is ignored: 1.5 has the bits of 1.0. *)
Theorem C77_half_refuted : forall m c, java_float c -> let U := one (cfmt c) in
  raw_bits m c (Fin false (U + U / 2)) = raw_bits m c (Fin false U) /\ exists r, raw_bits m c (Fin false U) = Ok r /\ denoted (cfmt c) r = Fin false U.
Proof.
  intros m c J U. pose proof (java_float_ok c J) as CK. assert (Q : fits (cfmt c) U /\ fits (cfmt c) (U + U / 2) /\ (U + U / 2 < 2 ^ 30 * U) /\ 0 < U /\ 0 < U / 2 /\ pattern (cfmt c) (U + U / 2) = pattern (cfmt c) U /\ denoted (cfmt c) (pattern (cfmt c) U) = Fin false U).
  { unfold U. destruct J as [-> | ->]; (repeat split); vm_compute; auto; discriminate. }
  destruct Q as (F1 & F2 & L & U0 & U1 & PE & D). split; [|exists (pattern (cfmt c) U); split; auto; apply (raw_finite c CK m false); auto; fold U; change (2 ^ 30) with 1073741824; lia].
  rewrite !(raw_finite c CK); auto; fold U; try lia. now rewrite PE.
Qed.
Print Assumptions C77_half_refuted.

(** All positive numbers too small to be seen have the bits of 1.0. *)
Theorem C77_tiny_refuted : forall m c v, java_float c -> let F := cfmt c in fits F v -> 0 < v < 2 ^ (one_exp F - 1 - mbits F) ->
  exists r, raw_bits m c (Fin false v) = Ok r /\ denoted F r = Fin false (one F).
Proof.
  intros m c v J F H R. pose proof (java_float_ok c J) as CK. assert (Q : 2 ^ (one_exp F - 1 - mbits F) < one F /\ 0 < 2 ^ (one_exp F - 1 - mbits F) /\ denoted F (bias F * 2 ^ mbits F) = Fin false (one F)).
  { unfold F. destruct J as [-> | ->]; vm_compute; auto. }
  destruct Q as (Q1 & Q2 & Q3). exists (bias F * 2 ^ mbits F). split; auto. pose proof (one_pos F (co_fmt c CK)). change (2 ^ 30) with 1073741824.
  rewrite (raw_finite c CK m false v H) by (fold F; change (2 ^ 30) with 1073741824; lia). cbn [signed]. f_equal. unfold pattern. fold F.
  assert (S : seen F v = 0). { unfold seen. rewrite Z.div_small by lia. replace (one F <=? v) with false by lia. auto. } now rewrite S.
Qed.
Print Assumptions C77_tiny_refuted.

(** The bits of NaN are all ones, not Java's 0x7ff8000000000000 (0x7fc00000). *)
Theorem C77_nan_refuted : forall m c, java_float c -> exists r, raw_bits m c NaN = Ok r /\ denoted (cfmt c) r = NaN /\ ~ java_bits (cfmt c) NaN r.
Proof.
  intros m c J. exists (2 ^ (width (cfmt c) - 1) - 1). split; [apply (raw_nan c (java_float_ok c J))|]. split; [destruct J as [-> | ->]; reflexivity|]. intros (_ & _ & N). specialize (N eq_refl). destruct J as [-> | ->]; vm_compute in N; discriminate.
Qed.
Print Assumptions C77_nan_refuted.

(** From 2^30 on a conversion to int is out of range. *)
Theorem C77_large_refuted : forall m c n v, java_float c -> fits (cfmt c) v -> 2 ^ 30 * one (cfmt c) <= v -> raw_bits m c (Fin n v) = UB Precondition.
Proof. intros m c n v J. apply (raw_big c (java_float_ok c J)). Qed.
Print Assumptions C77_large_refuted.

(** 12.375 and -0.375 (as in the project's tests), 0.1 rounded down. *)
Example C77_ex : faithful F64 (99 * 2 ^ 1071) /\ faithful F64 (3 * 2 ^ 1071) /\ pattern F64 (99 * 2 ^ 1071) = 4623156123728347136 /\ pattern F64 (3 * 2 ^ 1071) = 4600427019358961664 /\ seen F32 (2 ^ 148 + 2 ^ 149) = 2 ^ 149.
Proof.
  assert (D : forall a, (2 ^ 1021 | a * 2 ^ 1071)) by (intros a; exists (a * 2 ^ 50); rewrite <- Z.mul_assoc; f_equal).
  split; [|split; [|repeat split]].
  - split; [split; reflexivity|]. split; [vm_compute; repeat split; discriminate|]. split; [apply D|]. intros _. vm_compute. reflexivity.
  - split; [split; reflexivity|]. split; [vm_compute; repeat split; discriminate|]. split; [apply D|]. intros L. vm_compute in L. exfalso. now apply L.
Qed.

(** *** C78: bits to number *)

(** The bits of a positive normal number, and of infinity, give that number. *)
Theorem C78_normal_partial : forall m c bits, java_float c -> let F := cfmt c in 0 <= bits < 2 ^ (width F - 1) ->
  0 < exponent_field F bits < 2 ^ ebits F - 1 \/ bits = (2 ^ ebits F - 1) * 2 ^ mbits F ->
  from_bits m c bits = Ok (denoted F bits).
Proof.
  intros m c bits J F R E. pose proof (java_float_ok c J) as CK. destruct (hf c CK) as (m0 & e0 & bb & b2 & w0 & w64 & e8 & MP & WE & WE2). fold F in m0, e0, bb, b2, w0, w64, e8, MP, WE, WE2. rewrite (from_bits_ok c CK m bits) by (fold F; lia). cbv zeta. fold F.
  rewrite Z.abs_eq by lia. replace (bits <? 0) with false by lia. destruct (fields c CK bits R) as (PE & EF & f & S). fold F in PE, EF, f, S. unfold denoted. rewrite S.
  assert (NN : bits =? 2 ^ (width F - 1) - 1 = false). { apply Z.eqb_neq. intros ->. destruct E as [E|E]; [assert (exponent_field F (2 ^ (width F - 1) - 1) = 2 ^ ebits F - 1 /\ fraction_field F (2 ^ (width F - 1) - 1) = 2 ^ mbits F - 1) by (apply (fields_unique (2 ^ mbits F)); lia); lia|]. assert (2 ^ 20 <= 2 ^ mbits F) by (apply pow_le; lia). nia. }
  rewrite NN, andb_false_r. destruct E as [E|E].
  - replace (exponent_field F bits =? 2 ^ ebits F - 1) with false by lia. replace (exponent_field F bits =? 0) with false by lia. auto.
  - assert (EX : exponent_field F bits = 2 ^ ebits F - 1 /\ fraction_field F bits = 0) by (apply (fields_unique (2 ^ mbits F)); lia). destruct EX as [-> ->]. rewrite Z.eqb_refl. replace (2 ^ ebits F - 1 =? 0) with false by lia. auto.
Qed.
Print Assumptions C78_normal_partial.

(** Negative bits are read as a sign and the bits of the opposite integer. *)
Theorem C78_negated_partial : forall m c bits, java_float c -> 0 < bits < 2 ^ (width (cfmt c) - 1) ->
  exists y, from_bits m c bits = Ok y /\ from_bits m c (- bits) = Ok (neg y).
Proof.
  intros m c bits J R. pose proof (java_float_ok c J) as CK. rewrite !(from_bits_ok c CK) by lia. cbv zeta. rewrite Z.abs_opp. replace (bits <? 0) with false by lia. replace (- bits <? 0) with true by lia. eexists. split; [reflexivity|]. f_equal.
  destruct (_ && _); auto. destruct (_ =? _); auto. destruct (_ =? _); auto.
Qed.
Print Assumptions C78_negated_partial.

(** Exponent field 0 (zero and the subnormal numbers): never right. *)
Theorem C78_subnormal_refuted : forall m c bits, java_float c -> let F := cfmt c in 0 <= bits < 2 ^ mbits F ->
  exists y, from_bits m c bits = Ok y /\ y <> denoted F bits.
Proof.
  intros m c bits J F R. pose proof (java_float_ok c J) as CK. destruct (hf c CK) as (m0 & e0 & bb & b2 & w0 & w64 & e8 & MP & WE & WE2). fold F in m0, e0, bb, b2, w0, w64, e8, MP, WE, WE2. rewrite (from_bits_ok c CK m bits) by (fold F; nia). cbv zeta. fold F.
  rewrite Z.abs_eq by lia. replace (bits <? 0) with false by lia. destruct (fields c CK bits ltac:(fold F; nia)) as (PE & EF & f & S). fold F in PE, EF, f, S. assert (EX : exponent_field F bits = 0 /\ fraction_field F bits = bits) by (apply (fields_unique (2 ^ mbits F)); lia). destruct EX as [EX FX].
  replace (bits =? 2 ^ (width F - 1) - 1) with false by nia. rewrite andb_false_r. rewrite EX, FX. replace (0 =? 2 ^ ebits F - 1) with false by lia. eexists. split; [reflexivity|]. unfold denoted. rewrite S, EX, FX. cbn [Z.eqb]. intros Q. injection Q as Q.
  assert (EV : Z.even (2 ^ mbits F) = true) by (replace (mbits F) with (Z.succ (mbits F - 1)) by lia; rewrite Z.pow_succ_r by lia; apply Z.even_mul).
  unfold rne in Q. destruct (Z.even_spec (2 ^ mbits F)) as [EV2 _]. specialize (EV2 EV). destruct EV2 as [h H]. pose proof (Z.mod_pos_bound (2 ^ mbits F + bits) 2). pose proof (Z.div_mod (2 ^ mbits F + bits) 2 ltac:(lia)).
  destruct (2 * ((2 ^ mbits F + bits) mod 2) <? 2) eqn:C1; [lia|]. destruct (2 <? 2 * ((2 ^ mbits F + bits) mod 2)) eqn:C2; [lia|]. destruct (Z.even ((2 ^ mbits F + bits) / 2)) eqn:C3; [apply Z.even_spec in C3; destruct C3 as [k C3]; lia|].
  (* the tie: (2^M + bits) / 2 odd, rounded up *)
  assert (BQ : (2 ^ mbits F + bits) / 2 + 1 = bits) by exact Q. assert (bits = 2 ^ mbits F + 1) by lia. lia.
Qed.
Print Assumptions C78_subnormal_refuted.

(** longBitsToDouble answers infinity for the bits of NaN. *)
Theorem C78_nan_refuted : forall m bits, (2 ^ ebits F64 - 1) * 2 ^ mbits F64 < bits < 2 ^ 63 -> from_bits m CDouble bits = Ok (Inf false) /\ denoted F64 bits = NaN.
Proof.
  intros m bits R. pose proof CDouble_ok as CK. destruct (hf CDouble CK) as (m0 & e0 & bb & b2 & w0 & w64 & e8 & MP & WE & WE2). change (cfmt CDouble) with F64 in *. change (width F64) with 64 in *. change (64 - 1) with 63 in *.
  destruct (fields CDouble CK bits) as (PE & EF & f & S). { change (2 ^ (width (cfmt CDouble) - 1)) with (2 ^ 63). lia. } change (cfmt CDouble) with F64 in *.
  assert (EX : exponent_field F64 bits = 2 ^ ebits F64 - 1 /\ fraction_field F64 bits <> 0) by (split; nia). destruct EX as [EX FX]. split.
  - rewrite (from_bits_ok CDouble CK m bits) by (change (2 ^ (width (cfmt CDouble) - 1)) with (2 ^ 63); lia). cbv zeta. change (cfmt CDouble) with F64. rewrite Z.abs_eq by lia. replace (bits <? 0) with false by lia. cbn [nanText CDouble andb]. rewrite EX, Z.eqb_refl. auto.
  - unfold denoted. rewrite EX, Z.eqb_refl. replace (2 ^ ebits F64 - 1 =? 0) with false by lia. replace (fraction_field F64 bits =? 0) with false by lia. auto.
Qed.
Print Assumptions C78_nan_refuted.

(** The bits of -0.0 (the least long) write outside the buffer. *)
Theorem C78_minus_zero_refuted : forall m c, java_float c -> denoted (cfmt c) (uwrap (width (cfmt c)) (- 2 ^ (width (cfmt c) - 1))) = Fin true 0 /\ exists u, from_bits m c (- 2 ^ (width (cfmt c) - 1)) = UB u.
Proof. intros m c J. split; [destruct J as [-> | ->]; reflexivity|]. apply (from_bits_min c (java_float_ok c J)). Qed.
Print Assumptions C78_minus_zero_refuted.

(** Java's bits of -1.0 give -4.0. *)
Theorem C78_negative_refuted : forall m, from_bits m CDouble (-4616189618054758400) = Ok (Fin true (4 * one F64)) /\ java_bits F64 (Fin true (one F64)) (-4616189618054758400).
Proof. intros m. split; [rewrite (from_bits_ok CDouble CDouble_ok); [vm_compute; reflexivity|split; reflexivity]|]. split; [split; vm_compute; discriminate|]. split; [vm_compute; reflexivity|discriminate]. Qed.
Print Assumptions C78_negative_refuted.

(** The round trip: faithful numbers other than zero, of both signs, and the
    infinities come back. *)
Theorem C78_roundtrip_partial : forall m c x, java_float c -> faithful_value (cfmt c) x ->
  match x with Inf _ => True | Fin _ v => v <> 0 | NaN => nanText c = true end ->
  exists bits, raw_bits m c x = Ok bits /\ from_bits m c bits = Ok x.
Proof.
  intros m c x J FV NZ. pose proof (java_float_ok c J) as CK. exists (key c x). split; [apply raw_key; auto|].
  destruct (hf c CK) as (m0 & e0 & bb & b2 & w0 & w64 & e8 & MP & WE & WE2). set (F := cfmt c) in *. assert (M20 : 2 ^ 20 <= 2 ^ mbits F) by (apply pow_le; lia).
  assert (SG : forall (n : bool) P y, 0 < P < 2 ^ (width F - 1) -> from_bits m c P = Ok y -> from_bits m c (signed n P) = Ok (if n then neg y else y)).
  { intros [|] P y PR E; auto. cbn [signed]. destruct (C78_negated_partial m c P J PR) as (y' & E1 & E2). congruence. }
  destruct x as [|n|n v]; cbn [key].
  - rewrite (from_bits_ok c CK) by (fold F; nia). cbv zeta. fold F. rewrite Z.abs_eq by nia. rewrite NZ, Z.eqb_refl. auto.
  - assert (FI : from_bits m c (infinity c) = Ok (denoted F (infinity c))) by (apply (C78_normal_partial m c); auto; fold F; unfold infinity; fold F; nia).
    assert (DI : denoted F (infinity c) = Inf false). { unfold F, infinity. destruct J as [-> | ->]; reflexivity. }
    rewrite (SG n (infinity c) (Inf false)); [destruct n; auto|unfold infinity; fold F; nia|congruence].
  - replace (v =? 0) with false by lia. destruct FV as [|FV]; [lia|]. destruct (faithful_bits c CK v FV) as (R & MV & DV). fold F in R, MV, DV. set (P := pattern F v) in *. unfold infinity in R. fold F in R.
    destruct (fields c CK P) as (PE & E & f & S); [fold F; nia|]. fold F in PE, E, f, S.
    assert (EN : exponent_field F P <> 0).
    { intros E0. unfold mag in MV. fold F in MV. rewrite E0 in MV. cbn [Z.eqb] in MV. destruct FV as (RV & _ & D & _). apply Z.divide_pos_le in D; [|lia]. assert (2 ^ mbits F <= 2 ^ (one_exp F - 1 - mbits F)) by (apply pow_le; pose proof (ok_me F (co_fmt c CK)); lia). lia. }
    fold F. fold P. rewrite (SG n P (Fin false v)); [destruct n; auto|nia|]. rewrite <- DV. apply (C78_normal_partial m c); auto; fold F; [nia|left; nia].
Qed.
Print Assumptions C78_roundtrip_partial.

(** Zero does not come back. *)
Theorem C78_roundtrip_zero_refuted : forall m c n, java_float c -> exists y, raw_bits m c (Fin n 0) = Ok 0 /\ from_bits m c 0 = Ok y /\ y <> Fin n 0.
Proof.
  intros m c n J. pose proof (java_float_ok c J) as CK. exists (Fin false (2 ^ (mbits (cfmt c) - 1))). split; [apply (raw_zero c CK)|]. split.
  - rewrite (from_bits_ok c CK); [destruct J as [-> | ->]; reflexivity|]. pose proof (pow_pos (width (cfmt c) - 1)). destruct (hf c CK) as (m0 & e0 & _ & _ & w0 & _). lia.
  - destruct J as [-> | ->]; destruct n; discriminate.
Qed.
Print Assumptions C78_roundtrip_zero_refuted.

(** Float::intBitsToFloat reinterprets the bits: it undoes floatToIntBits for
    NaN and all non-negative faithful numbers, and of the negative ones only
    for -2.0f. *)
Theorem C78_float_roundtrip_partial : forall m x, faithful_value F32 x -> match x with Fin n _ | Inf n => n = false | NaN => True end ->
  exists bits, raw_bits m CFloat x = Ok bits /\ intBitsToFloat bits = x.
Proof.
  intros m x FV POS.
  assert (Q : x <> NaN -> exists bits, raw_bits m CFloat x = Ok bits /\ intBitsToFloat bits = x).
  { intros NN. destruct (C77_bits_partial m CFloat x (or_intror eq_refl) FV NN POS) as (r & E & _ & D & _). exists r. split; [exact E|exact D]. }
  destruct x; [|apply Q; discriminate|apply Q; discriminate].
  exists (2 ^ 31 - 1). split; [exact (raw_nan CFloat CFloat_ok m)|reflexivity].
Qed.
Print Assumptions C78_float_roundtrip_partial.
Theorem C78_float_roundtrip_refuted : forall m v, faithful F32 v -> exists bits, raw_bits m CFloat (Fin true v) = Ok bits /\ (intBitsToFloat bits = Fin true v <-> v = 2 * one F32).
Proof.
  intros m v FV. destruct (C77_negative_refuted m CFloat v (or_intror eq_refl) FV) as (r & E & Q). exists r. split; auto. rewrite <- Q. unfold java_bits, intBitsToFloat. change (cfmt CFloat) with F32. change (width F32) with 32.
  split; [intros D|intros (_ & D & _); auto]. split; [|split; [auto|discriminate]].
  rewrite (raw_finite CFloat CFloat_ok m true v) in E by apply FV. injection E as <-. pose proof (pattern_range CFloat CFloat_ok v (proj1 FV)) as PR. change (width (cfmt CFloat)) with 32 in PR. unfold in_s, smin, smax. cbn [signed]. change (cfmt CFloat) with F32 in *. lia.
Qed.
Print Assumptions C78_float_roundtrip_refuted.

Example C78_ex : exponent_field F64 4623156123728347136 = 1026 /\ denoted F64 4623156123728347136 = Fin false (99 * 2 ^ 1071) /\ from_bits HW CDouble (-4623156123728347136) = Ok (Fin true (99 * 2 ^ 1071)).
Proof. split; [|split]; vm_compute; reflexivity. Qed.

(** *** C79: comparison *)

(** compare is Java's total order on faithful numbers, infinities and NaN,
    apart from the two zeros. *)
Theorem C79_compare_partial : forall m c a b, java_float c -> faithful_value (cfmt c) a -> faithful_value (cfmt c) b -> ~ zeros a b ->
  exists r, compare m c a b = Ok r /\ java_compare a b r.
Proof.
  intros m c a b J FA FB NZ. pose proof (java_float_ok c J) as CK. unfold compare. rewrite (raw_key c CK m a FA), (raw_key c CK m b FB). cbn [bind].
  destruct (key_compare c CK a b FA FB NZ) as [K1 K2]. destruct (key_compare c CK b a FB FA) as [K3 _]. { intros (n & n' & -> & ->). apply NZ. exists n', n. auto. }
  unfold java_compare. destruct (Z.eqb_spec (key c a) (key c b)) as [E|E]; [exists 0; split; [reflexivity|]; right; right; split; [exact (K2 E)|reflexivity]|]. destruct (Z.ltb_spec (key c a) (key c b)) as [L|L]; [exists (-1); split; [reflexivity|]; left; split; [exact (K1 L)|reflexivity]|]. exists 1. split; [reflexivity|]. right. left. split; [apply K3; lia|reflexivity].
Qed.
Print Assumptions C79_compare_partial.

(** 0.0 and -0.0 compare equal; in Java -0.0 is less. *)
Theorem C79_zeros_refuted : forall m c, java_float c -> compare m c (Fin true 0) (Fin false 0) = Ok 0 /\ equals m c (Fin true 0) (Fin false 0) = Ok true /\ java_compare (Fin true 0) (Fin false 0) (-1).
Proof. intros m c J. pose proof (java_float_ok c J) as CK. unfold compare, equals. rewrite !(raw_zero c CK). split; [auto|]. split; [auto|]. left. split; [exact Logic.I|auto]. Qed.
Print Assumptions C79_zeros_refuted.

(** 1.5 compares equal to 1.0 and less than 1.25. *)
Theorem C79_half_refuted : forall m c, java_float c -> let U := one (cfmt c) in
  equals m c (Fin false (U + U / 2)) (Fin false U) = Ok true /\ compare m c (Fin false (U + U / 2)) (Fin false (U + U / 4)) = Ok (-1).
Proof.
  intros m c J U. pose proof (java_float_ok c J) as CK. assert (Q : fits (cfmt c) U /\ fits (cfmt c) (U + U / 2) /\ fits (cfmt c) (U + U / 4) /\ pattern (cfmt c) (U + U / 2) = pattern (cfmt c) U /\ pattern (cfmt c) U < pattern (cfmt c) (U + U / 4) /\ 0 < U).
  { unfold U. destruct J as [-> | ->]; (repeat split); vm_compute; auto; discriminate. }
  destruct Q as (F1 & F2 & F3 & PE & PL & U0). assert (0 <= U / 2 <= U) by (split; [apply Z.div_pos; lia|apply Z.div_le_upper_bound; lia]). assert (0 <= U / 4 <= U) by (split; [apply Z.div_pos; lia|apply Z.div_le_upper_bound; lia]).
  unfold equals, compare. rewrite !(raw_finite c CK) by (auto; fold U; change (2 ^ 30) with 1073741824; lia). cbn [bind signed]. rewrite PE, Z.eqb_refl. split; auto. replace (pattern (cfmt c) U =? pattern (cfmt c) (U + U / 4)) with false by lia. replace (pattern (cfmt c) U <? pattern (cfmt c) (U + U / 4)) with true by lia. auto.
Qed.
Print Assumptions C79_half_refuted.

(** Whatever the numbers, when compare answers it orders consistently. *)
Theorem C79_order : forall m c a b r, compare m c a b = Ok r ->
  (r = -1 \/ r = 0 \/ r = 1) /\ compare m c b a = Ok (- r) /\
  (forall d r', compare m c b d = Ok r' -> (r <= 0 -> r' <= 0 -> compare m c a d = Ok (Z.min r r'))).
Proof.
  intros m c a b r. unfold compare. destruct (raw_bits m c a) as [x| | |]; try discriminate. destruct (raw_bits m c b) as [y| | |]; try discriminate. cbn [bind]. intros E.
  assert (RE : r = if x =? y then 0 else if x <? y then -1 else 1) by (destruct (x =? y); [congruence|]; destruct (x <? y); congruence). clear E. split; [|split].
  - destruct (x =? y); auto. destruct (x <? y); auto.
  - destruct (Z.eqb_spec x y), (Z.eqb_spec y x), (Z.ltb_spec x y), (Z.ltb_spec y x); subst r; try lia; auto.
  - intros d r' E'. destruct (raw_bits m c d) as [z| | |]; try discriminate. cbn [bind] in *.
    assert (RE' : r' = if y =? z then 0 else if y <? z then -1 else 1) by (destruct (y =? z); [congruence|]; destruct (y <? z); congruence). clear E'. intros R1 R2.
    destruct (Z.eqb_spec x y), (Z.ltb_spec x y), (Z.eqb_spec y z), (Z.ltb_spec y z), (Z.eqb_spec x z), (Z.ltb_spec x z); subst r r'; try lia; auto.
Qed.
Print Assumptions C79_order.

(** equals on faithful numbers is equality; equal objects have equal hash codes. *)
Theorem C79_equals_partial : forall m c a b, java_float c -> faithful_value (cfmt c) a -> faithful_value (cfmt c) b -> ~ zeros a b ->
  exists e, equals m c a b = Ok e /\ (e = true <-> a = b).
Proof.
  intros m c a b J FA FB NZ. pose proof (java_float_ok c J) as CK. unfold equals. rewrite (raw_key c CK m a FA), (raw_key c CK m b FB). cbn [bind]. eexists. split; [reflexivity|]. destruct (key_compare c CK a b FA FB NZ) as [_ K2]. rewrite Z.eqb_eq. split; intros E; [symmetry in E; auto|congruence].
Qed.
Print Assumptions C79_equals_partial.
Theorem C79_hashCode : forall m a b, (equals m CDouble a b = Ok true -> double_hashCode m a = double_hashCode m b) /\ (equals m CFloat a b = Ok true -> float_hashCode m a = float_hashCode m b).
Proof.
  intros m a b. unfold equals, double_hashCode, float_hashCode. split.
  - destruct (raw_bits m CDouble b) as [x| | |]; try discriminate. destruct (raw_bits m CDouble a) as [y| | |]; try discriminate. cbn [bind]. intros E. injection E as E. apply Z.eqb_eq in E. now subst.
  - destruct (raw_bits m CFloat b) as [x| | |]; try discriminate. destruct (raw_bits m CFloat a) as [y| | |]; try discriminate. cbn [bind]. intros E. injection E as E. apply Z.eqb_eq in E. now subst.
Qed.
Print Assumptions C79_hashCode.

(** The operators follow the same order. *)
Theorem C79_operators_partial : forall m c a b, java_float c -> faithful_value (cfmt c) a -> faithful_value (cfmt c) b -> ~ zeros a b ->
  exists lt gt le ge, op_lt m c a b = Ok lt /\ op_gt m c a b = Ok gt /\ op_le m c a b = Ok le /\ op_ge m c a b = Ok ge /\
    (lt = true <-> java_compare a b (-1)) /\ (gt = true <-> java_compare a b 1) /\ (le = true <-> java_compare a b (-1) \/ java_compare a b 0) /\ (ge = true <-> java_compare a b 1 \/ java_compare a b 0).
Proof.
  intros m c a b J FA FB NZ. destruct (C79_compare_partial m c a b J FA FB NZ) as (r & E & JC). unfold op_lt, op_gt, op_le, op_ge. rewrite E. cbn [bind]. do 4 eexists. do 4 (split; [reflexivity|]).
  pose proof (java_float_ok c J) as CK.
  assert (U : forall r', java_compare a b r' <-> r' = r).
  { intros r'. split; [|intros ->; auto]. intros JC'. 
    assert (AS : forall x y, java_lt x y -> java_lt y x -> False).
    { intros x y. destruct x as [|n|n v], y as [|n'|n' w]; cbn; auto; try (destruct n; destruct n'; cbn; congruence); try (destruct n, v; cbn; auto; destruct n'; discriminate); try (destruct n', w; cbn; auto; destruct n; discriminate); try (destruct n; cbn; auto; discriminate); try (destruct n'; cbn; auto; discriminate).
      destruct n, n', v, w; cbn; auto; try congruence; intros A B; injection A; injection B; intros; try (destruct (Pos.compare_spec p p0)); try (destruct (Pos.compare_spec p0 p)); subst; try discriminate; try lia. }
    assert (IR : forall x, java_lt x x -> False) by (intros x H; apply (AS x x); auto).
    destruct JC as [[A ->]|[[A ->]|[A ->]]], JC' as [[A' ->]|[[A' ->]|[A' ->]]]; auto; exfalso; subst; eauto. }
  rewrite !U. rewrite !orb_true_iff, !Z.eqb_eq. repeat split; intuition lia.
Qed.
Print Assumptions C79_operators_partial.

(** The predicates. *)
Theorem C79_classify : forall F x, F = F64 \/ F = F32 -> value F x ->
  (isNaN x = true <-> x = NaN) /\ (isInfinite x = true <-> exists n, x = Inf n) /\ (isFinite F x = true <-> exists n v, x = Fin n v).
Proof.
  intros F x FF V. unfold isInfinite, isFinite, math_abs. destruct x as [|n|n v].
  - change (isNaN NaN) with true. cbv iota. cbn. repeat split; try discriminate; try (intros (? & [=])); try (intros (? & ? & [=])); auto.
  - assert (NN : isNaN (Inf n) = false) by (destruct n; reflexivity). rewrite NN. destruct n; cbn; repeat split; try discriminate; eauto; try (intros (? & ? & [=])).
  - rewrite isNaN_fin. cbn in V. destruct V as [[V0 V1] _]. split; [split; discriminate|]. split; [split; [destruct n; discriminate|intros (? & [=])]|]. split; [eauto|]. intros _.
    destruct (Z.eq_dec v 0) as [->|N]; [destruct n; cbn; destruct (maxv F) eqn:ME; auto; lia|]. destruct (sign_cases n v ltac:(lia)) as [S _]. destruct n; [destruct S as [S _]; rewrite S|rewrite S]; cbn [neg negb]; unfold fle; cbn [fcmp signed]; destruct (Z.compare_spec v (maxv F)); auto; lia.
Qed.
Print Assumptions C79_classify.

Example C79_ex : faithful_value F32 (Fin true (5 * one F32)) /\ ~ zeros (Fin true (5 * one F32)) NaN /\ compare HW CFloat (Fin true (5 * one F32)) (Fin false (2 ^ 145)) = Ok (-1).
Proof.
  split; [|split; [intros (n & n' & _ & [=])|vm_compute; reflexivity]]. right. split; [split; reflexivity|]. split; [vm_compute; repeat split; discriminate|]. split; [exists (5 * 2 ^ 24); vm_compute; reflexivity|intros _; reflexivity].
Qed.
