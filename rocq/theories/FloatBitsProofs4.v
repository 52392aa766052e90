(** The two conversions. *)

From Coq Require Import ZArith List Bool Lia.
From Verif Require Import Base Bits CppText CMem Ieee IeeeProofs FloatBitsSpec FloatBitsModel StringModel TextLemmas StringProofs ArraysProofs FloatBitsProofs FloatBitsProofs2 FloatBitsProofs3.
From Verif Require StringBuilderModel.
Import ListNotations.
Open Scope Z_scope.

Lemma bit_of_digit b temp : bit_of (digit b) temp = Z.b2z b. Proof. destruct b; auto. Qed.
Lemma top_bit P n : 0 <= n -> P mod 2 ^ (n + 1) = Z.b2z (Z.testbit P n) * 2 ^ n + P mod 2 ^ n.
Proof.
  intros N. pose proof (pow_pos n N). rewrite pow_split by lia. change (2 ^ 1) with 2. rewrite Z.rem_mul_r by lia. rewrite Z.testbit_spec' by auto. lia.
Qed.
Lemma znth_repeat {A} (x : A) n i : 0 <= i < Z.of_nat n -> znth (repeat x n) i = Some x.
Proof. intros I. rewrite znth_nth by lia. rewrite (nth_error_nth' _ x) by (rewrite repeat_length; lia). f_equal. apply nth_repeat. Qed.
Lemma znth_app {A} (a b : list A) i : 0 <= i -> znth (a ++ b) i = if i <? zlen a then znth a i else znth b (i - zlen a).
Proof.
  intros I. unfold zlen. destruct (Z.ltb_spec i (Z.of_nat (length a))).
  - rewrite !znth_nth by lia. apply nth_error_app1. lia.
  - rewrite !znth_nth by lia. rewrite nth_error_app2 by lia. f_equal. lia.
Qed.

Lemma power_int w e : 0 <= e <= w - 2 -> w <= 64 -> to_int F64 w (pow2 F64 e) = Ok (2 ^ e).
Proof.
  intros E W0. pose proof (pow_pos e ltac:(lia)). rewrite (pow2_exact F64 F64_ok).
  - unfold to_int. cbn [signed]. unfold one. rewrite (Z.add_comm _ e), pow_split by (try lia; discriminate). rewrite Z.div_mul by (apply Z.pow_nonzero; discriminate). unfold in_sb, smin, smax.
    assert (2 ^ e <= 2 ^ (w - 2)) by (apply pow_le; lia). assert (2 ^ (w - 1) = 2 * 2 ^ (w - 2)) by (replace (w - 1) with (Z.succ (w - 2)) by lia; apply Z.pow_succ_r; lia).
    replace ((- 2 ^ (w - 1) <=? 2 ^ e) && (2 ^ e <=? 2 ^ (w - 1) - 1)) with true by lia. auto.
  - change (one_exp F64) with 1074. lia.
  - change (one_exp F64) with 1074. transitivity (2 ^ 1140); [apply pow_le; lia|]. apply Z.leb_le. vm_compute. reflexivity.
Qed.

Lemma sign_cases (n : bool) v : 0 < v -> (if n then fge (Fin n v) zero = false /\ flt (Fin n v) zero = true else fge (Fin n v) zero = true) /\ feq (Fin n v) zero = false.
Proof. intros V. unfold fge, fle, flt, feq, zero, fcmp, signed. destruct n; [destruct (Z.compare_spec 0 (- v)); destruct (Z.compare_spec (- v) 0); try lia; auto|]. destruct (Z.compare_spec 0 v); destruct (Z.compare_spec v 0); try lia; auto. Qed.

Lemma isNaN_fin n v : isNaN (Fin n v) = false. Proof. unfold isNaN, feq, fcmp. now rewrite Z.compare_refl. Qed.

Section Text.
Variable c : code.
Hypothesis CK : code_ok c.
Let F := cfmt c.
Let M := mbits F.
Let eb := ebits F.
Let B := one_exp F.
Let U := one F.
Let W := width F.
Let K : fmt_ok F := co_fmt c CK.

Lemma ffacts : 20 <= M /\ 8 <= eb <= 11 /\ 2 * M + 40 <= B /\ B = bias F + M - 1 /\ 2 * bias F = 2 ^ eb - 2 /\ W = 1 + eb + M /\ W <= 64 /\ M + 2 <= nInteger c /\ 32 <= nInteger c /\ M + 2 <= nFraction c /\ W + 1 <= nNormal c /\ 256 <= 2 ^ eb /\ M + 40 <= nNormal c.
Proof using K. pose proof (facts c CK) as FX. fold F in FX. fold M eb B W in FX. assert (256 <= 2 ^ eb) by (change 256 with (2 ^ 8); apply pow_le; lia). destruct K as [_ _ e1 _ _ _]. unfold eb in *. repeat split; try lia. Qed.

Lemma text_small t s P : text_of W t s P -> small t.
Proof using K. intros (L & _). destruct ffacts as (_ & _ & _ & _ & _ & _ & w64 & _). unfold small, int_max. lia. Qed.

(** ** Text to integer *)
Lemma sum_bits_ok m t s P : text_of W t s P -> forall n i temp r, i + Z.of_nat n = W -> 1 <= i -> 0 <= r -> r + P mod 2 ^ (Z.of_nat n) < 2 ^ (W - 1) ->
  sum_bits m c n t i (Z.of_nat n - 1) temp r = Ok (r + P mod 2 ^ (Z.of_nat n)).
Proof using K.
  intros T. destruct ffacts as (m0 & e0 & me & bb & b2 & w0 & w64 & _). induction n as [|n IH]; intros i temp r I I1 R RB; cbn [sum_bits].
  - change (2 ^ Z.of_nat 0) with 1. rewrite Z.mod_1_r. f_equal. lia.
  - destruct T as (TL & T0 & TD). rewrite (charAt_znth _ _ _ (text_small t s P (conj TL (conj T0 TD))) (TD i ltac:(lia))). cbn [bind]. rewrite bit_of_digit.
    fold F. fold W. rewrite power_int by lia. cbn [bind]. replace (Z.of_nat (S n) - 1) with (Z.of_nat n) by lia. replace (W - 1 - i) with (Z.of_nat n) by lia.
    replace (Z.of_nat (S n)) with (Z.of_nat n + 1) in * by lia. rewrite top_bit in * by lia. set (b := Z.b2z (Z.testbit P (Z.of_nat n))) in *. assert (b01 : 0 <= b <= 1) by (unfold b; destruct (Z.testbit P (Z.of_nat n)); cbn; lia).
    pose proof (pow_pos (Z.of_nat n) ltac:(lia)). pose proof (Z.mod_pos_bound P (2 ^ Z.of_nat n) ltac:(lia)).
    assert (IS : forall x, 0 <= x < 2 ^ (W - 1) -> in_s W x) by (intros x X; unfold in_s, smin, smax; lia).
    unfold smul, sadd. rewrite !sres_ok by (apply IS; nia). cbn [bind]. rewrite sres_ok by (apply IS; nia). cbn [bind].
    rewrite IH by (try nia; lia). f_equal. lia.
Qed.

(** ** Number to text *)
Lemma literal_text s f : text_of W (literal c (digit s) (digit f)) s ((2 ^ eb - 1) * 2 ^ M + (if f then 2 ^ M - 1 else 0)).
Proof using K.
  destruct ffacts as (m0 & e0 & me & bb & b2 & w0 & w64 & _). pose proof (pow_pos M ltac:(lia)). unfold text_of, literal. fold F. fold eb M.
  split; [rewrite zlen_cons, zlen_app; unfold zlen; rewrite !repeat_length; lia|]. split; [reflexivity|]. intros i I.
  change (digit s :: repeat c1 (Z.to_nat eb) ++ repeat (digit f) (Z.to_nat M)) with ([digit s] ++ (repeat c1 (Z.to_nat eb) ++ repeat (digit f) (Z.to_nat M))).
  rewrite znth_app by lia. change (zlen [digit s]) with 1. replace (i <? 1) with false by lia. rewrite znth_app by lia. unfold zlen at 1. rewrite repeat_length.
  rewrite testbit_pack by (destruct f; lia). destruct (Z.ltb_spec (i - 1) (Z.of_nat (Z.to_nat eb))) as [J|J].
  - rewrite znth_repeat by lia. replace (W - 1 - i <? M) with false by lia. replace (2 ^ eb - 1) with (Z.ones eb) by (rewrite Z.ones_equiv; lia). rewrite Z.ones_spec_low by lia. auto.
  - unfold zlen. rewrite repeat_length. rewrite znth_repeat by lia. replace (W - 1 - i <? M) with true by lia. destruct f; [|now rewrite Z.testbit_0_l]. replace (2 ^ M - 1) with (Z.ones M) by (rewrite Z.ones_equiv; lia). rewrite Z.ones_spec_low by lia. auto.
Qed.

(** The buffers after initialisation. *)
Lemma filled size n last : 0 <= n <= last -> last < size -> exists b b', fill (Z.to_nat n) 0 c0 (alloc c size) = Ok b /\ mset b last 0 = Ok b' /\ zlen b = size /\ zlen b' = size /\ znth b' last = Some (Some 0) /\ (forall j, 0 <= j < n -> znth b' j = Some (Some c0)).
Proof using K.
  intros N S0. destruct (fill_ok c0 (Z.to_nat n) 0 (alloc c size) ltac:(lia) ltac:(rewrite alloc_len; lia)) as (b & E & [Z1 H]). rewrite alloc_len in Z1 by lia.
  exists b, (zupd b last (Some 0)). split; auto. split; [apply mset_ok; lia|]. split; [auto|]. split; [rewrite zupd_len; auto|]. split; [rewrite znth_zupd, Z.eqb_refl by lia; auto|].
  intros j J. rewrite znth_zupd by lia. replace (j =? last) with false by lia. rewrite H. replace ((0 <=? j) && (j <? 0 + Z.of_nat (Z.to_nat n))) with true by lia. auto.
Qed.

(** all of the function, up to the sign and the case distinction *)
Lemma bits_text_start x : exists form res integerPart fractionPart,
  zlen integerPart = nInteger c /\ zlen fractionPart = nFraction c /\ zlen form = nNormal c /\ zlen res = W + 1 /\
  (forall j, 0 <= j <= M -> znth integerPart j = Some (Some c0)) /\ (forall j, 0 <= j <= M -> znth fractionPart j = Some (Some c0)) /\ znth fractionPart (M + 1) = Some (Some 0) /\
  (forall j, 0 <= j < W -> znth res j = Some (Some c0)) /\ znth res W = Some (Some 0) /\
  bits_text c x = (let* res := if fge x zero then mset res 0 c0 else if flt x zero then mset res 0 c1 else Ok res in
  if feq x zero then StringBuilderModel.c_string res
  else if feq x (Inf false) then Ok (literal c c0 c0)
  else if feq x (Inf true) then Ok (literal c c1 c0)
  else if isNaN x then Ok (literal c c0 c1)
  else let* res := finite_text c integerPart fractionPart form res x in StringBuilderModel.c_string res).
Proof using K.
  destruct ffacts as (m0 & e0 & me & bb & b2 & w0 & w64 & i1 & i2 & f1 & o1 & e8 & _).
  destruct (filled (nNormal c) W (nNormal c - 1)) as (fo & fo' & A1 & A2 & A3 & A4 & A5 & A6); try lia.
  destruct (filled (W + 1) W W) as (re & re' & B1 & B2 & B3 & B4 & B5 & B6); try lia.
  destruct (filled (nInteger c) (M + 1) (nInteger c - 1)) as (ip & ip' & C1 & C2 & C3 & C4 & C5 & C6); try lia.
  destruct (filled (nFraction c) (M + 1) (M + 1)) as (fp & fp' & D1 & D2 & D3 & D4 & D5 & D6); try lia.
  exists fo', re', ip', fp'. unfold bits_text. cbv zeta. fold F. fold W. fold M. rewrite A1, B1, C1, D1. cbn [bind]. rewrite A2, B2, C2, D2. cbn [bind].
  repeat (split; [solve [auto | intros; auto; (apply C6 || apply D6); lia]|]). auto.
Qed.

Lemma bits_text_finite n v : fits F v -> 0 < v < 2 ^ 30 * U -> exists t, bits_text c (Fin n v) = Ok t /\ text_of W t n (pattern F v).
Proof using K.
  intros H R. destruct ffacts as (m0 & e0 & me & bb & b2 & w0 & w64 & _).
  destruct (bits_text_start (Fin n v)) as (form & res & ip & fp & L1 & L2 & L3 & L4 & C1 & C2 & C3 & C4 & C5 & ->).
  destruct (sign_cases n v ltac:(lia)) as [S1 S2].
  assert (SG : exists res1, (if fge (Fin n v) zero then mset res 0 c0 else if flt (Fin n v) zero then mset res 0 c1 else Ok res) = Ok res1 /\ res1 = zupd res 0 (Some (digit n))).
  { destruct n; [destruct S1 as [-> ->]|rewrite S1]; rewrite mset_ok by lia; eexists; split; reflexivity. }
  destruct SG as (res1 & -> & E1). cbn [bind]. rewrite S2. change (feq (Fin n v) (Inf false)) with false. change (feq (Fin n v) (Inf true)) with false. cbv iota. rewrite isNaN_fin.
  destruct (finite_text_ok c CK v H ltac:(fold F; fold U; auto) ip fp form res1 n) as (res2 & -> & Z2 & Z0 & ZW & ZD); auto.
  { subst res1. now rewrite zupd_len. }
  { intros j J. fold F in J. fold W in J. subst res1. rewrite znth_zupd by lia. replace (j =? 0) with false by lia. apply C4. lia. }
  fold F in Z2, ZW, ZD. fold W in Z2, ZW, ZD. cbn [bind].
  destruct (c_string_of (fun j => if j =? 0 then digit n else digit (Z.testbit (pattern F v) (W - 1 - j))) res2 W) as (t & -> & TL & TD).
  { lia. }
  { intros j J. destruct (Z.eqb_spec j 0) as [->|]; split; try apply digit_ne0; [|apply ZD; lia]. rewrite Z0, E1, znth_zupd, Z.eqb_refl by lia. auto. }
  { rewrite ZW, E1, znth_zupd by lia. replace (W =? 0) with false by lia. auto. }
  exists t. split; auto. split; auto. split; [rewrite TD by lia; auto|]. intros i I. rewrite TD by lia. replace (i =? 0) with false by lia. auto.
Qed.
Lemma bits_text_zero n : exists t, bits_text c (Fin n 0) = Ok t /\ text_of W t false 0.
Proof using K.
  destruct ffacts as (m0 & e0 & me & bb & b2 & w0 & w64 & _).
  destruct (bits_text_start (Fin n 0)) as (form & res & ip & fp & L1 & L2 & L3 & L4 & C1 & C2 & C3 & C4 & C5 & ->).
  replace (fge (Fin n 0) zero) with true by (destruct n; auto). replace (feq (Fin n 0) zero) with true by (destruct n; auto). rewrite mset_ok by lia. cbn [bind].
  destruct (c_string_of (fun _ => c0) (zupd res 0 (Some c0)) W) as (t & -> & TL & TD).
  { lia. }
  { intros j J. split; [|discriminate]. rewrite znth_zupd by lia. destruct (j =? 0); auto. }
  { rewrite znth_zupd by lia. replace (W =? 0) with false by lia. auto. }
  exists t. split; auto. split; auto. split; [rewrite TD by lia; auto|]. intros i I. rewrite TD by lia. rewrite Z.testbit_0_l. auto.
Qed.

Lemma raw_text m t s P : text_of W t s P -> 0 <= P < 2 ^ (W - 1) -> (let* r := sum_bits m c (Z.to_nat (W - 1)) t 1 (W - 2) 0 0 in let* ch := charAt t 0 in if ch =? c1 then smul m W (-1) r else Ok r) = Ok (signed s P).
Proof using K.
  intros T R. destruct ffacts as (m0 & e0 & me & bb & b2 & w0 & w64 & _). pose proof (text_small _ _ _ T) as TS. 
  replace (W - 2) with (Z.of_nat (Z.to_nat (W - 1)) - 1) by lia. rewrite (sum_bits_ok m t s P T) by (rewrite ?Z2Nat.id by lia; rewrite ?Z.mod_small by lia; lia). rewrite Z2Nat.id by lia. rewrite Z.mod_small by lia. cbn [bind].
  destruct T as (TL & T0 & TD). rewrite (charAt_znth _ _ _ TS T0). cbn [bind]. destruct s; cbn [digit]; [change (c1 =? c1) with true|change (c0 =? c1) with false]; cbv iota; [|auto].
  unfold smul. rewrite sres_ok; [f_equal; cbn [signed]; lia|]. unfold in_s, smin, smax. lia.
Qed.

Theorem raw_finite m n v : fits F v -> 0 < v < 2 ^ 30 * U -> raw_bits m c (Fin n v) = Ok (signed n (pattern F v)).
Proof using K.
  intros H R. unfold raw_bits. destruct (bits_text_finite n v H R) as (t & -> & T). cbn [bind]. fold F. fold W. apply raw_text; auto. apply (pattern_range c CK v). auto.
Qed.
Theorem raw_zero m n : raw_bits m c (Fin n 0) = Ok 0.
Proof using K. destruct ffacts as (m0 & e0 & me & bb & b2 & w0 & w64 & _). unfold raw_bits. destruct (bits_text_zero n) as (t & -> & T). cbn [bind]. fold F. fold W. rewrite (raw_text m t false 0); auto. pose proof (pow_pos (W - 1)). lia. Qed.
Lemma all_ones : 0 <= (2 ^ eb - 1) * 2 ^ M <= 2 ^ (W - 1) - 2 ^ M /\ (2 ^ eb - 1) * 2 ^ M + (2 ^ M - 1) = 2 ^ (W - 1) - 1 /\ 0 < 2 ^ M.
Proof using K. destruct ffacts as (m0 & e0 & me & bb & b2 & w0 & w64 & i1 & i2 & f1 & o1 & e8 & _). pose proof (pow_pos M ltac:(lia)). rewrite w0. replace (1 + eb + M - 1) with (eb + M) by lia. rewrite pow_split by lia. nia. Qed.
Theorem raw_inf m n : raw_bits m c (Inf n) = Ok (signed n ((2 ^ eb - 1) * 2 ^ M)).
Proof using K.
  unfold raw_bits. destruct ffacts as (m0 & e0 & me & bb & b2 & w0 & w64 & _). destruct (bits_text_start (Inf n)) as (form & res & ip & fp & L1 & L2 & L3 & L4 & C1 & C2 & C3 & C4 & C5 & ->).
  pose proof all_ones as (A1 & A2 & A3). pose proof (literal_text n false) as LT. cbn [digit] in LT. rewrite Z.add_0_r in LT.
  destruct n.
  - change (fge (Inf true) zero) with false. change (flt (Inf true) zero) with true. cbv iota. rewrite mset_ok by lia. cbn [bind]. change (feq (Inf true) zero) with false. change (feq (Inf true) (Inf false)) with false. change (feq (Inf true) (Inf true)) with true. cbv iota. cbn [bind]. fold F. fold W. apply (raw_text m _ _ _ LT). lia.
  - change (fge (Inf false) zero) with true. cbv iota. rewrite mset_ok by lia. cbn [bind]. change (feq (Inf false) zero) with false. change (feq (Inf false) (Inf false)) with true. cbv iota. cbn [bind]. fold F. fold W. apply (raw_text m _ _ _ LT). lia.
Qed.
Theorem raw_nan m : raw_bits m c NaN = Ok (2 ^ (W - 1) - 1).
Proof using K.
  unfold raw_bits. destruct (bits_text_start NaN) as (form & res & ip & fp & L1 & L2 & L3 & L4 & C1 & C2 & C3 & C4 & C5 & ->).
  pose proof all_ones as (A1 & A2 & A3). pose proof (literal_text false true) as LT. cbn [digit] in LT. rewrite A2 in LT.
  change (fge NaN zero) with false. change (flt NaN zero) with false. cbv iota. cbn [bind]. change (feq NaN zero) with false. change (feq NaN (Inf false)) with false. change (feq NaN (Inf true)) with false. change (isNaN NaN) with true. cbv iota. cbn [bind]. fold F. fold W.
  apply (raw_text m _ _ _ LT). lia.
Qed.
(** numbers of 2^30 and more *)
Theorem raw_big m n v : fits F v -> 2 ^ 30 * U <= v -> raw_bits m c (Fin n v) = UB Precondition.
Proof using K.
  intros H R. destruct ffacts as (m0 & e0 & me & bb & b2 & w0 & w64 & i1 & i2 & _). pose proof (U_pos c CK) as UP. fold F in UP. fold U in UP. change (2 ^ 30) with 1073741824 in R. unfold raw_bits.
  destruct (bits_text_start (Fin n v)) as (form & res & ip & fp & L1 & L2 & L3 & L4 & C1 & C2 & C3 & C4 & C5 & ->).
  destruct (sign_cases n v ltac:(lia)) as [S1 S2].
  assert (SG : exists res1, (if fge (Fin n v) zero then mset res 0 c0 else if flt (Fin n v) zero then mset res 0 c1 else Ok res) = Ok res1).
  { destruct n; [destruct S1 as [-> ->]|rewrite S1]; rewrite mset_ok by lia; eexists; reflexivity. }
  destruct SG as (res1 & ->). cbn [bind]. rewrite S2. change (feq (Fin n v) (Inf false)) with false. change (feq (Fin n v) (Inf true)) with false. cbv iota. rewrite isNaN_fin.
  unfold finite_text. fold F. cbn [fabs]. unfold floor at 1. change (one F) with U. unfold to_int at 1. cbn [signed]. change (one F) with U. rewrite Z.div_mul by lia. unfold in_sb, smin, smax. change (2 ^ (32 - 1)) with 2147483648.
  assert (Q0 : 1073741824 <= v / U) by (apply Z.div_le_lower_bound; lia).
  destruct ((- (2147483648) <=? v / U) && (v / U <=? 2147483648 - 1)) eqn:E; [|reflexivity]. apply andb_prop in E as [_ E]. apply Z.leb_le in E. cbn [bind].
  assert (BL : blen (v / U) <= 31) by (apply blen_lt; [lia|]; change (2 ^ 31) with 2147483648; lia). pose proof (blen_nonneg (v / U)).
  replace (v / U =? 0) with false by lia. rewrite count_bits_ok by (try lia; change (Z.of_nat 64) with 64; lia). cbn [bind].
  destruct (put_bits_ok 64 ip (v / U) (0 + blen (v / U) - 1) ltac:(lia) ltac:(change (Z.of_nat 64) with 64; lia) ltac:(lia)) as (digits & -> & _). cbn [bind].
  rewrite (of_int_small F K 0) by (change (2 ^ 21) with 2097152; lia). change (0 * one F) with 0. assert (SV : sub F (Fin false v) (Fin false 0) = Fin false v) by (rewrite (sub_pos F K v 0) by (rewrite Z.sub_0_r; auto); f_equal; lia). rewrite SV.
  replace (Z.to_nat (mbits F + 2)) with (S (Z.to_nat (mbits F + 1))) by (fold M; lia). cbn [fraction_loop]. fold F. destruct (sign_cases false v ltac:(lia)) as [_ ->]. fold M. replace (0 <? M + 1) with true by lia. cbn [negb andb].
  assert (V2 : v < 2147483648 * U). { apply Z.lt_le_trans with ((v / U + 1) * U); [pose proof (Z.mod_pos_bound v U UP); rewrite (Z.div_mod v U) at 1 by lia; lia|]. apply Z.mul_le_mono_nonneg_r; lia. }
  assert (H2 : fits F (2 * v)). { apply fits_double; auto. apply (below_max c CK). fold F. fold U. change (2 ^ 35) with 34359738368. lia. }
  assert (MU : mul F (Fin false v) (of_int F 2) = Fin false (2 * v)). { rewrite of_int_small by (auto; change (2 ^ 21) with 2097152; lia). change (one F) with U. change false with (xorb false false) at 3. apply mul_exact; auto. change (one F) with U. lia. }
  rewrite MU. unfold floor at 1. unfold to_int at 1. cbn [signed]. change (one F) with U. rewrite Z.div_mul by lia. unfold in_sb, smin, smax. change (2 ^ (32 - 1)) with 2147483648.
  assert (2147483648 <= 2 * v / U) by (apply Z.div_le_lower_bound; lia).
  replace (2 * v / U <=? 2147483648 - 1) with false by lia. rewrite andb_false_r. reflexivity.
Qed.
End Text.
