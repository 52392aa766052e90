(** From a number to its bits. *)

From Coq Require Import ZArith List Bool Lia.
From Verif Require Import Base Bits CppText CMem Ieee IeeeProofs FloatBitsSpec FloatBitsModel StringModel TextLemmas StringProofs ArraysProofs FloatBitsProofs FloatBitsProofs2.
From Verif Require StringBuilderModel.
Import ListNotations.
Open Scope Z_scope.

(** The bits computed for a positive number. *)
Definition pattern (F : fmt) (v : Z) : Z :=
  let s := seen F v in
  if s =? 0 then bias F * 2 ^ mbits F
  else (Z.log2 s - mbits F + 1) * 2 ^ mbits F + (s / 2 ^ (Z.log2 s - mbits F)) mod 2 ^ mbits F.

(** [t] is a sign followed by the digits of [P]. *)
Definition text_of (W : Z) (t : str) (s : bool) (P : Z) : Prop :=
  zlen t = W /\ znth t 0 = Some (digit s) /\ forall i, 1 <= i < W -> znth t i = Some (digit (Z.testbit P (W - 1 - i))).

Section Text.
Variable c : code.
Hypothesis CK : code_ok c.
Let F := cfmt c.
Let M := mbits F.
Let eb := ebits F.
Let B := one_exp F.
Let U := one F.
Let W := width F.
Let K : fmt_ok F := co_fmt c CK.

Lemma facts : 20 <= M /\ 8 <= eb /\ 2 * M + 40 <= B /\ B = bias F + M - 1 /\ 2 * bias F = 2 ^ eb - 2 /\ W = 1 + eb + M /\ W <= 64 /\ M + 2 <= nInteger c /\ 32 <= nInteger c /\ M + 2 <= nFraction c /\ W + 1 <= nNormal c /\ M + 40 <= nNormal c.
Proof using K. pose proof CK as [_ I1 I2 I3 I4 I5 I6]. destruct K as [m0 e0 e1 me bb b2]. unfold M, eb, B, W, F, one_exp, width in *. repeat split; auto; lia. Qed.

(** The digits of [form]: the number itself, as seen. *)
Definition nint (v : Z) : Z := if v / U =? 0 then 1 else blen (v / U).
Definition D (v q : Z) : Z := digit (Z.testbit (seen F v) (B + nint v - 1 - q)).

Lemma nint_pos v : 0 <= v -> 1 <= nint v.
Proof using K. intros V. pose proof (U_pos c CK). unfold nint. destruct (Z.eqb_spec (v / U) 0); [lia|]. unfold blen. replace (v / U =? 0) with false by lia. pose proof (Z.log2_nonneg (v / U)). lia. Qed.
Lemma nint_le v : 0 <= v < 2 ^ 30 * U -> nint v <= 30.
Proof using K.
  intros V. pose proof (U_pos c CK) as UP. fold F in UP. fold U in UP. unfold nint. destruct (Z.eqb_spec (v / U) 0); [lia|]. apply blen_lt; [lia|]. split; [apply Z.div_pos; lia|]. apply Z.div_lt_upper_bound; lia.
Qed.
Lemma D_int v q : 0 <= v -> 0 <= q < nint v -> D v q = digit (Z.testbit (v / U) (nint v - 1 - q)).
Proof using K.
  intros V Q. destruct facts as (m0 & e0 & me & bb & _). unfold D. rewrite (seen_bits F K) by auto. fold B M U.
  replace (B - 1 - M <=? B + nint v - 1 - q) with true by lia. replace (B + nint v - 1 - q =? B - 1) with false by lia. rewrite andb_false_r. cbn [negb andb].
  unfold U, one. fold B. rewrite testbit_div by lia. f_equal. f_equal. lia.
Qed.
Lemma D_frac v j : 0 <= v -> 0 <= j <= M -> D v (nint v + j) = digit (fd c v j).
Proof using K.
  intros V J. destruct facts as (m0 & e0 & me & bb & _). unfold D, fd. rewrite (seen_bits F K) by auto. fold F. fold B M U.
  replace (B + nint v - 1 - (nint v + j)) with (B - 1 - j) by lia. replace (B - 1 - M <=? B - 1 - j) with true by lia. replace (B - 1 - j =? B - 1) with (j =? 0) by lia. cbn [andb]. now rewrite (andb_comm (U <=? v)).
Qed.
Lemma D_low v q : 0 <= v -> nint v + M < q -> D v q = c0.
Proof using K. intros V Q. unfold D. rewrite (seen_bits F K) by auto. fold B M. replace (B - 1 - M <=? B + nint v - 1 - q) with false by lia. auto. Qed.

Lemma seen_small v : 0 <= v -> seen F v < 2 ^ (B + nint v).
Proof using K.
  intros V. destruct facts as (m0 & e0 & me & bb & _). pose proof (U_pos c CK) as UP. fold F in UP. fold U in UP. pose proof (nint_pos v V). pose proof (seen_nonneg F K v V).
  destruct (Z.eq_dec (seen F v) 0) as [->|N]; [apply pow_pos; lia|]. apply Z.log2_lt_pow2; [lia|].
  destruct (Z.lt_ge_cases (Z.log2 (seen F v)) (B + nint v)) as [|G]; auto. exfalso.
  pose proof (Z.bit_log2 (seen F v) ltac:(lia)) as T. rewrite (seen_bits F K) in T by auto. apply andb_prop in T as [_ T].
  replace (Z.log2 (seen F v)) with (Z.log2 (seen F v) - B + B) in T by lia. rewrite <- testbit_div in T by lia. change (2 ^ B) with U in T. revert T. unfold nint in G. destruct (Z.eqb_spec (v / U) 0) as [Q|Q].
  - rewrite Q, Z.testbit_0_l. discriminate.
  - rewrite blen_high; [discriminate|apply Z.div_pos; lia|lia].
Qed.

Section Number.
Variable v : Z.
Hypothesis H : fits F v.
Hypothesis R : 0 < v < 2 ^ 30 * U.
Let n := nint v.

(** the place of the leading digit *)
Definition q0 : Z := B + n - 1 - Z.log2 (seen F v).
Lemma q0_range : seen F v <> 0 -> 0 <= q0 <= n + M /\ D v q0 = c1 /\ (forall q, 0 <= q < q0 -> D v q = c0) /\ (if v / U =? 0 then n = 1 /\ 1 <= q0 else q0 = 0).
Proof using K R.
  intros N. destruct facts as (m0 & e0 & me & bb & _). pose proof (U_pos c CK) as UP. fold F in UP. fold U in UP. pose proof (nint_pos v ltac:(lia)). fold n in H0. pose proof (seen_nonneg F K v ltac:(lia)) as SN. pose proof (seen_small v ltac:(lia)) as SS. fold n in SS.
  pose proof (Z.bit_log2 (seen F v) ltac:(lia)) as T.
  assert (L1 : Z.log2 (seen F v) < B + n) by (apply Z.log2_lt_pow2; lia).
  assert (L2 : B - 1 - M <= Z.log2 (seen F v)). { rewrite (seen_bits F K) in T by lia. apply andb_prop in T as [T _]. apply andb_prop in T as [T _]. apply Z.leb_le in T. auto. }
  assert (Q1 : D v q0 = c1). { unfold D. fold n. replace (B + n - 1 - q0) with (Z.log2 (seen F v)) by (unfold q0; lia). rewrite T. auto. }
  split; [unfold q0; lia|]. split; auto. split.
  - intros q Q. unfold D. fold n. rewrite Z.bits_above_log2; [auto|lia|unfold q0 in Q; lia].
  - destruct (Z.eqb_spec (v / U) 0) as [Q|Q].
    + assert (N1 : n = 1) by (unfold n, nint; rewrite Q; auto). split; auto. destruct (Z.eq_dec q0 0) as [E|E]; [|unfold q0 in *; lia]. exfalso. rewrite E in Q1. rewrite D_int in Q1 by (fold n; lia). rewrite Q, Z.testbit_0_l in Q1. discriminate.
    + destruct (Z.eq_dec q0 0) as [E|E]; auto. exfalso. assert (D v 0 = c0). { unfold D. fold n. rewrite Z.bits_above_log2; [auto|lia|unfold q0 in E; lia]. }
      rewrite D_int in H1 by (fold n; lia). fold n in H1. replace (n - 1 - 0) with (Z.log2 (v / U)) in H1. 2:{ unfold n, nint, blen. replace (v / U =? 0) with false by lia. lia. }
      rewrite Z.bit_log2 in H1; [discriminate|]. pose proof (Z.div_pos v U). lia.
Qed.
Lemma unseen : seen F v = 0 -> v / U = 0 /\ n = 1 /\ forall q, D v q = c0.
Proof using K R.
  intros Z0. destruct facts as (m0 & e0 & me & bb & _). pose proof (U_pos c CK) as UP. fold F in UP. fold U in UP. assert (DZ : forall q, D v q = c0) by (intros; unfold D; rewrite Z0, Z.testbit_0_l; auto).
  destruct (Z.eq_dec (v / U) 0) as [Q|Q].
  - split; auto. split; auto. unfold n, nint. rewrite Q. auto.
  - exfalso. pose proof (nint_pos v ltac:(lia)). specialize (DZ 0). rewrite D_int in DZ by lia. replace (nint v - 1 - 0) with (Z.log2 (v / U)) in DZ. 2:{ unfold nint, blen. replace (v / U =? 0) with false by lia. lia. }
    rewrite Z.bit_log2 in DZ; [discriminate|]. pose proof (Z.div_pos v U). lia.
Qed.

Lemma exponent_range : seen F v <> 0 -> 0 < Z.log2 (seen F v) - B + bias F < 2 ^ eb.
Proof using K R.
  intros N. destruct (q0_range N) as (Q & _). destruct facts as (m0 & e0 & me & bb & b2 & _). unfold q0 in Q. pose proof (nint_le v ltac:(lia)). fold n in H0.
  assert (256 <= 2 ^ eb) by (change 256 with (2 ^ 8); apply pow_le; lia). lia.
Qed.

Lemma pattern_range : 0 <= pattern F v < 2 ^ (W - 1).
Proof using K R.
  destruct facts as (m0 & e0 & me & bb & b2 & w0 & _). unfold pattern. fold M. pose proof (pow_pos M ltac:(lia)). rewrite w0. replace (1 + eb + M - 1) with (eb + M) by lia. rewrite pow_split by lia.
  assert (256 <= 2 ^ eb) by (change 256 with (2 ^ 8); apply pow_le; lia). destruct (Z.eqb_spec (seen F v) 0) as [Z0|N]; [nia|].
  pose proof (exponent_range N). pose proof (Z.mod_pos_bound (seen F v / 2 ^ (Z.log2 (seen F v) - M)) (2 ^ M)). nia.
Qed.

(** Digits of the result. *)
Lemma pattern_bits i : 0 <= i < W - 1 -> Z.testbit (pattern F v) i =
  if seen F v =? 0 then (if i <? M then false else Z.testbit (bias F) (i - M))
  else if i <? M then Z.testbit (seen F v) (Z.log2 (seen F v) - M + i) else Z.testbit (Z.log2 (seen F v) - B + bias F) (i - M).
Proof using K R.
  intros I. destruct facts as (m0 & e0 & me & bb & b2 & w0 & _). unfold pattern. fold M. pose proof (pow_pos M ltac:(lia)). destruct (Z.eqb_spec (seen F v) 0) as [Z0|N].
  - rewrite <- (Z.add_0_r (_ * _)), testbit_pack by lia. destruct (i <? M); auto. now rewrite Z.testbit_0_l.
  - destruct (q0_range N) as (Q & _). unfold q0 in Q. pose proof (nint_pos v ltac:(lia)). fold n in H1. rewrite testbit_pack by (try apply Z.mod_pos_bound; lia). destruct (Z.ltb_spec i M).
    + rewrite Z.mod_pow2_bits_low by lia. rewrite testbit_div by lia. f_equal. lia.
    + f_equal. lia.
Qed.

Lemma finite_text_ok integerPart fractionPart form res neg : 
  zlen integerPart = nInteger c -> zlen fractionPart = nFraction c -> zlen form = nNormal c -> zlen res = W + 1 ->
  (forall j, 0 <= j <= M -> znth integerPart j = Some (Some c0)) -> (forall j, 0 <= j <= M -> znth fractionPart j = Some (Some c0)) -> znth fractionPart (M + 1) = Some (Some 0) ->
  (forall j, 1 <= j < W -> znth res j = Some (Some c0)) ->
  exists res', finite_text c integerPart fractionPart form res (Fin neg v) = Ok res' /\ zlen res' = W + 1 /\ znth res' 0 = znth res 0 /\ znth res' W = znth res W /\
    forall i, 1 <= i < W -> znth res' i = Some (Some (digit (Z.testbit (pattern F v) (W - 1 - i)))).
Proof using K H R.
  intros Li Lf Lo Lr Ci Cf Ct Cr. destruct facts as (m0 & e0 & me & bb & b2 & w0 & w64 & i1 & i2 & f1 & o1 & o2). pose proof (U_pos c CK) as UP. fold F in UP. fold U in UP.
  pose proof (nint_pos v ltac:(lia)) as N1. pose proof (nint_le v ltac:(lia)) as N2. fold n in N1, N2. assert (I0 : 0 <= v / U) by (apply Z.div_pos; lia).
  assert (I1 : v / U < 2 ^ 30) by (apply Z.div_lt_upper_bound; lia). pose proof (blen_lt (v / U) 30 ltac:(lia) ltac:(lia)) as BI.
  unfold finite_text. fold F. cbn [fabs]. unfold floor at 1. change (one F) with U. rewrite (to_int_ok c CK) by (change (2 ^ 31) with (2 * 2 ^ 30); lia). cbn [bind].
  assert (SZ : (if v / U =? 0 then Ok 1 else count_bits 64 (v / U) 0) = Ok n).
  { unfold n, nint. destruct (v / U =? 0); auto. rewrite count_bits_ok; auto. change (Z.of_nat 64) with 64. lia. }
  rewrite SZ. cbn [bind].
  assert (BN : blen (v / U) <= n <= blen (v / U) + 1) by (pose proof (blen_nonneg (v / U)); unfold n, nint; destruct (Z.eqb_spec (v / U) 0) as [E|E]; [rewrite E; cbn; lia|lia]).
  destruct (put_bits_ok 64 integerPart (v / U) (n - 1) I0 ltac:(change (Z.of_nat 64) with 64; lia) ltac:(lia)) as (digits & E1 & Wi). rewrite E1. cbn [bind].
  assert (DG : forall q, 0 <= q < n -> znth digits q = Some (Some (D v q))).
  { intros q Q. destruct Wi as [_ Wi]. rewrite Wi. rewrite D_int by (fold n; lia). fold n. destruct (Z.leb_spec (n - 1 + 1 - blen (v / U)) q) as [J|J]; cbn [andb].
    - replace (q <? n - 1 + 1) with true by lia. auto.
    - rewrite Ci by lia. rewrite blen_high by lia. auto. }
  rewrite (of_int_small F K 0) by (change (2 ^ 21) with 2097152; lia). change (0 * one F) with 0. assert (SV : sub F (Fin false v) (Fin false 0) = Fin false v) by (rewrite (sub_pos F K v 0) by (rewrite Z.sub_0_r; auto); f_equal; lia). rewrite SV.
  destruct (fraction_ok c CK v H ltac:(fold F; fold U; lia) (Z.to_nat (mbits F + 2)) fractionPart 0) as (fraction & s & E2 & S1 & S2 & Wf); try (fold F; fold M; lia).
  { intros j J. apply Cf. fold F in J. fold M in J. lia. }
  change (fr c v 0) with v in E2. rewrite E2. cbn [bind]. fold F in S1, S2. fold M in S1, S2.
  assert (FD : forall j, 0 <= j <= M -> znth fraction j = Some (Some (D v (n + j)))).
  { intros j J. unfold n. rewrite D_frac by lia. destruct (Z.lt_ge_cases j s) as [Js|Js]; [rewrite (written_in _ _ _ _ _ _ Wf) by lia; auto|]. rewrite (written_out _ _ _ _ _ _ Wf) by lia. rewrite Cf by lia. rewrite S2 by lia. auto. }
  assert (DS : forall q, n + s <= q -> D v q = c0).
  { intros q Q. destruct (Z.le_gt_cases q (n + M)) as [J|J]; [|apply D_low; fold n; lia]. replace q with (n + (q - n)) by lia. unfold n. rewrite D_frac by (fold n; lia). rewrite S2 by (fold n; lia). auto. }
  assert (FE : exists e, znth fraction s = Some (Some e) /\ e <> c1).
  { destruct (Z.eq_dec s (M + 1)) as [->|]; [rewrite (written_out _ _ _ _ _ _ Wf) by lia; rewrite Ct; exists 0; split; auto; discriminate|].
    rewrite FD by lia. rewrite DS by lia. exists c0. split; auto. discriminate. }
  destruct FE as (last & FE1 & FE2).
  assert (s1 : 1 <= s).
  { destruct (Z.eq_dec s 0) as [->|]; [exfalso|lia]. revert E2. replace (Z.to_nat (mbits F + 2)) with (S (Z.to_nat (mbits F + 1))) by (fold M; lia). cbn [fraction_loop]. fold F. 
    assert (ZE : feq (Fin false v) zero = false). { unfold feq, zero, fcmp, signed. destruct (Z.compare_spec v 0); auto; lia. }
    rewrite ZE. fold M. replace (0 <? M + 1) with true by lia. cbn [negb andb].
    destruct (double_step c CK v H ltac:(fold F; fold U; lia)) as (D1 & D2 & D3 & D4). fold F in D1, D2, D3, D4. rewrite D1, D2. cbn [bind]. intros E2.
    match type of E2 with bind ?x _ = _ => destruct x as [b1| | |] end; try discriminate E2. cbn [bind] in E2. rewrite D3 in E2. 
    assert (GE : forall fuel b f t b' s', fraction_loop c fuel b f t = Ok (b', s') -> t <= s').
    { induction fuel as [|fuel IH]; intros b f t b' s' E; cbn [fraction_loop] in E; [discriminate|]. match type of E with (if ?x then _ else _) = _ => destruct x end; [|injection E as _ <-; lia].
      match type of E with bind ?x _ = _ => destruct x end; cbn [bind] in E; try discriminate. match type of E with bind ?x _ = _ => destruct x end; cbn [bind] in E; try discriminate. apply IH in E. lia. }
    apply GE in E2. lia. }
  destruct (copy_in_written (mget digits) (D v) (Z.to_nat n + 1) form 0 0 n) as (form1 & E3 & W1); try lia.
  { intros k J. apply mget_ok, DG. lia. }
  rewrite E3. cbn [bind]. destruct W1 as [Z1 W1]. rewrite mset_ok by lia. cbn [bind].
  destruct (copy_in_written (mget fraction) (fun j => if j =? s then last else D v (n + j)) (Z.to_nat s + 2) (zupd form1 n (Some dot)) (n + 1) 0 (s + 1)) as (form2 & E4 & W2); try (rewrite ?zupd_len; lia).
  { intros k J. apply mget_ok. destruct (Z.eqb_spec k s) as [->|]; auto. apply FD. lia. }
  rewrite E4. cbn [bind]. destruct W2 as [Z2 W2]. rewrite zupd_len in Z2.
  assert (FO : forall q, 0 <= q < n + s -> znth form2 (position n q) = Some (Some (D v q))).
  { intros q Q. rewrite W2. unfold position. destruct (Z.ltb_spec q n) as [J|J].
    - replace ((n + 1 <=? q) && (q <? n + 1 + (s + 1 - 0))) with false by lia. rewrite znth_zupd by lia. replace (q =? n) with false by lia. rewrite W1. replace ((0 <=? q) && (q <? 0 + (n - 0))) with true by lia. do 3 f_equal. lia.
    - replace ((n + 1 <=? q + 1) && (q + 1 <? n + 1 + (s + 1 - 0))) with true by lia. replace (q + 1 - (n + 1) + 0 =? s) with false by lia. do 3 f_equal. lia. }
  assert (FDOT : znth form2 n = Some (Some dot)). { rewrite W2. replace ((n + 1 <=? n) && (n <? n + 1 + (s + 1 - 0))) with false by lia. rewrite znth_zupd by lia. now rewrite Z.eqb_refl. }
  assert (FL : znth form2 (n + 1 + s) = Some (Some last)). { rewrite W2. replace ((n + 1 <=? n + 1 + s) && (n + 1 + s <? n + 1 + (s + 1 - 0))) with true by lia. replace (n + 1 + s - (n + 1) + 0 =? s) with true by lia. auto. }
  set (g := fun p => if p =? n then dot else if p =? n + 1 + s then last else if p <? n then D v p else D v (p - 1)).
  assert (FG : forall p, 0 <= p <= n + 1 + s -> znth form2 p = Some (Some (g p))).
  { intros p P. unfold g. destruct (Z.eqb_spec p n) as [->|P1]; auto. destruct (Z.eqb_spec p (n + 1 + s)) as [->|P2]; auto. destruct (Z.ltb_spec p n) as [P3|P3].
    - specialize (FO p ltac:(lia)). unfold position in FO. replace (p <? n) with true in FO by lia. auto.
    - specialize (FO (p - 1) ltac:(lia)). unfold position in FO. replace (p - 1 <? n) with false in FO by lia. replace (p - 1 + 1) with p in FO by lia. auto. }
  (* the leading one, and then exponent and mantissa *)
  assert (CORE : forall first E q, find_one (Z.to_nat (n + 1 + s) + 2) form2 0 (n + 1 + s) = Ok first -> 0 <= first <= n + s -> q = (if first + 1 <=? n then first + 1 else first) ->
    (if v / U =? 0 then n - first else n - first - 1) + bias F = E -> 0 < E < 2 ^ eb ->
    (forall i, 0 <= i < M -> digit (Z.testbit (pattern F v) i) = D v (q + (M - 1 - i))) -> (forall i, M <= i < W - 1 -> Z.testbit (pattern F v) i = Z.testbit E (i - M)) ->
    exists res', (let* first := find_one (Z.to_nat (n + 1 + s) + 2) form2 0 (n + 1 + s) in
      let* res1 := put_bits 64 res ((if v / U =? 0 then n - first else n - first - 1) + bias F) (ebits F) in
      mantissa_loop (Z.to_nat (mbits F)) form2 res1 (ebits F + 1) (first + 1) (n + 1 + s) n) = Ok res' /\ zlen res' = W + 1 /\ znth res' 0 = znth res 0 /\ znth res' W = znth res W /\
    forall i, 1 <= i < W -> znth res' i = Some (Some (digit (Z.testbit (pattern F v) (W - 1 - i))))).
  { intros first E q -> FR QE EE ER PM PE. cbn [bind]. rewrite EE. fold eb. fold M. pose proof (blen_lt E eb ltac:(lia) ltac:(lia)) as BE. pose proof (blen_nonneg E).
    destruct (put_bits_ok 64 res E eb ltac:(lia) ltac:(change (Z.of_nat 64) with 64; lia) ltac:(lia)) as (res1 & -> & [Z3 W3]). cbn [bind].
    destruct (mantissa_ok form2 (D v) (n + 1 + s) n ltac:(lia) ltac:(lia) ltac:(intros; apply FO; lia) (Z.to_nat M) res1 (eb + 1) (first + 1) q ltac:(lia) ltac:(lia) ltac:(lia)) as (res' & -> & [Z4 W4]).
    { subst q. destruct (Z.leb_spec (first + 1) n); lia. }
    exists res'. split; auto. split; [lia|]. split; [|split].
    - rewrite W4. replace (eb + 1 <=? 0) with false by lia. cbn [andb]. rewrite W3. replace (eb + 1 - blen E <=? 0) with false by lia. auto.
    - rewrite W4. replace (W <? eb + 1 + _) with false by lia. rewrite andb_false_r. rewrite W3. replace (W <? eb + 1) with false by lia. now rewrite andb_false_r.
    - intros i I. rewrite W4. destruct (Z.leb_spec (eb + 1) i) as [J|J]; cbn [andb].
      + rewrite PM by lia. replace (q + (M - 1 - (W - 1 - i))) with (q + (i - (eb + 1))) by lia.
        destruct (Z.ltb_spec i (eb + 1 + Z.max 0 (Z.min (Z.of_nat (Z.to_nat M)) (n + 1 + s - 1 - q)))) as [J2|J2]; auto.
        rewrite W3. replace (i <? eb + 1) with false by lia. rewrite andb_false_r. rewrite Cr by lia. rewrite DS; auto. lia.
      + rewrite W3. rewrite PE by lia. replace (W - 1 - i - M) with (eb - i) by lia. destruct (Z.leb_spec (eb + 1 - blen E) i); cbn [andb].
        * replace (i <? eb + 1) with true by lia. auto.
        * rewrite Cr by lia. rewrite blen_high by lia. auto. }
  destruct (Z.eq_dec (seen F v) 0) as [Z0|NZ].
  - destruct (unseen Z0) as (IZ & n1 & DZ). assert (bias F < 2 ^ eb) by lia. assert (256 <= 2 ^ eb) by (change 256 with (2 ^ 8); apply pow_le; lia).
    apply (CORE 1 (bias F) 1); try lia.
    + apply (find_one_none _ g); [lia| |lia]. intros p P. split; [apply FG; lia|]. unfold g. destruct (p =? n); [discriminate|]. destruct (p =? n + 1 + s); auto. rewrite !DZ. destruct (p <? n); discriminate.
    + rewrite n1. reflexivity.
    + rewrite IZ. cbn [Z.eqb]. lia.
    + intros i I. rewrite pattern_bits by lia. rewrite Z0. cbn [Z.eqb]. replace (i <? M) with true by lia. now rewrite DZ.
    + intros i I. rewrite pattern_bits by lia. rewrite Z0. cbn [Z.eqb]. replace (i <? M) with false by lia. auto.
  - destruct (q0_range NZ) as (Q1 & Q2 & Q3 & Q4). assert (QS : q0 < n + s) by (destruct (Z.lt_ge_cases q0 (n + s)) as [|G]; auto; rewrite DS in Q2 by auto; discriminate). pose proof (exponent_range NZ) as ER.
    apply (CORE (position n q0) (Z.log2 (seen F v) - B + bias F) (q0 + 1)); auto.
    + apply (find_one_ok _ g); try (unfold position; destruct (q0 <? n); lia); [|now rewrite FO, Q2 by lia].
      intros p P. split; [apply FG; unfold position in P; destruct (q0 <? n); lia|]. unfold g. destruct (Z.eqb_spec p n); [discriminate|]. destruct (Z.eqb_spec p (n + 1 + s)); auto.
      unfold position in P. destruct (Z.ltb_spec q0 n), (Z.ltb_spec p n); rewrite Q3 by lia; discriminate.
    + unfold position. destruct (q0 <? n); lia.
    + unfold position. destruct (Z.eqb_spec (v / U) 0).
      * replace (q0 <? n) with false by lia. replace (q0 + 1 + 1 <=? n) with false by lia. auto.
      * rewrite Q4. replace (0 <? n) with true by lia. replace (0 + 1 <=? n) with true by lia. auto.
    + unfold position. destruct (Z.eqb_spec (v / U) 0).
      * replace (q0 <? n) with false by lia. unfold q0. lia.
      * replace (q0 <? n) with true by lia. unfold q0 in *. lia.
    + intros i I. rewrite pattern_bits by lia. replace (seen F v =? 0) with false by lia. replace (i <? M) with true by lia. unfold D. fold n. do 2 f_equal. unfold q0. lia.
    + intros i I. rewrite pattern_bits by lia. replace (seen F v =? 0) with false by lia. replace (i <? M) with false by lia. auto.
Qed.
End Number.
End Text.
