(** Order of the bits. *)

From Coq Require Import ZArith List Bool Lia.
From Verif Require Import Base Bits Ieee IeeeProofs FloatBitsSpec FloatBitsModel FloatBitsProofs FloatBitsProofs2 FloatBitsProofs3 FloatBitsProofs4 FloatBitsProofs5.
Open Scope Z_scope.

Section Order.
Variable c : code.
Hypothesis CK : code_ok c.
Let F := cfmt c.
Let M := mbits F.
Let eb := ebits F.
Let B := one_exp F.
Let U := one F.
Let W := width F.
Let K : fmt_ok F := co_fmt c CK.

(** the magnitude a pattern without sign denotes, when finite *)
Definition mag (P : Z) : Z := if exponent_field F P =? 0 then fraction_field F P else (2 ^ M + fraction_field F P) * 2 ^ (exponent_field F P - 1).
Definition infinity : Z := (2 ^ eb - 1) * 2 ^ M.

Lemma hf : 20 <= M /\ 8 <= eb <= 11 /\ B = bias F + M - 1 /\ 2 * bias F = 2 ^ eb - 2 /\ W = 1 + eb + M /\ W <= 64 /\ 256 <= 2 ^ eb /\ 0 < 2 ^ M /\ 2 ^ (W - 1) = 2 ^ eb * 2 ^ M /\ 2 ^ W = 2 * 2 ^ (W - 1).
Proof using K.
  pose proof (gfacts c CK) as X. fold F in X. fold M eb B W in X. pose proof (pow_pos M ltac:(lia)). assert (2 ^ (W - 1) = 2 ^ eb * 2 ^ M) by (rewrite <- pow_split by lia; f_equal; lia). assert (2 ^ W = 2 * 2 ^ (W - 1)) by (rewrite <- Z.pow_succ_r by lia; f_equal; lia). lia.
Qed.
Lemma fields P : 0 <= P < 2 ^ (W - 1) -> P = exponent_field F P * 2 ^ M + fraction_field F P /\ 0 <= exponent_field F P < 2 ^ eb /\ 0 <= fraction_field F P < 2 ^ M /\ sign_bit F P = false.
Proof using K.
  intros R. destruct hf as (m0 & e0 & bb & b2 & w0 & w64 & e8 & MP & WE & _). unfold exponent_field, fraction_field, sign_bit. fold M eb. split; [|split; [|split]].
  - rewrite (Z.mod_small (P / 2 ^ M)); [rewrite Z.mul_comm; apply Z.div_mod; lia|]. split; [apply Z.div_pos; lia|]. apply Z.div_lt_upper_bound; [lia|]. lia.
  - apply Z.mod_pos_bound. lia.
  - apply Z.mod_pos_bound. lia.
  - apply (testbit_high P (W - 1)); lia.
Qed.
Lemma denoted_pos P : 0 <= P < infinity -> denoted F P = Fin false (mag P).
Proof using K.
  intros R. destruct hf as (m0 & e0 & bb & b2 & w0 & w64 & e8 & MP & WE & _). unfold infinity in R. destruct (fields P ltac:(nia)) as (PE & E & f & S). unfold denoted, mag. rewrite S. fold eb M. destruct (exponent_field F P =? 0); auto.
  replace (exponent_field F P =? 2 ^ eb - 1) with false by nia. auto.
Qed.
Lemma mag_lt P Q : 0 <= P < Q -> Q < 2 ^ (W - 1) -> mag P < mag Q.
Proof using K.
  intros R R2. destruct hf as (m0 & e0 & bb & b2 & w0 & w64 & e8 & MP & WE & _). destruct (fields P ltac:(lia)) as (PE & E1 & f1 & _). destruct (fields Q ltac:(lia)) as (QE & E2 & f2 & _). unfold mag.
  set (p := exponent_field F P) in *. set (q := exponent_field F Q) in *. set (f := fraction_field F P) in *. set (g := fraction_field F Q) in *.
  assert (PQ : p < q \/ (p = q /\ f < g)) by nia. destruct (Z.eqb_spec p 0) as [P0|P0], (Z.eqb_spec q 0) as [Q0|Q0]; try lia.
  - pose proof (pow_pos (q - 1) ltac:(lia)). nia.
  - destruct PQ as [PQ|[PQ FG]].
    + assert (2 ^ (p - 1) * 2 <= 2 ^ (q - 1)). { change 2 with (2 ^ 1) at 2. rewrite <- pow_split by lia. apply pow_le. lia. } pose proof (pow_pos (p - 1) ltac:(lia)). nia.
    + rewrite PQ. pose proof (pow_pos (q - 1) ltac:(lia)). nia.
Qed.
Lemma mag_inj P Q : 0 <= P < 2 ^ (W - 1) -> 0 <= Q < 2 ^ (W - 1) -> mag P = mag Q -> P = Q.
Proof using K. intros R1 R2 E. destruct (Z.lt_trichotomy P Q) as [L|[L|L]]; auto; [pose proof (mag_lt P Q)|pose proof (mag_lt Q P)]; lia. Qed.

(** the sign bit added *)
Lemma denoted_neg P : 0 <= P < 2 ^ (W - 1) -> denoted F (2 ^ (W - 1) + P) = neg (denoted F P).
Proof using K.
  intros R. destruct hf as (m0 & e0 & bb & b2 & w0 & w64 & e8 & MP & WE & _). destruct (fields P R) as (PE & E & f & S). unfold denoted.
  assert (SB : sign_bit F (2 ^ (W - 1) + P) = true). { unfold sign_bit. fold eb M. replace (2 ^ (W - 1) + P) with (1 * 2 ^ (W - 1) + P) by lia. rewrite testbit_pack by lia. replace (eb + M <? W - 1) with false by lia. replace (eb + M - (W - 1)) with 0 by lia. auto. }
  assert (EF : exponent_field F (2 ^ (W - 1) + P) = exponent_field F P). { unfold exponent_field. fold M eb. rewrite WE. rewrite Z.div_add_l by lia. rewrite <- (Z_mod_plus_full (P / 2 ^ M) 1). f_equal. lia. }
  assert (FF : fraction_field F (2 ^ (W - 1) + P) = fraction_field F P). { unfold fraction_field. fold M. rewrite WE, Z.add_comm. apply Z_mod_plus_full. }
  rewrite SB, EF, FF, S. destruct (_ =? 0); auto. destruct (_ =? _); auto. destruct (_ =? 0); auto.
Qed.

Lemma faithful_seen v : faithful F v -> seen F v = v.
Proof using K.
  intros (R & H & D & E). pose proof (gfacts c CK) as X. fold F in X. fold M eb B W in X. pose proof (pow_pos (B - 1 - M) ltac:(lia)) as P. unfold seen. fold B M U. destruct D as [q ->]. fold B M U in E. fold B M. rewrite Z.div_mul by lia.
  destruct (Z.leb_spec U (q * 2 ^ (B - 1 - M))) as [J|J]; cbn [andb]; auto. specialize (E J). replace (Z.testbit (q * 2 ^ (B - 1 - M)) (B - 1)) with false; auto. symmetry.
  replace (B - 1) with (0 + (B - 1)) at 2 by lia. rewrite <- testbit_div by lia. rewrite Z.bit0_odd, <- Z.negb_even. now rewrite E.
Qed.
Lemma faithful_bits v : faithful F v -> 0 < pattern F v < infinity /\ mag (pattern F v) = v /\ denoted F (pattern F v) = Fin false v.
Proof using K.
  intros FV. pose proof (faithful_seen v FV) as S. destruct FV as (R & H & _). destruct hf as (m0 & e0 & bb & b2 & w0 & w64 & e8 & MP & WE & _).
  pose proof (pattern_range c CK v R) as PR. fold F in PR. fold W in PR. pose proof (denoted_pattern c CK v H R) as D. fold F in D. rewrite S in D. specialize (D ltac:(lia)).
  destruct (fields (pattern F v) PR) as (PE & E & f & SB). assert (PI : pattern F v < infinity).
  { unfold infinity. destruct (Z.lt_ge_cases (pattern F v) ((2 ^ eb - 1) * 2 ^ M)) as [|G]; auto. exfalso. assert (EX : exponent_field F (pattern F v) = 2 ^ eb - 1) by nia.
    unfold denoted in D. fold eb in D. rewrite EX in D. replace (2 ^ eb - 1 =? 0) with false in D by lia. rewrite Z.eqb_refl in D. destruct (_ =? 0) in D; discriminate. }
  pose proof (denoted_pos (pattern F v) ltac:(lia)) as DP. assert (MV : mag (pattern F v) = v) by (rewrite D in DP; congruence). repeat split; auto.
  destruct (Z.eq_dec (pattern F v) 0) as [Z0|]; [|lia]. rewrite Z0 in MV. unfold mag, exponent_field, fraction_field in MV. rewrite !Zmod_0_l in MV. cbn in MV. lia.
Qed.
Lemma pattern_lt v w : faithful F v -> faithful F w -> v < w -> pattern F v < pattern F w.
Proof using K.
  intros FV FW L. destruct (faithful_bits v FV) as (R1 & M1 & _), (faithful_bits w FW) as (R2 & M2 & _). destruct hf as (m0 & e0 & bb & b2 & w0 & w64 & e8 & MP & WE & _). unfold infinity in *.
  destruct (Z.lt_ge_cases (pattern F v) (pattern F w)) as [|G]; auto. destruct (Z.eq_dec (pattern F v) (pattern F w)) as [E|E]; [rewrite E in M1; lia|]. pose proof (mag_lt (pattern F w) (pattern F v) ltac:(lia) ltac:(nia)). lia.
Qed.

(** ** The bits of a faithful value as one number *)
Definition key (x : fl) : Z := match x with NaN => 2 ^ (W - 1) - 1 | Inf n => signed n infinity | Fin n v => if v =? 0 then 0 else signed n (pattern F v) end.
Lemma raw_key m x : faithful_value F x -> raw_bits m c x = Ok (key x).
Proof using K.
  intros H. destruct x as [|n|n v]; cbn [key].
  - apply (raw_nan c CK).
  - apply (raw_inf c CK).
  - destruct (Z.eqb_spec v 0) as [->|N]; [apply (raw_zero c CK)|]. destruct H as [H|(R & H & _)]; [lia|]. apply (raw_finite c CK); auto.
Qed.
Lemma key_range x : faithful_value F x -> x <> NaN -> - infinity <= key x <= infinity /\ 0 < infinity < 2 ^ (W - 1) - 1.
Proof using K.
  intros H N. destruct hf as (m0 & e0 & bb & b2 & w0 & w64 & e8 & MP & WE & _). assert (2 ^ 20 <= 2 ^ M) by (apply pow_le; lia). assert (I0 : 0 < infinity < 2 ^ (W - 1) - 1) by (unfold infinity; nia). split; auto. destruct x as [|n|n v]; cbn [key]; [congruence|destruct n; cbn [signed]; lia|].
  destruct (Z.eqb_spec v 0) as [->|NZ]; [lia|]. destruct H as [H|H]; [lia|]. destruct (faithful_bits v H) as (R & _). destruct n; cbn [signed]; lia.
Qed.

(** one of the two zeros *)
Definition zeros (a b : fl) : Prop := exists n n', a = Fin n 0 /\ b = Fin n' 0.
Lemma key_compare a b : faithful_value F a -> faithful_value F b -> ~ zeros a b ->
  (key a < key b -> java_lt a b) /\ (key a = key b -> a = b).
Proof using K.
  intros HA HB NZ.
  destruct a as [|n|n v], b as [|n'|n' w].
  - split; auto. lia.
  - pose proof (key_range (Inf n') HB ltac:(discriminate)) as [R1 R2]. split; [|intros E]; cbn [key] in *; lia.
  - pose proof (key_range (Fin n' w) HB ltac:(discriminate)) as [R1 R2]. split; [|intros E]; cbn [key] in *; lia.
  - pose proof (key_range (Inf n) HA ltac:(discriminate)) as [R1 R2]. split; [intros; exact Logic.I|intros E; cbn [key] in *; lia].
  - pose proof (key_range (Inf n) HA ltac:(discriminate)) as [R1 R2]. split; cbn [key]; destruct n, n'; cbn [signed]; intros; try lia; cbv; auto.
  - pose proof (key_range (Inf n) HA ltac:(discriminate)) as [R1 R2]. pose proof (key_range (Fin n' w) HB ltac:(discriminate)) as [R3 _].
    assert (ST : - infinity < key (Fin n' w) < infinity). { cbn [key] in *. destruct (Z.eqb_spec w 0); [lia|]. destruct HB as [HB|HB]; [lia|]. destruct (faithful_bits w HB) as (R & _). destruct n'; cbn [signed] in *; lia. }
    change (key (Inf n)) with (signed n infinity). split; destruct n; cbn [signed]; intros; try lia. cbn [java_lt fcmp]. reflexivity.
  - pose proof (key_range (Fin n v) HA ltac:(discriminate)) as [R1 R2]. cbn [java_lt]. split; [intros; destruct n; auto; destruct v; exact Logic.I|]. intros E. change (key NaN) with (2 ^ (W - 1) - 1) in E. lia.
  - pose proof (key_range (Inf n') HB ltac:(discriminate)) as [R1 R2].
    assert (ST : - infinity < key (Fin n v) < infinity). { cbn [key] in *. destruct (Z.eqb_spec v 0); [lia|]. destruct HA as [HA|HA]; [lia|]. destruct (faithful_bits v HA) as (R & _). destruct n; cbn [signed] in *; lia. }
    change (key (Inf n')) with (signed n' infinity). split; destruct n'; cbn [signed]; intros; try lia. cbn [java_lt fcmp]. destruct n, v; auto.
  - assert (ZC : (v = 0 \/ v <> 0) /\ (w = 0 \/ w <> 0)) by lia.
    assert (JL : signed n v < signed n' w -> java_lt (Fin n v) (Fin n' w)). { intros L. cbn [java_lt]. assert (E : fcmp (Fin n v) (Fin n' w) = Some Lt) by (cbn [fcmp]; f_equal; exact L). destruct n; [|exact E]. destruct v; try exact E. destruct n'; [exact E|]. destruct w; exact E || exact Logic.I. }
    cbn [key]. destruct (Z.eqb_spec v 0) as [->|V0], (Z.eqb_spec w 0) as [->|W0].
    + exfalso. apply NZ. exists n, n'. auto.
    + destruct HB as [HB|HB]; [lia|]. destruct (faithful_bits w HB) as (R & _). pose proof HB as (RW & _). split; [intros; apply JL|]; destruct n, n'; cbn [signed] in *; lia.
    + destruct HA as [HA|HA]; [lia|]. destruct (faithful_bits v HA) as (R & _). pose proof HA as (RV & _). split; [intros; apply JL|]; destruct n, n'; cbn [signed] in *; lia.
    + destruct HA as [HA|HA]; [lia|]. destruct HB as [HB|HB]; [lia|]. destruct (faithful_bits v HA) as (R & _), (faithful_bits w HB) as (R2 & _). pose proof HA as (RV & _). pose proof HB as (RW & _).
      pose proof (pattern_lt v w HA HB). pose proof (pattern_lt w v HB HA). split; [intros; apply JL|]; destruct n, n'; cbn [signed] in *; try lia.
      * destruct (Z.lt_trichotomy v w) as [L|[L|L]]; subst; lia.
      * destruct (Z.lt_trichotomy v w) as [L|[L|L]]; subst; lia.
      * intros E. f_equal. destruct (Z.lt_trichotomy v w) as [L|[L|L]]; lia.
      * intros E. f_equal. destruct (Z.lt_trichotomy v w) as [L|[L|L]]; lia.
Qed.
End Order.
