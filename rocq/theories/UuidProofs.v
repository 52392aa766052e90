(** Proofs about UUIDs: texts. *)

From Coq Require Import ZArith List Lia Bool.
From Verif Require Import Base Bits CppText TextSpec TextLemmas StringModel StringSpec StringProofs StringProofs2 StringProps
  LongModel LongProofs LongProofs2 LongProps UuidSpec UuidLibModel UuidModel.
Import ListNotations.
Open Scope Z_scope.
Local Notation length := List.length.

(** ** Hexadecimal texts *)

Lemma hex_length n : forall v, length (hex n v) = n.
Proof. induction n as [|n IH]; intros v; cbn [hex]; [reflexivity|]. rewrite app_length, IH. cbn. lia. Qed.

Lemma hexchar_facts d : 0 <= d < 16 -> digit_val (hexchar d) = Some d /\ is_upper_c (hexchar d) = false /\ hexchar d <> 45 /\ 48 <= hexchar d <= 102 /\ digit_char d = hexchar d.
Proof.
  intros D. assert (H : In d [0;1;2;3;4;5;6;7;8;9;10;11;12;13;14;15]) by (cbn; lia).
  cbn in H. repeat (destruct H as [<-|H]; [vm_compute; repeat split; congruence|]). contradiction.
Qed.
Lemma digit_lower c d : is_digit 16 c d -> is_upper_c c = false -> c = hexchar d /\ 0 <= d < 16.
Proof.
  intros (H & L) U. unfold digit_val in H. rewrite U in H. unfold hexchar.
  destruct (is_digit_c c) eqn:E1; [unfold is_digit_c in E1; injection H as <-; destruct (Z.ltb_spec (c - 48) 10); lia|].
  destruct (is_lower_c c) eqn:E2; [|discriminate]. unfold is_lower_c in E2. injection H as <-. destruct (Z.ltb_spec (c - 87) 10); lia.
Qed.

Lemma hex_mod n : forall v, hex n (v mod 16 ^ Z.of_nat n) = hex n v.
Proof.
  induction n as [|n IH]; intros v; [reflexivity|]. cbn [hex]. rewrite Nat2Z.inj_succ, Z.pow_succ_r by lia.
  assert (P : 0 < 16 ^ Z.of_nat n) by (apply Z.pow_pos_nonneg; lia).
  rewrite Z.rem_mul_r by lia. rewrite <- (IH (v / 16)). do 2 f_equal.
  - rewrite Z.mul_comm, Z.div_add, Z.div_small by (try lia; apply Z.mod_pos_bound; lia). reflexivity.
  - f_equal. rewrite Z.mul_comm, Z.mod_add, Z.mod_mod by lia. reflexivity.
Qed.
Lemma hex_cong n v w : v mod 16 ^ Z.of_nat n = w mod 16 ^ Z.of_nat n -> hex n v = hex n w.
Proof. intros H. rewrite <- (hex_mod n v), <- (hex_mod n w), H. reflexivity. Qed.

Lemma hex_cons n : forall v, hex (S n) v = hexchar (v / 16 ^ Z.of_nat n mod 16) :: hex n v.
Proof.
  induction n as [|n IH]; intros v.
  - cbn. rewrite Z.div_1_r. reflexivity.
  - change (hex (S (S n)) v) with (hex (S n) (v / 16) ++ [hexchar (v mod 16)]). rewrite IH.
    rewrite Z.div_div by (try lia; apply Z.pow_pos_nonneg; lia). rewrite <- Z.pow_succ_r by lia. rewrite <- Nat2Z.inj_succ. reflexivity.
Qed.
Lemma hex_app a : forall b v, hex (a + b) v = hex a (v / 16 ^ Z.of_nat b) ++ hex b v.
Proof.
  induction b as [|b IH]; intros v.
  - rewrite Nat.add_0_r. cbn. rewrite Z.div_1_r, app_nil_r. reflexivity.
  - rewrite Nat.add_succ_r. cbn [hex]. rewrite IH, <- app_assoc. f_equal.
    rewrite Z.div_div by (try lia; apply Z.pow_pos_nonneg; lia). rewrite <- Z.pow_succ_r by lia. rewrite <- Nat2Z.inj_succ. reflexivity.
Qed.

Lemma numeral_hex s ds : Forall2 (is_digit 16) s ds -> lower s -> s = hex (length s) (numval 16 ds).
Proof.
  intros F. revert ds F. induction s as [|c s IH] using rev_ind; intros ds F L; [reflexivity|].
  apply Forall2_app_inv_l in F as (d1 & d2 & F1 & F2 & ->). inversion F2 as [|? d ? ? D N]; subst. inversion N; subst.
  apply Forall_app in L as (L1 & L2). inversion L2; subst. destruct (digit_lower c d D) as (C & R); [assumption|].
  rewrite numval_snoc, app_length, Nat.add_comm. cbn [length Nat.add hex]. rewrite Z.div_add_l, Z.div_small, Z.add_0_r by lia.
  rewrite <- (IH d1) by assumption. rewrite Z.add_comm, Z.mod_add, Z.mod_small by lia. rewrite C. reflexivity.
Qed.
Lemma hex_digits n : forall v, exists ds, Forall2 (is_digit 16) (hex n v) ds /\ numval 16 ds = v mod 16 ^ Z.of_nat n /\ lower (hex n v).
Proof.
  induction n as [|n IH]; intros v; cbn [hex].
  - exists []. repeat constructor. cbn. rewrite Z.mod_1_r. reflexivity.
  - destruct (IH (v / 16)) as (ds & F & E & L). exists (ds ++ [v mod 16]).
    assert (R : 0 <= v mod 16 < 16) by (apply Z.mod_pos_bound; lia). destruct (hexchar_facts _ R) as (D & U & _).
    split; [apply Forall2_app; [exact F|]; constructor; [split; [exact D | lia] | constructor]|]. split.
    + rewrite numval_snoc, E. rewrite Nat2Z.inj_succ, Z.pow_succ_r by lia. rewrite (Z.rem_mul_r v 16) by (try lia; apply Z.pow_pos_nonneg; lia). lia.
    + apply Forall_app. split; [exact L|]. constructor; [exact U | constructor].
Qed.
Lemma hex_numeral n v : (0 < n)%nat -> 0 <= v < 16 ^ Z.of_nat n -> numeral 16 (hex n v) v /\ lower (hex n v).
Proof.
  intros N V. destruct (hex_digits n v) as (ds & F & E & L). split; [|exact L]. split.
  - intros H. apply (f_equal (@length Z)) in H. rewrite hex_length in H. cbn in H. lia.
  - exists ds. split; [exact F|]. rewrite E, Z.mod_small by lia. reflexivity.
Qed.
Lemma hex_chars n : forall v, Forall (fun c => exists d, 0 <= d < 16 /\ c = hexchar d) (hex n v).
Proof.
  induction n as [|n IH]; intros v; cbn [hex]; [constructor|]. apply Forall_app. split; [apply IH|]. constructor; [|constructor].
  exists (v mod 16). split; [apply Z.mod_pos_bound; lia | reflexivity].
Qed.

(** A canonical numeral of 16^n + v with v < 16^n is "1" and the n digits of v. *)
Lemma digits_len s ds : Forall2 (is_digit 16) s ds -> lower s -> s <> [] -> hd 0 s <> 48 -> 16 ^ (zlen s - 1) <= numval 16 ds < 16 ^ zlen s.
Proof.
  intros F L NE H. assert (DS : Forall (fun d => 0 <= d < 16) ds).
  { clear NE H. induction F as [|c d s ds D F IH]; constructor; inversion L; subst; [apply (digit_lower c d D); assumption | auto]. }
  assert (ZL : zlen s = zlen ds) by (clear - F; induction F as [|? ? ? ? ? ? IH]; [reflexivity | rewrite !zlen_cons, IH; reflexivity]).
  split; [|rewrite ZL; apply numval_bound; [lia | exact DS]].
  destruct F as [|c d s ds D F]; [congruence|]. inversion L; subst. inversion DS; subst. cbn [hd] in H. destruct (digit_lower c d D) as (C & R); [assumption|].
  rewrite numval_cons. rewrite zlen_cons. replace (zlen s + 1 - 1) with (zlen ds) by (rewrite !zlen_cons in ZL; lia).
  pose proof (numval_bound 16 ds ltac:(lia) H5). assert (d <> 0) by (intros ->; apply H; exact C).
  assert (0 < 16 ^ zlen ds) by (apply Z.pow_pos_nonneg; [lia | apply zlen_nonneg]). nia.
Qed.
Lemma canonical_hex n s v : 0 <= v < 16 ^ Z.of_nat n -> canonical_unsigned 16 s (16 ^ Z.of_nat n + v) -> s = 49 :: hex n v.
Proof.
  intros V ((NE & ds & F & E) & L & C).
  assert (P : 0 < 16 ^ Z.of_nat n) by (apply Z.pow_pos_nonneg; lia).
  assert (H : hd 0 s <> 48).
  { intros H. specialize (C H). subst s. inversion F as [|? d ? ? D N]; subst. inversion N; subst. vm_compute in D. destruct D as (D & _). injection D as <-. cbn in E. lia. }
  pose proof (digits_len s ds F L NE H) as R. rewrite <- E in R.
  assert (LEN : zlen s = Z.of_nat n + 1).
  { assert (0 < zlen s) by (destruct s; [congruence | rewrite zlen_cons; pose proof (zlen_nonneg s); lia]).
    assert (A : 16 ^ (zlen s - 1) < 16 ^ (Z.of_nat n + 1)) by (rewrite Z.pow_add_r by lia; lia).
    assert (B : 16 ^ Z.of_nat n < 16 ^ zlen s) by lia.
    apply Z.pow_lt_mono_r_iff in A; [|lia|lia]. apply Z.pow_lt_mono_r_iff in B; lia. }
  rewrite (numeral_hex s ds F L). replace (length s) with (S n) by (unfold zlen in LEN; lia). rewrite <- E, hex_cons. f_equal.
  - replace (16 ^ Z.of_nat n + v) with (v + 1 * 16 ^ Z.of_nat n) by lia. rewrite Z.div_add, Z.div_small by lia. reflexivity.
  - apply hex_cong. replace (16 ^ Z.of_nat n + v) with (v + 1 * 16 ^ Z.of_nat n) by lia. rewrite Z.mod_add by lia. reflexivity.
Qed.

(** ** UUID.toString *)

Lemma digits_ok m value n : (0 < n <= 12)%nat -> digits m value (Z.of_nat n) = Ok (hex n value).
Proof.
  intros N. unfold digits.
  assert (P : 16 ^ Z.of_nat n = 2 ^ (Z.of_nat n * 4)) by (change 16 with (2 ^ 4) at 1; rewrite <- Z.pow_mul_r by lia; f_equal; lia).
  assert (P0 : 0 < 2 ^ (Z.of_nat n * 4)) by (apply Z.pow_pos_nonneg; lia).
  assert (P1 : 2 ^ (Z.of_nat n * 4) <= 2 ^ 48) by (apply Z.pow_le_mono_r; lia). change (2 ^ 48) with 281474976710656 in P1.
  assert (SH : sshl m 64 1 (Z.of_nat n * 4) = Ok (2 ^ (Z.of_nat n * 4))).
  { unfold sshl. destruct m.
    - repeat match goal with |- context [?a <=? ?b] => destruct (Z.leb_spec a b); try lia | |- context [?a <? ?b] => destruct (Z.ltb_spec a b); try lia end;
        rewrite ?Z.shiftl_mul_pow2 in * by lia; cbn [andb]; rewrite ?Z.mul_1_l in *; rewrite ?wrap_id by (try lia; unfold in_s, smin, smax; lia); try reflexivity; try lia.
    - rewrite Z.mod_small by lia. rewrite Z.shiftl_mul_pow2 by lia. rewrite Z.mul_1_l. rewrite wrap_id by (try lia; unfold in_s, smin, smax; lia). reflexivity. }
  rewrite SH. cbn [bind]. unfold ssub. rewrite sres_ok by (unfold in_s, smin, smax; lia). cbn [bind].
  rewrite Z.sub_1_r, <- Z.ones_equiv, Z.land_ones by lia.
  assert (R : 0 <= value mod 2 ^ (Z.of_nat n * 4) < 2 ^ (Z.of_nat n * 4)) by (apply Z.mod_pos_bound; lia).
  assert (LO : Z.lor (2 ^ (Z.of_nat n * 4)) (value mod 2 ^ (Z.of_nat n * 4)) = 2 ^ (Z.of_nat n * 4) + value mod 2 ^ (Z.of_nat n * 4)).
  { rewrite <- (Z.mul_1_l (2 ^ (Z.of_nat n * 4))) at 1. rewrite <- Z.shiftl_mul_pow2 by lia. rewrite lor_shiftl_add by lia. rewrite Z.mul_1_l. reflexivity. }
  rewrite LO. destruct (C10_toHexString m (2 ^ (Z.of_nat n * 4) + value mod 2 ^ (Z.of_nat n * 4))) as (t & TE & C).
  { unfold is_long, long_min, long_max. lia. }
  rewrite TE. cbn [bind]. unfold BitSpec.unsigned in C. rewrite (Z.mod_small (2 ^ (Z.of_nat n * 4) + _)) in C by lia.
  rewrite <- P in *. rewrite (canonical_hex n t _ R C). rewrite getStringFromIndex_in.
  - cbn [skipn Z.to_nat Pos.to_nat Pos.iter_op Nat.add]. change (Z.to_nat 1) with 1%nat. cbn [skipn]. rewrite hex_mod. reflexivity.
  - unfold small. rewrite zlen_cons. unfold zlen. rewrite hex_length. unfold int_max. lia.
  - rewrite zlen_cons. unfold zlen. rewrite hex_length. lia.
Qed.

Definition half_ok (u : UUID) : Prop := is_long (mostSigBits u) /\ is_long (leastSigBits u).
Definition num (u : UUID) : Z := number_of_halves (mostSigBits u) (leastSigBits u).

Lemma pow16 n : 16 ^ Z.of_nat n = 2 ^ (4 * Z.of_nat n).
Proof. change 16 with (2 ^ 4). rewrite <- Z.pow_mul_r by lia. reflexivity. Qed.
Lemma hex_mod64 n k x : 0 <= k -> k + 4 * Z.of_nat n <= 64 -> hex n (x mod 2 ^ 64 / 2 ^ k) = hex n (x / 2 ^ k).
Proof.
  intros K H. apply hex_cong. rewrite pow16. apply Z.bits_inj'. intros i I. destruct (Z.ltb_spec i (4 * Z.of_nat n)).
  - rewrite !Z.mod_pow2_bits_low, <- !Z.shiftr_div_pow2, !Z.shiftr_spec, Z.mod_pow2_bits_low by lia. reflexivity.
  - rewrite !Z.mod_pow2_bits_high by lia. reflexivity.
Qed.
Lemma hex_hi n k h l : 0 <= k -> k + 4 * Z.of_nat n <= 64 -> hex n (number_of_halves h l / 2 ^ (64 + k)) = hex n (h / 2 ^ k).
Proof.
  intros K H. rewrite <- (hex_mod64 n k h K H). f_equal. unfold number_of_halves. rewrite Z.pow_add_r by lia.
  assert (L : 0 <= l mod 2 ^ 64 < 2 ^ 64) by (apply Z.mod_pos_bound; lia).
  rewrite <- Z.div_div by (try lia; apply Z.pow_pos_nonneg; lia). rewrite Z.div_add_l, (Z.div_small (l mod _)), Z.add_0_r by lia. reflexivity.
Qed.
Lemma hex_lo n k h l : 0 <= k -> k + 4 * Z.of_nat n <= 64 -> hex n (number_of_halves h l / 2 ^ k) = hex n (l / 2 ^ k).
Proof.
  intros K H. rewrite <- (hex_mod64 n k l K H), <- (hex_mod64 n k (number_of_halves h l) K H). do 2 f_equal. unfold number_of_halves.
  rewrite Z.add_comm, Z.mod_add, Z.mod_mod by lia. reflexivity.
Qed.

Lemma toString_ok m u : toString m u = Ok (uuid_text (num u)).
Proof.
  unfold toString. change 8 with (Z.of_nat 8). change 4 with (Z.of_nat 4). change 12 with (Z.of_nat 12).
  rewrite !digits_ok by lia. cbn [bind]. unfold uuid_text, num. rewrite !Z.shiftr_div_pow2 by lia.
  change (2 ^ 96) with (2 ^ (64 + 32)). change (2 ^ 80) with (2 ^ (64 + 16)). change (2 ^ 64) with (2 ^ (64 + 0)).
  rewrite (hex_hi 8 32), (hex_hi 4 16), (hex_hi 4 0) by lia. rewrite (hex_lo 4 48) by lia.
  pose proof (hex_lo 12 0 (mostSigBits u) (leastSigBits u)) as E. rewrite !Z.div_1_r in *. rewrite E by lia. reflexivity.
Qed.

(** ** UUID.fromString *)

Lemma occurs_dash a b : ~ In 45 a -> forall i, i < zlen a -> ~ occurs [45] (a ++ b) i.
Proof.
  intros N i I (x & y & E & L). apply N. assert (H : nth_error (a ++ b) (length x) = Some 45).
  { rewrite E, nth_error_app2, Nat.sub_diag by lia. reflexivity. }
  rewrite nth_error_app1 in H by (unfold zlen in *; lia). eapply nth_error_In; eassumption.
Qed.
Lemma splits_dash l : l <> [] -> Forall (fun a => ~ In 45 a) l -> forall s r, s = joined [45] l -> splits [45] s r -> r = l.
Proof.
  induction l as [|a l IH]; [congruence|]. intros _ A s r E SP. inversion A as [|? ? A1 A2]; subst.
  destruct l as [|b l].
  - cbn [joined] in SP. inversion SP as [s0 NO|x y r0 BEF SP2 EQ]; subst; [reflexivity|]. exfalso. apply A1. apply in_app_iff. right. left. reflexivity.
  - change (joined [45] (a :: b :: l)) with (a ++ [45] ++ joined [45] (b :: l)) in SP.
    remember (joined [45] (b :: l)) as rest eqn:RE. inversion SP as [s0 NO EQ|x y r0 BEF SP2 EQ].
    + exfalso. apply (NO (zlen a)). exists a, rest. auto.
    + assert (LE : length x = length a).
      { destruct (Nat.lt_trichotomy (length x) (length a)) as [L|[L|L]]; [|exact L|].
        - exfalso. apply (occurs_dash a ([45] ++ rest) A1 (zlen x)); [unfold zlen; lia|]. exists x, y. split; [symmetry; exact EQ | reflexivity].
        - exfalso. apply (BEF (zlen a)); [unfold zlen; lia|]. exists a, rest. split; [exact EQ | reflexivity]. }
      assert (XA : x = a). { apply (f_equal (firstn (length a))) in EQ. rewrite !firstn_app in EQ. rewrite LE, Nat.sub_diag, !firstn_O, !app_nil_r, firstn_all, <- LE, firstn_all in EQ. exact EQ. }
      subst x. apply app_inv_head in EQ. injection EQ as EQ. f_equal. apply (IH ltac:(discriminate) A2 y); [congruence | assumption].
Qed.
Lemma split_dash (l : list str) : l <> [] -> Forall (fun a => ~ In 45 a) l -> forall f, (length (joined [45%Z] l) < f)%nat -> split f (joined [45] l) [45] = Ok l.
Proof.
  intros NE A f F. destruct (C39_split (joined [45] l) [45] f) as (r & E & SP); [discriminate | unfold zlen; lia|].
  rewrite E. f_equal. eapply splits_dash; eauto.
Qed.
Lemma hex_no_dash n v : ~ In 45 (hex n v).
Proof.
  intros I. pose proof (hex_chars n v) as F. rewrite Forall_forall in F. destruct (F 45 I) as (d & D & E). destruct (hexchar_facts d D) as (_ & _ & N & _). congruence.
Qed.
Lemma decode_hex m n v : (0 < n <= 12)%nat -> decode m ([48; 120] ++ hex n v) = Ok (v mod 16 ^ Z.of_nat n).
Proof.
  intros N. rewrite <- hex_mod. assert (P : 0 < 16 ^ Z.of_nat n) by (apply Z.pow_pos_nonneg; lia).
  assert (P1 : 16 ^ Z.of_nat n <= 16 ^ 12) by (apply Z.pow_le_mono_r; lia). change (16 ^ 12) with 281474976710656 in P1.
  assert (R : 0 <= v mod 16 ^ Z.of_nat n < 16 ^ Z.of_nat n) by (apply Z.mod_pos_bound; lia).
  destruct (hex_numeral n _ ltac:(lia) R) as (NU & LO).
  apply (C09_decode_partial m [] [48; 120] 16 _ _); auto.
  - left. auto.
  - unfold zlen. rewrite hex_length. lia.
  - unfold long_max. lia.
Qed.

Lemma shl_join m a w n b : 0 <= n < 64 -> 0 <= a < 2 ^ w -> 0 <= w -> w + n <= 64 -> 0 <= b < 2 ^ n ->
  exists x, sshl m 64 a n = Ok x /\ Z.lor x b = wrap 64 (a * 2 ^ n + b).
Proof.
  intros N A W WN B. assert (AN : a * 2 ^ n < 2 ^ 64).
  { apply Z.lt_le_trans with (2 ^ w * 2 ^ n); [apply Z.mul_lt_mono_pos_r; [apply Z.pow_pos_nonneg; lia | lia]|]. rewrite <- Z.pow_add_r by lia. apply Z.pow_le_mono_r; lia. }
  assert (P : 0 < 2 ^ n) by (apply Z.pow_pos_nonneg; lia).
  exists (wrap 64 (a * 2 ^ n)). split.
  - unfold sshl. destruct m.
    + rewrite Z.shiftl_mul_pow2 by lia.
      repeat match goal with |- context [?a <=? ?b] => destruct (Z.leb_spec a b); try lia | |- context [?a <? ?b] => destruct (Z.ltb_spec a b); try nia end. reflexivity.
    + rewrite Z.mod_small by lia. rewrite Z.shiftl_mul_pow2 by lia. reflexivity.
  - assert (Q : 2 ^ (64 - n) * 2 ^ n = 2 ^ 64) by (rewrite <- Z.pow_add_r by lia; f_equal; lia).
    assert (SUM : a * 2 ^ n + b < 2 ^ 64) by nia.
    assert (U : forall y, 2 ^ 63 <= y < 2 ^ 64 -> wrap 64 y = y - 2 ^ 64).
    { intros y Y. transitivity (wrap 64 (y - 2 ^ 64)); [|apply wrap_id; [lia | unfold in_s, smin, smax; lia]]. apply wrap_eq_mod; [lia|].
      replace y with (y - 2 ^ 64 + 1 * 2 ^ 64) at 1 by lia. rewrite Z.mod_add by lia. reflexivity. }
    destruct (Z.lt_ge_cases (a * 2 ^ n) (2 ^ 63)) as [L|L].
    + assert (b + a * 2 ^ n < 2 ^ 63).
      { assert (Q2 : 2 ^ (63 - n) * 2 ^ n = 2 ^ 63) by (rewrite <- Z.pow_add_r by lia; f_equal; lia). nia. }
      rewrite !wrap_id by (try lia; unfold in_s, smin, smax; nia). rewrite <- Z.shiftl_mul_pow2 by lia. rewrite lor_shiftl_add by lia. rewrite Z.shiftl_mul_pow2 by lia. reflexivity.
    + rewrite !U by lia. replace (a * 2 ^ n - 2 ^ 64) with (Z.shiftl (a - 2 ^ (64 - n)) n) by (rewrite Z.shiftl_mul_pow2 by lia; nia).
      rewrite lor_shiftl_add by lia. lia.
Qed.

Lemma fromString_ok m u : half_ok u -> fromString m (uuid_text (num u)) = Ok u.
Proof.
  intros (HH & HL). unfold fromString. pose (parts := [hex 8 (num u / 2 ^ 96); hex 4 (num u / 2 ^ 80); hex 4 (num u / 2 ^ 64); hex 4 (num u / 2 ^ 48); hex 12 (num u)]).
  assert (E : uuid_text (num u) = joined [45] parts) by (unfold uuid_text, parts, joined; reflexivity). rewrite E.
  rewrite split_dash; [|discriminate| |lia].
  2: { unfold parts. repeat (constructor; [apply hex_no_dash|]). constructor. }
  clear E. cbn [bind]. unfold parts. clear parts.
  set (N := num u). change (hex 8 ?x) with (hex 8 x).
  rewrite (decode_hex m 8), !(decode_hex m 4), (decode_hex m 12) by lia. cbn [bind Z.of_nat Pos.of_succ_nat Pos.succ].
  change (16 ^ 8) with (2 ^ 32). change (16 ^ 4) with (2 ^ 16). change (16 ^ 12) with (2 ^ 48).
  set (d0 := (N / 2 ^ 96) mod 2 ^ 32). set (d1 := (N / 2 ^ 80) mod 2 ^ 16). set (d2 := (N / 2 ^ 64) mod 2 ^ 16). set (d3 := (N / 2 ^ 48) mod 2 ^ 16). set (d4 := N mod 2 ^ 48).
  assert (0 <= d0 < 2 ^ 32 /\ 0 <= d1 < 2 ^ 16 /\ 0 <= d2 < 2 ^ 16 /\ 0 <= d3 < 2 ^ 16 /\ 0 <= d4 < 2 ^ 48) as (R0 & R1 & R2 & R3 & R4) by (repeat split; apply Z.mod_pos_bound; lia).
  destruct (shl_join m d0 32 16 d1) as (x1 & S1 & J1); try lia. rewrite S1. cbn [bind]. rewrite J1.
  rewrite wrap_id by (try lia; unfold in_s, smin, smax; lia).
  destruct (shl_join m (d0 * 2 ^ 16 + d1) 48 16 d2) as (x2 & S2 & J2); try lia. rewrite S2. cbn [bind].
  destruct (shl_join m d3 16 48 d4) as (x3 & S3 & J3); try lia. rewrite S3. cbn [bind]. rewrite J2, J3.
  destruct u as [h l]. unfold N, num, number_of_halves in *. cbn [mostSigBits leastSigBits] in *.
  assert (L : 0 <= l mod 2 ^ 64 < 2 ^ 64) by (apply Z.mod_pos_bound; lia). assert (H : 0 <= h mod 2 ^ 64 < 2 ^ 64) by (apply Z.mod_pos_bound; lia).
  set (hh := h mod 2 ^ 64) in *. set (ll := l mod 2 ^ 64) in *.
  assert (EH : (d0 * 2 ^ 16 + d1) * 2 ^ 16 + d2 = hh).
  { unfold d0, d1, d2, N. clear - L H. change (2 ^ 96) with 79228162514264337593543950336. change (2 ^ 80) with 1208925819614629174706176. change (2 ^ 64) with 18446744073709551616 in *. change (2 ^ 32) with 4294967296. change (2 ^ 16) with 65536. Z.to_euclidean_division_equations; lia. }
  assert (EL : d3 * 2 ^ 48 + d4 = ll).
  { unfold d3, d4, N. clear - L H. change (2 ^ 64) with 18446744073709551616 in *. change (2 ^ 48) with 281474976710656. change (2 ^ 16) with 65536. Z.to_euclidean_division_equations; lia. }
  rewrite EH, EL. unfold hh, ll. f_equal. f_equal.
  - rewrite <- (wrap_id 64 h) at 2 by (try lia; unfold is_long, long_min, long_max in HH; unfold in_s, smin, smax; lia). apply wrap_eq_mod; [lia|]. apply Z.mod_mod. lia.
  - rewrite <- (wrap_id 64 l) at 2 by (try lia; unfold is_long, long_min, long_max in HL; unfold in_s, smin, smax; lia). apply wrap_eq_mod; [lia|]. apply Z.mod_mod. lia.
Qed.
