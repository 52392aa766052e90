(** Proofs about Math. *)

From Coq Require Import ZArith List Lia Bool.
From Verif Require Import Base Bits MathModel.
Import ListNotations.
Open Scope Z_scope.

Lemma land_neg a b : (Z.land a b <? 0) = (a <? 0) && (b <? 0).
Proof.
  destruct (Z.ltb_spec (Z.land a b) 0) as [H|H].
  - apply Z.land_neg in H. lia.
  - apply Z.land_nonneg in H. lia.
Qed.
Lemma lxor_neg a b : (Z.lxor a b <? 0) = xorb (a <? 0) (b <? 0).
Proof.
  destruct (Z.ltb_spec (Z.lxor a b) 0) as [H|H].
  - assert (~ 0 <= Z.lxor a b) by lia. rewrite Z.lxor_nonneg in H0.
    destruct (Z.ltb_spec a 0), (Z.ltb_spec b 0); auto; exfalso; apply H0; lia.
  - apply Z.lxor_nonneg in H. destruct (Z.ltb_spec a 0), (Z.ltb_spec b 0); auto; lia.
Qed.

(** A value outside the range by less than 2^w wraps to the other side. *)
Lemma wrap_over w x : 0 < w -> smax w < x < smax w + 2 ^ w -> wrap w x = x - 2 ^ w.
Proof.
  intros Hw H. unfold smax, wrap in *. rewrite <- (Z.mod_unique (x + 2 ^ (w - 1)) (2 ^ w) 1 (x + 2 ^ (w - 1) - 2 ^ w)); [lia| |lia].
  pose proof (pow2_double w Hw). lia.
Qed.
Lemma wrap_under w x : 0 < w -> smin w - 2 ^ w <= x < smin w -> wrap w x = x + 2 ^ w.
Proof.
  intros Hw H. unfold smin, wrap in *. rewrite <- (Z.mod_unique (x + 2 ^ (w - 1)) (2 ^ w) (-1) (x + 2 ^ (w - 1) + 2 ^ w)); [lia| |lia].
  pose proof (pow2_double w Hw). lia.
Qed.

Definition exact (w x : Z) : outcome Z := if in_sb w x then Ok x else Throw ArithmeticException.

Lemma addExact_HW w a b : 0 < w -> in_s w a -> in_s w b -> addExact HW w a b = exact w (a + b).
Proof.
  intros Hw [Ha1 Ha2] [Hb1 Hb2]. unfold addExact, sadd, exact. rewrite sres_HW by auto. cbn [bind].
  rewrite land_neg, !lxor_neg. pose proof (pow2_double w Hw) as D. pose proof (pow2_pos (w - 1) ltac:(lia)) as P.
  unfold smin, smax in *.
  destruct (Z.lt_ge_cases (smax w) (a + b)) as [O|O]; [|destruct (Z.lt_ge_cases (a + b) (smin w)) as [U|U]].
  - rewrite wrap_over by (auto; unfold smax in *; lia). unfold in_sb. unfold smin, smax in *.
    replace (_ && (a + b <=? _)) with false by lia.
    destruct (Z.ltb_spec a 0), (Z.ltb_spec b 0), (Z.ltb_spec (a + b - 2 ^ w) 0); cbn [xorb andb]; try reflexivity; lia.
  - rewrite wrap_under by (auto; unfold smin in *; lia). unfold in_sb. unfold smin, smax in *.
    replace (_ && (a + b <=? _)) with false by lia.
    destruct (Z.ltb_spec a 0), (Z.ltb_spec b 0), (Z.ltb_spec (a + b + 2 ^ w) 0); cbn [xorb andb]; try reflexivity; lia.
  - rewrite wrap_id by (auto; split; auto). unfold in_sb. replace ((smin w <=? _) && _) with true by lia.
    destruct (Z.ltb_spec a 0), (Z.ltb_spec b 0), (Z.ltb_spec (a + b) 0); cbn [xorb andb]; try reflexivity; lia.
Qed.
Lemma subtractExact_HW w a b : 0 < w -> in_s w a -> in_s w b -> subtractExact HW w a b = exact w (a - b).
Proof.
  intros Hw [Ha1 Ha2] [Hb1 Hb2]. unfold subtractExact, ssub, exact. rewrite sres_HW by auto. cbn [bind].
  rewrite land_neg, !lxor_neg. pose proof (pow2_double w Hw) as D. pose proof (pow2_pos (w - 1) ltac:(lia)) as P.
  unfold smin, smax in *.
  destruct (Z.lt_ge_cases (smax w) (a - b)) as [O|O]; [|destruct (Z.lt_ge_cases (a - b) (smin w)) as [U|U]].
  - rewrite wrap_over by (auto; unfold smax in *; lia). unfold in_sb. unfold smin, smax in *.
    replace (_ && (a - b <=? _)) with false by lia.
    destruct (Z.ltb_spec a 0), (Z.ltb_spec b 0), (Z.ltb_spec (a - b - 2 ^ w) 0); cbn [xorb andb]; try reflexivity; lia.
  - rewrite wrap_under by (auto; unfold smin in *; lia). unfold in_sb. unfold smin, smax in *.
    replace (_ && (a - b <=? _)) with false by lia.
    destruct (Z.ltb_spec a 0), (Z.ltb_spec b 0), (Z.ltb_spec (a - b + 2 ^ w) 0); cbn [xorb andb]; try reflexivity; lia.
  - rewrite wrap_id by (auto; split; auto). unfold in_sb. replace ((smin w <=? _) && _) with true by lia.
    destruct (Z.ltb_spec a 0), (Z.ltb_spec b 0), (Z.ltb_spec (a - b) 0); cbn [xorb andb]; try reflexivity; lia.
Qed.
(** ISO: the overflowing computation itself is undefined. *)
Lemma addsub_iso w a b : 0 < w -> in_s w a -> in_s w b ->
  addExact ISO w a b = (if in_sb w (a + b) then Ok (a + b) else UB SignedOverflow) /\
  subtractExact ISO w a b = (if in_sb w (a - b) then Ok (a - b) else UB SignedOverflow).
Proof.
  intros Hw Ha Hb. split.
  - destruct (in_sb w (a + b)) eqn:E.
    + pose proof (addExact_HW w a b Hw Ha Hb) as H. unfold exact in H. rewrite E in H. rewrite <- H.
      apply in_s_b in E. unfold addExact, sadd. rewrite !sres_ok by auto. reflexivity.
    + apply in_s_nb in E. unfold addExact, sadd. rewrite sres_ISO_ub by auto. reflexivity.
  - destruct (in_sb w (a - b)) eqn:E.
    + pose proof (subtractExact_HW w a b Hw Ha Hb) as H. unfold exact in H. rewrite E in H. rewrite <- H.
      apply in_s_b in E. unfold subtractExact, ssub. rewrite !sres_ok by auto. reflexivity.
    + apply in_s_nb in E. unfold subtractExact, ssub. rewrite sres_ISO_ub by auto. reflexivity.
Qed.
Lemma incdecneg_ok m w a : 0 < w -> in_s w a ->
  incrementExact m w a = exact w (a + 1) /\ decrementExact m w a = exact w (a - 1) /\
  negateExact m w a = exact w (- a).
Proof.
  intros Hw [H1 H2]. unfold incrementExact, decrementExact, negateExact, exact, sadd, ssub, sneg, in_sb.
  pose proof (pow2_pos (w - 1) ltac:(lia)) as P. unfold smin, smax in *. repeat split.
  - destruct (Z.eqb_spec a (2 ^ (w - 1) - 1)).
    + replace (_ && _) with false by lia. auto.
    + replace (_ && _) with true by lia. apply sres_ok. unfold in_s, smin, smax. lia.
  - destruct (Z.eqb_spec a (- 2 ^ (w - 1))).
    + replace (_ && _) with false by lia. auto.
    + replace (_ && _) with true by lia. apply sres_ok. unfold in_s, smin, smax. lia.
  - destruct (Z.eqb_spec a (- 2 ^ (w - 1))).
    + replace (_ && _) with false by lia. auto.
    + replace (_ && _) with true by lia. apply sres_ok. unfold in_s, smin, smax. lia.
Qed.

Ltac isl := apply (proj1 (is_long_s _)); unfold is_long, long_min, long_max.
Ltac isi := apply (proj1 (is_int_s _)); unfold is_int, int_min, int_max.

(** The sign test used by multiplyExact(int) and toIntExact. *)
Lemma wrap32_above r : int_max < r -> wrap 32 r < r.
Proof. intros H. pose proof (wrap_range 32 r ltac:(lia)) as W. apply (proj2 (is_int_s _)) in W. unfold is_int in W. lia. Qed.
Lemma wrap32_below r : r < int_min -> r < wrap 32 r.
Proof. intros H. pose proof (wrap_range 32 r ltac:(lia)) as W. apply (proj2 (is_int_s _)) in W. unfold is_int in W. lia. Qed.

Lemma multiplyExact_int_ok m a b : is_int a -> is_int b ->
  multiplyExact_int m a b =
    if int_max <? a * b then Throw ArithmeticException
    else Ok (if int_min <=? a * b then a * b else wrap 32 (a * b)).
Proof.
  intros Ha Hb. unfold multiplyExact_int, smul, ssub. unfold is_int, int_min, int_max in Ha, Hb.
  assert (R : - 2 ^ 62 <= a * b <= 2 ^ 62) by nia.
  rewrite sres_ok by (isl; lia). cbn [bind].
  pose proof (wrap_range 32 (a * b) ltac:(lia)) as W. apply (proj2 (is_int_s _)) in W. unfold is_int in W.
  rewrite sres_ok by (unfold int_min, int_max in W; isl; lia). cbn [bind].
  destruct (Z.ltb_spec int_max (a * b)) as [O|O].
  - pose proof (wrap32_above _ O). replace (0 <? _) with true by lia. auto.
  - destruct (Z.leb_spec int_min (a * b)) as [U|U].
    + rewrite wrap_id by (try lia; isi; unfold int_min, int_max in *; lia). rewrite Z.sub_diag. reflexivity.
    + pose proof (wrap32_below _ U). replace (0 <? _) with false by lia. auto.
Qed.

(** toIntExact: the difference is a multiple of 2^32; close to MAX_VALUE it
    overflows. *)
Lemma toIntExact_ok m v : is_long v ->
  toIntExact m v =
    if (int_min <=? v) && (v <=? int_max) then Ok v
    else if v <? int_min then Ok (wrap 32 v)
    else if v <? 2 ^ 63 - 2 ^ 31 then Throw ArithmeticException
    else match m with ISO => UB SignedOverflow | HW => Ok (wrap 32 v) end.
Proof.
  intros Hv. unfold toIntExact, ssub. unfold is_long, long_min, long_max in Hv.
  pose proof (wrap_range 32 v ltac:(lia)) as W. apply (proj2 (is_int_s _)) in W.
  assert (E : exists k, v = wrap 32 v + k * 2 ^ 32).
  { exists ((v + 2 ^ 31) / 2 ^ 32). unfold wrap. change (2 ^ (32 - 1)) with (2 ^ 31).
    pose proof (Z.div_mod (v + 2 ^ 31) (2 ^ 32) ltac:(lia)). lia. }
  destruct E as [k E]. set (x := wrap 32 v) in *. unfold is_int, int_min, int_max in *.
  destruct ((-2147483648 <=? v) && (v <=? 2147483647)) eqn:F.
  - unfold x. rewrite wrap_id by (try lia; isi; lia). rewrite Z.sub_diag.
    rewrite sres_ok by (isl; lia). reflexivity.
  - destruct (Z.ltb_spec v (-2147483648)).
    + assert (- 2 ^ 31 <= k <= -1) by lia. rewrite sres_ok by (isl; lia). cbn [bind].
      replace (0 <? v - x) with false by lia. auto.
    + destruct (Z.ltb_spec v (2 ^ 63 - 2 ^ 31)).
      * assert (1 <= k <= 2 ^ 31 - 1) by lia. rewrite sres_ok by (isl; lia). cbn [bind].
        replace (0 <? v - x) with true by lia. auto.
      * assert (k = 2 ^ 31) by lia. subst k. assert (v - x = 2 ^ 63) by lia. rewrite H1. destruct m; reflexivity.
Qed.

(** multiplyExact(long) *)
Definition low_word_big (x : Z) : bool := 2 ^ 31 <=? Z.abs x mod 2 ^ 32.
Lemma abs_HW x : is_long x -> exists y, abs HW 64 x = Ok y /\ uwrap 32 y = Z.abs x mod 2 ^ 32.
Proof.
  intros Hx. unfold abs, sneg. destruct (Z.leb_spec 0 x).
  - exists x. split; auto. unfold uwrap. rewrite Z.abs_eq by auto. auto.
  - rewrite sres_HW by lia. eexists. split; [reflexivity|]. rewrite Z.abs_neq by lia.
    destruct (Z.eq_dec x long_min) as [->|N]; [reflexivity|].
    rewrite wrap_id; [reflexivity|lia|]. unfold is_long, long_min, long_max in *. isl; lia.
Qed.
Lemma lor_shiftr31 u v : 0 <= u < 2 ^ 32 -> 0 <= v < 2 ^ 32 ->
  negb (Z.shiftr (Z.lor u v) 31 =? 0) = (2 ^ 31 <=? u) || (2 ^ 31 <=? v).
Proof.
  intros Hu Hv. rewrite Z.shiftr_lor.
  assert (S : forall u, 0 <= u < 2 ^ 32 -> Z.shiftr u 31 = if 2 ^ 31 <=? u then 1 else 0).
  { intros x Hx. rewrite Z.shiftr_div_pow2 by lia. destruct (Z.leb_spec (2 ^ 31) x).
    - symmetry. apply Z.div_unique with (x - 2 ^ 31); lia.
    - apply Z.div_small; lia. }
  rewrite !S by auto. destruct (2 ^ 31 <=? u), (2 ^ 31 <=? v); reflexivity.
Qed.
Lemma quot_detects a b r : in_s 64 a -> in_s 64 b -> b <> 0 -> r = wrap 64 (a * b) ->
  Z.quot r b = a -> r = a * b.
Proof.
  intros Ha Hb Nb -> Hq. apply (proj2 (is_long_s _)) in Ha, Hb. unfold is_long, long_min, long_max in *.
  assert (E : exists k, a * b = wrap 64 (a * b) + k * 2 ^ 64).
  { exists ((a * b + 2 ^ 63) / 2 ^ 64). unfold wrap. change (2 ^ (64 - 1)) with (2 ^ 63).
    pose proof (Z.div_mod (a * b + 2 ^ 63) (2 ^ 64) ltac:(lia)). lia. }
  destruct E as [k E]. set (r := wrap 64 (a * b)) in *.
  pose proof (Z.quot_rem r b Nb) as QR. rewrite Hq in QR.
  pose proof (Z.rem_bound_abs r b Nb) as RB. rewrite (Z.mul_comm b a) in QR. lia.
Qed.
Lemma multiplyExact_long_HW a b : is_long a -> is_long b ->
  multiplyExact_long HW a b =
    if in_sb 64 (a * b) then Ok (a * b)
    else if ((a =? long_min) && (b =? -1)) || low_word_big a || low_word_big b then Throw ArithmeticException
    else Ok (wrap 64 (a * b)).
Proof.
  intros Ha Hb. unfold multiplyExact_long.
  destruct ((a =? long_min) && (b =? -1)) eqn:E0.
  { assert (a = long_min /\ b = -1) as [-> ->] by lia. reflexivity. }
  unfold smul. rewrite sres_HW by lia. cbn [bind].
  destruct (abs_HW a Ha) as (ya & -> & Ua). destruct (abs_HW b Hb) as (yb & -> & Ub). cbn [bind].
  rewrite Ua, Ub. rewrite lor_shiftr31 by (apply Z.mod_pos_bound; lia).
  fold (low_word_big a) (low_word_big b). cbn [orb].
  pose proof (proj1 (is_long_s a) Ha) as Ha'. pose proof (proj1 (is_long_s b) Hb) as Hb'.
  destruct (in_sb 64 (a * b)) eqn:F.
  - apply in_s_b in F. rewrite wrap_id by (auto; lia).
    destruct (low_word_big a || low_word_big b); auto.
    destruct (Z.eqb_spec b 0) as [->|Nb]; auto.
    assert (Q : Z.quot (a * b) b = a) by (apply Z.quot_mul; auto).
    unfold sdiv. replace (b =? 0) with false by lia. rewrite Q. apply in_s_b in Ha'. rewrite Ha'. cbn [bind].
    rewrite Z.eqb_refl. reflexivity.
  - apply in_s_nb in F. destruct (low_word_big a || low_word_big b); auto.
    assert (Nb : b <> 0). { intros ->. apply F. rewrite Z.mul_0_r. isl; lia. }
    replace (b =? 0) with false by lia. unfold sdiv. replace (b =? 0) with false by lia.
    pose proof (wrap_range 64 (a * b) ltac:(lia)) as W.
    assert (N : wrap 64 (a * b) <> a * b) by (intros C; apply F; rewrite <- C; auto).
    assert (Q : in_s 64 (Z.quot (wrap 64 (a * b)) b)).
    { set (r := wrap 64 (a * b)) in *. apply (proj2 (is_long_s _)) in W. unfold is_long, long_min, long_max in *.
      destruct (Z.eq_dec b (-1)) as [->|Nb1].
      - exfalso. apply F. isl. lia.
      - destruct (Z.eq_dec b 1) as [->|Nb2]; [rewrite Z.quot_1_r; isl; lia|].
        assert (A : Z.abs (Z.quot r b) < 2 ^ 63); [|isl; lia].
        rewrite <- Z.quot_abs by lia. rewrite Z.quot_div_nonneg by lia. apply Z.div_lt_upper_bound; lia. }
    apply in_s_b in Q. rewrite Q. cbn [bind].
    destruct (Z.eqb_spec (Z.quot (wrap 64 (a * b)) b) a) as [C|C]; [|reflexivity].
    exfalso. apply N. eapply quot_detects; eauto.
Qed.
(** ISO: exact product or undefined (also for abs(MIN_VALUE)). *)
Lemma multiplyExact_long_iso a b : is_long a -> is_long b -> ~ (a = long_min /\ b = -1) -> ~ in_s 64 (a * b) ->
  multiplyExact_long ISO a b = UB SignedOverflow.
Proof.
  intros Ha Hb N F. unfold multiplyExact_long. replace ((a =? long_min) && (b =? -1)) with false by lia.
  unfold smul. rewrite sres_ISO_ub by auto. reflexivity.
Qed.

(** ** floorDiv *)

Lemma quot_floor a b : b <> 0 ->
  Z.quot a b = if (Z.lxor a b <? 0) && negb (a mod b =? 0) then a / b + 1 else a / b.
Proof.
  intros Hb. rewrite lxor_neg.
  pose proof (Z.div_mod a b Hb) as D. pose proof (Z.quot_rem a b Hb) as Q.
  set (d := a / b) in *. set (q := Z.quot a b) in *. set (r := a mod b) in *. set (e := Z.rem a b) in *.
  assert (MR : (0 <= r < b) \/ (b < r <= 0)).
  { unfold r. destruct (Z.lt_ge_cases 0 b); [left; apply Z.mod_pos_bound; auto|right; apply Z.mod_neg_bound; lia]. }
  assert (RB : Z.abs e < Z.abs b) by (apply Z.rem_bound_abs; auto).
  assert (RS : (0 <= a -> 0 <= e) /\ (a <= 0 -> e <= 0)).
  { unfold e. split; intros; [apply Z.rem_nonneg; auto|apply Z.rem_nonpos; auto]. }
  assert (K : b * (q - d) = r - e) by lia. set (k := q - d) in *.
  assert (E : q = d + k) by (unfold k; lia). clearbody k d q r e. clear D Q. rewrite E. clear E.
  assert (KB : -2 < k < 2) by nia.
  assert (k = -1 \/ k = 0 \/ k = 1) as [-> |[-> | ->]] by lia;
  destruct (Z.ltb_spec a 0), (Z.ltb_spec b 0), (Z.eqb_spec r 0); cbn [xorb negb andb]; lia.
Qed.
Lemma quot_range w a b : 1 < w -> in_s w a -> in_s w b -> b <> 0 -> ~ (a = smin w /\ b = -1) -> in_s w (Z.quot a b).
Proof.
  intros Hw [A1 A2] [B1 B2] Hb N. pose proof (pow2_pos (w - 1) ltac:(lia)) as P.
  unfold smin, smax in *. unfold in_s, smin, smax.
  destruct (Z.eq_dec b 1) as [->|N1]; [rewrite Z.quot_1_r; lia|].
  destruct (Z.eq_dec b (-1)) as [->|N2].
  - change (-1) with (- (1)). rewrite Z.quot_opp_r, Z.quot_1_r by lia. lia.
  - assert (A : Z.abs (Z.quot a b) < 2 ^ (w - 1)); [|lia].
    rewrite <- Z.quot_abs by lia. rewrite Z.quot_div_nonneg by lia. apply Z.div_lt_upper_bound; nia.
Qed.
Lemma floorDiv_ok m w a b : 1 < w -> in_s w a -> in_s w b ->
  floorDiv m w a b = if b =? 0 then Throw ArithmeticException
                     else if (a =? smin w) && (b =? -1) then UB SignedOverflow else Ok (a / b).
Proof.
  intros Hw Ha Hb. unfold floorDiv. destruct (Z.eqb_spec b 0) as [E|Nb]; auto.
  unfold sdiv. replace (b =? 0) with false by lia.
  destruct ((a =? smin w) && (b =? -1)) eqn:E.
  - assert (a = smin w /\ b = -1) as [-> ->] by lia.
    replace (in_sb w (Z.quot (smin w) (-1))) with false; [reflexivity|].
    symmetry. apply in_s_nb. change (-1) with (- (1)). rewrite Z.quot_opp_r, Z.quot_1_r by lia.
    unfold in_s, smin, smax. lia.
  - pose proof (quot_range w a b Hw Ha Hb Nb ltac:(lia)) as R.
    pose proof R as R'. apply in_s_b in R'. rewrite R'. cbn [bind]. clear R'.
    pose proof (quot_floor a b Nb) as QF. pose proof (Z.quot_rem a b Nb) as Q.
    pose proof (Z.div_mod a b Nb) as D.
    destruct (Z.lxor a b <? 0) eqn:X; cbn [andb] in QF; [|rewrite QF; auto].
    assert (PR : in_s w (Z.quot a b * b)).
    { destruct Ha as [A1 A2]. pose proof (pow2_pos (w - 1) ltac:(lia)).
      assert (RS : 0 <= Z.rem a b * a) by (apply Z.rem_sign_mul; auto).
      rewrite lxor_neg in X. unfold in_s, smin, smax in *.
      assert (RA : Z.abs (Z.rem a b) <= Z.abs a).
      { rewrite <- Z.rem_abs by auto. apply Z.rem_le; lia. }
      destruct (Z.ltb_spec a 0); nia. }
    unfold smul. rewrite sres_ok by auto. cbn [bind].
    destruct (Z.eqb_spec (a mod b) 0) as [M|M]; cbn [negb] in QF.
    + replace (Z.quot a b * b =? a) with true by nia. cbn [negb]. rewrite QF. auto.
    + replace (Z.quot a b * b =? a) with false.
      2:{ symmetry. apply Z.eqb_neq. intros C. apply M. rewrite <- C. apply Z.mod_mul; auto. }
      cbn [negb]. unfold ssub. rewrite sres_ok; [f_equal; lia|].
      rewrite QF. replace (a / b + 1 - 1) with (a / b) by lia.
      (* a / b >= smin: |a/b| <= |a| when signs differ *)
      destruct Ha as [A1 A2]. pose proof (pow2_pos (w - 1) ltac:(lia)). rewrite lxor_neg in X. unfold in_s, smin, smax in *.
      assert (b < 0 /\ 0 <= a \/ 0 < b /\ a < 0) as S by (destruct (Z.ltb_spec a 0), (Z.ltb_spec b 0); cbn in X; try discriminate; lia).
      assert (MR : (0 <= a mod b < b) \/ (b < a mod b <= 0)).
      { destruct (Z.lt_ge_cases 0 b); [left; apply Z.mod_pos_bound; auto|right; apply Z.mod_neg_bound; lia]. }
      destruct S as [[S1 S2]|[S1 S2]]; nia.
Qed.
Lemma floorMod_ok w a b : 1 < w -> in_s w a -> in_s w b ->
  floorMod HW w a b = if b =? 0 then Throw ArithmeticException
                      else if (a =? smin w) && (b =? -1) then UB SignedOverflow else Ok (a mod b).
Proof.
  intros Hw Ha Hb. unfold floorMod. rewrite floorDiv_ok by auto.
  destruct (Z.eqb_spec b 0) as [E|Nb]; auto. destruct ((a =? smin w) && (b =? -1)) eqn:E; auto. cbn [bind].
  unfold smul, ssub. rewrite sres_HW by lia. cbn [bind]. rewrite sres_HW by lia. f_equal.
  assert (M : a mod b = a - a / b * b) by (pose proof (Z.div_mod a b Nb); lia).
  assert (R : in_s w (a mod b)).
  { destruct Hb as [B1 B2]. pose proof (pow2_pos (w - 1) ltac:(lia)). unfold in_s, smin, smax in *.
    destruct (Z.lt_ge_cases 0 b); [pose proof (Z.mod_pos_bound a b ltac:(lia))|pose proof (Z.mod_neg_bound a b ltac:(lia))]; lia. }
  rewrite <- (wrap_id w (a mod b)) by (auto; lia). rewrite M. apply wrap_eq_mod; [lia|].
  rewrite <- Zminus_mod_idemp_r. rewrite wrap_mod by lia. rewrite Zminus_mod_idemp_r. auto.
Qed.
Lemma floorMod_iso w a b : 1 < w -> in_s w a -> in_s w b -> b <> 0 -> ~ (a = smin w /\ b = -1) ->
  floorMod ISO w a b = if in_sb w (a / b * b) then Ok (a mod b) else UB SignedOverflow.
Proof.
  intros Hw Ha Hb Nb N. unfold floorMod. rewrite floorDiv_ok by auto. replace (b =? 0) with false by lia.
  replace ((a =? smin w) && (b =? -1)) with false by lia. cbn [bind]. unfold smul.
  destruct (in_sb w (a / b * b)) eqn:E.
  - apply in_s_b in E. rewrite sres_ok by auto. cbn [bind].
    assert (M : a - a / b * b = a mod b) by (pose proof (Z.div_mod a b Nb); lia).
    unfold ssub. rewrite M. apply sres_ok.
    destruct Hb as [B1 B2]. pose proof (pow2_pos (w - 1) ltac:(lia)). unfold in_s, smin, smax in *.
    destruct (Z.lt_ge_cases 0 b); [pose proof (Z.mod_pos_bound a b ltac:(lia))|pose proof (Z.mod_neg_bound a b ltac:(lia))]; lia.
  - apply in_s_nb in E. rewrite sres_ISO_ub by auto. reflexivity.
Qed.
Lemma abs_ok m w a : 0 < w -> in_s w a -> a <> smin w -> abs m w a = Ok (Z.abs a).
Proof.
  intros Hw [A1 A2] N. unfold abs, sneg. destruct (Z.leb_spec 0 a); [rewrite Z.abs_eq; auto|].
  rewrite Z.abs_neq by lia. apply sres_ok. unfold in_s, smin, smax in *. lia.
Qed.
Lemma max_ok a b : max a b = Z.max a b.
Proof. unfold max. destruct (Z.ltb_spec b a); lia. Qed.
Lemma min_ok a b : min a b = Z.min a b.
Proof. unfold min. destruct (Z.ltb_spec a b); lia. Qed.
