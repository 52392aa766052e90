(** The generator: the model against the documented sequence, and the full
    period of the sequence (every state is reached from every state). *)

From Coq Require Import ZArith List Lia Bool.
From Verif Require Import Base Bits BitLemmas RandomSpec RandomModel.
Import ListNotations.
Open Scope Z_scope.

Definition state_ok (x : Z) : Prop := 0 <= x < 2 ^ 48.
Lemma lcg_ok x : state_ok (lcg x).
Proof. apply Z.mod_pos_bound. lia. Qed.
Lemma MASK_val : MASK = 2 ^ 48 - 1.
Proof. reflexivity. Qed.

Lemma scramble_ok s : initialScramble s = scrambled s.
Proof. unfold initialScramble, scrambled. rewrite MASK_val, land_ones_mod by lia. reflexivity. Qed.

Lemma mod_pow_small x y k n : 0 <= k <= n -> x mod 2 ^ n = y mod 2 ^ n -> x mod 2 ^ k = y mod 2 ^ k.
Proof.
  intros K E. assert (D : (2 ^ k | 2 ^ n)) by (exists (2 ^ (n - k)); rewrite <- Z.pow_add_r by lia; f_equal; lia).
  destruct D as (q & D). 
  assert (H : forall z, (z mod 2 ^ n) mod 2 ^ k = z mod 2 ^ k).
  { intros z. pose proof (Z.pow_pos_nonneg 2 k ltac:(lia) ltac:(lia)). pose proof (Z.pow_pos_nonneg 2 n ltac:(lia) ltac:(lia)).
    rewrite (Z.mod_eq z (2 ^ n)) by lia. rewrite D at 1. rewrite <- (Z.mod_add z (- (q * (z / 2 ^ n))) (2 ^ k)) by lia. f_equal. lia. }
  rewrite <- (H x), <- (H y), E. reflexivity.
Qed.

Lemma advance_ok x : advance HW x = Ok (lcg x).
Proof.
  unfold advance, smul, sadd. rewrite !sres_HW by lia. cbn [bind]. rewrite sres_HW by lia. cbn [bind].
  rewrite MASK_val, land_ones_mod by lia. do 2 f_equal. unfold lcg, MULTIPLIER, ADDEND.
  apply (mod_pow_small _ _ 48 64); [lia|]. rewrite wrap_mod by lia.
  rewrite <- Z.add_mod_idemp_l by lia. rewrite wrap_mod by lia. rewrite Z.add_mod_idemp_l by lia. reflexivity.
Qed.

Lemma next_ok x bits : 0 < bits <= 32 -> next HW x bits = Ok (high bits (lcg x), lcg x).
Proof.
  intros B. unfold next. rewrite advance_ok. cbn [bind sshr].
  rewrite (Z.mod_small (48 - bits)) by lia. rewrite Z.shiftr_div_pow2 by lia.
  pose proof (lcg_ok x) as R. unfold state_ok in R. set (y := lcg x) in *.
  assert (V : 0 <= y / 2 ^ (48 - bits) < 2 ^ 32).
  { pose proof (Z.pow_pos_nonneg 2 (48 - bits) ltac:(lia) ltac:(lia)). split; [apply Z.div_pos; lia|].
    apply Z.div_lt_upper_bound; [lia|]. rewrite <- Z.pow_add_r by lia.
    apply Z.lt_le_trans with (2 ^ 48); [lia|]. apply Z.pow_le_mono_r; lia. }
  do 2 f_equal. unfold high. set (v := y / 2 ^ (48 - bits)) in *. destruct (Z.ltb_spec v (2 ^ 31)).
  - apply wrap_id; [lia|]. unfold in_s, smin, smax. lia.
  - transitivity (wrap 32 (v - 2 ^ 32)).
    + apply wrap_eq_mod; [lia|]. rewrite <- (Z.mod_add (v - 2 ^ 32) 1 (2 ^ 32)) by lia. f_equal. lia.
    + apply wrap_id; [lia|]. unfold in_s, smin, smax. lia.
Qed.

Lemma high_small bits x : 0 < bits <= 31 -> state_ok x -> high bits x = x / 2 ^ (48 - bits) /\ 0 <= high bits x < 2 ^ bits.
Proof.
  intros B X. unfold state_ok in X. pose proof (Z.pow_pos_nonneg 2 (48 - bits) ltac:(lia) ltac:(lia)).
  assert (V : 0 <= x / 2 ^ (48 - bits) < 2 ^ bits).
  { split; [apply Z.div_pos; lia|]. apply Z.div_lt_upper_bound; [lia|]. rewrite <- Z.pow_add_r by lia. replace (48 - bits + bits) with 48 by lia. lia. }
  assert (2 ^ bits <= 2 ^ 31) by (apply Z.pow_le_mono_r; lia).
  unfold high. cbn zeta. destruct (Z.ltb_spec (x / 2 ^ (48 - bits)) (2 ^ 31)); [auto | lia].
Qed.

(** ** Full period *)
Definition line (x : Z) : Z := x * 25214903917 + 11.
Fixpoint lines (n : nat) (x : Z) : Z := match n with O => x | S k => lines k (line x) end.
Lemma lcg_mod x : lcg (x mod 2 ^ 48) = line x mod 2 ^ 48.
Proof. unfold lcg, line. rewrite <- Z.add_mod_idemp_l, Z.mul_mod_idemp_l, Z.add_mod_idemp_l by lia. reflexivity. Qed.
Lemma state_lines n : forall x, state_after n (x mod 2 ^ 48) = lines n x mod 2 ^ 48.
Proof.
  induction n as [|n IH]; intros x; [reflexivity|]. cbn [state_after lines]. rewrite lcg_mod. apply IH.
Qed.
Fixpoint geo (n : nat) : Z := match n with O => 0 | S k => 1 + 25214903917 * geo k end.
Lemma lines_out n : forall x, lines (S n) x = line (lines n x).
Proof. induction n as [|n IH]; intros x; [reflexivity|]. change (lines (S (S n)) x) with (lines (S n) (line x)). rewrite IH. reflexivity. Qed.
Lemma lines_geo n x : lines n x = x + (x * 25214903916 + 11) * geo n.
Proof.
  induction n as [|n IH]; [cbn [lines geo]; lia|]. rewrite lines_out, IH. unfold line. cbn [geo].
  generalize (geo n). intros g. ring.
Qed.
Lemma lines_add n k x : lines (n + k) x = lines k (lines n x).
Proof. revert x; induction n as [|n IH]; intros x; [reflexivity|]. cbn [lines Nat.add]. apply IH. Qed.
Fixpoint apow (n : nat) : Z := match n with O => 1 | S k => 25214903917 * apow k end.
Lemma apow_add n k : apow (n + k) = apow n * apow k.
Proof. induction n as [|n IH]; cbn [apow Nat.add]; [lia | rewrite IH; lia]. Qed.
Lemma geo_add n k : geo (n + k) = geo n + apow n * geo k.
Proof. induction n as [|n IH]; [cbn [geo apow Nat.add]; lia|]. cbn [Nat.add geo apow]. rewrite IH. lia. Qed.
Lemma apow_mod4 n : exists q, apow n = 4 * q + 1.
Proof. induction n as [|n (q & IH)]; [exists 0; reflexivity|]. cbn [apow]. exists (25214903917 * q + 6303725979). rewrite IH. lia. Qed.
Lemma geo_pow k : exists q, geo (2 ^ k) = 2 ^ Z.of_nat k * (2 * q + 1).
Proof.
  induction k as [|k (q & IH)]; [exists 0; reflexivity|].
  rewrite Nat.pow_succ_r'. replace (2 * 2 ^ k)%nat with (2 ^ k + 2 ^ k)%nat by lia. rewrite geo_add.
  destruct (apow_mod4 (2 ^ k)) as (r & R). rewrite R, IH. exists (q + 2 * r * q + r).
  replace (Z.of_nat (S k)) with (Z.of_nat k + 1) by lia. rewrite Z.pow_add_r by lia. ring.
Qed.
Lemma reach_mod k : forall x t, exists n, (lines n x - t) mod 2 ^ Z.of_nat k = 0.
Proof.
  induction k as [|k IH]; intros x t; [exists 0%nat; cbn [Z.of_nat]; apply Z.mod_1_r|].
  destruct (IH x t) as (n & E). set (y := lines n x) in *.
  pose proof (Z.pow_pos_nonneg 2 (Z.of_nat k) ltac:(lia) ltac:(lia)) as P.
  apply Z.mod_divide in E; [|lia]. destruct E as (d & E).
  replace (2 ^ Z.of_nat (S k)) with (2 ^ Z.of_nat k * 2) by (replace (Z.of_nat (S k)) with (Z.of_nat k + 1) by lia; rewrite Z.pow_add_r by lia; reflexivity).
  destruct (Z.Even_or_Odd d) as [(h & D)|(h & D)].
  - exists n. fold y. apply Z.mod_divide; [lia|]. exists h. rewrite E, D. ring.
  - destruct (geo_pow k) as (q & G). exists (n + 2 ^ k)%nat. rewrite lines_add. fold y. rewrite lines_geo, G.
    apply Z.mod_divide; [lia|].
    exists (h + 1 + q + (y * 12607451958 + 5) * (2 * q + 1)).
    replace (y + (y * 25214903916 + 11) * (2 ^ Z.of_nat k * (2 * q + 1)) - t) with (y - t + (y * 25214903916 + 11) * (2 ^ Z.of_nat k * (2 * q + 1))) by ring.
    rewrite E, D. ring.
Qed.
(** Every state is reached from every state. *)
Lemma reach x t : state_ok x -> state_ok t -> exists n, state_after n x = t.
Proof.
  intros X T. destruct (reach_mod 48 x t) as (n & E). exists n. unfold state_ok in *. change (Z.of_nat 48) with 48 in E.
  rewrite <- (Z.mod_small x (2 ^ 48)) by lia. rewrite state_lines.
  rewrite <- (Z.mod_small t (2 ^ 48)) by lia.
  apply Z.mod_divide in E; [|lia]. destruct E as (q & E).
  replace (lines n x) with (t + q * 2 ^ 48) by lia. rewrite Z.mod_add by lia. reflexivity.
Qed.

(** ** nextInt(bound) *)
Lemma unusable_test b u : 0 < b <= int_max -> 0 <= u < 2 ^ 31 ->
  srem 32 u b = Ok (u mod b) /\
  ssub HW 32 u (u mod b) = Ok (u - u mod b) /\ ssub HW 32 b 1 = Ok (b - 1) /\
  exists t, sadd HW 32 (u - u mod b) (b - 1) = Ok t /\ ((t <? 0) = true <-> unusable b u).
Proof.
  intros B U. unfold int_max in B. pose proof (Z.mod_pos_bound u b ltac:(lia)) as M.
  pose proof (Z.div_mod u b ltac:(lia)) as D. pose proof (Z.div_pos u b ltac:(lia) ltac:(lia)) as Q.
  assert (u mod b <= u) by nia.
  split; [|split; [|split]].
  - unfold srem. destruct (Z.eqb_spec b 0); [lia|].
    rewrite Z.quot_div_nonneg, Z.rem_mod_nonneg by lia.
    replace (in_sb 32 (u / b)) with true; [reflexivity|]. symmetry. apply in_s_b. unfold in_s, smin, smax. nia.
  - unfold ssub. apply sres_ok. unfold in_s, smin, smax. lia.
  - unfold ssub. apply sres_ok. unfold in_s, smin, smax. lia.
  - unfold sadd. rewrite sres_HW by lia. eexists. split; [reflexivity|]. rewrite Z.ltb_lt. unfold unusable.
    assert (E : u - u mod b + (b - 1) = (u / b + 1) * b - 1) by nia. rewrite E.
    set (g := (u / b + 1) * b) in *. assert (G : 0 < g <= 2 ^ 31 + 2 ^ 31) by (unfold g in *; nia).
    destruct (Z.le_gt_cases g (2 ^ 31)) as [L|L].
    + rewrite wrap_id; [lia | lia | unfold in_s, smin, smax; lia].
    + assert (W : wrap 32 (g - 1) = g - 1 - 2 ^ 32).
      { transitivity (wrap 32 (g - 1 - 2 ^ 32)).
        - apply wrap_eq_mod; [lia|]. rewrite <- (Z.mod_add (g - 1 - 2 ^ 32) 1 (2 ^ 32)) by lia. f_equal. lia.
        - apply wrap_id; [lia|]. unfold in_s, smin, smax. lia. }
      rewrite W. lia.
Qed.

Lemma unusable_dec b u : {unusable b u} + {~ unusable b u}.
Proof. unfold unusable. destruct (Z_lt_dec (2 ^ 31) ((u / b + 1) * b)); auto. Qed.

Lemma loop_ok b : 0 < b <= int_max -> forall n x, ~ unusable b (high 31 (state_after (S n) x)) ->
  exists k, (k <= n)%nat /\ (forall i, (i < k)%nat -> unusable b (high 31 (state_after (S i) x))) /\
    ~ unusable b (high 31 (state_after (S k) x)) /\
    forall fuel, (n < fuel)%nat -> bounded_loop HW fuel x b = Ok (high 31 (state_after (S k) x) mod b, state_after (S k) x).
Proof.
  intros B. induction n as [|n IH]; intros x H.
  - exists 0%nat. split; [lia|]. split; [intros; lia|]. split; [exact H|]. intros fuel F. destruct fuel as [|f]; [lia|].
    cbn [bounded_loop]. rewrite next_ok by lia. cbn [bind].
    destruct (high_small 31 (lcg x) ltac:(lia) (lcg_ok x)) as (_ & R).
    destruct (unusable_test b (high 31 (lcg x)) B R) as (-> & E2 & E3 & t & E4 & T). cbn [bind]. rewrite E2. cbn [bind]. rewrite E3. cbn [bind].
    rewrite E4. cbn [bind]. destruct (t <? 0); [exfalso; apply H; apply T; reflexivity | reflexivity].
  - destruct (high_small 31 (lcg x) ltac:(lia) (lcg_ok x)) as (_ & R).
    destruct (unusable_test b (high 31 (lcg x)) B R) as (E1 & E2 & E3 & t & E4 & T).
    destruct (unusable_dec b (high 31 (lcg x))) as [Y|N].
    + destruct (IH (lcg x) H) as (k & K & P & A & F). exists (S k). split; [lia|]. split; [|split; [exact A|]].
      * intros i I. destruct i as [|i]; [exact Y | apply P; lia].
      * intros fuel FU. destruct fuel as [|f]; [lia|]. cbn [bounded_loop]. rewrite next_ok by lia. cbn [bind].
        rewrite E1. cbn [bind]. rewrite E2. cbn [bind]. rewrite E3. cbn [bind]. rewrite E4. cbn [bind].
        destruct (t <? 0); [|exfalso; apply T in Y; discriminate]. apply F. lia.
    + exists 0%nat. split; [lia|]. split; [intros; lia|]. split; [exact N|].
      intros fuel FU. destruct fuel as [|f]; [lia|]. cbn [bounded_loop]. rewrite next_ok by lia. cbn [bind].
      rewrite E1. cbn [bind]. rewrite E2. cbn [bind]. rewrite E3. cbn [bind]. rewrite E4. cbn [bind].
      destruct (t <? 0); [exfalso; apply N; apply T; reflexivity | reflexivity].
Qed.

Lemma some_usable b x : 0 < b <= int_max -> exists n, ~ unusable b (high 31 (state_after (S n) x)).
Proof.
  intros B. destruct (reach (lcg x) 0 (lcg_ok x) ltac:(unfold state_ok; lia)) as (n & E). exists n.
  cbn [state_after]. rewrite E. unfold unusable, int_max in *. change (high 31 0) with 0. rewrite Z.div_0_l by lia. lia.
Qed.

(** bound & (bound - 1) == 0 decides powers of two *)
Lemma land_pred_pow k : 0 <= k -> Z.land (2 ^ k) (2 ^ k - 1) = 0.
Proof. intros K. rewrite land_ones_mod by lia. apply Z.mod_same. pose proof (Z.pow_pos_nonneg 2 k ltac:(lia) K). lia. Qed.
Lemma land_pred_inv b : 0 < b -> Z.land b (b - 1) = 0 -> b = 2 ^ Z.log2 b.
Proof.
  intros B E. destruct (Z.log2_spec b B) as (L & U). pose proof (Z.log2_nonneg b) as N.
  destruct (Z.eq_dec b (2 ^ Z.log2 b)) as [|NE]; [assumption|]. exfalso.
  assert (H : Z.testbit (Z.land b (b - 1)) (Z.log2 b) = true).
  { rewrite Z.land_spec, Z.bit_log2 by lia. cbn [andb]. replace (Z.log2 b) with (Z.log2 (b - 1)); [apply Z.bit_log2; lia|].
    apply Z.log2_unique; [lia|]. rewrite Z.pow_succ_r in * by lia. lia. }
  rewrite E, Z.bits_0 in H. discriminate.
Qed.

Lemma bound_ok b x : 0 < b <= int_max -> state_ok x -> exists n0 v x',
  gives x (NextBounded b) (RInt v) x' /\ 0 <= v < b /\ state_ok x' /\
  forall fuel, (n0 <= fuel)%nat -> nextInt_bound HW fuel x b = Ok (v, x').
Proof.
  intros B X. unfold nextInt_bound. destruct (Z.leb_spec b 0); [lia|]. pose proof B as B'. unfold int_max in B'.
  assert (P1 : ssub HW 32 b 1 = Ok (b - 1)) by (unfold ssub; apply sres_ok; unfold in_s, smin, smax; lia).
  rewrite P1. cbn [bind]. destruct (Z.eqb_spec (Z.land b (b - 1)) 0) as [E|E].
  - apply land_pred_inv in E; [|lia]. set (k := Z.log2 b) in *. assert (K0 : 0 <= k) by apply Z.log2_nonneg.
    assert (K1 : k < 31). { apply (Z.pow_lt_mono_r_iff 2); lia. }
    exists 0%nat, (lcg x / 2 ^ (48 - k)), (lcg x).
    pose proof (lcg_ok x) as LX. unfold state_ok in LX.
    assert (PK : 0 < 2 ^ (48 - k)) by (apply Z.pow_pos_nonneg; lia).
    assert (V : 0 <= lcg x / 2 ^ (48 - k) < 2 ^ k).
    { split; [apply Z.div_pos; lia|]. apply Z.div_lt_upper_bound; [lia|]. rewrite <- Z.pow_add_r by lia. replace (48 - k + k) with 48 by lia. lia. }
    split; [rewrite E; apply G_pow; lia|]. split; [rewrite E; exact V|]. split; [apply lcg_ok|].
    intros fuel _. rewrite next_ok by lia. cbn [bind].
    destruct (high_small 31 (lcg x) ltac:(lia) (lcg_ok x)) as (HV & HR). 
    unfold smul. rewrite sres_ok by (unfold in_s, smin, smax; nia). cbn [bind sshr].
    change (31 mod 64) with 31. rewrite Z.shiftr_div_pow2 by lia.
    assert (EV : b * high 31 (lcg x) / 2 ^ 31 = lcg x / 2 ^ (48 - k)).
    { rewrite HV, E. change (48 - 31) with 17. set (y := lcg x) in *.
      replace (2 ^ 31) with (2 ^ k * 2 ^ (31 - k)) by (rewrite <- Z.pow_add_r by lia; f_equal; lia).
      pose proof (Z.pow_pos_nonneg 2 k ltac:(lia) ltac:(lia)). pose proof (Z.pow_pos_nonneg 2 (31 - k) ltac:(lia) ltac:(lia)).
      rewrite Z.div_mul_cancel_l by lia. rewrite Z.div_div by lia. f_equal. rewrite <- Z.pow_add_r by lia. f_equal. lia. }
    rewrite EV. do 2 f_equal. apply wrap_id; [lia|]. assert (2 ^ k <= 2 ^ 31) by (apply Z.pow_le_mono_r; lia). unfold in_s, smin, smax. lia.
  - destruct (some_usable b x B) as (n & U). destruct (loop_ok b B n x U) as (k & _ & P & A & F).
    exists (S n). eexists _, _. split; [| split; [| split; [| intros fuel FU; apply F; lia]]].
    + apply G_bound; auto. intros q Q EQ. apply E. rewrite EQ. apply land_pred_pow. exact Q.
    + apply Z.mod_pos_bound. lia.
    + clear. revert x. induction k as [|k IH]; intros x; [apply lcg_ok|]. change (state_after (S (S k)) x) with (state_after (S k) (lcg x)). apply IH.
Qed.

Lemma land_zero_unique k j : 0 <= k -> 0 <= j -> 2 ^ k = 2 ^ j -> k = j.
Proof. intros K J E. apply (Z.pow_inj_r 2); lia. Qed.

(** The relation is a function. *)
Lemma gives_det x c a x' b x'' : gives x c a x' -> gives x c b x'' -> a = b /\ x' = x''.
Proof.
  intros H1 H2. destruct H1; inversion H2; subst; auto; try lia;
  repeat match goal with |- context [2 ^ ?k] => lazymatch goal with _ : 0 < 2 ^ k |- _ => fail | _ => pose proof (Z.pow_pos_nonneg 2 k ltac:(lia) ltac:(lia)) end end;
  repeat match goal with H : ?k' <= ?b , E : 0 <= ?k < 31 |- _ => lazymatch goal with _ : 0 < 2 ^ k |- _ => fail | _ => pose proof (Z.pow_pos_nonneg 2 k ltac:(lia) ltac:(lia)) end end;
  try lia.
  - match goal with E : 2 ^ ?i = 2 ^ ?j |- _ => apply land_zero_unique in E; try lia; subst; auto end.
  - exfalso. match goal with E : forall k0, 0 <= k0 -> 2 ^ k <> 2 ^ k0 |- _ => apply (E k); [lia | reflexivity] end.
  - exfalso. match goal with A : forall k, 0 <= k -> ?b <> 2 ^ k |- _ => eapply A; [| reflexivity]; lia end.
  - match goal with P1 : forall i, (i < ?n)%nat -> _, A1 : ~ unusable _ (high 31 (state_after (S ?n) x)),
                    P2 : forall i, (i < ?k)%nat -> _, A2 : ~ unusable _ (high 31 (state_after (S ?k) x)) |- _ =>
      tryif constr_eq n k then fail else
      assert (n = k) by (destruct (Nat.lt_trichotomy n k) as [L|[L|L]]; [exfalso; apply A1; apply P2; exact L | exact L | exfalso; apply A2; apply P1; exact L]) end.
    subst. auto.
Qed.
