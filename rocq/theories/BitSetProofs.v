(** Lemmas about the BitSet model: representation invariant, words, masks. *)

From Coq Require Import ZArith List Lia Bool.
From Verif Require Import Base Bits BitSpec BitLemmas LongModel LongProofs BitSetModel.
Import ListNotations.
Open Scope Z_scope.

Ltac dm := Z.to_euclidean_division_equations; lia.
Lemma mod64_lt i : 0 <= i mod 64 < 64.
Proof. apply Z.mod_pos_bound. reflexivity. Qed.
Lemma div64 i : 0 <= i -> 0 <= i / 64.
Proof. intros. apply Z.div_pos; auto. reflexivity. Qed.

(** Word [k] of a word array, 0 outside. *)
Definition wd (ws : list Z) (k : Z) : Z := match znth ws k with Some x => x | None => 0 end.
(** Bit [i]. *)
Definition mem (s : bitset) (i : Z) : bool := Z.testbit (wd (words s) (i / 64)) (i mod 64).

Record pre (s : bitset) : Prop := {
  pre_use : 0 <= inUse s <= zlen (words s);
  pre_cap : zlen (words s) <= 2 ^ 26;
  pre_max : inUse s <= 2 ^ 25;
  pre_word : forall k, in_s 64 (wd (words s) k);
  pre_zero : forall k, inUse s <= k -> wd (words s) k = 0 }.
Definition inv (s : bitset) : Prop := pre s /\ (0 < inUse s -> wd (words s) (inUse s - 1) <> 0).
(** Every element is below 2^31 - 1. *)
Definition small (s : bitset) : Prop := forall i, int_max <= i -> mem s i = false.

(** ** Words *)

Lemma wd_out ws k : k < 0 \/ zlen ws <= k -> wd ws k = 0.
Proof. intros H. unfold wd. replace (znth ws k) with (@None Z); auto. symmetry. apply znth_None. auto. Qed.
Lemma at_wd ws k : 0 <= k < zlen ws -> at_ ws k = Ok (wd ws k).
Proof. intros H. unfold at_, wd. destruct (znth_ex ws k H) as [a ->]. auto. Qed.
Lemma wd_zupd ws i v k : 0 <= i < zlen ws -> wd (zupd ws i v) k = if k =? i then v else wd ws k.
Proof. intros H. unfold wd. rewrite znth_zupd by auto. destruct (k =? i); auto. Qed.
Lemma word_op_ok ws i f y : 0 <= i < zlen ws -> f (wd ws i) = Ok y -> word_op ws i f = Ok (zupd ws i y).
Proof. intros H E. unfold word_op. rewrite at_wd by auto. cbn [bind]. rewrite E. cbn [bind]. apply at_set_ok; auto. Qed.

Lemma for_words_ok n : forall i ws f g, 0 <= i -> i + Z.of_nat n <= zlen ws ->
  (forall k, i <= k < i + Z.of_nat n -> f k (wd ws k) = Ok (g k)) ->
  exists ws', for_words n i ws f = Ok ws' /\ zlen ws' = zlen ws /\
    forall k, wd ws' k = if (i <=? k) && (k <? i + Z.of_nat n) then g k else wd ws k.
Proof.
  induction n as [|n IH]; intros i ws f g Hi Hn Hf.
  - exists ws. repeat split; auto. intros k. replace ((i <=? k) && _) with false by lia. auto.
  - cbn [for_words]. rewrite (word_op_ok ws i (f i) (g i)) by (try apply Hf; lia). cbn [bind].
    destruct (IH (i + 1) (zupd ws i (g i)) f g) as (ws' & E & L & W); try (rewrite ?zupd_len; lia).
    { intros k Hk. rewrite wd_zupd by lia. replace (k =? i) with false by lia. apply Hf. lia. }
    exists ws'. split; auto. rewrite zupd_len in L. split; auto. intros k. rewrite W, wd_zupd by lia.
    destruct (Z.eqb_spec k i).
    + subst. replace (_ && _) with false by lia. replace (_ && _) with true by lia. auto.
    + replace ((i + 1 <=? k) && (k <? i + 1 + Z.of_nat n)) with ((i <=? k) && (k <? i + Z.of_nat (S n))) by lia. auto.
Qed.
Lemma for_range_ok a b ws f g : 0 <= a -> b <= zlen ws ->
  (forall k, a <= k < b -> f k (wd ws k) = Ok (g k)) ->
  exists ws', for_range a b ws f = Ok ws' /\ zlen ws' = zlen ws /\
    forall k, wd ws' k = if (a <=? k) && (k <? b) then g k else wd ws k.
Proof.
  intros Ha Hb Hf. unfold for_range. destruct (Z.le_gt_cases a b) as [H|H].
  - destruct (for_words_ok (Z.to_nat (b - a)) a ws f g) as (ws' & E & L & W); try lia.
    { intros k Hk. apply Hf. lia. }
    exists ws'. repeat split; auto. intros k. rewrite W.
    replace (a + Z.of_nat (Z.to_nat (b - a))) with b by lia. auto.
  - replace (Z.to_nat (b - a)) with 0%nat by lia. exists ws. repeat split; auto.
    intros k. replace (_ && _) with false by lia. auto.
Qed.

Lemma zlen_repeat {A} (x : A) n : zlen (repeat x n) = Z.of_nat n.
Proof. unfold zlen. rewrite repeat_length. auto. Qed.
Lemma wd_repeat n k : wd (repeat 0 n) k = 0.
Proof.
  unfold wd. destruct (znth (repeat 0 n) k) as [x|] eqn:E; auto.
  unfold znth in E. destruct (k <? 0); [discriminate|].
  apply nth_error_In in E. apply repeat_spec in E. auto.
Qed.
Lemma wd_app l1 l2 k : wd (l1 ++ l2) k = if k <? zlen l1 then wd l1 k else wd l2 (k - zlen l1).
Proof.
  unfold wd, znth, zlen. destruct (Z.ltb_spec k 0).
  - destruct (Z.ltb_spec k (Z.of_nat (List.length l1))); auto; try lia.
  - destruct (Z.ltb_spec k (Z.of_nat (List.length l1))).
    + rewrite nth_error_app1 by lia. auto.
    + replace (k - _ <? 0) with false by lia. rewrite nth_error_app2 by lia.
      replace (Z.to_nat k - List.length l1)%nat with (Z.to_nat (k - Z.of_nat (List.length l1))) by lia. auto.
Qed.
Lemma wd_firstn n l k : wd (firstn n l) k = if k <? Z.of_nat n then wd l k else 0.
Proof.
  unfold wd, znth. destruct (Z.ltb_spec k 0).
  - destruct (k <? Z.of_nat n); auto.
  - destruct (Z.ltb_spec k (Z.of_nat n)).
    + rewrite <- (firstn_skipn n l) at 2.
      destruct (Nat.lt_ge_cases (Z.to_nat k) (List.length (firstn n l))) as [H1|H1].
      * rewrite nth_error_app1 by auto. auto.
      * rewrite firstn_length in H1.
        assert (E : nth_error (firstn n l) (Z.to_nat k) = None) by (apply nth_error_None; rewrite firstn_length; lia).
        rewrite E. rewrite firstn_skipn.
        replace (nth_error l (Z.to_nat k)) with (@None Z); auto.
        symmetry. apply nth_error_None. lia.
    + replace (nth_error (firstn n l) (Z.to_nat k)) with (@None Z); auto.
      symmetry. apply nth_error_None. rewrite firstn_length. lia.
Qed.
Lemma copyOf_len l n : 0 <= n -> zlen (copyOf l n) = n.
Proof. intros H. unfold copyOf. rewrite zlen_app, zlen_repeat. unfold zlen. rewrite firstn_length. lia. Qed.
Lemma wd_copyOf l n k : 0 <= n -> wd (copyOf l n) k = if k <? n then wd l k else 0.
Proof.
  intros H. unfold copyOf. rewrite wd_app, wd_repeat, wd_firstn. unfold zlen. rewrite firstn_length, Z2Nat.id by auto.
  destruct (Z.ltb_spec k n).
  - destruct (Z.ltb_spec k (Z.of_nat (Nat.min (Z.to_nat n) (List.length l)))); auto.
    rewrite wd_out; auto. unfold zlen. lia.
  - destruct (Z.ltb_spec k (Z.of_nat (Nat.min (Z.to_nat n) (List.length l)))); auto.
Qed.

(** ** Bitwise operations on words *)

Lemma in_s_iff_shiftr x : in_s 64 x <-> Z.shiftr x 63 = 0 \/ Z.shiftr x 63 = -1.
Proof.
  rewrite Z.shiftr_div_pow2 by lia. unfold in_s, smin, smax. change (64 - 1) with 63.
  pose proof (Z.div_mod x (2 ^ 63) ltac:(lia)). pose proof (Z.mod_pos_bound x (2 ^ 63) ltac:(lia)).
  split; [intros [? ?]|intros [E|E]; rewrite E in *; lia].
  assert (-1 <= x / 2 ^ 63 < 1); [|lia].
  split; [apply Z.div_le_lower_bound|apply Z.div_lt_upper_bound]; lia.
Qed.
Lemma in_s_land a b : in_s 64 a -> in_s 64 b -> in_s 64 (Z.land a b).
Proof.
  rewrite !in_s_iff_shiftr, Z.shiftr_land.
  intros [-> | ->] [-> | ->]; auto.
Qed.
Lemma in_s_lor64 a b : in_s 64 a -> in_s 64 b -> in_s 64 (Z.lor a b).
Proof. apply in_s_lor; lia. Qed.
Lemma in_s_lxor a b : in_s 64 a -> in_s 64 b -> in_s 64 (Z.lxor a b).
Proof.
  rewrite !in_s_iff_shiftr, Z.shiftr_lxor.
  intros [-> | ->] [-> | ->]; auto.
Qed.
Lemma in_s_lnot a : in_s 64 a -> in_s 64 (Z.lnot a).
Proof. unfold in_s, smin, smax, Z.lnot. change (2 ^ (64 - 1)) with 9223372036854775808. lia. Qed.
Lemma in_s_0 : in_s 64 0. Proof. split; vm_compute; discriminate. Qed.
Lemma in_s_m1 : in_s 64 (-1). Proof. split; vm_compute; discriminate. Qed.
#[export] Hint Resolve in_s_land in_s_lor64 in_s_lxor in_s_lnot in_s_0 in_s_m1 : ins.

Lemma word_0 x : in_s 64 x -> (forall j, 0 <= j < 64 -> Z.testbit x j = false) -> x = 0.
Proof. intros H B. apply (signed_ext 64); auto with ins; try lia. intros. rewrite B by lia. rewrite Z.bits_0; auto. Qed.
Lemma word_n0 x : in_s 64 x -> x <> 0 -> exists j, 0 <= j < 64 /\ Z.testbit x j = true.
Proof.
  intros H N. destruct (lowest_at_ex 64 x ltac:(lia)) as (k & Hk & B & _).
  - rewrite uwrap_0_iff by (auto; lia). auto.
  - eauto.
Qed.

(** ** Masks (gcc/x86-64 reading) *)

Lemma mod64 x : Z.land x 63 = x mod 64.
Proof. exact (land_ones_mod x 6 ltac:(lia)). Qed.
Lemma wordIndex_div i : wordIndex i = i / 64.
Proof. unfold wordIndex. rewrite Z.shiftr_div_pow2 by lia. auto. Qed.

Lemma bit_mask_ok i : exists b, bit_mask HW i = Ok b /\ in_s 64 b /\
  forall j, 0 <= j < 64 -> Z.testbit b j = (j =? i mod 64).
Proof.
  unfold bit_mask, sshl. eexists. split; [reflexivity|]. split; [apply wrap_range; lia|].
  intros j Hj. pose proof (Z.mod_pos_bound i 64 ltac:(lia)).
  rewrite wrap_bits_low, Z.shiftl_1_l by lia. rewrite Z.pow2_bits_eqb by lia. lia.
Qed.
Lemma first_mask_ok i : exists b, first_mask HW i = Ok b /\ in_s 64 b /\
  forall j, 0 <= j < 64 -> Z.testbit b j = (i mod 64 <=? j).
Proof.
  unfold first_mask, sshl. eexists. split; [reflexivity|]. split; [apply wrap_range; lia|].
  intros j Hj. pose proof (Z.mod_pos_bound i 64 ltac:(lia)).
  rewrite wrap_bits_low, Z.shiftl_spec by lia. destruct (Z.leb_spec (i mod 64) j).
  - apply Z.bits_m1. lia.
  - apply Z.testbit_neg_r. lia.
Qed.
Lemma last_mask_ok t : exists b, last_mask HW t = Ok b /\ in_s 64 b /\
  forall j, 0 <= j < 64 -> Z.testbit b j = (j <=? (t - 1) mod 64).
Proof.
  unfold last_mask, sneg, ushr. rewrite sres_HW by lia. cbn [bind]. eexists. split; [reflexivity|].
  split; [apply wrap_range; lia|]. intros j Hj.
  rewrite mod64, neg_mod64, Zmod_mod.
  rewrite wrap_bits_low, Z.shiftr_spec by lia. change (2 ^ 64 - 1) with (Z.ones 64).
  assert (E : (- t) mod 64 = 63 - (t - 1) mod 64) by dm. rewrite E.
  pose proof (Z.mod_pos_bound (t - 1) 64 ltac:(lia)).
  destruct (Z.leb_spec j ((t - 1) mod 64)).
  - apply Z.ones_spec_low. lia.
  - apply Z.ones_spec_high. lia.
Qed.
Lemma last_mask_mod t u : t mod 64 = u mod 64 -> last_mask HW t = last_mask HW u.
Proof.
  intros E. unfold last_mask, sneg. rewrite !sres_HW by lia. cbn [bind].
  rewrite !mod64, !neg_mod64. replace (- t mod 64) with (- u mod 64); auto. dm.
Qed.

(** ** Growing and shrinking *)

Lemma ensure_ok s req : pre s -> 0 <= req <= 2 ^ 25 -> exists s', ensureCapacity HW s req = Ok s' /\
  inUse s' = inUse s /\ req <= zlen (words s') <= 2 ^ 26 /\ zlen (words s) <= zlen (words s') /\ forall k, wd (words s') k = wd (words s) k.
Proof.
  intros [U C M W Z0] Hr. unfold ensureCapacity. destruct (Z.leb_spec req (zlen (words s))).
  - exists s. repeat split; auto; lia.
  - unfold smul. rewrite sres_ok by (unfold in_s, smin, smax; lia). cbn [bind]. eexists. split; [reflexivity|].
    cbn [words inUse]. rewrite copyOf_len by lia. repeat split; auto; try lia.
    intros k. rewrite wd_copyOf by lia. destruct (Z.ltb_spec k (Z.max (2 * zlen (words s)) req)); auto.
    symmetry. apply wd_out. lia.
Qed.
Lemma expand_ok s wi : pre s -> 0 <= wi < 2 ^ 25 -> exists s', expandTo HW s wi = Ok s' /\
  inUse s' = Z.max (inUse s) (wi + 1) /\ inUse s' <= zlen (words s') <= 2 ^ 26 /\ forall k, wd (words s') k = wd (words s) k.
Proof.
  intros P Hw. unfold expandTo. destruct (Z.ltb_spec (inUse s) (wi + 1)).
  - destruct (ensure_ok s (wi + 1) P ltac:(lia)) as (s' & E & U & L & _ & W). rewrite E. cbn [bind].
    eexists. split; [reflexivity|]. cbn [words inUse]. repeat split; auto; lia.
  - exists s. destruct P. repeat split; auto; lia.
Qed.
Lemma expand_pre s wi : pre s -> 0 <= wi < 2 ^ 25 -> exists s', expandTo HW s wi = Ok s' /\
  pre s' /\ wi < inUse s' /\ (forall k, wd (words s') k = wd (words s) k) /\
  inUse s' = Z.max (inUse s) (wi + 1).
Proof.
  intros P Hw. destruct (expand_ok s wi P Hw) as (s' & E & U & L & W). exists s'. destruct P.
  split; auto. split; [constructor|]; try lia.
  - intros k. rewrite W. auto.
  - intros k Hk. rewrite W. apply pre_zero0. lia.
  - repeat split; auto. lia.
Qed.

Lemma scan_ok ws n : Z.of_nat n <= zlen ws -> exists r, scan ws n = Ok r /\ 0 <= r <= Z.of_nat n /\
  (0 < r -> wd ws (r - 1) <> 0) /\ forall k, r <= k < Z.of_nat n -> wd ws k = 0.
Proof.
  induction n as [|n IH]; intros H.
  - exists 0. repeat split; try lia.
  - cbn [scan]. rewrite at_wd by lia. cbn [bind].
    destruct (Z.eqb_spec (wd ws (Z.of_nat n)) 0) as [E|E]; cbn [negb].
    + destruct IH as (r & -> & R & N & Z0); [lia|]. exists r. repeat split; auto; try lia.
      intros k Hk. destruct (Z.eq_dec k (Z.of_nat n)); subst; auto. apply Z0. lia.
    + exists (Z.of_nat n + 1). repeat split; auto; try lia.
      intros _. replace (Z.of_nat n + 1 - 1) with (Z.of_nat n) by lia. auto.
Qed.
Lemma recalc_ok s : pre s -> exists s', recalc s = Ok s' /\ inv s' /\ words s' = words s.
Proof.
  intros [U C M W Z0]. unfold recalc.
  destruct (scan_ok (words s) (Z.to_nat (inUse s)) ltac:(lia)) as (r & -> & R & N & Zr).
  cbn [bind]. eexists. split; [reflexivity|]. split; auto. split; [constructor|]; cbn [words inUse]; auto; try lia.
  intros k Hk. destruct (Z.lt_ge_cases k (inUse s)); auto. apply Zr. lia.
Qed.
Lemma recalc_mem s : pre s -> exists s', recalc s = Ok s' /\ inv s' /\ forall i, mem s' i = mem s i.
Proof.
  intros P. destruct (recalc_ok s P) as (s' & E & I & W). exists s'. repeat split; auto; try apply I.
  intros i. unfold mem. rewrite W. auto.
Qed.

Lemma mem_word s k j : 0 <= j < 64 -> mem s (64 * k + j) = Z.testbit (wd (words s) k) j.
Proof.
  intros H. unfold mem. replace ((64 * k + j) / 64) with k by dm. replace ((64 * k + j) mod 64) with j by dm. auto.
Qed.
Lemma mem_neg s i : i < 0 -> mem s i = false.
Proof. intros H. unfold mem. rewrite wd_out by (left; dm). apply Z.bits_0. Qed.
Lemma mem_high s i : pre s -> 64 * inUse s <= i -> mem s i = false.
Proof. intros P H. unfold mem. rewrite (pre_zero s P) by dm. apply Z.bits_0. Qed.

(** ** Constructors *)

Lemma empty_inv n b : 0 <= n <= 2 ^ 25 -> inv (mk (repeat 0 (Z.to_nat n)) 0 b).
Proof.
  intros H. split; [constructor|]; cbn [words inUse]; try rewrite zlen_repeat; try lia.
  - intros k. rewrite wd_repeat. auto with ins.
  - intros. apply wd_repeat.
Qed.
Lemma empty_mem n b i : mem (mk (repeat 0 n) 0 b) i = false.
Proof. unfold mem. cbn [words]. rewrite wd_repeat. apply Z.bits_0. Qed.
Lemma BitSetN_ok n : 0 <= n <= int_max -> exists s, BitSetN n = Ok s /\ inv s /\ (forall i, mem s i = false) /\
  words s = repeat 0 (Z.to_nat ((n + 63) / 64)).
Proof.
  unfold int_max. intros H. unfold BitSetN, initializeWords. replace (n <? 0) with false by lia. eexists. split; [reflexivity|].
  cbn [words]. rewrite wordIndex_div. replace ((n - 1) / 64 + 1) with ((n + 63) / 64) by dm.
  split; [apply empty_inv; dm|]. split; auto. intros; apply empty_mem.
Qed.

(** ** Single bits *)

Lemma get_ok s i : pre s -> 0 <= i -> get HW s i = Ok (mem s i).
Proof.
  intros P Hi. unfold get. replace (i <? 0) with false by lia. rewrite wordIndex_div.
  destruct (Z.leb_spec (inUse s) (i / 64)).
  - rewrite mem_high; auto. dm.
  - assert (0 <= i / 64) by dm. destruct P. rewrite at_wd by lia. cbn [bind].
    unfold bit_mask, sshl. cbn [bind]. rewrite Z.shiftl_1_l. f_equal.
    apply land_pow2; auto. dm.
Qed.

Lemma mem_zupd s k v i u b : 0 <= k < zlen (words s) ->
  mem (mk (zupd (words s) k v) u b) i = if i / 64 =? k then Z.testbit v (i mod 64) else mem s i.
Proof.
  intros H. unfold mem. cbn [words]. rewrite wd_zupd by auto. destruct (i / 64 =? k); auto.
Qed.
Lemma pre_zupd s k v : pre s -> 0 <= k < inUse s -> in_s 64 v ->
  pre (mk (zupd (words s) k v) (inUse s) (sticky s)).
Proof.
  intros [U C M W Z0] H V. constructor; cbn [words inUse]; rewrite ?zupd_len; auto.
  - intros j. rewrite wd_zupd by lia. destruct (j =? k); auto.
  - intros j Hj. rewrite wd_zupd by lia. replace (j =? k) with false by lia. auto.
Qed.

Lemma clear_ok s i : inv s -> 0 <= i -> exists s', clear HW s i = Ok s' /\ inv s' /\
  forall k, mem s' k = mem s k && negb (k =? i).
Proof.
  intros [P N] Hi. unfold clear. replace (i <? 0) with false by lia. rewrite wordIndex_div.
  destruct (Z.leb_spec (inUse s) (i / 64)) as [H|H].
  - exists s. split; auto. split; [split; auto|]. intros k. destruct (Z.eqb_spec k i); subst; cbn [negb]; [|rewrite andb_true_r; auto].
    rewrite mem_high; auto. dm.
  - destruct (bit_mask_ok i) as (b & -> & Bi & B). cbn [bind].
    assert (0 <= i / 64) by dm. pose proof P as [U C M W Z0].
    erewrite word_op_ok; [|lia|reflexivity]. cbn [bind].
    destruct (recalc_mem _ (pre_zupd s (i / 64) _ P ltac:(lia) (in_s_land _ _ (W (i / 64)) (in_s_lnot _ Bi)))) as (s' & E & I & Mm).
    exists s'. split; [exact E|]. split; auto. intros k. rewrite Mm, mem_zupd by lia.
    destruct (Z.eqb_spec (k / 64) (i / 64)) as [Q|Q].
    + rewrite Z.land_spec, Z.lnot_spec, B by dm. unfold mem. rewrite Q. f_equal. f_equal.
      destruct (Z.eqb_spec k i); destruct (Z.eqb_spec (k mod 64) (i mod 64)); auto; exfalso; dm.
    + replace (k =? i) with false by (destruct (Z.eqb_spec k i); auto; subst; lia). rewrite andb_true_r. auto.
Qed.

Lemma flip_ok s i : inv s -> 0 <= i <= int_max -> exists s', flip HW s i = Ok s' /\ inv s' /\
  forall k, mem s' k = xorb (mem s k) (k =? i).
Proof.
  unfold int_max. intros [P N] Hi. unfold flip. replace (i <? 0) with false by lia. rewrite wordIndex_div.
  destruct (expand_pre s (i / 64) P ltac:(dm)) as (s1 & -> & P1 & L1 & W1 & _). cbn [bind].
  destruct (bit_mask_ok i) as (b & -> & Bi & B). cbn [bind].
  assert (0 <= i / 64) by dm. pose proof P1 as [U C M W Z0].
  erewrite word_op_ok; [|lia|reflexivity]. cbn [bind].
  destruct (recalc_mem _ (pre_zupd s1 (i / 64) _ P1 ltac:(lia) (in_s_lxor _ _ (W (i / 64)) Bi))) as (s' & E & I & Mm).
  exists s'. split; [exact E|]. split; auto. intros k. rewrite Mm, mem_zupd by lia. unfold mem. rewrite <- W1.
  destruct (Z.eqb_spec (k / 64) (i / 64)) as [Q|Q].
  + rewrite Z.lxor_spec, B by dm. rewrite Q. f_equal.
    destruct (Z.eqb_spec k i); destruct (Z.eqb_spec (k mod 64) (i mod 64)); auto; exfalso; dm.
  + replace (k =? i) with false by (destruct (Z.eqb_spec k i); auto; subst; lia). rewrite xorb_false_r. auto.
Qed.

(** A set without removing: the last word in use stays non-zero. *)
Lemma set_ok s i : inv s -> 0 <= i <= int_max -> exists s', set HW s i = Ok s' /\ inv s' /\
  forall k, mem s' k = mem s k || (k =? i).
Proof.
  unfold int_max. intros [P N] Hi. unfold set. replace (i <? 0) with false by lia. rewrite wordIndex_div.
  destruct (expand_pre s (i / 64) P ltac:(dm)) as (s1 & -> & P1 & L1 & W1 & U1). cbn [bind].
  destruct (bit_mask_ok i) as (b & -> & Bi & B). cbn [bind].
  assert (0 <= i / 64) by dm. pose proof P1 as [U C M W Z0].
  erewrite word_op_ok; [|lia|reflexivity]. cbn [bind]. eexists. split; [reflexivity|].
  set (v := Z.lor (wd (words s1) (i / 64)) b).
  assert (V : v <> 0).
  { intros F. assert (T : Z.testbit v (i mod 64) = true).
    - unfold v. rewrite Z.lor_spec, B by dm. replace (_ =? _) with true by lia. apply orb_true_r.
    - rewrite F, Z.bits_0 in T. discriminate. }
  split; [split|].
  - apply (pre_zupd s1 (i / 64) v); auto. apply in_s_lor64; auto.
  - cbn [words inUse]. intros _. rewrite wd_zupd by lia. destruct (Z.eqb_spec (inUse s1 - 1) (i / 64)); auto.
    rewrite W1. replace (inUse s1) with (inUse s) in * by lia. apply N. lia.
  - intros k. rewrite mem_zupd by lia. unfold v, mem. rewrite <- W1.
    destruct (Z.eqb_spec (k / 64) (i / 64)) as [Q|Q].
    + rewrite Z.lor_spec, B by dm. rewrite Q. f_equal.
      destruct (Z.eqb_spec k i); destruct (Z.eqb_spec (k mod 64) (i mod 64)); auto; exfalso; dm.
    + replace (k =? i) with false by (destruct (Z.eqb_spec k i); auto; subst; lia). rewrite orb_false_r. auto.
Qed.

(** ** Ranges *)

Definition between (from to i : Z) : bool := (from <=? i) && (i <? to).

(** [e] is the last word, [to'] the end of the range as the masks see it. *)
Lemma range_words_ok ws from to' f l one mid (o : bool -> bool -> bool) :
  0 <= from -> from / 64 <= (to' - 1) / 64 < zlen ws ->
  (forall j, 0 <= j < 64 -> Z.testbit f j = (from mod 64 <=? j)) ->
  (forall j, 0 <= j < 64 -> Z.testbit l j = (j <=? (to' - 1) mod 64)) ->
  (forall x k, in_s 64 x -> in_s 64 k -> in_s 64 (one x k)) ->
  (forall x, in_s 64 x -> in_s 64 (mid x)) ->
  (forall x k j, 0 <= j < 64 -> Z.testbit (one x k) j = o (Z.testbit x j) (Z.testbit k j)) ->
  (forall x j, 0 <= j < 64 -> Z.testbit (mid x) j = o (Z.testbit x j) true) ->
  (forall x, o x false = x) ->
  in_s 64 f -> in_s 64 l -> (forall k, in_s 64 (wd ws k)) ->
  exists ws', range_words ws (from / 64) ((to' - 1) / 64) f l one mid = Ok ws' /\ zlen ws' = zlen ws /\
    (forall k, in_s 64 (wd ws' k)) /\
    (forall k j, 0 <= j < 64 -> Z.testbit (wd ws' k) j =
       o (Z.testbit (wd ws k) j) (between from to' (64 * k + j))) /\
    (forall k, k < from / 64 \/ (to' - 1) / 64 < k -> wd ws' k = wd ws k).
Proof.
  intros H0 H F L S1 S2 O1 O2 O3 If Il Iw. set (a := from / 64) in *. set (e := (to' - 1) / 64) in *.
  assert (0 <= a) by (unfold a; dm). unfold range_words. destruct (Z.eqb_spec a e) as [E|E].
  - erewrite word_op_ok; [|lia|reflexivity]. eexists. split; [reflexivity|]. split; [apply zupd_len|].
    split; [|split].
    + intros k. rewrite wd_zupd by lia. destruct (k =? a); auto with ins.
    + intros k j Hj. rewrite wd_zupd by lia. destruct (Z.eqb_spec k a) as [Q|Q].
      * subst k. rewrite O1, Z.land_spec, F, L by auto. f_equal. unfold between, a, e in *. clear - E Hj H0.
        assert (from = 64 * (from / 64) + from mod 64) by dm.
        assert (to' - 1 = 64 * ((to' - 1) / 64) + (to' - 1) mod 64) by dm. lia.
      * replace (between _ _ _) with false; auto. unfold between, a, e in *. clear - E Q Hj. dm.
    + intros k Hk. rewrite wd_zupd by lia. replace (k =? a) with false by lia. auto.
  - erewrite word_op_ok; [|lia|reflexivity]. cbn [bind].
    set (ws1 := zupd ws a (one (wd ws a) f)).
    destruct (for_range_ok (a + 1) e ws1 (fun _ x => Ok (mid x)) (fun k => mid (wd ws1 k))) as (ws2 & -> & L2 & W2);
      try (unfold ws1; rewrite ?zupd_len; lia); auto.
    cbn [bind]. unfold ws1 in L2. rewrite zupd_len in L2.
    erewrite word_op_ok; [|lia|reflexivity]. eexists. split; [reflexivity|]. split; [rewrite zupd_len; auto|].
    assert (X : forall k, wd (zupd ws2 e (one (wd ws2 e) l)) k =
      if k =? e then one (wd ws e) l else if (a <? k) && (k <? e) then mid (wd ws k)
      else if k =? a then one (wd ws a) f else wd ws k).
    { intros k. rewrite wd_zupd by lia. rewrite !W2. unfold ws1. rewrite !wd_zupd by lia.
      replace ((a + 1 <=? e) && (e <? e)) with false by lia. replace (e =? a) with false by lia.
      destruct (Z.eqb_spec k e); auto. replace ((a + 1 <=? k) && (k <? e)) with ((a <? k) && (k <? e)) by lia.
      destruct (Z.ltb_spec a k); destruct (Z.ltb_spec k e); cbn [andb]; auto.
      replace (k =? a) with false by lia. auto. }
    split; [|split].
    + intros k. rewrite X. destruct (k =? e); auto. destruct ((a <? k) && (k <? e)); auto. destruct (k =? a); auto.
    + intros k j Hj. rewrite X. unfold between.
      assert (from = 64 * a + from mod 64 /\ 0 <= from mod 64 < 64) by (unfold a; dm).
      assert (to' - 1 = 64 * e + (to' - 1) mod 64 /\ 0 <= (to' - 1) mod 64 < 64) by (unfold e; dm).
      destruct (Z.eqb_spec k e) as [Q|Q]; [|destruct ((a <? k) && (k <? e)) eqn:Q2; [|destruct (Z.eqb_spec k a) as [Q3|Q3]]].
      * subst k. rewrite O1, L by auto. f_equal. lia.
      * rewrite O2 by auto. f_equal. lia.
      * subst k. rewrite O1, F by auto. f_equal. lia.
      * replace (_ && _) with false by lia. auto.
    + intros k Hk. rewrite X. replace (k =? e) with false by lia. replace (_ && _) with false by lia.
      replace (k =? a) with false by lia. auto.
Qed.

Lemma checkRange_ok from to : 0 <= from <= to -> checkRange from to = Ok tt.
Proof.
  intros H. unfold checkRange. replace (from <? 0) with false by lia. replace (to <? 0) with false by lia.
  replace (to <? from) with false by lia. auto.
Qed.
Lemma checkRange_bad from to : ~ (0 <= from <= to) -> checkRange from to = Throw IndexOutOfBoundsException.
Proof.
  intros H. unfold checkRange. destruct (Z.ltb_spec from 0); auto. destruct (Z.ltb_spec to 0); auto.
  replace (to <? from) with true by lia. auto.
Qed.

Lemma pre_words s ws' u : pre s -> zlen ws' = zlen (words s) -> 0 <= u <= zlen (words s) -> u <= 2 ^ 25 ->
  (forall k, in_s 64 (wd ws' k)) -> (forall k, u <= k -> wd ws' k = 0) -> pre (mk ws' u (sticky s)).
Proof. intros [] L U M W Z0. constructor; cbn [words inUse]; auto; lia. Qed.
Lemma mem_mk ws u b i : mem (mk ws u b) i = Z.testbit (wd ws (i / 64)) (i mod 64).
Proof. auto. Qed.
Lemma mem_split i : i = 64 * (i / 64) + i mod 64 /\ 0 <= i mod 64 < 64.
Proof. dm. Qed.

Lemma setRange_ok s from to : inv s -> 0 <= from <= to -> to <= int_max -> exists s', setRange HW s from to = Ok s' /\ inv s' /\
  forall k, mem s' k = mem s k || between from to k.
Proof.
  unfold int_max. intros [P N] H Ht. unfold setRange. rewrite checkRange_ok by auto. cbn [bind].
  destruct (Z.eqb_spec from to) as [E|E].
  { exists s. split; auto. split; [split; auto|]. intros k. unfold between. replace (_ && _) with false by lia. rewrite orb_false_r. auto. }
  rewrite !wordIndex_div.
  destruct (expand_pre s ((to - 1) / 64) P ltac:(dm)) as (s1 & -> & P1 & L1 & W1 & U1). cbn [bind].
  destruct (first_mask_ok from) as (f & -> & Fi & F). cbn [bind].
  destruct (last_mask_ok to) as (l & -> & Li & L). cbn [bind].
  pose proof P1 as [U C M W Z0].
  destruct (range_words_ok (words s1) from to f l Z.lor (fun _ => -1) orb) as (ws' & -> & Lw & Iw & B & O); auto with ins; try lia.
  { assert (from / 64 <= (to - 1) / 64) by (apply Z.div_le_mono; lia). lia. }
  { intros. apply Z.lor_spec. }
  { intros. rewrite Z.bits_m1 by lia. rewrite orb_true_r. auto. }
  cbn [bind]. eexists. split; [reflexivity|].
  assert (R : 0 <= (to - 1) / 64) by dm.
  split; [split|].
  - apply pre_words; auto. intros k Hk. rewrite O by lia. auto.
  - cbn [words inUse]. intros _ Z1. destruct (Z.eq_dec (inUse s1 - 1) ((to - 1) / 64)) as [Q|Q].
    + assert (T : Z.testbit (wd ws' (inUse s1 - 1)) ((to - 1) mod 64) = true).
      { rewrite B by apply mem_split. rewrite Q. rewrite <- (proj1 (mem_split (to - 1))). unfold between.
        replace (_ && _) with true by lia. apply orb_true_r. }
      rewrite Z1, Z.bits_0 in T. discriminate.
    + rewrite O in Z1 by lia. rewrite W1 in Z1. replace (inUse s1) with (inUse s) in * by lia. apply N; auto. lia.
  - intros k. rewrite mem_mk, B by apply mem_split. rewrite W1. rewrite <- (proj1 (mem_split k)). auto.
Qed.

(** The range the masks see: one word too many when [to] is a multiple of 64. *)
Definition flip_end (to : Z) : Z := if to mod 64 =? 0 then to + 64 else to.
Lemma flip_end_div to : (flip_end to - 1) / 64 = to / 64.
Proof. unfold flip_end. destruct (Z.eqb_spec (to mod 64) 0); dm. Qed.
Lemma flipRange_ok s from to : inv s -> 0 <= from < to -> to <= int_max -> exists s', flipRange HW s from to = Ok s' /\ inv s' /\
  forall k, mem s' k = xorb (mem s k) (between from (flip_end to) k).
Proof.
  unfold int_max. intros [P N] H Ht. unfold flipRange. rewrite checkRange_ok by lia. cbn [bind].
  replace (from =? to) with false by lia.
  rewrite !wordIndex_div.
  destruct (expand_pre s (to / 64) P ltac:(dm)) as (s1 & -> & P1 & L1 & W1 & U1). cbn [bind].
  destruct (first_mask_ok from) as (f & -> & Fi & F). cbn [bind].
  destruct (last_mask_ok to) as (l & -> & Li & L). cbn [bind].
  pose proof P1 as [U C M W Z0]. rewrite <- (flip_end_div to).
  destruct (range_words_ok (words s1) from (flip_end to) f l Z.lxor (fun x => Z.lxor x (-1)) xorb) as (ws' & -> & Lw & Iw & B & O); auto with ins; try lia.
  { rewrite flip_end_div. assert (from / 64 <= to / 64) by (apply Z.div_le_mono; lia). lia. }
  { intros j Hj. rewrite L by auto. f_equal. unfold flip_end. destruct (Z.eqb_spec (to mod 64) 0); auto. dm. }
  { intros. apply Z.lxor_spec. }
  { intros. rewrite Z.lxor_spec, Z.bits_m1 by lia. auto. }
  cbn [bind]. assert (R : 0 <= to / 64) by dm. rewrite flip_end_div in O.
  destruct (recalc_mem (mk ws' (inUse s1) (sticky s1))) as (s' & E & I & Mm).
  { apply pre_words; auto. intros k Hk. rewrite O by lia. auto. }
  exists s'. split; auto. split; auto.
  intros k. rewrite Mm, mem_mk, B by apply mem_split. rewrite W1. rewrite <- (proj1 (mem_split k)). auto.
Qed.

(** ** length *)

(** [L] is one more than the highest element, 0 for the empty set. *)
Definition is_length (s : bitset) (L : Z) : Prop :=
  0 <= L /\ (forall i, L <= i -> mem s i = false) /\ (0 < L -> mem s (L - 1) = true).
Lemma length_ok s : inv s -> exists L, length HW s = Ok (wrap 32 L) /\ is_length s L /\
  (0 < inUse s -> (L - 1) / 64 = inUse s - 1) /\ (inUse s = 0 -> L = 0) /\ L <= 64 * inUse s.
Proof.
  intros [P N]. unfold length. destruct (Z.eqb_spec (inUse s) 0) as [E|E].
  - exists 0. repeat split; auto; try lia. intros i Hi. apply mem_high; auto. lia.
  - pose proof P as [U C M W Z0]. unfold smul, sadd. rewrite sres_HW by lia. cbn [bind]. rewrite at_wd by lia. cbn [bind].
    destruct (nlz_ok HW (wd (words s) (inUse s - 1)) (proj2 (is_long_s _) (W _))) as (z & -> & Hz). cbn [bind].
    destruct Hz as [[F _]|(k & (Hk & Bk & Ak) & ->)]; [exfalso; apply N in F; auto; lia|].
    rewrite sres_HW by lia. exists (64 * (inUse s - 1) + k + 1). split; [|split; [|split; [|split]]]; try lia.
    + f_equal. apply wrap_eq_mod; [lia|]. rewrite <- Zplus_mod_idemp_l. rewrite wrap_mod by lia.
      rewrite Zplus_mod_idemp_l. f_equal. lia.
    + split; [lia|]. split.
      * intros i Hi. destruct (Z.lt_ge_cases i (64 * inUse s)); [|apply mem_high; auto].
        unfold mem. replace (i / 64) with (inUse s - 1) by dm. apply Ak. dm.
      * intros _. replace (64 * (inUse s - 1) + k + 1 - 1) with (64 * (inUse s - 1) + k) by lia. rewrite mem_word; auto.
    + intros. dm.
Qed.
Lemma wrap32_mod64 x : wrap 32 x mod 64 = x mod 64.
Proof. pose proof (neg_mod64 (- x)) as H. rewrite Z.opp_involutive in H. auto. Qed.

Lemma clearRange_ok s from to : inv s -> 0 <= from <= to -> to <= int_max -> exists s', clearRange HW s from to = Ok s' /\ inv s' /\
  forall k, mem s' k = mem s k && negb (between from to k).
Proof.
  unfold int_max. intros I H Ht. pose proof I as [P N]. unfold clearRange. rewrite checkRange_ok by auto. cbn [bind].
  destruct (Z.eqb_spec from to) as [E|E].
  { exists s. split; auto. split; auto. intros k. replace (between from to k) with false by (unfold between; lia). rewrite andb_true_r. auto. }
  rewrite !wordIndex_div.
  destruct (Z.leb_spec (inUse s) (from / 64)) as [G|G].
  { exists s. split; auto. split; auto. intros k. unfold between. destruct (Z.leb_spec from k); cbn [andb negb]; [|rewrite andb_true_r; auto].
    rewrite mem_high; auto. dm. }
  pose proof P as [U C M W Z0].
  assert (X : exists t lst, (if inUse s <=? (to - 1) / 64 then let* l := length HW s in Ok (l, inUse s - 1) else Ok (to, (to - 1) / 64)) = Ok (lst, (t - 1) / 64) /\
     lst mod 64 = t mod 64 /\ (t - 1) / 64 < inUse s /\ from / 64 <= (t - 1) / 64 /\
     forall k, mem s k && negb (between from t k) = mem s k && negb (between from to k)).
  { destruct (Z.leb_spec (inUse s) ((to - 1) / 64)) as [Q|Q].
    - destruct (length_ok s I) as (L & -> & (L0 & LA & _) & LB & LC & LE). cbn [bind]. exists L, (wrap 32 L).
      assert (0 <= from / 64) by dm. specialize (LB ltac:(lia)). rewrite LB. split; auto. split; [apply wrap32_mod64|].
      split; [lia|]. split; [lia|]. intros k. destruct (Z.lt_ge_cases k L).
      + f_equal. f_equal. unfold between. assert (k < to) by dm. lia.
      + rewrite (LA k) by auto. auto.
    - exists to, to. repeat split; auto; try lia. apply Z.div_le_mono; lia. }
  destruct X as (t & lst & -> & Hm & Hu & Ha & Hk). cbn [bind].
  destruct (first_mask_ok from) as (f & -> & Fi & F). cbn [bind].
  rewrite (last_mask_mod lst t) by auto.
  destruct (last_mask_ok t) as (l & -> & Li & L). cbn [bind].
  destruct (range_words_ok (words s) from t f l (fun x k => Z.land x (Z.lnot k)) (fun _ => 0) (fun x y => x && negb y)) as (ws' & -> & Lw & Iw & B & O); auto with ins; try lia.
  { intros. rewrite Z.land_spec, Z.lnot_spec by lia. auto. }
  { intros. rewrite Z.bits_0. rewrite andb_false_r. auto. }
  cbn [bind].
  destruct (recalc_mem (mk ws' (inUse s) (sticky s))) as (s' & E' & I' & Mm).
  { apply pre_words; auto; try lia. intros k Hk'. rewrite O by lia. auto. }
  exists s'. split; auto. split; auto.
  intros k. rewrite Mm, mem_mk, B by apply mem_split. rewrite <- (proj1 (mem_split k)). rewrite <- Hk. auto.
Qed.
