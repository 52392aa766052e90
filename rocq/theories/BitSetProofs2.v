(** Lemmas about the BitSet model: algebra, equality, queries. *)

From Coq Require Import ZArith List Lia Bool Sorted.
From Verif Require Import Base Bits BitSpec BitLemmas LongModel LongProofs BitSetModel BitSetProofs.
Import ListNotations.
Open Scope Z_scope.

(** ** Equality *)

Lemma equals_from_ok n : forall i a b, 0 <= i -> i + Z.of_nat n <= zlen a -> i + Z.of_nat n <= zlen b ->
  exists r, equals_from n i a b = Ok r /\ (r = true <-> forall k, i <= k < i + Z.of_nat n -> wd a k = wd b k).
Proof.
  induction n as [|n IH]; intros i a b Hi Ha Hb.
  - exists true. split; auto. split; auto. intros; lia.
  - cbn [equals_from]. rewrite !at_wd by lia. cbn [bind].
    destruct (Z.eqb_spec (wd a i) (wd b i)) as [E|E]; cbn [negb].
    + destruct (IH (i + 1) a b) as (r & -> & R); try lia. exists r. split; auto. rewrite R. split; intros H k Hk.
      * destruct (Z.eq_dec k i); subst; auto. apply H. lia.
      * apply H. lia.
    + exists false. split; auto. split; [discriminate|]. intros H. exfalso. apply E. apply H. lia.
Qed.

Lemma mem_ext_words s t : (forall k, in_s 64 (wd (words s) k)) -> (forall k, in_s 64 (wd (words t) k)) ->
  (forall i, 0 <= i -> mem s i = mem t i) -> forall k, wd (words s) k = wd (words t) k.
Proof.
  intros Hs Ht H k. destruct (Z.lt_ge_cases k 0); [rewrite !wd_out by lia; auto|].
  apply (signed_ext 64); auto; try lia. intros j Hj. rewrite <- !mem_word by auto. apply H. lia.
Qed.
Lemma inUse_le s t : inv s -> pre t -> (forall k, wd (words s) k = wd (words t) k) -> inUse s <= inUse t.
Proof.
  intros [P N] Pt W. destruct (Z.le_gt_cases (inUse s) (inUse t)); auto. exfalso. pose proof (pre_use t Pt).
  apply N; [lia|]. rewrite W. apply (pre_zero t Pt). lia.
Qed.
Lemma equals_ok s t : inv s -> inv t -> exists r, equals s t = Ok r /\
  (r = true <-> forall i, 0 <= i -> mem s i = mem t i).
Proof.
  intros Is It. pose proof Is as [Ps Ns]. pose proof It as [Pt Nt]. unfold equals.
  destruct (Z.eqb_spec (inUse s) (inUse t)) as [E|E]; cbn [negb].
  - pose proof Ps as [Us Cs Ms Ws Zs]. pose proof Pt as [Ut Ct Mt Wt Zt].
    destruct (equals_from_ok (Z.to_nat (inUse s)) 0 (words s) (words t)) as (r & -> & R); try lia.
    exists r. split; auto. rewrite R. split; intros H.
    + intros i Hi. unfold mem. f_equal. destruct (Z.lt_ge_cases (i / 64) (inUse s)).
      * apply H. split; [dm|lia].
      * rewrite Zs, Zt by lia. auto.
    + intros k Hk. apply (mem_ext_words s t); auto.
  - exists false. split; auto. split; [discriminate|]. intros H. exfalso. apply E.
    pose proof (mem_ext_words s t (pre_word s Ps) (pre_word t Pt) H) as W.
    apply Z.le_antisymm; eapply inUse_le; eauto.
Qed.

(** ** Boolean algebra *)

Lemma zero_down_ok n : forall s, pre s -> Z.of_nat n <= inUse s -> exists s', zero_down n s = Ok s' /\ pre s' /\
  inUse s' = inUse s - Z.of_nat n /\ zlen (words s') = zlen (words s) /\ sticky s' = sticky s /\
  forall k, wd (words s') k = if inUse s' <=? k then 0 else wd (words s) k.
Proof.
  induction n as [|n IH]; intros s P H.
  - exists s. repeat split; try (apply P); auto; try lia. intros k. destruct (Z.leb_spec (inUse s) k); auto. apply P; auto.
  - cbn [zero_down]. pose proof P as [U C M W Z0]. rewrite at_set_ok by lia. cbn [bind].
    set (s1 := mk (zupd (words s) (inUse s - 1) 0) (inUse s - 1) (sticky s)).
    assert (W1 : forall k, wd (words s1) k = if k =? inUse s - 1 then 0 else wd (words s) k)
      by (intros; unfold s1; cbn [words]; apply wd_zupd; lia).
    assert (P1 : pre s1).
    { unfold s1. constructor; cbn [words inUse]; rewrite ?zupd_len; auto; try lia.
      - intros k. fold s1. change (zupd _ _ _) with (words s1). rewrite W1. destruct (_ =? _); auto with ins.
      - intros k Hk. change (zupd _ _ _) with (words s1). rewrite W1. destruct (Z.eqb_spec k (inUse s - 1)); auto.
        apply Z0. lia. }
    destruct (IH s1 P1) as (s' & E & P' & U' & L' & S' & W'). { unfold s1; cbn [inUse]. lia. }
    unfold s1 in U', L'; cbn [inUse words] in U', L'. rewrite zupd_len in L'.
    exists s'. repeat split; try apply P'; auto; try lia.
    intros k. rewrite W', W1. destruct (Z.leb_spec (inUse s') k); auto.
    replace (k =? inUse s - 1) with false by lia. auto.
Qed.

Lemma clearAll_ok s : pre s -> exists s', clearAll s = Ok s' /\ inv s' /\ forall i, mem s' i = false.
Proof.
  intros P. unfold clearAll. pose proof P as [U _ _ _ _].
  destruct (zero_down_ok (Z.to_nat (inUse s)) s P ltac:(lia)) as (s' & E & P' & U' & L' & S' & W').
  exists s'. split; auto. split; [split; auto; lia|]. intros i. unfold mem. rewrite W'.
  destruct (Z.lt_ge_cases i 0).
  - rewrite wd_out by (left; dm). destruct (_ <=? _); apply Z.bits_0.
  - replace (inUse s' <=? i / 64) with true by dm. apply Z.bits_0.
Qed.

Lemma bitAnd_ok s t : inv s -> inv t -> exists s', bitAnd s t = Ok s' /\ inv s' /\
  forall i, mem s' i = mem s i && mem t i.
Proof.
  intros Is It. destruct (equals_ok s t Is It) as (r & E & R). unfold bitAnd. rewrite E. cbn [bind].
  destruct r.
  - exists s. split; auto. split; auto. intros i. destruct (Z.lt_ge_cases i 0).
    + rewrite !mem_neg by auto. auto.
    + rewrite <- (proj1 R eq_refl i) by auto. rewrite andb_diag. auto.
  - pose proof Is as [Ps Ns]. pose proof It as [Pt Nt]. pose proof Ps as [Us Cs Ms Ws Zs]. pose proof Pt as [Ut Ct Mt Wt Zt].
    destruct (zero_down_ok (Z.to_nat (inUse s - inUse t)) s Ps ltac:(lia)) as (s1 & -> & P1 & U1 & L1 & S1 & W1).
    cbn [bind]. pose proof P1 as [Us1 Cs1 Ms1 Ws1 Zs1].
    destruct (for_range_ok 0 (inUse s1) (words s1) (fun i x => let* y := at_ (words t) i in Ok (Z.land x y))
       (fun k => Z.land (wd (words s1) k) (wd (words t) k))) as (ws & -> & L & W); try lia.
    { intros k Hk. rewrite at_wd by lia. auto. }
    cbn [bind].
    destruct (recalc_mem (mk ws (inUse s1) (sticky s1))) as (s' & -> & I' & M').
    { apply pre_words; auto; try lia.
      - intros k. rewrite W. destruct (_ && _); auto with ins.
      - intros k Hk. rewrite W. replace (_ && _) with false by lia. auto. }
    exists s'. split; auto. split; auto. intros i. rewrite M', mem_mk, W.
    destruct (Z.lt_ge_cases i 0) as [Hi|Hi].
    + rewrite !mem_neg by auto. replace (_ && _) with false by dm. rewrite wd_out by (left; dm). apply Z.bits_0.
    + assert (0 <= i / 64) by dm. unfold mem. destruct (Z.lt_ge_cases (i / 64) (inUse s1)).
      * replace (_ && (_ <? _)) with true by lia. rewrite Z.land_spec. rewrite W1. replace (_ <=? _) with false by lia. auto.
      * replace (_ && (_ <? _)) with false by lia. rewrite Zs1 by lia. rewrite Z.bits_0.
        destruct (Z.le_gt_cases (inUse s) (i / 64)); [rewrite Zs by lia|rewrite (Zt (i / 64)) by lia];
          rewrite Z.bits_0; auto. rewrite andb_false_r. auto.
Qed.

Lemma merge_ok op (o : bool -> bool -> bool) s t : inv s -> inv t ->
  (forall x y, in_s 64 x -> in_s 64 y -> in_s 64 (op x y)) ->
  (forall x y j, Z.testbit (op x y) j = o (Z.testbit x j) (Z.testbit y j)) ->
  (forall x, o x false = x) -> (forall x, o false x = x) ->
  exists s', merge HW op s t = Ok s' /\ pre s' /\ (forall i, mem s' i = o (mem s i) (mem t i)) /\
    inUse s' = Z.max (inUse s) (inUse t) /\
    forall k, 0 <= k -> wd (words s') k =
      if k <? inUse s then if k <? inUse t then op (wd (words s) k) (wd (words t) k) else wd (words s) k
      else wd (words t) k.
Proof.
  intros [Ps Ns] [Pt Nt] In Ot Or Ol. pose proof Ps as [Us Cs Ms Ws Zs]. pose proof Pt as [Ut Ct Mt Wt Zt].
  unfold merge.
  assert (X : exists s1, (if inUse s <? inUse t then let* s := ensureCapacity HW s (inUse t) in Ok (mk (words s) (inUse t) (sticky s)) else Ok s) = Ok s1 /\
     pre s1 /\ inUse s1 = Z.max (inUse s) (inUse t) /\ forall k, wd (words s1) k = wd (words s) k).
  { destruct (Z.ltb_spec (inUse s) (inUse t)) as [H|H].
    - destruct (ensure_ok s (inUse t) Ps ltac:(lia)) as (s1 & -> & U1 & L1 & L2 & W1). cbn [bind]. eexists. split; [reflexivity|].
      cbn [words inUse]. split; [constructor; cbn [words inUse]; try lia|].
      + intros k. rewrite W1. auto.
      + intros k Hk. rewrite W1. apply Zs. lia.
      + split; auto. lia.
    - exists s. repeat split; try apply Ps. lia. }
  destruct X as (s1 & -> & P1 & U1 & W1). cbn [bind]. pose proof P1 as [Us1 Cs1 Ms1 Ws1 Zs1].
  set (c := Z.min (inUse s) (inUse t)).
  destruct (for_range_ok 0 c (words s1) (fun i x => let* y := at_ (words t) i in Ok (op x y))
       (fun k => op (wd (words s1) k) (wd (words t) k))) as (ws & -> & L & W); try lia.
  { intros k Hk. rewrite at_wd by lia. auto. }
  cbn [bind].
  assert (Y : exists ws2, (if c <? inUse t then for_range c (inUse t) ws (fun i _ => at_ (words t) i) else Ok ws) = Ok ws2 /\
     zlen ws2 = zlen ws /\ forall k, wd ws2 k = if (c <=? k) && (k <? inUse t) then wd (words t) k else wd ws k).
  { destruct (Z.ltb_spec c (inUse t)).
    - apply for_range_ok; try lia. intros k Hk. apply at_wd. lia.
    - exists ws. repeat split; auto. intros k. replace (_ && _) with false by lia. auto. }
  destruct Y as (ws2 & -> & L2 & W2). cbn [bind].
  assert (V : forall k, 0 <= k -> wd ws2 k =
      if k <? inUse s then if k <? inUse t then op (wd (words s) k) (wd (words t) k) else wd (words s) k
      else wd (words t) k).
  { intros k Hk. rewrite W2, W, W1. destruct (Z.ltb_spec k (inUse s)); destruct (Z.ltb_spec k (inUse t)).
    - replace (c <=? k) with false by lia. replace (k <? c) with true by lia. replace (0 <=? k) with true by lia. auto.
    - rewrite andb_false_r. replace (k <? c) with false by lia. rewrite andb_false_r. auto.
    - replace (c <=? k) with true by lia. auto.
    - rewrite andb_false_r. replace (k <? c) with false by lia. rewrite andb_false_r. rewrite Zs, Zt by lia. auto. }
  eexists. split; [reflexivity|]. split; [|split; [|split; [cbn [inUse]; lia|cbn [words]; auto]]].
  - apply pre_words; auto; try lia.
    + intros k. destruct (Z.lt_ge_cases k 0); [rewrite wd_out by lia; auto with ins|]. rewrite V by lia.
      destruct (_ <? _); auto. destruct (_ <? _); auto.
    + intros k Hk. rewrite V by lia. replace (k <? inUse s) with false by lia. apply Zt. lia.
  - intros i. destruct (Z.lt_ge_cases i 0); [rewrite !mem_neg by auto; rewrite Or; auto|].
    assert (0 <= i / 64) by dm. rewrite mem_mk, V by auto. unfold mem.
    destruct (Z.ltb_spec (i / 64) (inUse s)).
    + destruct (Z.ltb_spec (i / 64) (inUse t)); auto. rewrite (Zt (i / 64)), Z.bits_0, Or by lia. auto.
    + rewrite (Zs (i / 64)), Z.bits_0, Ol by lia. auto.
Qed.

Lemma bitOr_ok s t : inv s -> inv t -> exists s', bitOr HW s t = Ok s' /\ inv s' /\
  forall i, mem s' i = mem s i || mem t i.
Proof.
  intros Is It. destruct (equals_ok s t Is It) as (r & E & R). unfold bitOr. rewrite E. cbn [bind].
  destruct r.
  - exists s. split; auto. split; auto. intros i. destruct (Z.lt_ge_cases i 0).
    + rewrite !mem_neg by auto. auto.
    + rewrite <- (proj1 R eq_refl i) by auto. rewrite orb_diag. auto.
  - destruct (merge_ok Z.lor orb s t Is It) as (s' & -> & P' & M' & U' & V'); auto with ins.
    { intros. apply Z.lor_spec. } { apply orb_false_r. }
    exists s'. split; auto. split; auto. split; auto. intros H.
    destruct Is as [Ps Ns], It as [Pt Nt]. rewrite V' by lia. rewrite U' in *.
    destruct (Z.ltb_spec (Z.max (inUse s) (inUse t) - 1) (inUse s)); [destruct (Z.ltb_spec (Z.max (inUse s) (inUse t) - 1) (inUse t))|].
    + intros F. apply Z.lor_eq_0_iff in F. destruct F as [F _]. replace (Z.max (inUse s) (inUse t)) with (inUse s) in F by lia. apply Ns in F; auto. lia.
    + replace (Z.max (inUse s) (inUse t)) with (inUse s) by lia. apply Ns. lia.
    + replace (Z.max (inUse s) (inUse t)) with (inUse t) by lia. apply Nt. lia.
Qed.
Lemma bitXor_ok s t : inv s -> inv t -> exists s', bitXor HW s t = Ok s' /\ inv s' /\
  forall i, mem s' i = xorb (mem s i) (mem t i).
Proof.
  intros Is It. unfold bitXor.
  destruct (merge_ok Z.lxor xorb s t Is It) as (s1 & -> & P' & M' & _); auto with ins.
  { intros. apply Z.lxor_spec. } { apply xorb_false_r. } { apply xorb_false_l. }
  cbn [bind]. destruct (recalc_mem s1 P') as (s' & -> & I' & M2). exists s'. split; auto. split; auto.
  intros i. rewrite M2. auto.
Qed.
Lemma andNot_ok s t : inv s -> inv t -> exists s', andNot s t = Ok s' /\ inv s' /\
  forall i, mem s' i = mem s i && negb (mem t i).
Proof.
  intros [Ps Ns] [Pt Nt]. pose proof Ps as [Us Cs Ms Ws Zs]. pose proof Pt as [Ut Ct Mt Wt Zt]. unfold andNot.
  set (c := Z.min (inUse s) (inUse t)).
  destruct (for_range_ok 0 c (words s) (fun i x => let* y := at_ (words t) i in Ok (Z.land x (Z.lnot y)))
       (fun k => Z.land (wd (words s) k) (Z.lnot (wd (words t) k)))) as (ws & -> & L & W); try lia.
  { intros k Hk. rewrite at_wd by lia. auto. }
  cbn [bind].
  destruct (recalc_mem (mk ws (inUse s) (sticky s))) as (s' & -> & I' & M').
  { apply pre_words; auto; try lia.
    - intros k. rewrite W. destruct (_ && _); auto with ins.
    - intros k Hk. rewrite W. replace (_ && _) with false by lia. auto. }
  exists s'. split; auto. split; auto. intros i. rewrite M', mem_mk, W.
  destruct (Z.lt_ge_cases i 0) as [Hi|Hi].
  + rewrite !mem_neg by auto. replace (_ && _) with false by dm. rewrite wd_out by (left; dm). apply Z.bits_0.
  + assert (0 <= i / 64) by dm. unfold mem. destruct (Z.lt_ge_cases (i / 64) c).
    * replace (_ && (_ <? _)) with true by lia. rewrite Z.land_spec, Z.lnot_spec by dm. auto.
    * replace (_ && (_ <? _)) with false by lia. destruct (Z.lt_ge_cases (i / 64) (inUse s)).
      -- rewrite (Zt (i / 64)) by lia. rewrite Z.bits_0, andb_true_r. auto.
      -- rewrite (Zs (i / 64)) by lia. rewrite Z.bits_0. auto.
Qed.

(** ** intersects *)

Lemma inter_from_ok n : forall i a b, 0 <= i -> i + Z.of_nat n <= zlen a -> i + Z.of_nat n <= zlen b ->
  forall x : nat,
  ((exists k, i <= k < i + Z.of_nat n /\ Z.land (wd a k) (wd b k) <> 0) /\ inter_from (n + x) i a b = Ok true) \/
  ((forall k, i <= k < i + Z.of_nat n -> Z.land (wd a k) (wd b k) = 0) /\
   inter_from (n + x) i a b = inter_from x (i + Z.of_nat n) a b).
Proof.
  induction n as [|n IH]; intros i a b Hi Ha Hb x.
  - right. split; [intros; lia|]. cbn. f_equal. lia.
  - cbn [inter_from Nat.add]. rewrite !at_wd by lia. cbn [bind].
    destruct (Z.eqb_spec (Z.land (wd a i) (wd b i)) 0) as [E|E]; cbn [negb].
    + destruct (IH (i + 1) a b ltac:(lia) ltac:(lia) ltac:(lia) x) as [[(k & Hk & K) ->]|[H ->]].
      * left. split; auto. exists k. split; auto. lia.
      * right. split; [|f_equal; lia]. intros k Hk. destruct (Z.eq_dec k i); subst; auto. apply H. lia.
    + left. split; auto. exists i. split; auto. lia.
Qed.
Lemma intersects_ok s t : pre s -> pre t ->
  ((exists i, 0 <= i /\ mem s i = true /\ mem t i = true) /\ intersects s t = Ok true) \/
  ((forall i, 0 <= i -> mem s i && mem t i = false) /\
   intersects s t =
     if (Z.min (inUse s) (inUse t) <? zlen (words s)) && (Z.min (inUse s) (inUse t) <? zlen (words t))
     then Ok false else Throw OutOfRange).
Proof.
  intros [Us Cs Ms Ws Zs] [Ut Ct Mt Wt Zt]. unfold intersects. set (c := Z.min (inUse s) (inUse t)).
  replace (Z.to_nat (c + 1)) with (Z.to_nat c + 1)%nat by lia.
  destruct (inter_from_ok (Z.to_nat c) 0 (words s) (words t) ltac:(lia) ltac:(lia) ltac:(lia) 1) as [[(k & Hk & K) E]|[H E]].
  - left. split; auto. apply word_n0 in K; auto with ins. destruct K as (j & Hj & J). rewrite Z.land_spec in J.
    apply andb_true_iff in J. exists (64 * k + j). rewrite !mem_word by auto. split; [lia|auto].
  - right. split.
    + intros i Hi. unfold mem. rewrite <- Z.land_spec. destruct (Z.lt_ge_cases (i / 64) c).
      * rewrite H by (split; [dm|lia]). apply Z.bits_0.
      * destruct (Z.le_gt_cases (inUse s) (i / 64)); [rewrite Zs by lia|rewrite Zt by lia; rewrite Z.land_0_r]; apply Z.bits_0.
    + rewrite E. replace (0 + Z.of_nat (Z.to_nat c)) with c by lia. cbn [inter_from].
      destruct (Z.ltb_spec c (zlen (words s))).
      * rewrite at_wd by lia. cbn [bind]. destruct (Z.ltb_spec c (zlen (words t))).
        -- rewrite at_wd by lia. cbn [bind andb].
           replace (Z.land (wd (words s) c) (wd (words t) c)) with 0; auto.
           destruct (Z.le_gt_cases (inUse s) c); [rewrite Zs by lia|rewrite Zt by lia; rewrite Z.land_0_r]; auto.
        -- rewrite at_throw by lia. auto.
      * rewrite at_throw by lia. auto.
Qed.

(** ** Copies *)

Lemma copy_inv s : inv s -> inv (BitSetCopy s) /\ forall i, mem (BitSetCopy s) i = mem s i.
Proof.
  intros [P N]. pose proof P as [U C M W Z0]. unfold BitSetCopy.
  assert (X : forall k, wd (copyOf (words s) (zlen (words s))) k = wd (words s) k).
  { intros. rewrite wd_copyOf by lia. destruct (Z.ltb_spec k (zlen (words s))); auto. rewrite wd_out; auto. }
  split.
  - split; [constructor|]; cbn [words inUse]; rewrite ?copyOf_len by lia; auto; try (intros; rewrite X; auto).
  - intros i. rewrite mem_mk, X. auto.
Qed.
Lemma trim_inv s : inv s -> inv (trimToSize s) /\ forall i, mem (trimToSize s) i = mem s i.
Proof.
  intros [P N]. pose proof P as [U C M W Z0]. unfold trimToSize. destruct (negb _); [|split; [split|]; auto].
  assert (X : forall k, wd (copyOf (words s) (inUse s)) k = wd (words s) k).
  { intros. rewrite wd_copyOf by lia. destruct (Z.ltb_spec k (inUse s)); auto. rewrite Z0; auto. }
  split.
  - split; [constructor|]; cbn [words inUse]; rewrite ?copyOf_len by lia; auto; try lia; try (intros; rewrite X; auto).
  - intros i. rewrite mem_mk, X. auto.
Qed.
Lemma clone_ok s : inv s -> inv (fst (clone s)) /\ inv (snd (clone s)) /\
  forall i, mem (fst (clone s)) i = mem s i /\ mem (snd (clone s)) i = mem s i.
Proof.
  intros I. unfold clone. cbn [fst snd].
  assert (Y : inv (if negb (sticky s) then trimToSize s else s) /\ forall i, mem (if negb (sticky s) then trimToSize s else s) i = mem s i).
  { destruct (negb (sticky s)); [apply trim_inv|]; auto. }
  destruct Y as [I1 M1]. split; auto. destruct (copy_inv _ I1) as [I2 M2]. split; auto.
  intros i. rewrite M2. auto.
Qed.

(** ** Extraction of a range *)

Lemma lshr_bits x n j : 0 <= j < 64 -> exists r, lshr HW x n = Ok r /\ 0 <= r < 2 ^ 64 /\
  Z.testbit r j = if j + n mod 64 <? 64 then Z.testbit x (j + n mod 64) else false.
Proof.
  intros Hj. unfold lshr, ushr. eexists. split; [reflexivity|]. pose proof (Z.mod_pos_bound n 64 ltac:(lia)) as Hn.
  split.
  - rewrite Z.shiftr_div_pow2 by lia. pose proof (uwrap_range 64 x ltac:(lia)). pose proof (pow2_pos (n mod 64) ltac:(lia)).
    split; [apply Z.div_pos; lia|]. apply Z.div_lt_upper_bound; auto. nia.
  - rewrite Z.shiftr_spec by lia. rewrite uwrap_bits by lia. destruct (_ <? _); auto.
Qed.
Lemma lshr_ok x n : exists r, lshr HW x n = Ok r /\ 0 <= r < 2 ^ 64 /\ forall j, 0 <= j < 64 ->
  Z.testbit r j = if j + n mod 64 <? 64 then Z.testbit x (j + n mod 64) else false.
Proof.
  destruct (lshr_bits x n 0 ltac:(lia)) as (r & E & R & _). exists r. split; auto. split; auto.
  intros j Hj. destruct (lshr_bits x n j Hj) as (r' & E' & _ & B). rewrite E in E'. injection E' as <-. auto.
Qed.

Lemma join_ok src k from mask : 0 <= k -> k + 1 < zlen src -> from mod 64 <> 0 -> in_s 64 (wd src k) ->
  exists r, join HW src k from mask = Ok r /\ in_s 64 r /\ forall j, 0 <= j < 64 ->
    Z.testbit r j = if j + from mod 64 <? 64 then Z.testbit (wd src k) (j + from mod 64)
                    else Z.testbit (wd src (k + 1)) (j + from mod 64 - 64) && Z.testbit mask (j + from mod 64 - 64).
Proof.
  intros Hk Hl Hf Hi. unfold join. rewrite at_wd by lia. cbn [bind].
  destruct (lshr_ok (wd src k) from) as (a & -> & A & B). cbn [bind]. rewrite at_wd by lia. cbn [bind].
  unfold sneg. rewrite sres_HW by lia. cbn [bind]. unfold sshl. cbn [bind]. eexists. split; [reflexivity|].
  split; [apply wrap_range; lia|]. intros j Hj. rewrite wrap_bits_low, Z.lor_spec, B by lia.
  rewrite uwrap_bits by lia. replace (j <? 64) with true by lia. rewrite wrap_bits_low by lia.
  rewrite mod64, neg_mod64, Zmod_mod. pose proof (Z.mod_pos_bound from 64 ltac:(lia)).
  assert (E : (- from) mod 64 = 64 - from mod 64) by dm. rewrite E. rewrite Z.shiftl_spec by lia.
  destruct (Z.ltb_spec (j + from mod 64) 64).
  - rewrite (Z.testbit_neg_r _ (j - _)) by lia. rewrite orb_false_r. auto.
  - cbn [orb]. rewrite Z.land_spec. replace (j - (64 - from mod 64)) with (j + from mod 64 - 64) by lia. auto.
Qed.

Lemma small_length s L : small s -> is_length s L -> L <= int_max.
Proof.
  intros S (H0 & H1 & H2). destruct (Z.le_gt_cases L int_max); auto. exfalso.
  assert (F : mem s (L - 1) = true) by (apply H2; unfold int_max in *; lia).
  rewrite S in F by lia. discriminate.
Qed.
Lemma length_small s : inv s -> small s -> exists L, length HW s = Ok L /\ is_length s L /\
  (0 < inUse s -> (L - 1) / 64 = inUse s - 1) /\ (inUse s = 0 -> L = 0) /\ L <= 64 * inUse s /\ 0 <= L <= int_max.
Proof.
  intros I S. destruct (length_ok s I) as (L & E & H & A & B & C). pose proof (small_length s L S H).
  exists L. rewrite E. rewrite (wrap_id 32). { repeat split; auto; apply H. }
  lia. unfold in_s, smin, smax. pose proof (proj1 H). change (2 ^ (32 - 1)) with 2147483648. unfold int_max in *. lia.
Qed.

Lemma getRange_ok s from to : inv s -> small s -> 0 <= from <= to -> to <= int_max ->
  exists s', getRange HW s from to = Ok s' /\ inv s' /\ small s' /\
  forall i, 0 <= i -> mem s' i = (i <? to - from) && mem s (from + i).
Proof.
  intros I S H Ht. pose proof I as [P N]. unfold getRange. rewrite checkRange_ok by auto. cbn [bind].
  destruct (length_small s I S) as (L & -> & (L0 & LA & LB) & LC & LD & LE & LF). cbn [bind].
  destruct (Z.leb_spec L from) as [G|G]; cbn [orb].
  { destruct (BitSetN_ok 0 ltac:(unfold int_max; lia)) as (r & -> & Ir & Mr & _). exists r. split; auto. split; auto.
    split; [intros i _; apply Mr|]. intros i Hi. rewrite Mr, LA by lia. rewrite andb_false_r. auto. }
  destruct (Z.eqb_spec from to) as [G2|G2].
  { destruct (BitSetN_ok 0 ltac:(unfold int_max; lia)) as (r & -> & Ir & Mr & _). exists r. split; auto. split; auto.
    split; [intros i _; apply Mr|]. intros i Hi. rewrite Mr. replace (_ <? _) with false by lia. auto. }
  set (t := if L <? to then L else to).
  assert (T : from < t /\ t <= to /\ t <= L) by (unfold t; destruct (Z.ltb_spec L to); lia).
  assert (TM : forall i, 0 <= i -> (i <? to - from) && mem s (from + i) = (i <? t - from) && mem s (from + i)).
  { intros i Hi. unfold t. destruct (Z.ltb_spec L to); auto. destruct (Z.lt_ge_cases i (L - from)).
    - f_equal. lia.
    - rewrite LA by lia. rewrite !andb_false_r. auto. }
  clearbody t. destruct (BitSetN_ok (t - from) ltac:(lia)) as (r & -> & Ir & Mr & Wr). cbn [bind].
  rewrite !wordIndex_div. rewrite !mod64.
  pose proof P as [U C M W Z0]. unfold int_max in *.
  set (n := (t - from - 1) / 64). set (src := from / 64).
  assert (Hn : 0 <= n) by (unfold n; dm). assert (Hs : 0 <= src) by (unfold src; dm).
  assert (HU : t - 1 < 64 * inUse s) by lia.
  assert (Ln : zlen (words r) = n + 1). { rewrite Wr, zlen_repeat. unfold n. dm. }
  replace (n + 1 - 1) with n by lia.
  (* all words but the last *)
  assert (Xg : forall k, 0 <= k < n -> exists y, (if from mod 64 =? 0 then at_ (words s) (src + k) else join HW (words s) (src + k) from (-1)) = Ok y /\
     in_s 64 y /\ forall j, 0 <= j < 64 -> Z.testbit y j = mem s (from + (64 * k + j))).
  { intros k Hk. assert (src + k + 1 < inUse s).
    { assert (src + k + 1 <= (t - 1) / 64); [|dm]. unfold src. clear - Hk Hn. unfold n in *. dm. }
    destruct (Z.eqb_spec (from mod 64) 0) as [A|A].
    - rewrite at_wd by lia. eexists. split; [reflexivity|]. split; auto. intros j Hj.
      rewrite <- mem_word by auto. f_equal. unfold src. dm.
    - destruct (join_ok (words s) (src + k) from (-1)) as (y & E & Iy & B); try lia; auto. exists y. split; auto. split; auto.
      intros j Hj. rewrite B by auto.
      destruct (Z.ltb_spec (j + from mod 64) 64).
      + rewrite <- mem_word by dm. f_equal. unfold src. dm.
      + rewrite Z.bits_m1 by lia. rewrite andb_true_r. rewrite <- mem_word by dm. f_equal. unfold src. dm. }
  set (f := fun i (_ : Z) => if from mod 64 =? 0 then at_ (words s) (src + i) else join HW (words s) (src + i) from (-1)).
  set (g := fun k => match f k 0 with Ok y => y | _ => 0 end).
  destruct (for_range_ok 0 n (words r) f g) as (ws & -> & Lws & Wws); try lia.
  { intros k Hk. destruct (Xg k ltac:(lia)) as (y & E & _). unfold g, f. rewrite E. auto. }
  cbn [bind].
  destruct (last_mask_ok t) as (mask & -> & Mi & MB). cbn [bind].
  (* the last word *)
  assert (Xl : exists y, (if (t - 1) mod 64 <? from mod 64
       then let* x := join HW (words s) (src + n) from mask in at_set ws n x
       else let* a := at_ (words s) (src + n) in let* x := lshr HW (Z.land a mask) from in at_set ws n (wrap 64 x)) = Ok (zupd ws n y) /\
     in_s 64 y /\ forall j, 0 <= j < 64 -> Z.testbit y j = (64 * n + j <? t - from) && mem s (from + (64 * n + j))).
  { pose proof (mem_split from) as Q1. pose proof (mem_split (t - 1)) as Q2.
    assert (Q3 : t - from - 1 = 64 * n + (t - from - 1) mod 64 /\ 0 <= (t - from - 1) mod 64 < 64) by (unfold n; dm).
    fold src in Q1. set (e := (t - 1) / 64) in *. assert (He : e < inUse s) by (unfold e; dm).
    destruct (Z.ltb_spec ((t - 1) mod 64) (from mod 64)) as [D|D].
    - assert (Q4 : e = src + n + 1) by (clear - Q1 Q2 Q3 D; lia).
      destruct (join_ok (words s) (src + n) from mask) as (y & -> & Iy & B); try lia; auto. cbn [bind].
      rewrite at_set_ok by lia. exists y. split; auto. split; auto. intros j Hj. rewrite B by auto.
      destruct (Z.ltb_spec (j + from mod 64) 64).
      + rewrite <- mem_word by lia. replace (_ <? _) with true by lia. cbn [andb]. f_equal. lia.
      + rewrite MB by lia. rewrite <- mem_word by lia. rewrite andb_comm. f_equal; [|f_equal]; lia.
    - assert (Q4 : e = src + n) by (clear - Q1 Q2 Q3 D; lia).
      rewrite at_wd by lia. cbn [bind].
      destruct (lshr_ok (Z.land (wd (words s) (src + n)) mask) from) as (y & -> & Ry & B). cbn [bind].
      rewrite at_set_ok by lia. exists (wrap 64 y). split; auto. split; [apply wrap_range; lia|].
      intros j Hj. rewrite wrap_bits_low, B by lia.
      destruct (Z.ltb_spec (j + from mod 64) 64).
      + rewrite Z.land_spec, MB by lia. rewrite <- mem_word by lia. rewrite andb_comm. f_equal; [|f_equal]; lia.
      + replace (_ <? _) with false by lia. auto. }
  destruct Xl as (y & -> & Iy & By). cbn [bind].
  assert (WW : forall k, 0 <= k -> in_s 64 (wd (zupd ws n y) k) /\ (n < k -> wd (zupd ws n y) k = 0) /\
    forall j, 0 <= j < 64 -> Z.testbit (wd (zupd ws n y) k) j = (64 * k + j <? t - from) && mem s (from + (64 * k + j))).
  { intros k Hk. rewrite wd_zupd by lia. destruct (Z.eqb_spec k n) as [->|Q]; [split; auto; split; auto; lia|].
    rewrite Wws. destruct (Z.lt_ge_cases k n).
    - replace (_ && (_ <? _)) with true by lia. destruct (Xg k ltac:(lia)) as (y' & E & I' & B').
      unfold g, f. rewrite E. split; auto. split; [lia|]. intros j Hj. rewrite B' by auto.
      replace (_ <? _) with true; auto. unfold n in *. dm.
    - replace (_ && (_ <? _)) with false by lia. rewrite Wr, wd_repeat. split; auto with ins. split; auto.
      intros j Hj. rewrite Z.bits_0. replace (_ <? _) with false; auto. unfold n in *. dm. }
  destruct (recalc_mem (mk (zupd ws n y) (n + 1) (sticky r))) as (s' & E' & I' & M').
  { constructor; cbn [words inUse]; rewrite ?zupd_len; try lia.
    - rewrite Lws, Ln. unfold n. clear - H Ht T; unfold int_max in *; dm.
    - unfold n. clear - H Ht T; unfold int_max in *; dm.
    - intros k. destruct (Z.lt_ge_cases k 0); [rewrite wd_out by lia; auto with ins|]. apply WW; auto.
    - intros k Hk. apply WW; lia. }
  exists s'. rewrite E'. split; auto. split; auto.
  assert (MM : forall i, 0 <= i -> mem s' i = (i <? t - from) && mem s (from + i)).
  { intros i Hi. rewrite M', mem_mk. destruct (WW (i / 64) (div64 i Hi)) as (_ & _ & B). rewrite B by apply mod64_lt.
    rewrite <- (proj1 (mem_split i)). auto. }
  split.
  - intros i Hi. unfold int_max in *. rewrite MM by lia. replace (_ <? _) with false by lia. auto.
  - intros i Hi. rewrite TM by auto. auto.
Qed.

(** ** Conversion from long[] *)

Lemma strip_ok l n : Z.of_nat n <= zlen l -> exists r, strip l n = Ok r /\ 0 <= r <= Z.of_nat n /\
  (0 < r -> wd l (r - 1) <> 0) /\ forall k, r <= k < Z.of_nat n -> wd l k = 0.
Proof.
  intros H. assert (E : strip l n = scan l n).
  { clear. induction n as [|n IH]; auto. cbn [strip scan]. destruct (at_ l (Z.of_nat n)); cbn [bind]; auto. destruct (_ =? 0); auto. }
  rewrite E. apply scan_ok. auto.
Qed.
Lemma valueOfLongs_ok l : Forall is_long l -> zlen l <= 2 ^ 25 -> exists s, valueOfLongs l = Ok s /\ inv s /\
  (forall k, wd (words s) k = wd l k) /\ zlen (words s) = inUse s.
Proof.
  intros F H. unfold valueOfLongs. destruct (strip_ok l (List.length l) ltac:(unfold zlen; lia)) as (r & -> & R & N & Z0).
  fold (zlen l) in *. cbn [bind]. eexists. split; [reflexivity|].
  assert (X : forall k, wd (copyOf l r) k = wd l k).
  { intros k. rewrite wd_copyOf by lia. destruct (Z.ltb_spec k r); auto. destruct (Z.lt_ge_cases k (zlen l)).
    - symmetry. apply Z0. lia.
    - rewrite wd_out; auto. }
  assert (L : zlen (copyOf l r) = r) by (apply copyOf_len; lia).
  split; [|split; [exact X|]].
  - split; [constructor|]; cbn [BitSetWords words inUse]; rewrite ?L; auto; try lia; try (intros; rewrite X; auto).
    + unfold wd. destruct (znth l k) as [x|] eqn:E; auto with ins. unfold znth in E. destruct (k <? 0); [discriminate|].
      apply nth_error_In in E. rewrite Forall_forall in F. apply (proj1 (is_long_s _)). auto.
    + destruct (Z.lt_ge_cases k (zlen l)); [apply Z0; lia|apply wd_out; lia].
  - reflexivity.
Qed.
