(** Lemmas about the BitSet model: searches, cardinality, hash, bytes, text. *)

From Coq Require Import ZArith List Lia Bool Sorted.
From Verif Require Import Base Bits CppText BitSpec BitLemmas LongModel LongProofs BitSetModel BitSetProofs BitSetProofs2.
Import ListNotations.
Open Scope Z_scope.

(** ** Forward searches *)

(** The word looked at by the searches. *)
Definition seen (neg : bool) (x : Z) : Z := if neg then Z.lnot x else x.
Lemma seen_bit neg x j : 0 <= j -> Z.testbit (seen neg x) j = xorb neg (Z.testbit x j).
Proof. intros. destruct neg; cbn [seen]; [rewrite Z.lnot_spec by auto; auto|rewrite xorb_false_l; auto]. Qed.
Lemma seen_in neg x : in_s 64 x -> in_s 64 (seen neg x).
Proof. destruct neg; auto with ins. Qed.

Lemma ntz_some x : in_s 64 x -> x <> 0 -> exists k, numberOfTrailingZeros HW x = Ok k /\ lowest_at 64 x k.
Proof.
  intros I N. destruct (ntz_ok HW x (proj2 (is_long_s _) I)) as (r & E & [[? ?]|(k & K & ->)]); [contradiction|].
  eauto.
Qed.
Lemma nlz_some x : in_s 64 x -> x <> 0 -> exists k, numberOfLeadingZeros HW x = Ok (63 - k) /\ highest_at 64 x k.
Proof.
  intros I N. destruct (nlz_ok HW x (proj2 (is_long_s _) I)) as (r & E & [[? ?]|(k & K & ->)]); [contradiction|].
  exists k. split; auto.
Qed.

Lemma next_loop_ok n : forall neg ws use wi word none, use = wi + Z.of_nat n -> (0 < n)%nat -> 0 <= wi ->
  use <= zlen ws -> use <= 2 ^ 25 -> (forall k, in_s 64 (wd ws k)) -> in_s 64 word ->
  (next_loop HW n neg ws use wi word none = none /\ word = 0 /\ forall k, wi < k < use -> seen neg (wd ws k) = 0) \/
  (exists k j, next_loop HW n neg ws use wi word none = Ok (64 * k + j) /\ wi <= k < use /\
     lowest_at 64 (if k =? wi then word else seen neg (wd ws k)) j /\
     (wi < k -> word = 0) /\ forall i, wi < i < k -> seen neg (wd ws i) = 0).
Proof.
  induction n as [|n IH]; intros neg ws use wi word none Hu Hn Hw Hl Hm Ws Iw; [lia|].
  cbn [next_loop]. destruct (Z.eqb_spec word 0) as [E|E]; cbn [negb].
  - destruct (Z.eqb_spec (wi + 1) use) as [F|F].
    + left. split; auto. split; auto. intros; lia.
    + rewrite at_wd by lia. cbn [bind]. fold (seen neg (wd ws (wi + 1))).
      destruct (IH neg ws use (wi + 1) (seen neg (wd ws (wi + 1))) none) as [(-> & Z1 & Z2)|(k & j & -> & Hk & Lo & Z1 & Z2)];
        auto using seen_in; try lia.
      * left. split; auto. split; auto. intros k Hk. destruct (Z.eq_dec k (wi + 1)); subst; auto. apply Z2. lia.
      * right. exists k, j. split; auto. split; [lia|]. split; [|split; auto].
        -- replace (k =? wi) with false by lia. destruct (Z.eqb_spec k (wi + 1)); subst; auto.
        -- intros i Hi. destruct (Z.eq_dec i (wi + 1)); subst; [apply Z1; lia|apply Z2; lia].
  - right. destruct (ntz_some word Iw E) as (j & -> & J). cbn [bind]. pose proof (proj1 J). exists wi, j.
    unfold sadd. rewrite sres_ok by (unfold in_s, smin, smax; change (2 ^ (32 - 1)) with 2147483648; lia).
    split; [f_equal; lia|]. split; [lia|]. rewrite Z.eqb_refl. split; auto. split; intros; lia.
Qed.

(** [r] is the least index from [from] on where [p] holds. *)
Definition least_from (p : Z -> bool) (from r : Z) : Prop :=
  from <= r /\ p r = true /\ forall i, from <= i < r -> p i = false.
Definition greatest_upto (p : Z -> bool) (from r : Z) : Prop :=
  0 <= r <= from /\ p r = true /\ forall i, r < i <= from -> p i = false.

Lemma next_ok s neg from none : pre s -> 0 <= from -> from / 64 < inUse s ->
  exists word, in_s 64 word /\ (forall j, 0 <= j < 64 -> Z.testbit word j = xorb neg (mem s (64 * (from / 64) + j)) && (from mod 64 <=? j)) /\
  let r := next_loop HW (Z.to_nat (inUse s - from / 64)) neg (words s) (inUse s) (from / 64) word none in
  (let* x := at_ (words s) (from / 64) in let* f := first_mask HW from in
   next_loop HW (Z.to_nat (inUse s - from / 64)) neg (words s) (inUse s) (from / 64) (Z.land (seen neg x) f) none) = r /\
  ((r = none /\ forall i, from <= i < 64 * inUse s -> xorb neg (mem s i) = false) \/
   exists i, r = Ok i /\ i < 64 * inUse s /\ least_from (fun i => xorb neg (mem s i)) from i).
Proof.
  intros P Hf Hu. pose proof P as [U C M W Z0]. assert (0 <= from / 64) by dm. rewrite at_wd by lia. cbn [bind].
  destruct (first_mask_ok from) as (f & -> & Fi & F). cbn [bind].
  set (word := Z.land (seen neg (wd (words s) (from / 64))) f). exists word.
  assert (Iw : in_s 64 word) by (unfold word; auto using seen_in with ins).
  assert (Bw : forall j, 0 <= j < 64 -> Z.testbit word j = xorb neg (mem s (64 * (from / 64) + j)) && (from mod 64 <=? j)).
  { intros j Hj. unfold word. rewrite Z.land_spec, seen_bit, F, mem_word by lia. auto. }
  split; auto. split; auto. cbn zeta. split; auto.
  pose proof (mem_split from) as Q.
  assert (Lowz : forall i, from <= i -> i / 64 = from / 64 -> word = 0 -> xorb neg (mem s i) = false).
  { intros i Hi E Z1. pose proof (Bw (i mod 64) ltac:(dm)) as B. rewrite Z1, Z.bits_0 in B.
    rewrite <- E, <- (proj1 (mem_split i)) in B. rewrite B. replace (from mod 64 <=? i mod 64) with true by dm. rewrite andb_true_r. auto. }
  assert (Highz : forall i, seen neg (wd (words s) (i / 64)) = 0 -> xorb neg (mem s i) = false).
  { intros i Z1. pose proof (seen_bit neg (wd (words s) (i / 64)) (i mod 64) ltac:(dm)) as B. rewrite Z1, Z.bits_0 in B.
    symmetry. exact B. }
  destruct (next_loop_ok (Z.to_nat (inUse s - from / 64)) neg (words s) (inUse s) (from / 64) word none) as [(-> & Z1 & Z2)|(k & j & -> & Hk & Lo & Z1 & Z2)];
    auto; try lia.
  - left. split; auto. intros i Hi. destruct (Z.eq_dec (i / 64) (from / 64)).
    + apply Lowz; auto. lia.
    + apply Highz. apply Z2. dm.
  - right. exists (64 * k + j). split; auto. destruct Lo as (Hj & Bj & Lj). split; [lia|].
    destruct (Z.eqb_spec k (from / 64)) as [E|E].
    + subst k. rewrite Bw in Bj by auto. apply andb_true_iff in Bj. destruct Bj as [B1 B2]. split; [lia|]. split; auto.
      intros i Hi. assert (E : i / 64 = from / 64) by dm. pose proof (Lj (i mod 64) ltac:(dm)) as B. rewrite Bw in B by apply mod64_lt.
      rewrite <- E, <- (proj1 (mem_split i)) in B. rewrite <- B. replace (from mod 64 <=? i mod 64) with true by dm. rewrite andb_true_r. auto.
    + rewrite seen_bit in Bj by lia. split; [dm|]. split; [rewrite mem_word by auto; auto|].
      intros i Hi. destruct (Z.eq_dec (i / 64) (from / 64)); [apply Lowz; auto; try lia; apply Z1; lia|].
      destruct (Z.eq_dec (i / 64) k) as [E2|E2]; [|apply Highz; apply Z2; dm].
      pose proof (Lj (i mod 64) ltac:(dm)) as B. rewrite seen_bit in B by apply mod64_lt. unfold mem. rewrite E2. auto.
Qed.

Lemma nextSetBit_ok s from : pre s -> 0 <= from ->
  (nextSetBit HW s from = Ok (-1) /\ forall i, from <= i -> mem s i = false) \/
  exists r, nextSetBit HW s from = Ok r /\ r < 64 * inUse s /\ least_from (mem s) from r.
Proof.
  intros P Hf. unfold nextSetBit. replace (from <? 0) with false by lia. rewrite wordIndex_div.
  destruct (Z.leb_spec (inUse s) (from / 64)) as [H|H].
  - left. split; auto. intros i Hi. apply mem_high; auto. dm.
  - destruct (next_ok s false from (Ok (-1)) P Hf H) as (word & _ & _ & E & X). cbn [seen] in E. rewrite E.
    destruct X as [(-> & A)|(i & -> & B & L)].
    + left. split; auto. intros i Hi. destruct (Z.lt_ge_cases i (64 * inUse s)); [|apply mem_high; auto].
      specialize (A i ltac:(lia)). rewrite xorb_false_l in A. auto.
    + right. exists i. split; auto. split; auto. destruct L as (L1 & L2 & L3). split; auto. split; [rewrite xorb_false_l in L2; auto|].
      intros k Hk. specialize (L3 k Hk). cbn in L3. destruct (mem s k); auto.
Qed.
Lemma nextClearBit_ok s from : pre s -> small s -> 0 <= from <= int_max -> exists r, nextClearBit HW s from = Ok r /\
  least_from (fun i => negb (mem s i)) from r.
Proof.
  intros P S Hf. unfold nextClearBit. replace (from <? 0) with false by lia. rewrite wordIndex_div.
  destruct (Z.leb_spec (inUse s) (from / 64)) as [H|H].
  - exists from. split; auto. split; [lia|]. rewrite mem_high; [|auto|dm]. split; auto. intros; lia.
  - destruct (next_ok s true from (smul HW 32 (inUse s) 64) P ltac:(lia) H) as (word & _ & _ & E & X). cbn [seen] in E. rewrite E.
    destruct X as [(-> & A)|(i & -> & B & L)].
    + pose proof (pre_max s P).
      assert (inUse s <> 2 ^ 25).
      { intros F. specialize (A int_max). rewrite S in A by lia. cbn [xorb negb] in A.
        assert (true = false) by (apply A; unfold int_max in *; lia). discriminate. }
      unfold smul. pose proof (pre_use s P). rewrite sres_ok by (unfold in_s, smin, smax; change (2 ^ (32 - 1)) with 2147483648; lia).
      exists (inUse s * 64). split; auto. split; [dm|]. rewrite mem_high by (auto; lia). split; auto.
      intros i Hi. specialize (A i ltac:(lia)). destruct (mem s i); auto.
    + exists i. split; auto.
Qed.

(** ** Backward searches *)

Lemma prev_loop_ok n : forall neg ws wi word, n = Z.to_nat (wi + 1) -> 0 <= wi -> wi < zlen ws -> wi < 2 ^ 25 ->
  (forall k, in_s 64 (wd ws k)) -> in_s 64 word ->
  (prev_loop HW n neg ws wi word = Ok (-1) /\ word = 0 /\ forall k, 0 <= k < wi -> seen neg (wd ws k) = 0) \/
  (exists k j, prev_loop HW n neg ws wi word = Ok (64 * k + j) /\ 0 <= k <= wi /\
     highest_at 64 (if k =? wi then word else seen neg (wd ws k)) j /\
     (k < wi -> word = 0) /\ forall i, k < i < wi -> seen neg (wd ws i) = 0).
Proof.
  induction n as [|n IH]; intros neg ws wi word Hn Hw Hl Hm Ws Iw; [lia|].
  cbn [prev_loop]. destruct (Z.eqb_spec word 0) as [E|E]; cbn [negb].
  - destruct (Z.eqb_spec wi 0) as [F|F].
    + left. split; auto. split; auto. intros; lia.
    + rewrite at_wd by lia. cbn [bind]. fold (seen neg (wd ws (wi - 1))).
      destruct (IH neg ws (wi - 1) (seen neg (wd ws (wi - 1)))) as [(-> & Z1 & Z2)|(k & j & -> & Hk & Lo & Z1 & Z2)];
        auto using seen_in; try lia.
      * left. split; auto. split; auto. intros k Hk. destruct (Z.eq_dec k (wi - 1)); subst; auto. apply Z2. lia.
      * right. exists k, j. split; auto. split; [lia|]. split; [|split; auto].
        -- replace (k =? wi) with false by lia. destruct (Z.eqb_spec k (wi - 1)); subst; auto.
        -- intros i Hi. destruct (Z.eq_dec i (wi - 1)); subst; [apply Z1; lia|apply Z2; lia].
  - right. destruct (nlz_some word Iw E) as (j & -> & J). cbn [bind]. pose proof (proj1 J). exists wi, j.
    unfold smul, ssub. rewrite !sres_HW by lia. cbn [bind]. rewrite !sres_HW by lia. cbn [bind]. rewrite sres_HW by lia.
    split; [|split; [lia|]; rewrite Z.eqb_refl; split; auto; split; intros; lia].
    f_equal. transitivity (wrap 32 (64 * wi + j)).
    + apply wrap_eq_mod; [lia|]. rewrite Zminus_mod, wrap_mod, (Zminus_mod (wrap 32 ((wi + 1) * 64)) 1), wrap_mod by lia.
      rewrite <- (Zminus_mod ((wi + 1) * 64) 1), <- Zminus_mod. f_equal. lia.
    + apply wrap_id; [lia|]. unfold in_s, smin, smax. change (2 ^ (32 - 1)) with 2147483648. lia.
Qed.

Lemma prev_ok s neg from : pre s -> 0 <= from <= int_max -> from / 64 < inUse s ->
  let r := (let* x := at_ (words s) (from / 64) in let* f1 := sadd HW 32 from 1 in let* l := last_mask HW f1 in
            prev_loop HW (Z.to_nat (from / 64 + 1)) neg (words s) (from / 64) (Z.land (seen neg x) l)) in
  (r = Ok (-1) /\ forall i, 0 <= i <= from -> xorb neg (mem s i) = false) \/
  exists i, r = Ok i /\ greatest_upto (fun i => xorb neg (mem s i)) from i.
Proof.
  intros P Hf Hu. pose proof P as [U C M W Z0]. assert (0 <= from / 64) by dm. rewrite at_wd by lia. cbn [bind].
  unfold sadd. rewrite sres_HW by lia. cbn [bind].
  rewrite (last_mask_mod _ (from + 1)) by apply wrap32_mod64.
  destruct (last_mask_ok (from + 1)) as (f & -> & Fi & F). cbn [bind]. replace (from + 1 - 1) with from in F by lia.
  set (word := Z.land (seen neg (wd (words s) (from / 64))) f).
  assert (Iw : in_s 64 word) by (unfold word; auto using seen_in with ins).
  assert (Bw : forall j, 0 <= j < 64 -> Z.testbit word j = xorb neg (mem s (64 * (from / 64) + j)) && (j <=? from mod 64)).
  { intros j Hj. unfold word. rewrite Z.land_spec, seen_bit, F, mem_word by lia. auto. }
  cbn zeta. pose proof (mem_split from) as Q.
  assert (Lowz : forall i, i <= from -> i / 64 = from / 64 -> word = 0 -> xorb neg (mem s i) = false).
  { intros i Hi E Z1. pose proof (Bw (i mod 64) ltac:(dm)) as B. rewrite Z1, Z.bits_0 in B.
    rewrite <- E, <- (proj1 (mem_split i)) in B. rewrite B. replace (i mod 64 <=? from mod 64) with true by dm. rewrite andb_true_r. auto. }
  assert (Highz : forall i, seen neg (wd (words s) (i / 64)) = 0 -> xorb neg (mem s i) = false).
  { intros i Z1. pose proof (seen_bit neg (wd (words s) (i / 64)) (i mod 64) ltac:(dm)) as B. rewrite Z1, Z.bits_0 in B.
    symmetry. exact B. }
  destruct (prev_loop_ok (Z.to_nat (from / 64 + 1)) neg (words s) (from / 64) word) as [(-> & Z1 & Z2)|(k & j & -> & Hk & Lo & Z1 & Z2)];
    auto; try lia.
  - left. split; auto. intros i Hi. destruct (Z.eq_dec (i / 64) (from / 64)).
    + apply Lowz; auto. lia.
    + apply Highz. apply Z2. dm.
  - right. exists (64 * k + j). split; auto. destruct Lo as (Hj & Bj & Lj).
    destruct (Z.eqb_spec k (from / 64)) as [E|E].
    + subst k. rewrite Bw in Bj by auto. apply andb_true_iff in Bj. destruct Bj as [B1 B2]. split; [lia|]. split; auto.
      intros i Hi. assert (E : i / 64 = from / 64) by dm. pose proof (Lj (i mod 64) ltac:(dm)) as B. rewrite Bw in B by apply mod64_lt.
      rewrite <- E, <- (proj1 (mem_split i)) in B. rewrite <- B. replace (i mod 64 <=? from mod 64) with true by dm. rewrite andb_true_r. auto.
    + rewrite seen_bit in Bj by lia. split; [dm|]. split; [rewrite mem_word by auto; auto|].
      intros i Hi. destruct (Z.eq_dec (i / 64) (from / 64)); [apply Lowz; auto; try lia; apply Z1; lia|].
      destruct (Z.eq_dec (i / 64) k) as [E2|E2]; [|apply Highz; apply Z2; dm].
      pose proof (Lj (i mod 64) ltac:(dm)) as B. rewrite seen_bit in B by apply mod64_lt. unfold mem. rewrite E2. auto.
Qed.

Lemma previousClearBit_ok s from : pre s -> 0 <= from <= int_max ->
  (previousClearBit HW s from = Ok (-1) /\ forall i, 0 <= i <= from -> mem s i = true) \/
  exists r, previousClearBit HW s from = Ok r /\ greatest_upto (fun i => negb (mem s i)) from r.
Proof.
  intros P Hf. unfold previousClearBit. replace (from <? 0) with false by lia. rewrite wordIndex_div.
  destruct (Z.leb_spec (inUse s) (from / 64)) as [H|H].
  - right. exists from. split; auto. split; [lia|]. rewrite mem_high; [|auto|dm]. split; auto. intros; lia.
  - destruct (prev_ok s true from P Hf H) as [(E & A)|(i & E & L)]; cbn [seen] in E; rewrite E.
    + left. split; auto. intros i Hi. specialize (A i Hi). destruct (mem s i); auto.
    + right. exists i. split; auto.
Qed.
Lemma previousSetBit_ok s from : inv s -> small s -> 0 <= from <= int_max ->
  (previousSetBit HW s from = Ok (-1) /\ forall i, 0 <= i <= from -> mem s i = false) \/
  exists r, previousSetBit HW s from = Ok r /\ greatest_upto (mem s) from r.
Proof.
  intros I S Hf. pose proof I as [P N]. unfold previousSetBit. replace (from <? 0) with false by lia. rewrite wordIndex_div.
  destruct (Z.leb_spec (inUse s) (from / 64)) as [H|H].
  - destruct (length_small s I S) as (L & -> & (L0 & LA & LB) & _ & _ & LE & LF). cbn [bind]. unfold ssub.
    rewrite sres_ok by (unfold in_s, smin, smax; change (2 ^ (32 - 1)) with 2147483648; unfold int_max in *; lia).
    destruct (Z.eq_dec L 0) as [->|].
    + left. split; auto. intros; apply LA; lia.
    + right. exists (L - 1). split; auto. split; [dm|]. split; [apply LB; lia|]. intros; apply LA; lia.
  - destruct (prev_ok s false from P Hf H) as [(E & A)|(i & E & L)]; cbn [seen] in E; rewrite E.
    + left. split; auto. intros i Hi. specialize (A i Hi). rewrite xorb_false_l in A. auto.
    + right. exists i. split; auto. destruct L as (L1 & L2 & L3). split; auto. split; [rewrite xorb_false_l in L2; auto|].
      intros k Hk. specialize (L3 k Hk). cbn in L3. destruct (mem s k); auto.
Qed.

(** ** Listing the elements *)

Definition word_elems (ws : list Z) (k : Z) : list Z :=
  map (fun j => 64 * k + j) (filter (Z.testbit (wd ws k)) (positions 64)).
Fixpoint elems (ws : list Z) (i : Z) (n : nat) : list Z :=
  match n with O => [] | S m => word_elems ws i ++ elems ws (i + 1) m end.

Lemma sorted_map_seq a n p : StronglySorted Z.lt (filter p (map Z.of_nat (seq a n))).
Proof.
  revert a. induction n as [|n IH]; intros a; cbn [seq map filter]; [constructor|].
  destruct (p (Z.of_nat a)); auto. constructor; auto. apply Forall_forall. intros x Hx. apply filter_In in Hx.
  destruct Hx as [Hx _]. apply in_map_iff in Hx. destruct Hx as (y & <- & Hy). apply in_seq in Hy. lia.
Qed.
Lemma sorted_map_add k l : StronglySorted Z.lt l -> StronglySorted Z.lt (map (fun j => k + j) l).
Proof.
  induction 1; cbn [map]; constructor; auto. rewrite Forall_forall in *. intros x Hx. apply in_map_iff in Hx.
  destruct Hx as (y & <- & Hy). apply H0 in Hy. lia.
Qed.
Lemma sorted_app l1 l2 : StronglySorted Z.lt l1 -> StronglySorted Z.lt l2 ->
  (forall x y, In x l1 -> In y l2 -> x < y) -> StronglySorted Z.lt (l1 ++ l2).
Proof.
  induction 1; intros S2 H2; cbn [app]; auto. constructor.
  - apply IHStronglySorted; auto. intros; apply H2; auto. right; auto.
  - apply Forall_app. split; auto. apply Forall_forall. intros y Hy. apply H2; auto. left; auto.
Qed.
Lemma in_word_elems ws k x : In x (word_elems ws k) <-> 64 * k <= x < 64 * k + 64 /\ Z.testbit (wd ws k) (x - 64 * k) = true.
Proof.
  unfold word_elems. rewrite in_map_iff. split.
  - intros (j & <- & Hj). apply filter_In in Hj. destruct Hj as [Hj B]. apply in_positions in Hj.
    replace (64 * k + j - 64 * k) with j by lia. split; auto. lia.
  - intros [H B]. exists (x - 64 * k). split; [lia|]. apply filter_In. split; auto. apply in_positions. lia.
Qed.
Lemma in_elems ws n : forall i x, 0 <= i -> In x (elems ws i n) <->
  64 * i <= x < 64 * (i + Z.of_nat n) /\ Z.testbit (wd ws (x / 64)) (x mod 64) = true.
Proof.
  induction n as [|n IH]; intros i x Hi; cbn [elems].
  - split; [intros []|lia].
  - rewrite in_app_iff, in_word_elems, IH by lia. split.
    + intros [[H B]|[H B]]; (split; [lia|]); auto.
      replace (x / 64) with i by dm. replace (x mod 64) with (x - 64 * i) by dm. auto.
    + intros [H B]. destruct (Z.lt_ge_cases x (64 * i + 64)); [left|right]; (split; [lia|]); auto.
      replace (x / 64) with i in B by dm. replace (x mod 64) with (x - 64 * i) in B by dm. auto.
Qed.
Lemma elems_sorted ws n : forall i, 0 <= i -> StronglySorted Z.lt (elems ws i n).
Proof.
  induction n as [|n IH]; intros i Hi; cbn [elems]; [constructor|]. apply sorted_app; [|apply IH; lia|].
  - unfold word_elems. apply sorted_map_add. apply sorted_map_seq.
  - intros x y Hx Hy. apply in_word_elems in Hx. apply in_elems in Hy; lia.
Qed.
Lemma word_elems_len ws k : zlen (word_elems ws k) = popcount 64 (wd ws k).
Proof. unfold word_elems, popcount, zlen. rewrite map_length. auto. Qed.

(** [l] lists the non-negative indices where [A] holds, in increasing order. *)
Definition lists (A : Z -> bool) (l : list Z) : Prop :=
  StronglySorted Z.lt l /\ forall i, In i l <-> 0 <= i /\ A i = true.
Lemma mem_lists s : pre s -> lists (mem s) (elems (words s) 0 (Z.to_nat (inUse s))).
Proof.
  intros P. pose proof (pre_use s P). split; [apply elems_sorted; lia|]. intros i. rewrite in_elems by lia. split.
  - intros [Hi B]. split; [lia|]. exact B.
  - intros [Hi B]. split; [|exact B]. split; [lia|]. destruct (Z.lt_ge_cases i (64 * (0 + Z.of_nat (Z.to_nat (inUse s))))); auto.
    rewrite mem_high in B by (auto; lia). discriminate.
Qed.
Lemma sorted_unique l1 : forall l2, StronglySorted Z.lt l1 -> StronglySorted Z.lt l2 -> (forall x, In x l1 <-> In x l2) -> l1 = l2.
Proof.
  induction l1 as [|a l1 IH]; intros [|b l2] S1 S2 H.
  - auto.
  - exfalso. apply (proj2 (H b)). left; auto.
  - exfalso. apply (proj1 (H a)). left; auto.
  - inversion S1 as [|? ? S1' F1]; inversion S2 as [|? ? S2' F2]; subst. rewrite Forall_forall in F1, F2.
    assert (E : a = b).
    { destruct (proj1 (H a) (or_introl eq_refl)) as [E|E]; auto. destruct (proj2 (H b) (or_introl eq_refl)) as [E2|E2]; auto.
      apply F2 in E. apply F1 in E2. lia. }
    subst b. f_equal. apply IH; auto. intros x. split; intros Hx.
    + destruct (proj1 (H x) (or_intror Hx)) as [->|]; auto. apply F1 in Hx. lia.
    + destruct (proj2 (H x) (or_intror Hx)) as [->|]; auto. apply F2 in Hx. lia.
Qed.
Lemma lists_unique A l1 l2 : lists A l1 -> lists A l2 -> l1 = l2.
Proof. intros [S1 H1] [S2 H2]. apply sorted_unique; auto. intros x. rewrite H1, H2. tauto. Qed.
Lemma lists_ext A B l : (forall i, 0 <= i -> A i = B i) -> lists A l -> lists B l.
Proof.
  intros E [S H]. split; auto. intros i. rewrite H. split; intros [? ?]; split; auto.
  - rewrite <- E; auto.
  - rewrite E; auto.
Qed.
Lemma sorted_len l : forall a b, StronglySorted Z.lt l -> (forall x, In x l -> a <= x < b) -> a <= b -> zlen l <= b - a.
Proof.
  induction l as [|x l IH]; intros a b S H L; unfold zlen; cbn [List.length].
  - lia.
  - inversion S as [|? ? S' F]; subst. rewrite Forall_forall in F.
    pose proof (H x (or_introl eq_refl)).
    assert (zlen l <= b - (x + 1)). { apply IH; auto; [|lia]. intros y Hy. pose proof (F y Hy). pose proof (H y (or_intror Hy)). lia. }
    unfold zlen in *. lia.
Qed.

(** ** cardinality *)

Lemma card_from_ok ws n : forall i acc, 0 <= i -> i + Z.of_nat n <= zlen ws -> (forall k, in_s 64 (wd ws k)) ->
  card_from HW n i (wrap 32 acc) ws = Ok (wrap 32 (acc + zlen (elems ws i n))).
Proof.
  induction n as [|n IH]; intros i acc Hi Hn W; cbn [card_from elems].
  - change (zlen (@nil Z)) with 0. rewrite Z.add_0_r. auto.
  - rewrite at_wd by lia. cbn [bind]. rewrite bitCount_gen; [|apply (proj2 (is_long_s _)); auto|auto]. cbn [bind].
    unfold sadd. rewrite sres_HW by lia. cbn [bind].
    replace (wrap 32 (wrap 32 acc + popcount 64 (wd ws i))) with (wrap 32 (acc + popcount 64 (wd ws i))).
    + rewrite IH by (auto; lia). rewrite zlen_app, word_elems_len. f_equal. f_equal. lia.
    + apply wrap_eq_mod; [lia|]. rewrite <- (Zplus_mod_idemp_l (wrap 32 acc)), wrap_mod, Zplus_mod_idemp_l by lia. auto.
Qed.
Lemma cardinality_ok s : pre s -> small s -> exists l, lists (mem s) l /\ cardinality HW s = Ok (zlen l).
Proof.
  intros P S. exists (elems (words s) 0 (Z.to_nat (inUse s))). pose proof (mem_lists s P) as L. split; auto.
  unfold cardinality. pose proof P as [U C M W Z0]. change 0 with (wrap 32 0) at 2.
  rewrite card_from_ok by (auto; lia). f_equal. cbn [Z.add]. apply wrap_id; [lia|].
  assert (zlen (elems (words s) 0 (Z.to_nat (inUse s))) <= int_max - 0).
  { apply sorted_len; [apply L| |unfold int_max; lia]. intros x Hx. apply (proj2 L) in Hx. destruct Hx as [Hx B].
    split; auto. destruct (Z.lt_ge_cases x int_max); auto. rewrite S in B by auto. discriminate. }
  pose proof (zlen_nonneg (elems (words s) 0 (Z.to_nat (inUse s)))). unfold in_s, smin, smax. change (2 ^ (32 - 1)) with 2147483648. unfold int_max in *. lia.
Qed.

(** ** hashCode *)

Lemma hash_down_ok ws n : forall h, Z.of_nat n <= zlen ws -> exists r, hash_down HW n h ws = Ok r /\
  r = fold_right Z.lxor h (map (fun k => wrap 64 (wd ws k * (k + 1))) (map Z.of_nat (seq 0 n))).
Proof.
  induction n as [|n IH]; intros h H; cbn [hash_down].
  - exists h. auto.
  - rewrite at_wd by lia. cbn [bind]. unfold smul. rewrite sres_HW by lia. cbn [bind].
    destruct (IH (Z.lxor h (wrap 64 (wd ws (Z.of_nat n) * (Z.of_nat n + 1)))) ltac:(lia)) as (r & -> & ->).
    eexists. split; [reflexivity|]. rewrite seq_S, !map_app, fold_right_app. cbn [map fold_right Nat.add].
    rewrite (Z.lxor_comm h). auto.
Qed.
Lemma hash_zero ws n : forall m h, (m <= n)%nat -> (forall k, Z.of_nat m <= k -> wd ws k = 0) ->
  fold_right Z.lxor h (map (fun k => wrap 64 (wd ws k * (k + 1))) (map Z.of_nat (seq 0 n))) =
  fold_right Z.lxor h (map (fun k => wrap 64 (wd ws k * (k + 1))) (map Z.of_nat (seq 0 m))).
Proof.
  intros m h H Z0. induction n as [|n IH]; [replace m with 0%nat by lia; auto|].
  destruct (Nat.eq_dec m (S n)); [subst; auto|]. rewrite seq_S, !map_app, fold_right_app. cbn [map fold_right Nat.add].
  rewrite Z0 by lia. change (wrap 64 (0 * (Z.of_nat n + 1))) with 0. rewrite Z.lxor_0_l. apply IH. lia.
Qed.
(** Java's formula over the first [n] words. *)
Definition hash_of (wf : Z -> Z) (n : Z) : Z :=
  let h := fold_right Z.lxor 1234 (map (fun k => wrap 64 (wf k * (k + 1))) (positions n)) in
  wrap 32 (Z.lxor (Z.shiftr h 32) h).
Lemma hashCode_ok s : pre s -> hashCode HW s = Ok (hash_of (wd (words s)) (inUse s)).
Proof.
  intros [U C M W Z0]. unfold hashCode.
  destruct (hash_down_ok (words s) (List.length (words s)) 1234 ltac:(unfold zlen; lia)) as (r & -> & ->). cbn [bind].
  unfold hash_of, positions. unfold zlen in U. rewrite (hash_zero _ _ (Z.to_nat (inUse s))) by (try (intros; apply Z0); lia). auto.
Qed.

(** ** Bytes *)

Lemma byte_of_range w k : 0 <= byte_of w k < 256.
Proof. unfold byte_of. apply Z.mod_pos_bound. lia. Qed.
Lemma byte_of_bits w k j : 0 <= k < 8 -> 0 <= j < 8 -> Z.testbit (byte_of w k) j = Z.testbit w (8 * k + j).
Proof.
  intros Hk Hj. unfold byte_of. change 256 with (2 ^ 8). rewrite Z.mod_pow2_bits_low by lia. rewrite Z.shiftr_spec by lia.
  rewrite uwrap_bits by lia. replace (_ <? _) with true by lia. cbn [andb]. f_equal. lia.
Qed.
Lemma bytes8_nth w i : 0 <= i < 8 -> wd (bytes8 w) i = byte_of w i.
Proof.
  intros H. assert (X : i = 0 \/ i = 1 \/ i = 2 \/ i = 3 \/ i = 4 \/ i = 5 \/ i = 6 \/ i = 7) by lia.
  repeat (destruct X as [->|X]; [reflexivity|]). subst. reflexivity.
Qed.
Lemma bytes_from_ok ws n : forall i, 0 <= i -> i + Z.of_nat n <= zlen ws -> exists r, bytes_from n i ws = Ok r /\ zlen r = 8 * Z.of_nat n /\
  forall k, 0 <= k < 8 * Z.of_nat n -> wd r k = byte_of (wd ws (i + k / 8)) (k mod 8).
Proof.
  induction n as [|n IH]; intros i Hi H; cbn [bytes_from].
  - exists []. split; auto. split; auto. intros; lia.
  - rewrite at_wd by lia. cbn [bind]. destruct (IH (i + 1)) as (r & -> & L & B); try lia. cbn [bind].
    eexists. split; [reflexivity|]. rewrite zlen_app. change (zlen (bytes8 (wd ws i))) with 8. split; [lia|].
    intros k Hk. rewrite wd_app. change (zlen (bytes8 (wd ws i))) with 8. destruct (Z.ltb_spec k 8).
    + rewrite bytes8_nth by lia. replace (i + k / 8) with i by dm. replace (k mod 8) with k by dm. auto.
    + rewrite B by lia. f_equal; [f_equal|]; dm.
Qed.
Lemma heading_ok w n : (n <= 8)%nat -> (heading n w <= n)%nat /\ (forall k, Z.of_nat (heading n w) <= k < Z.of_nat n -> byte_of w k = 0) /\
  ((0 < heading n w)%nat -> byte_of w (Z.of_nat (heading n w) - 1) <> 0).
Proof.
  induction n as [|n IH]; intros H; cbn [heading].
  - split; auto. split; lia.
  - destruct (Z.eqb_spec (byte_of w (Z.of_nat n)) 0) as [E|E].
    + destruct IH as (A & B & C); [lia|]. split; [lia|]. split; auto. intros k Hk.
      destruct (Z.eq_dec k (Z.of_nat n)); subst; auto. apply B. lia.
    + split; [lia|]. split; [lia|]. intros _. replace (Z.of_nat (S n) - 1) with (Z.of_nat n) by lia. auto.
Qed.

(** Bit [i] of a byte sequence: bit [i mod 8] of byte [i / 8]. *)
Definition byte_bit (l : list Z) (i : Z) : bool := Z.testbit (wd l (i / 8)) (i mod 8).
Lemma toByteArray_ok s : inv s -> exists l, toByteArray s = Ok l /\ Forall (fun b => 0 <= b < 256) l /\
  (forall i, 0 <= i -> byte_bit l i = mem s i) /\ (0 < zlen l -> wd l (zlen l - 1) <> 0) /\ zlen l <= 8 * inUse s.
Proof.
  intros [P N]. pose proof P as [U C M W Z0]. unfold toByteArray. destruct (Z.eqb_spec (inUse s) 0) as [E|E].
  - exists []. split; auto. split; auto. split; [|split; [unfold zlen; cbn; lia|change (zlen (@nil Z)) with 0; lia]].
    intros i Hi. rewrite mem_high by (auto; lia). unfold byte_bit. rewrite wd_out by (change (zlen (@nil Z)) with 0; dm). apply Z.bits_0.
  - destruct (bytes_from_ok (words s) (Z.to_nat (inUse s - 1)) 0 ltac:(lia) ltac:(lia)) as (r & -> & L & B). cbn [bind].
    rewrite at_wd by lia. cbn [bind]. set (x := wd (words s) (inUse s - 1)) in *.
    destruct (heading_ok x 8 ltac:(lia)) as (Hh & Hz & Hn). set (h := heading 8 x) in *.
    set (last := firstn h (bytes8 x)).
    assert (Ll : zlen last = Z.of_nat h) by (unfold last, zlen; rewrite firstn_length; change (List.length (bytes8 x)) with 8%nat; lia).
    assert (Bl : forall k, 0 <= k < 8 -> wd last k = byte_of x k).
    { intros k Hk. unfold last. rewrite wd_firstn. destruct (Z.ltb_spec k (Z.of_nat h)); [apply bytes8_nth; auto|].
      symmetry. apply Hz. lia. }
    assert (All : forall k, 0 <= k < 8 * inUse s -> wd (r ++ last) k = byte_of (wd (words s) (k / 8)) (k mod 8)).
    { intros k Hk. rewrite wd_app, L. destruct (Z.ltb_spec k (8 * Z.of_nat (Z.to_nat (inUse s - 1)))).
      - rewrite B by lia. auto.
      - rewrite Bl by lia. unfold x. f_equal; [f_equal|]; dm. }
    assert (Hpos : (0 < h)%nat).
    { destruct h; [exfalso|lia]. apply N; [lia|]. fold x. apply word_0; [apply W|]. intros j Hj.
      replace j with (8 * (j / 8) + j mod 8) by dm. rewrite <- byte_of_bits by dm. rewrite Hz by dm. apply Z.bits_0. }
    exists (r ++ last). split; auto. split; [|split; [|split]].
    + apply Forall_forall. intros b Hb. apply In_nth_error in Hb. destruct Hb as (k & Hb).
      assert (K : Z.of_nat k < zlen (r ++ last)) by (unfold zlen; apply inj_lt; apply nth_error_Some; congruence).
      rewrite zlen_app in K. specialize (All (Z.of_nat k) ltac:(lia)). unfold wd, znth in All. replace (_ <? 0) with false in All by lia.
      rewrite Nat2Z.id, Hb in All. rewrite All. apply byte_of_range.
    + intros i Hi. unfold byte_bit. destruct (Z.lt_ge_cases i (64 * inUse s)).
      * rewrite All by dm. rewrite byte_of_bits by dm. unfold mem. f_equal; [f_equal|]; dm.
      * rewrite mem_high by (auto; lia). rewrite wd_out, Z.bits_0; auto. right. rewrite zlen_app. dm.
    + intros _. rewrite zlen_app, L, Ll. rewrite wd_app, L. replace (_ <? _) with false by lia.
      rewrite Bl by lia. replace (8 * Z.of_nat (Z.to_nat (inUse s - 1)) + Z.of_nat h - 1 - 8 * Z.of_nat (Z.to_nat (inUse s - 1))) with (Z.of_nat h - 1) by lia. auto.
    + rewrite zlen_app. lia.
Qed.

Lemma put_byte_bits w k b j : 0 <= k < 8 -> 0 <= b < 256 -> 0 <= j < 64 ->
  Z.testbit (put_byte w k b) j = if j / 8 =? k then Z.testbit b (j mod 8) else Z.testbit w j.
Proof.
  intros Hk Hb Hj. unfold put_byte. rewrite wrap_bits_low by lia.
  set (u := uwrap 64 w). pose proof (uwrap_range 64 w ltac:(lia)) as Ru. fold u in Ru.
  assert (Eu : u = 2 ^ (8 * k) * (256 * (u / 2 ^ (8 * k) / 256) + byte_of w k) + u mod 2 ^ (8 * k)).
  { unfold byte_of. fold u. rewrite Z.shiftr_div_pow2 by lia.
    rewrite <- (Z.div_mod (u / 2 ^ (8 * k)) 256) by lia. apply Z.div_mod. pose proof (pow2_pos (8 * k) ltac:(lia)). lia. }
  assert (P1 : 0 < 2 ^ (8 * k)) by (apply pow2_pos; lia).
  pose proof (Z.mod_pos_bound u (2 ^ (8 * k)) P1) as Lo.
  rewrite Z.shiftl_mul_pow2 by lia.
  replace (u + (b - byte_of w k) * 2 ^ (8 * k)) with (2 ^ (8 * k) * (256 * (u / 2 ^ (8 * k) / 256) + b) + u mod 2 ^ (8 * k)) by lia.
  set (hi := u / 2 ^ (8 * k) / 256). set (lo := u mod 2 ^ (8 * k)).
  replace (2 ^ (8 * k) * (256 * hi + b) + lo) with (Z.lor (Z.shiftl (Z.lor (Z.shiftl hi 8) b) (8 * k)) lo).
  2:{ rewrite (lor_shiftl_add _ lo (8 * k)) by (auto; lia). rewrite (lor_shiftl_add hi b 8) by (auto; lia). change (2 ^ 8) with 256. lia. }
  rewrite Z.lor_spec, Z.shiftl_spec, Z.lor_spec by lia.
  destruct (Z.eqb_spec (j / 8) k) as [E|E].
  - rewrite Z.shiftl_spec by dm. rewrite (Z.testbit_neg_r hi) by dm. cbn [orb].
    rewrite (testbit_above (8 * k) lo) by (try exact Lo; clear - E; dm). rewrite orb_false_r. f_equal. clear - E; dm.
  - assert (Uj : Z.testbit w j = Z.testbit u j) by (unfold u; rewrite uwrap_bits by lia; replace (j <? 64) with true by lia; auto).
    rewrite Uj. destruct (Z.lt_ge_cases j (8 * k)).
    + rewrite !Z.testbit_neg_r by lia. cbn [orb]. unfold lo. rewrite Z.mod_pow2_bits_low by lia. auto.
    + rewrite Z.shiftl_spec by dm. rewrite (testbit_above 8 b) by (try lia; dm). rewrite orb_false_r.
      rewrite (testbit_above (8 * k) lo) by (try exact Lo; auto). rewrite orb_false_r. unfold hi.
      rewrite <- Z.shiftr_div_pow2 by lia. change 256 with (2 ^ 8). rewrite <- Z.shiftr_div_pow2 by lia. rewrite !Z.shiftr_spec by dm.
      f_equal. lia.
Qed.

Lemma fill_bytes_ok bytes n : forall i ws, 0 <= i -> i + Z.of_nat n <= zlen bytes -> i + Z.of_nat n <= 8 * zlen ws ->
  (forall k, 0 <= wd bytes k < 256) -> (forall k, in_s 64 (wd ws k)) ->
  exists ws', fill_bytes n i bytes ws = Ok ws' /\ zlen ws' = zlen ws /\ (forall k, in_s 64 (wd ws' k)) /\
  forall k j, 0 <= j < 64 -> Z.testbit (wd ws' k) j =
    if (i <=? 8 * k + j / 8) && (8 * k + j / 8 <? i + Z.of_nat n) then Z.testbit (wd bytes (8 * k + j / 8)) (j mod 8) else Z.testbit (wd ws k) j.
Proof.
  induction n as [|n IH]; intros i ws Hi Hn Hw Hb Iw; cbn [fill_bytes].
  - exists ws. split; auto. split; auto. split; auto. intros k j Hj. replace (_ && _) with false by lia. auto.
  - rewrite at_wd by lia. cbn [bind]. assert (R : 0 <= i / 8 < zlen ws) by dm.
    erewrite word_op_ok; [|exact R|reflexivity]. cbn [bind].
    set (v := put_byte (wd ws (i / 8)) (i mod 8) (wd bytes i)).
    assert (Iv : in_s 64 v) by (unfold v, put_byte; apply wrap_range; lia).
    destruct (IH (i + 1) (zupd ws (i / 8) v)) as (ws' & E & L & I' & B); try rewrite ?zupd_len; auto; try lia.
    { intros k. rewrite wd_zupd by auto. destruct (_ =? _); auto. }
    exists ws'. rewrite zupd_len in L. split; auto. split; auto. split; auto. intros k j Hj. rewrite B, wd_zupd by auto.
    destruct (Z.eqb_spec (8 * k + j / 8) i) as [Q|Q].
    + replace ((i + 1 <=? _) && _) with false by lia. replace (_ && _) with true by lia.
      replace (k =? i / 8) with true by dm. unfold v. rewrite put_byte_bits by (auto; dm).
      replace (j / 8 =? i mod 8) with true by dm. rewrite Q. auto.
    + replace ((i + 1 <=? 8 * k + j / 8) && (8 * k + j / 8 <? i + 1 + Z.of_nat n)) with ((i <=? 8 * k + j / 8) && (8 * k + j / 8 <? i + Z.of_nat (S n))) by lia.
      destruct (_ && _); auto. destruct (Z.eqb_spec k (i / 8)); auto. unfold v. rewrite put_byte_bits by (auto; dm).
      replace (j / 8 =? i mod 8) with false by dm. subst. auto.
Qed.

Lemma wd_byte l : Forall (fun b => 0 <= b < 256) l -> forall k, 0 <= wd l k < 256.
Proof.
  intros F k. unfold wd. destruct (znth l k) as [x|] eqn:E; [|lia]. unfold znth in E. destruct (k <? 0); [discriminate|].
  apply nth_error_In in E. rewrite Forall_forall in F. auto.
Qed.
Lemma valueOfBytes_ok l : Forall (fun b => 0 <= b < 256) l -> zlen l <= 2 ^ 28 -> exists s, valueOfBytes l = Ok s /\ inv s /\
  forall i, 0 <= i -> mem s i = byte_bit l i.
Proof.
  intros F H. unfold valueOfBytes. destruct (strip_ok l (List.length l) ltac:(unfold zlen; lia)) as (r & -> & R & N & Z0).
  fold (zlen l) in *. cbn [bind].
  destruct (fill_bytes_ok l (Z.to_nat r) 0 (repeat 0 (Z.to_nat ((r + 7) / 8)))) as (ws & -> & L & I & B); auto using wd_byte; try lia.
  { rewrite zlen_repeat. dm. }
  { intros. rewrite wd_repeat. auto with ins. }
  cbn [bind]. rewrite zlen_repeat in L. rewrite Z2Nat.id in L by dm. eexists. split; [reflexivity|].
  assert (MM : forall i, 0 <= i -> mem (BitSetWords ws) i = byte_bit l i).
  { intros i Hi. unfold BitSetWords. rewrite mem_mk, B by dm. rewrite wd_repeat, Z.bits_0. unfold byte_bit.
    replace (8 * (i / 64) + i mod 64 / 8) with (i / 8) by dm. replace ((i mod 64) mod 8) with (i mod 8) by dm.
    destruct (Z.lt_ge_cases (i / 8) r).
    - replace (_ && _) with true by dm. auto.
    - replace (_ && _) with false by lia. destruct (Z.lt_ge_cases (i / 8) (zlen l)); [rewrite Z0 by lia|rewrite wd_out by lia]; rewrite Z.bits_0; auto. }
  split; auto. split; [constructor|]; unfold BitSetWords; cbn [words inUse]; auto; try (rewrite L; dm).
  - intros k Hk. apply wd_out. lia.
  - intros Hp F0. assert (Hr : 0 < r) by (rewrite L in Hp; dm).
    apply (N Hr). pose proof (wd_byte l F (r - 1)) as Rb.
    apply Z.bits_inj'. intros j Hj. rewrite Z.bits_0. destruct (Z.lt_ge_cases j 8); [|apply (testbit_above 8); auto; lia].
    assert (Q : byte_bit l (8 * (r - 1) + j) = mem (BitSetWords ws) (8 * (r - 1) + j)) by (symmetry; apply MM; lia).
    unfold byte_bit in Q. replace ((8 * (r - 1) + j) / 8) with (r - 1) in Q by dm. replace ((8 * (r - 1) + j) mod 8) with j in Q by dm.
    rewrite Q. unfold BitSetWords. rewrite mem_mk. replace ((8 * (r - 1) + j) / 64) with (zlen ws - 1) by (rewrite L; dm). rewrite F0. apply Z.bits_0.
Qed.

(** ** toString *)

Fixpoint commas (l : list Z) : str :=
  match l with
  | [] => []
  | [x] => itoa x
  | x :: t => itoa x ++ [44; 32] ++ commas t
  end.
Lemma text_loop_ok s : pre s -> small s -> forall n i l, mem s i = true -> 0 <= i ->
  StronglySorted Z.lt (i :: l) -> (forall x, In x l <-> i < x /\ mem s x = true) -> (List.length l < n)%nat ->
  text_loop HW n s i = Ok (commas (i :: l)).
Proof.
  intros P S. induction n as [|n IH]; intros i l Mi Hi So In' Hn; [lia|]. cbn [text_loop].
  assert (i < int_max). { destruct (Z.lt_ge_cases i int_max); auto. rewrite S in Mi by auto. discriminate. }
  unfold sadd. rewrite sres_ok by (unfold in_s, smin, smax; change (2 ^ (32 - 1)) with 2147483648; unfold int_max in *; lia). cbn [bind].
  destruct (nextSetBit_ok s (i + 1) P ltac:(lia)) as [(-> & A)|(r & -> & _ & (R1 & R2 & R3))]; cbn [bind].
  - replace l with (@nil Z); auto. destruct l as [|x l]; auto. exfalso. destruct (proj1 (In' x) (or_introl eq_refl)) as [Hx Mx].
    rewrite A in Mx by lia. discriminate.
  - replace (r =? -1) with false by lia. destruct l as [|x l].
    { exfalso. apply (proj2 (In' r)). split; auto. lia. }
    inversion So as [|? ? So' Fo]; subst. inversion So' as [|? ? So2 F2]; subst. rewrite Forall_forall in Fo, F2.
    assert (x = r).
    { destruct (proj1 (In' x) (or_introl eq_refl)) as [Hx Mx]. assert (Hir : i < r) by lia. destruct (proj2 (In' r) (conj Hir R2)) as [E|E]; auto.
      apply F2 in E. rewrite (R3 x) in Mx by lia. discriminate. }
    subst x. rewrite (IH r l); auto; try lia; [|cbn [List.length] in Hn; lia].
    intros y; split; [intros Hy; split; [apply F2; auto|apply (In' y); right; auto]|].
    intros [Hy My]. assert (Hiy : i < y) by lia. destruct (proj2 (In' y) (conj Hiy My)); auto. lia.
Qed.
Lemma toString_ok s l n : pre s -> small s -> lists (mem s) l -> (List.length l <= n)%nat ->
  toString HW n s = Ok ([123] ++ commas l ++ [125]).
Proof.
  intros P S [So L] Hn. unfold toString.
  destruct (nextSetBit_ok s 0 P ltac:(lia)) as [(-> & A)|(r & -> & _ & (R1 & R2 & R3))]; cbn [bind].
  - replace l with (@nil Z); auto. destruct l as [|x l]; auto. exfalso. destruct (proj1 (L x) (or_introl eq_refl)) as [Hx Mx].
    rewrite A in Mx by lia. discriminate.
  - replace (r =? -1) with false by lia. destruct l as [|x l].
    { exfalso. apply (proj2 (L r)). split; auto. }
    inversion So as [|? ? So' Fo]; subst. rewrite Forall_forall in Fo.
    assert (x = r).
    { destruct (proj1 (L x) (or_introl eq_refl)) as [Hx Mx]. destruct (proj2 (L r) (conj R1 R2)) as [E|E]; auto.
      apply Fo in E. rewrite (R3 x) in Mx by lia. discriminate. }
    subst x. rewrite (text_loop_ok s P S n r l); auto; try lia.
    + intros y; split; [intros Hy; split; [apply Fo; auto|apply (L y); right; auto]|].
      intros [Hy My]. assert (Hiy : 0 <= y) by lia. destruct (proj2 (L y) (conj Hiy My)); auto. lia.
Qed.
