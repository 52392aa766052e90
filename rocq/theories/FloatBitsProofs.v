(** Buffers and digits of the bit conversions. *)

From Coq Require Import ZArith List Bool Lia.
From Verif Require Import Base Bits CppText CMem Ieee IeeeProofs FloatBitsSpec FloatBitsModel StringModel TextLemmas StringProofs ArraysProofs.
From Verif Require StringBuilderModel StringBuilderProofs.
Import ListNotations.
Open Scope Z_scope.

(** The block after writing [g i] at the places [lo <= i < hi]. *)
Definition written (b b' : block) (lo hi : Z) (g : Z -> Z) : Prop :=
  zlen b' = zlen b /\ forall j, znth b' j = if (lo <=? j) && (j <? hi) then Some (Some (g j)) else znth b j.
Definition digit (b : bool) : Z := if b then c1 else c0.

Lemma mset_ok b i x : 0 <= i < zlen b -> mset b i x = Ok (zupd b i (Some x)).
Proof. intros H. unfold mset. destruct (znth_ex b i H) as [a ->]. auto. Qed.
Lemma mget_ok b i x : znth b i = Some (Some x) -> mget b i = Ok x.
Proof. intros H. unfold mget. now rewrite H. Qed.
Lemma written_refl b lo hi g : hi <= lo -> written b b lo hi g.
Proof. intros H. split; auto. intros j. replace ((lo <=? j) && (j <? hi)) with false by lia. auto. Qed.
Lemma written_1 b i x : 0 <= i < zlen b -> written b (zupd b i (Some x)) i (i + 1) (fun _ => x).
Proof. intros H. split; [apply zupd_len|]. intros j. rewrite znth_zupd by auto. replace ((i <=? j) && (j <? i + 1)) with (j =? i) by lia. auto. Qed.
Lemma written_in b b' lo hi g j : written b b' lo hi g -> lo <= j < hi -> znth b' j = Some (Some (g j)).
Proof. intros [_ H] J. rewrite H. replace ((lo <=? j) && (j <? hi)) with true by lia. auto. Qed.
Lemma written_out b b' lo hi g j : written b b' lo hi g -> j < lo \/ hi <= j -> znth b' j = znth b j.
Proof. intros [_ H] J. rewrite H. replace ((lo <=? j) && (j <? hi)) with false by lia. auto. Qed.
(** one more place, before or after *)
Lemma written_cons b b' lo hi g x : 0 <= lo < zlen b -> lo + 1 <= hi -> written (zupd b lo (Some x)) b' (lo + 1) hi g -> g lo = x -> written b b' lo hi g.
Proof.
  intros R L [Z1 H] G. rewrite zupd_len in Z1. split; auto. intros j. rewrite H, znth_zupd by auto.
  destruct (Z.eqb_spec j lo) as [->|N].
  - replace ((lo + 1 <=? lo) && (lo <? hi)) with false by lia. replace ((lo <=? lo) && (lo <? hi)) with true by lia. now rewrite G.
  - replace ((lo + 1 <=? j) && (j <? hi)) with ((lo <=? j) && (j <? hi)) by lia. auto.
Qed.
Lemma written_snoc b b' lo hi g x : 0 <= hi < zlen b -> lo <= hi -> written (zupd b hi (Some x)) b' lo hi g -> g hi = x -> written b b' lo (hi + 1) g.
Proof.
  intros R L [Z1 H] G. rewrite zupd_len in Z1. split; auto. intros j. rewrite H, znth_zupd by auto.
  destruct (Z.eqb_spec j hi) as [->|N].
  - replace ((lo <=? hi) && (hi <? hi)) with false by lia. replace ((lo <=? hi) && (hi <? hi + 1)) with true by lia. now rewrite G.
  - replace ((lo <=? j) && (j <? hi + 1)) with ((lo <=? j) && (j <? hi)) by lia. auto.
Qed.

Lemma fill_ok ch : forall n i b, 0 <= i -> i + Z.of_nat n <= zlen b ->
  exists b', fill n i ch b = Ok b' /\ written b b' i (i + Z.of_nat n) (fun _ => ch).
Proof.
  induction n as [|n IH]; intros i b I0 L; cbn [fill].
  - exists b. split; auto. apply written_refl. lia.
  - rewrite mset_ok by lia. cbn [bind]. destruct (IH (i + 1) (zupd b i (Some ch)) ltac:(lia) ltac:(rewrite zupd_len; lia)) as (b' & -> & H).
    exists b'. split; auto. apply (written_cons _ _ _ _ _ ch); auto; try lia. replace (i + Z.of_nat (S n)) with (i + 1 + Z.of_nat n) by lia. auto.
Qed.

(** Number of binary digits, 0 for 0. *)
Definition blen (n : Z) : Z := if n =? 0 then 0 else Z.log2 n + 1.
Lemma blen_nonneg n : 0 <= blen n. Proof. unfold blen. destruct (n =? 0); pose proof (Z.log2_nonneg n); lia. Qed.
Lemma blen_half n : 0 < n -> blen n = blen (Z.shiftr n 1) + 1.
Proof.
  intros P. unfold blen. replace (n =? 0) with false by lia. rewrite Z.shiftr_div_pow2 by lia. change (2 ^ 1) with 2.
  destruct (Z.eqb_spec (n / 2) 0) as [Q|Q].
  - assert (n = 1) as -> by (assert (n < 2); [apply Z.div_small_iff in Q; lia|lia]). reflexivity.
  - rewrite <- Z.div2_div, Z.div2_spec, Z.log2_shiftr by lia. assert (0 < Z.log2 n); [|lia]. apply Z.log2_pos. pose proof (Z.div_pos n 2). assert (n / 2 <> 0) by auto. destruct (Z.eq_dec n 1) as [->|]; [exfalso; apply H0; reflexivity|lia].
Qed.
Lemma blen_lt n k : 0 <= k -> 0 <= n < 2 ^ k -> blen n <= k.
Proof. intros K R. unfold blen. destruct (Z.eqb_spec n 0); auto. assert (Z.log2 n < k); [apply Z.log2_lt_pow2; lia|lia]. Qed.
Lemma shiftr_nonneg n : 0 <= n -> 0 <= Z.shiftr n 1. Proof. intros. now apply Z.shiftr_nonneg. Qed.
Lemma low_bit n : 0 <= n -> (if Z.land n 1 =? 1 then c1 else c0) = digit (Z.testbit n 0).
Proof. intros H. change 1 with (Z.ones 1) at 1. rewrite Z.land_ones by lia. change (2 ^ 1) with 2. rewrite Zmod_odd, Z.bit0_odd. destruct (Z.odd n); reflexivity. Qed.

Lemma count_bits_ok : forall fuel n size, 0 <= n -> blen n < Z.of_nat fuel -> count_bits fuel n size = Ok (size + blen n).
Proof.
  induction fuel as [|f IH]; intros n size N L; cbn [count_bits].
  - pose proof (blen_nonneg n). lia.
  - destruct (Z.eqb_spec n 0) as [->|Q]; [f_equal; change (blen 0) with 0; lia|].
    pose proof (blen_half n ltac:(lia)). pose proof (shiftr_nonneg n N). rewrite IH by lia. f_equal. lia.
Qed.
Lemma put_bits_ok : forall fuel b n index, 0 <= n -> blen n < Z.of_nat fuel -> blen n - 1 <= index < zlen b ->
  exists b', put_bits fuel b n index = Ok b' /\ written b b' (index + 1 - blen n) (index + 1) (fun j => digit (Z.testbit n (index - j))).
Proof.
  induction fuel as [|f IH]; intros b n index N L I; cbn [put_bits].
  - pose proof (blen_nonneg n). lia.
  - destruct (Z.eqb_spec n 0) as [->|Q]; [exists b; split; auto; apply written_refl; change (blen 0) with 0; lia|].
    pose proof (blen_half n ltac:(lia)) as H. pose proof (shiftr_nonneg n N). pose proof (blen_nonneg (Z.shiftr n 1)). rewrite mset_ok by lia. cbn [bind].
    destruct (IH (zupd b index (Some (if Z.land n 1 =? 1 then c1 else c0))) (Z.shiftr n 1) (index - 1)) as (b' & -> & Wr); try (rewrite ?zupd_len; lia).
    exists b'. split; auto. apply (written_snoc _ _ _ _ _ (if Z.land n 1 =? 1 then c1 else c0)); [lia|lia| |rewrite low_bit by lia; f_equal; f_equal; lia].
    replace (index - 1 + 1 - blen (Z.shiftr n 1)) with (index + 1 - blen n) in Wr by lia. replace (index - 1 + 1) with index in Wr by lia.
    destruct Wr as [Z1 Wr]. split; auto. intros j. rewrite Wr. destruct ((index + 1 - blen n <=? j) && (j <? index)) eqn:E; auto. rewrite Z.shiftr_spec by lia. do 4 f_equal. lia.
Qed.
(** the loop of the other direction also writes the leading zeros *)
Lemma bits_loop_ok : forall fuel b n index, 0 <= n -> 0 <= index < zlen b -> blen n <= index -> index < Z.of_nat fuel ->
  exists b' lo, bits_loop fuel b n index = Ok b' /\ lo <= 2 /\ (lo = 2 \/ lo = index + 1 \/ lo = 1) /\ lo <= index + 1 - blen n /\ written b b' lo (index + 1) (fun j => digit (Z.testbit n (index - j))).
Proof.
  induction fuel as [|f IH]; intros b n index N I L FU; cbn [bits_loop]; [lia|]. pose proof (blen_nonneg n).
  destruct (Z.eqb_spec n 0) as [->|Q].
  - change (blen 0) with 0 in *. destruct (Z.ltb_spec 1 index) as [J|J]; cbn [negb orb].
    + rewrite mset_ok by lia. cbn [bind]. change (Z.land 0 1 =? 1) with false. cbv iota. change (Z.shiftr 0 1) with 0.
      destruct (IH (zupd b index (Some c0)) 0 (index - 1)) as (b' & lo & -> & A1 & A2 & A3 & Wr); try (rewrite ?zupd_len; change (blen 0) with 0; lia).
      exists b', lo. split; [auto|]. change (blen 0) with 0 in *. split; [lia|]. split; [lia|]. split; [lia|]. apply (written_snoc _ _ _ _ _ c0); [lia|lia| |rewrite Z.testbit_0_l; reflexivity].
      replace (index - 1 + 1) with index in Wr by lia. destruct Wr as [Z1 Wr]. split; auto. intros j. rewrite Wr, !Z.testbit_0_l. auto.
    + exists b, (index + 1). split; [auto|]. change (blen 0) with 0 in *. split; [lia|]. split; [lia|]. split; [lia|]. apply written_refl. lia.
  - cbn [negb orb]. pose proof (blen_half n ltac:(lia)) as H1. pose proof (shiftr_nonneg n N). pose proof (blen_nonneg (Z.shiftr n 1)). rewrite mset_ok by lia. cbn [bind].
    destruct (IH (zupd b index (Some (if Z.land n 1 =? 1 then c1 else c0))) (Z.shiftr n 1) (index - 1)) as (b' & lo & -> & A1 & A2 & A3 & Wr); try (rewrite ?zupd_len; lia).
    exists b', lo. split; auto. split; [lia|]. split; [lia|]. split; [lia|]. apply (written_snoc _ _ _ _ _ (if Z.land n 1 =? 1 then c1 else c0)); [lia|lia| |rewrite low_bit by lia; f_equal; f_equal; lia].
    replace (index - 1 + 1) with index in Wr by lia.
    destruct Wr as [Z1 Wr]. split; auto. intros j. rewrite Wr. destruct ((lo <=? j) && (j <? index)) eqn:E; auto. rewrite Z.shiftr_spec by lia. do 4 f_equal. lia.
Qed.

Lemma copy_in_written rd g : forall fuel b dst src stop, 0 <= dst -> src <= stop -> dst + (stop - src) <= zlen b -> stop - src < Z.of_nat fuel ->
  (forall k, src <= k < stop -> rd k = Ok (g k)) ->
  exists b', copy_in fuel rd b dst src stop = Ok b' /\ written b b' dst (dst + (stop - src)) (fun j => g (j - dst + src)).
Proof.
  induction fuel as [|f IH]; intros b dst src stop D SS L FU R; cbn [copy_in]; [lia|].
  destruct (Z.ltb_spec src stop) as [J|J].
  - rewrite R by lia. cbn [bind]. rewrite mset_ok by lia. cbn [bind].
    destruct (IH (zupd b dst (Some (g src))) (dst + 1) (src + 1) stop) as (b' & -> & Wr); try (rewrite ?zupd_len; lia); [intros; apply R; lia|].
    exists b'. split; auto. apply (written_cons _ _ _ _ _ (g src)); [lia|lia| |f_equal; lia].
    replace (dst + (stop - src)) with (dst + 1 + (stop - (src + 1))) by lia. destruct Wr as [Z1 Wr]. split; auto. intros j. rewrite Wr.
    destruct ((dst + 1 <=? j) && (j <? dst + 1 + (stop - (src + 1)))); auto. do 3 f_equal. lia.
  - exists b. split; auto. apply written_refl. lia.
Qed.

Lemma find_one_ok b g p : forall fuel i limit, (forall j, i <= j < p -> znth b j = Some (Some (g j)) /\ g j <> c1) -> znth b p = Some (Some c1) -> i <= p <= limit -> p - i < Z.of_nat fuel ->
  find_one fuel b i limit = Ok p.
Proof.
  induction fuel as [|f IH]; intros i limit G P R FU; cbn [find_one]; [lia|]. replace (i <=? limit) with true by lia.
  destruct (Z.eq_dec i p) as [->|N].
  - rewrite (mget_ok _ _ _ P). cbn [bind]. change (c1 =? c1) with true. auto.
  - destruct (G i) as [G1 G2]; [lia|]. rewrite (mget_ok _ _ _ G1). cbn [bind]. replace (g i =? c1) with false by lia. apply IH; auto; [|lia|lia]. intros; apply G; lia.
Qed.
Lemma find_one_none b g : forall fuel i limit, i <= limit + 1 -> (forall j, i <= j <= limit -> znth b j = Some (Some (g j)) /\ g j <> c1) -> limit - i + 1 < Z.of_nat fuel ->
  find_one fuel b i limit = Ok 1.
Proof.
  induction fuel as [|f IH]; intros i limit IL G FU; cbn [find_one]; [lia|].
  destruct (Z.leb_spec i limit); auto. destruct (G i) as [G1 G2]; [lia|]. rewrite (mget_ok _ _ _ G1). cbn [bind]. replace (g i =? c1) with false by lia. apply IH; [lia| |lia]. intros; apply G; lia.
Qed.

(** The mantissa: digits [D] of [form], the point at [dotIndex] skipped. *)
Definition position (dotIndex q : Z) : Z := if q <? dotIndex then q else q + 1.
Lemma mantissa_ok (form : block) (D : Z -> Z) size dotIndex : 0 <= dotIndex -> dotIndex + 1 < size ->
  (forall q, 0 <= q < size - 1 -> znth form (position dotIndex q) = Some (Some (D q))) ->
  forall n res index i q, 0 <= index -> index + Z.of_nat n <= zlen res -> 0 <= i <= size -> q = (if i <=? dotIndex then i else i - 1) ->
  exists res', mantissa_loop n form res index i size dotIndex = Ok res' /\
    written res res' index (index + Z.max 0 (Z.min (Z.of_nat n) (size - 1 - q))) (fun j => D (q + (j - index))).
Proof.
  intros D0 D1 G. induction n as [|n IH]; intros res index i q I0 L R Q; cbn [mantissa_loop].
  - exists res. split; auto. apply written_refl. lia.
  - destruct (Z.eqb_spec i size) as [E|E]; [exists res; split; auto; apply written_refl; destruct (Z.leb_spec i dotIndex); lia|].
    assert (Q0 : 0 <= q < size - 1) by (destruct (Z.leb_spec i dotIndex); lia).
    assert (GI : znth form (if i =? dotIndex then i + 1 else i) = Some (Some (D q))).
    { rewrite <- (G q Q0). f_equal. unfold position. destruct (Z.eqb_spec i dotIndex), (Z.leb_spec i dotIndex); subst q; destruct (Z.ltb_spec (if true then i else i) dotIndex); lia || (destruct (Z.ltb_spec (i - 1) dotIndex); lia). }
    cbv zeta. rewrite (mget_ok _ _ _ GI). cbn [bind]. rewrite mset_ok by lia. cbn [bind].
    destruct (IH (zupd res index (Some (D q))) (index + 1) ((if i =? dotIndex then i + 1 else i) + 1) (q + 1)) as (res' & -> & Wr); try (rewrite ?zupd_len; lia).
    { destruct (Z.eqb_spec i dotIndex); lia. }
    { destruct (Z.eqb_spec i dotIndex), (Z.leb_spec i dotIndex), (Z.leb_spec ((if i =? dotIndex then i + 1 else i) + 1) dotIndex); destruct (Z.eqb_spec i dotIndex); try lia. all: match goal with |- context [?a <=? ?b] => destruct (Z.leb_spec a b) end; lia. }
    exists res'. split; auto. apply (written_cons _ _ _ _ _ (D q)); [lia|lia| |f_equal; lia].
    replace (index + Z.max 0 (Z.min (Z.of_nat (S n)) (size - 1 - q))) with (index + 1 + Z.max 0 (Z.min (Z.of_nat n) (size - 1 - (q + 1)))) by lia.
    destruct Wr as [Z1 Wr]. split; auto. intros j. rewrite Wr. match goal with |- (if ?b then _ else _) = _ => destruct b end; auto. do 3 f_equal. lia.
Qed.
