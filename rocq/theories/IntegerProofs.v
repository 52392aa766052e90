(** Proofs about Integer: bit queries, bit permutations, unsigned arithmetic,
    operators. *)

From Coq Require Import ZArith List Lia Bool.
From Verif Require Import Base Bits CppText TextSpec TextLemmas BitSpec BitLemmas
  StringModel StringSpec StringProofs IntegerModel.
Import ListNotations.
Open Scope Z_scope.

Lemma single_bit_uwrap w k : 0 < w -> wrap w (uwrap w (2 ^ k)) = single_bit w k.
Proof. intros. apply wrap_uwrap; auto. Qed.

(** ** highestOneBit *)

Lemma highestOneBit_ok x : is_int x -> is_highest_one 32 x (highestOneBit x).
Proof.
  intros Hx. apply (proj1 (is_int_s _)) in Hx.
  unfold highestOneBit, to_int, u32.
  set (x1 := Z.lor x (Z.shiftr x 1)). set (x2 := Z.lor x1 (Z.shiftr x1 2)).
  set (x3 := Z.lor x2 (Z.shiftr x2 4)). set (x4 := Z.lor x3 (Z.shiftr x3 8)).
  set (x5 := Z.lor x4 (Z.shiftr x4 16)).
  assert (S : smeared x 32 x5).
  { change 32 with (2 * 16). apply smeared_step; [lia|].
    change 16 with (2 * 8). apply smeared_step; [lia|].
    change 8 with (2 * 4). apply smeared_step; [lia|].
    change 4 with (2 * 2). apply smeared_step; [lia|].
    change 2 with (2 * 1). apply smeared_step; [lia|]. apply smeared_1. }
  destruct (smeared_value 32 x x5 ltac:(lia) Hx S) as [V0 V1].
  destruct (Z.eq_dec x 0) as [E|E].
  - left. split; auto. rewrite V0 by auto. reflexivity.
  - right. assert (N : uwrap 32 x <> 0) by (rewrite uwrap_0_iff; auto; lia).
    destruct (highest_at_ex 32 x ltac:(lia) N) as (k & Hk & _). exists k. split; auto.
    rewrite (V1 k Hk). destruct Hk as (Hk & _).
    rewrite Z.shiftr_div_pow2 by lia. change (2 ^ 1) with 2.
    replace (2 ^ (k + 1)) with (2 * 2 ^ k) by (rewrite Z.pow_add_r by lia; lia).
    replace ((2 * 2 ^ k - 1) / 2) with (2 ^ k - 1).
    + replace (2 * 2 ^ k - 1 - (2 ^ k - 1)) with (2 ^ k) by lia. apply single_bit_uwrap; lia.
    + apply Z.div_unique with 1; lia.
Qed.

(** ** lowestOneBit *)

Lemma lowestOneBit_ok x : is_int x -> exists r, lowestOneBit HW x = Ok r /\ is_lowest_one 32 x r.
Proof.
  intros Hx. apply (proj1 (is_int_s _)) in Hx. unfold lowestOneBit, sneg. rewrite sres_HW by lia. cbn [bind].
  eexists; split; [reflexivity|].
  destruct (Z.eq_dec x 0) as [->|E].
  - left. split; auto.
  - right. assert (N : uwrap 32 x <> 0) by (rewrite uwrap_0_iff; auto; lia).
    destruct (lowest_at_ex 32 x ltac:(lia) N) as (k & Hk). exists k. split; auto.
    apply land_opp_wrap; auto; lia.
Qed.
Lemma lowestOneBit_iso x : is_int x ->
  lowestOneBit ISO x = if x =? int_min then UB SignedOverflow else lowestOneBit HW x.
Proof.
  intros Hx. unfold lowestOneBit, sneg.
  destruct (Z.eqb_spec x int_min) as [->|N]; [reflexivity|].
  assert (in_s 32 (- x)). { apply (proj1 (is_int_s _)). unfold is_int, int_min, int_max in *. lia. }
  rewrite !sres_ok by auto. reflexivity.
Qed.

(** ** numberOfLeadingZeros *)

Definition nlz_inv (u0 lo n x : Z) : Prop :=
  in_s 32 x /\ 1 <= n /\ u32 x = u0 * 2 ^ (n - 1) /\ 2 ^ lo <= u32 x.

Lemma nlz_step_ok m u0 lo s n x : 0 < s <= 16 -> 0 <= lo -> lo + s <= 32 ->
  nlz_inv u0 lo n x -> 32 - s <= lo + s ->
  exists n' x', nlz_step m s (n, x) = Ok (n', x') /\ nlz_inv u0 (32 - s) n' x' /\ n' <= n + s.
Proof.
  intros Hs Hlo Hls (Hx & Hn & Hu & Hl) Hb. unfold nlz_step.
  pose proof (uwrap_range 32 x ltac:(lia)) as R. fold (u32 x) in R.
  assert (Hd : Z.shiftr (u32 x) (32 - s) = 0 <-> u32 x < 2 ^ (32 - s)).
  { rewrite Z.shiftr_div_pow2 by lia. pose proof (pow2_pos (32 - s) ltac:(lia)).
    split; intros H'.
    - pose proof (Z.div_mod (u32 x) (2 ^ (32 - s)) ltac:(lia)).
      pose proof (Z.mod_pos_bound (u32 x) (2 ^ (32 - s)) ltac:(lia)). lia.
    - apply Z.div_small. lia. }
  destruct (Z.eqb_spec (Z.shiftr (u32 x) (32 - s)) 0) as [E|E].
  - apply Hd in E.
    assert (P31 : 2 ^ (32 - s) <= 2 ^ 31) by (apply Z.pow_le_mono_r; lia).
    assert (Ux : u32 x = x).
    { unfold u32, uwrap in *. unfold in_s, smin, smax in Hx. change (2 ^ (32-1)) with (2^31) in *.
      destruct (Z.lt_ge_cases x 0).
      - exfalso. replace (x mod 2 ^ 32) with (x + 2 ^ 32) in E.
        + change (2 ^ 32) with (2 * 2 ^ 31) in E. lia.
        + rewrite <- (Z.mod_small (x + 2 ^ 32) (2 ^ 32)) by (change (2 ^ 32) with (2 * 2 ^ 31); lia).
          rewrite <- (Z.mul_1_l (2 ^ 32)) at 1. rewrite Z.mod_add by lia. reflexivity.
      - apply Z.mod_small. change (2 ^ 32) with (2 * 2 ^ 31). lia. }
    assert (Hsh : x * 2 ^ s < 2 ^ 32).
    { replace (2 ^ 32) with (2 ^ (32 - s) * 2 ^ s) by (rewrite <- Z.pow_add_r by lia; f_equal; lia).
      apply Z.mul_lt_mono_pos_r; [apply pow2_pos; lia|lia]. }
    assert (Sh : sshl m 32 x s = Ok (wrap 32 (x * 2 ^ s))).
    { unfold sshl. destruct m.
      - rewrite Z.shiftl_mul_pow2 by lia.
        replace ((0 <=? s) && (s <? 32) && (0 <=? x) && (x * 2 ^ s <? 2 ^ 32)) with true; auto.
        symmetry. rewrite !andb_true_iff, !Z.leb_le, !Z.ltb_lt. repeat split; try lia.
      - rewrite Z.mod_small by lia. rewrite Z.shiftl_mul_pow2 by lia. reflexivity. }
    rewrite Sh. cbn [bind].
    assert (0 < 2 ^ s) by (apply pow2_pos; lia).
    assert (Uw : u32 (wrap 32 (x * 2 ^ s)) = u32 x * 2 ^ s).
    { unfold u32 at 1. rewrite uwrap_wrap by lia. rewrite Ux. apply uwrap_id. nia. }
    do 2 eexists. split; [reflexivity|]. split; [|lia]. split; [|split; [|split]].
    + apply wrap_range; lia.
    + lia.
    + rewrite Uw, Hu. replace (n + s - 1) with ((n - 1) + s) by lia.
      rewrite (Z.pow_add_r 2 (n - 1) s) by lia. lia.
    + rewrite Uw.
      assert (2 ^ (32 - s) <= 2 ^ (lo + s)) by (apply Z.pow_le_mono_r; lia).
      rewrite Z.pow_add_r in H0 by lia. nia.
  - do 2 eexists. split; [reflexivity|]. split; [|lia]. split; [auto|]. split; [auto|]. split; [auto|]. lia.
Qed.

Lemma nlz_ok m x : is_int x -> exists r, numberOfLeadingZeros m x = Ok r /\ is_nlz 32 x r.
Proof.
  intros Hx. apply (proj1 (is_int_s _)) in Hx. unfold numberOfLeadingZeros.
  destruct (Z.eqb_spec x 0) as [->|E]; [eexists; split; [reflexivity|left; auto]|].
  assert (N : uwrap 32 x <> 0) by (rewrite uwrap_0_iff; auto; lia).
  destruct (highest_at_ex 32 x ltac:(lia) N) as (k & Hk & Bk).
  pose proof (uwrap_range 32 x ltac:(lia)) as R.
  assert (I0 : nlz_inv (uwrap 32 x) 0 1 x).
  { split; auto. split; [lia|]. split; [change (2 ^ (1-1)) with 1; unfold u32; lia|].
    change (2 ^ 0) with 1. unfold u32. lia. }
  destruct (nlz_step_ok m (uwrap 32 x) 0 16 1 x ltac:(lia) ltac:(lia) ltac:(lia) I0 ltac:(lia)) as (n1 & x1 & E1 & I1 & L1).
  destruct (nlz_step_ok m (uwrap 32 x) 16 8 n1 x1 ltac:(lia) ltac:(lia) ltac:(lia) I1 ltac:(lia)) as (n2 & x2 & E2 & I2 & L2).
  destruct (nlz_step_ok m (uwrap 32 x) 24 4 n2 x2 ltac:(lia) ltac:(lia) ltac:(lia) I2 ltac:(lia)) as (n3 & x3 & E3 & I3 & L3).
  destruct (nlz_step_ok m (uwrap 32 x) 28 2 n3 x3 ltac:(lia) ltac:(lia) ltac:(lia) I3 ltac:(lia)) as (n4 & x4 & E4 & I4 & L4).
  rewrite E1; cbn [bind]. rewrite E2; cbn [bind]. rewrite E3; cbn [bind]. rewrite E4; cbn [bind].
  destruct I4 as (R4 & N4 & U4 & B4).
  eexists. split; [reflexivity|]. right. exists k. split; auto.
  pose proof (uwrap_range 32 x4 ltac:(lia)) as Q. fold (u32 x4) in Q.
  assert (Lg : Z.log2 (u32 x4) = k + (n4 - 1)).
  { rewrite U4, Z.log2_mul_pow2 by lia. rewrite (Z.log2_unique (uwrap 32 x) k); [lia | destruct Hk as [? _]; lia |].
    replace (Z.succ k) with (k + 1) by lia. auto. }
  assert (D : Z.shiftr (u32 x4) 31 = if u32 x4 <? 2 ^ 31 then 0 else 1).
  { rewrite Z.shiftr_div_pow2 by lia. destruct (Z.ltb_spec (u32 x4) (2 ^ 31)).
    - apply Z.div_small. lia.
    - symmetry. apply Z.div_unique with (u32 x4 - 2 ^ 31); lia. }
  rewrite D. clear D.
  assert (H : n4 - (if u32 x4 <? 2 ^ 31 then 0 else 1) = 31 - k).
  { destruct (Z.ltb_spec (u32 x4) (2 ^ 31)).
    - rewrite (Z.log2_unique (u32 x4) 30) in Lg; [lia|lia|].
      change (32 - 2) with 30 in B4. change (Z.succ 30) with 31. lia.
    - rewrite (Z.log2_unique (u32 x4) 31) in Lg; [lia|lia|]. change (Z.succ 31) with 32. lia. }
  rewrite H. destruct Hk as (Hk & _). unfold to_int. rewrite uwrap_id by (change (2 ^ 32) with 4294967296; lia).
  rewrite wrap_id; [lia|lia|]. apply (proj1 (is_int_s _)). unfold is_int, int_min, int_max. lia.
Qed.

(** ** The binary text *)

Definition bitchars (v : Z) (ps : list Z) : str := map (fun i => if Z.testbit v i then 49 else 48) ps.
Lemma bitset_chars v : bitset32_to_string v = bitchars v (rev (positions 32)).
Proof. reflexivity. Qed.
Lemma bitset_znth v i : 0 <= i < 32 ->
  znth (bitset32_to_string v) i = Some (if Z.testbit v (31 - i) then 49 else 48).
Proof.
  intros Hi. unfold bitset32_to_string, znth. replace (i <? 0) with false by lia.
  rewrite nth_error_map.
  rewrite (nth_error_nth' _ O) by (rewrite seq_length; lia).
  rewrite seq_nth by lia. cbn [option_map]. replace (Z.of_nat (0 + Z.to_nat i)) with i by lia. reflexivity.
Qed.
Lemma bitset_len v : zlen (bitset32_to_string v) = 32.
Proof. reflexivity. Qed.
Lemma toUnsignedLong_uwrap x : toUnsignedLong x = uwrap 32 x.
Proof. unfold toUnsignedLong. rewrite Z.land_ones by lia. reflexivity. Qed.

Lemma toBinaryString_ok x : is_int x -> x <> 0 ->
  exists k, highest_at 32 x k /\
   toBinaryString x = Ok (skipn (Z.to_nat (31 - k)) (bitset32_to_string (uwrap 32 x))).
Proof.
  intros Hx E. apply (proj1 (is_int_s _)) in Hx.
  assert (N : uwrap 32 x <> 0) by (rewrite uwrap_0_iff; auto; lia).
  destruct (highest_at_ex 32 x ltac:(lia) N) as (k & Hk & Bk). exists k. split; auto.
  unfold toBinaryString, toUnsignedString. replace (x =? 0) with false by lia. cbn [orb Z.ltb].
  change (if (32 <? 2) || (2 <? 2) then 10 else 2) with 2. cbv zeta. change (2 =? 2) with true. cbv iota.
  rewrite toUnsignedLong_uwrap.
  assert (I : indexOf_char (bitset32_to_string (uwrap 32 x)) 49 = 31 - k).
  { pose proof (indexOf_char_ok (bitset32_to_string (uwrap 32 x)) 49 ltac:(lia)) as F.
    rewrite bitset_len in F. apply highest_at_uwrap in Hk; [|lia]. destruct Hk as (K1 & K2 & K3).
    destruct F as [(A & B & C)|(A & B)].
    - apply occurs_char in B. rewrite bitset_znth in B by lia.
      set (j := indexOf_char _ _) in *.
      destruct (Z.testbit (uwrap 32 x) (31 - j)) eqn:T; [|congruence].
      destruct (Z.lt_trichotomy j (31 - k)) as [G|[G|G]]; auto.
      + rewrite K3 in T by lia. discriminate.
      + exfalso. apply (C (31 - k)); [lia|]. apply occurs_char. rewrite bitset_znth by lia.
        replace (31 - (31 - k)) with k by lia. rewrite K2. reflexivity.
    - exfalso. apply (B (31 - k)); [lia|]. apply occurs_char. rewrite bitset_znth by lia.
      replace (31 - (31 - k)) with k by lia. rewrite K2. reflexivity. }
  rewrite I. destruct Hk as (K1 & _). apply getStringFromIndex_in.
  - unfold small. rewrite bitset_len. unfold int_max; lia.
  - rewrite bitset_len. lia.
Qed.

(** ** bitCount *)

Lemma count_ones_ok s : small s -> forall n i acc, i + Z.of_nat n = zlen s -> 0 <= i ->
  count_ones s n i acc = Ok (acc + zlen (filter (Z.eqb 49) (skipn (Z.to_nat i) s))).
Proof.
  intros Hs. induction n as [|n IH]; intros i acc Hi H0; cbn [count_ones].
  - rewrite skipn_all2; [unfold zlen; simpl; f_equal; lia|]. unfold zlen in Hi. lia.
  - destruct (charAt_in s i ltac:(lia) Hs) as (c & Hc & ->). cbn [bind].
    rewrite IH by lia. f_equal.
    assert (Sk : skipn (Z.to_nat i) s = c :: skipn (Z.to_nat (i + 1)) s).
    { rewrite znth_nth in Hc by lia. replace (Z.to_nat (i + 1)) with (S (Z.to_nat i)) by lia.
      clear -Hc. revert s Hc. induction (Z.to_nat i) as [|k IHk]; intros [|a s] Hc; try discriminate.
      - cbn in Hc. inversion Hc. reflexivity.
      - cbn in Hc. cbn [skipn]. apply IHk. exact Hc. }
    rewrite Sk. cbn [filter]. rewrite (Z.eqb_sym 49 c). destruct (c =? 49); [rewrite zlen_cons|]; lia.
Qed.

Lemma filter_rev_len {A} (f : A -> bool) l : zlen (filter f (rev l)) = zlen (filter f l).
Proof.
  induction l as [|a l IH]; auto. cbn [rev]. rewrite filter_app, zlen_app, IH. cbn [filter].
  destruct (f a); [rewrite !zlen_cons; unfold zlen; simpl; lia | unfold zlen; simpl; lia].
Qed.
Lemma filter_bitchars v ps : zlen (filter (Z.eqb 49) (bitchars v ps)) = zlen (filter (Z.testbit v) ps).
Proof.
  induction ps as [|p ps IH]; auto. cbn [bitchars map filter]. fold (bitchars v ps).
  destruct (Z.testbit v p); [|exact IH].
  change (49 =? 49) with true. cbv iota. rewrite !zlen_cons. lia.
Qed.

Lemma popcount_uwrap x : popcount 32 (uwrap 32 x) = popcount 32 x.
Proof.
  unfold popcount. f_equal. apply filter_ext_in. intros i Hi. apply in_positions in Hi.
  rewrite uwrap_bits by lia. replace (i <? 32) with true by lia. reflexivity.
Qed.

Lemma filter_none {A} (f : A -> bool) l : (forall a, In a l -> f a = false) -> filter f l = [].
Proof.
  induction l as [|a l IH]; intros H; auto. cbn [filter]. rewrite (H a) by (left; auto).
  apply IH. intros; apply H; right; auto.
Qed.

Lemma in_firstn {A} (l : list A) a n : In a (firstn n l) -> exists i, (i < n)%nat /\ nth_error l i = Some a.
Proof.
  revert l. induction n as [|n IH]; intros [|b l]; cbn; try tauto.
  intros [->|H]; [exists O; split; [lia|auto]|].
  destruct (IH l H) as (i & Hi & E). exists (S i). split; [lia|auto].
Qed.

Lemma bitCount_ok x : is_int x -> bitCount x = Ok (popcount 32 x).
Proof.
  intros Hx. destruct (Z.eq_dec x 0) as [->|E]; [reflexivity|].
  destruct (toBinaryString_ok x Hx E) as (k & Hk & Es). unfold bitCount. rewrite Es. cbn [bind].
  set (bs := bitset32_to_string (uwrap 32 x)) in *.
  assert (K1 : 0 <= k < 32) by (destruct Hk; auto).
  rewrite count_ones_ok; [|unfold small, zlen; rewrite skipn_length; change (length bs) with 32%nat; unfold int_max; lia | unfold zlen; lia | lia].
  cbn [skipn Z.to_nat]. rewrite Z.add_0_l. f_equal.
  rewrite <- popcount_uwrap. unfold popcount. rewrite <- (filter_rev_len _ (positions 32)).
  rewrite <- filter_bitchars. rewrite <- bitset_chars. fold bs.
  rewrite <- (firstn_skipn (Z.to_nat (31 - k)) bs) at 2. rewrite filter_app, zlen_app.
  rewrite (filter_none _ (firstn _ _)); [unfold zlen at 2; simpl; lia|].
  intros c Hc. apply in_firstn in Hc. destruct Hc as (n & Hn & Hc).
  assert (Z1 : znth bs (Z.of_nat n) = Some c) by (rewrite znth_nth, Nat2Z.id by lia; auto).
  unfold bs in Z1. rewrite bitset_znth in Z1 by lia.
  apply highest_at_uwrap in Hk; [|lia]. destruct Hk as (_ & _ & K3).
  rewrite K3 in Z1 by lia. inversion Z1. reflexivity.
Qed.

(** ** numberOfTrailingZeros *)

Lemma znth_skipn' {A} (l : list A) n i : 0 <= n -> 0 <= i -> znth (skipn (Z.to_nat n) l) i = znth l (n + i).
Proof.
  intros Hn Hi. rewrite !znth_nth by lia. replace (Z.to_nat (n + i)) with (Z.to_nat n + Z.to_nat i)%nat by lia.
  clear Hn Hi. revert l. induction (Z.to_nat n) as [|k IH]; intros l; auto.
  destruct l as [|a l]; [cbn; destruct (Z.to_nat i); reflexivity|]. cbn. apply IH.
Qed.

Lemma ntz_ok x : is_int x -> exists r, numberOfTrailingZeros x = Ok r /\ is_ntz 32 x r.
Proof.
  intros Hx. unfold numberOfTrailingZeros.
  destruct (Z.eqb_spec x 0) as [->|E]; [eexists; split; [reflexivity|left; auto]|].
  destruct (toBinaryString_ok x Hx E) as (k & Hk & Es). rewrite Es. cbn [bind].
  set (bs := bitset32_to_string (uwrap 32 x)) in *. set (s := skipn _ bs).
  assert (K1 : 0 <= k < 32) by (destruct Hk; auto).
  assert (Ls : zlen s = k + 1).
  { unfold s, zlen. rewrite skipn_length. change (length bs) with 32%nat. lia. }
  destruct (lastIndexOf_char_ok s 49) as (r & -> & L); [unfold small, int_max; lia|].
  cbn [bind]. eexists; split; [reflexivity|]. right. exists (zlen s - r - 1). split; auto.
  rewrite Ls in *. replace (k + 1 - r - 1) with (k - r) by lia.
  assert (Ch : forall j, 0 <= j <= k -> (occurs [49] s j <-> Z.testbit x (k - j) = true)).
  { intros j Hj. rewrite occurs_char. unfold s. rewrite znth_skipn' by lia.
    unfold bs. rewrite bitset_znth by lia.
    replace (31 - (31 - k + j)) with (k - j) by lia. rewrite uwrap_bits by lia.
    replace (k - j <? 32) with true by lia. cbn [andb].
    destruct (Z.testbit x (k - j)); split; congruence. }
  destruct L as [(A & B & C)|(A & B)].
  - split; [lia|]. split; [apply Ch; auto; lia|].
    intros j Hj. destruct (Z.testbit x j) eqn:T; auto. exfalso.
    apply (C (k - j)); [lia|]. apply Ch; [lia|]. replace (k - (k - j)) with j by lia. auto.
  - exfalso. apply (B 0); [lia|]. apply Ch; [lia|]. rewrite Z.sub_0_r. destruct Hk as (_ & ? & _); auto.
Qed.
