(** C122: Long::valueOf and Long::getLong. *)

From Coq Require Import ZArith List Lia Bool String.
From Verif Require Import Base Bits CppText TextSpec TextLemmas StringModel StringProofs IntegerProofs2
  LongModel LongProofs LongProofs2 LongProps ShortProps LongValueModel.
Import ListNotations.
Open Scope string_scope.
Open Scope list_scope.
Open Scope Z_scope.

Lemma canonical_short t w : canonical_unsigned 10 t w -> w <= long_max + 1 -> zlen t <= 1000000.
Proof.
  intros ((N & ds & F & ->) & _ & C) W. pose proof (digits10 _ _ F) as (-> & D).
  destruct ds as [|d ds]; [cbn in N; congruence|]. cbn [map hd] in C.
  destruct (Z.eq_dec d 0) as [->|N0].
  - specialize (C eq_refl). cbn [map]. rewrite C. unfold zlen; cbn; lia.
  - pose proof (canonical_len (d :: ds) D ltac:(discriminate) N0) as (L & _).
    unfold zlen in *. rewrite map_length. destruct (Z_le_gt_dec (Z.of_nat (List.length (d :: ds))) 1000000) as [|G]; [assumption|].
    assert (10 ^ 20 <= 10 ^ (Z.of_nat (List.length (d :: ds)) - 1)) by (apply Z.pow_le_mono_r; lia).
    unfold long_max in W. change (10 ^ 20) with 100000000000000000000 in *. lia.
Qed.

(** The decimal text of every long except MIN_VALUE is read back as that long. *)
Theorem C122_round_trip_partial : forall m x t, is_long x -> x <> long_min -> canonical_signed 10 t x ->
  exists o, valueOf m t = Ok o /\ lval o = x /\ canonical_signed 10 (ltext o) x.
Proof.
  intros m x t R NM C. exists (mk_long x). split; [|split; [reflexivity|apply itoa_canonical]].
  unfold valueOf. unfold is_long in R.
  destruct C as [C|(u & w & -> & W & C & ->)].
  - pose proof (C09_decode_partial m [] [] 10 t x) as H. cbn [app] in H. destruct C as (N & Lo & Z0).
    rewrite H; auto; [right; auto| eapply canonical_short; [split; [exact N|split; eauto]|lia]|lia].
  - pose proof (C09_decode_partial m [45] [] 10 u w) as H. cbn [app] in H. destruct C as (N & Lo & Z0).
    rewrite H; auto; [right; auto| eapply canonical_short; [split; [exact N|split; eauto]|]|]; unfold long_min, long_max in *; lia.
Qed.
Print Assumptions C122_round_trip_partial.

(** valueOf(s, 10) reads every long, MIN_VALUE included. *)
Theorem C122_radix_ten : forall m x t, is_long x -> canonical_signed 10 t x ->
  exists o, valueOf_radix m t 10 = Ok o /\ lval o = x /\ canonical_signed 10 (ltext o) x.
Proof.
  intros m x t R C. exists (mk_long x). split; [|split; [reflexivity|apply itoa_canonical]].
  unfold valueOf_radix. rewrite (C09_parseLong_partial m 10 t x); auto.
  - destruct C as [(N & _)|(u & w & -> & _ & (N & _) & _)]; [|constructor; [unfold byte_ok; lia|]]; eapply numeral_bytes; exact N.
  - destruct C as [(N & _)|(u & w & -> & _ & (N & _) & ->)]; [left; exact N|right; right; exists u, w; auto].
  - destruct C as [(_ & Lo & _)|(u & w & -> & _ & (_ & Lo & _) & _)]; [exact Lo|constructor; [reflexivity|exact Lo]].
Qed.
Print Assumptions C122_radix_ten.

(** A decimal numeral written with a leading zero denotes the same number, but
    valueOf answers -1 for all of them (1 with a minus sign). *)
Theorem C122_leading_zero_refuted : forall m t w, numeral 10 t w -> zlen t <= 1000000 ->
  numeral 10 (48 :: t) w /\
  (exists o, valueOf m (48 :: t) = Ok o /\ lval o = -1) /\
  (exists o, valueOf m (45 :: 48 :: t) = Ok o /\ lval o = 1).
Proof.
  intros m t w N L.
  assert (H48 : exists c u, t = c :: u /\ 48 <= c < 58).
  { destruct N as (NE & ds & F & _). pose proof (digits10 _ _ F) as (-> & D). destruct ds as [|d ds]; [cbn in NE; congruence|].
    inversion D; subst. exists (48 + d), (map (fun d => 48 + d) ds). split; [reflexivity|lia]. }
  split.
  { destruct N as (NE & ds & F & ->). split; [discriminate|]. exists (0 :: ds). split.
    - constructor; [|exact F]. unfold is_digit. cbn. split; [reflexivity|lia].
    - rewrite numval_cons. lia. }
  destruct H48 as (c & u & -> & Hc).
  assert (Z1 : zlen (c :: u) = zlen u + 1) by apply zlen_cons. pose proof (zlen_nonneg u) as Z2.
  assert (B : forall a, zlen a <= 1 ->
    startsWith_at (a ++ 48 :: c :: u) [48; 120] (zlen a) = false /\ startsWith_at (a ++ 48 :: c :: u) [48; 88] (zlen a) = false /\
    startsWith_at (a ++ 48 :: c :: u) [35] (zlen a) = false /\ startsWith_at (a ++ 48 :: c :: u) [48] (zlen a) = true /\
    (1 + zlen a <? zlen (a ++ 48 :: c :: u)) = true /\
    startsWith_at (a ++ 48 :: c :: u) [45] (zlen a + 1) = false /\ startsWith_at (a ++ 48 :: c :: u) [43] (zlen a + 1) = false /\
    getStringFromIndex (a ++ 48 :: c :: u) (zlen a + 1) = Ok (c :: u)).
  { intros a La. pose proof (zlen_nonneg a). rewrite !startsWith_at_app. cbn [prefixb].
    replace (120 =? c) with false by lia. replace (88 =? c) with false by lia.
    do 4 (split; [reflexivity|]).
    split; [rewrite zlen_app, zlen_cons; lia|].
    replace (a ++ 48 :: c :: u) with ((a ++ [48]) ++ c :: u) by (rewrite <- app_assoc; reflexivity).
    replace (zlen a + 1) with (zlen (a ++ [48])) by (rewrite zlen_app; reflexivity).
    rewrite !startsWith_at_app. cbn [prefixb]. replace (45 =? c) with false by lia. replace (43 =? c) with false by lia.
    split; [reflexivity|]. split; [reflexivity|].
    rewrite getStringFromIndex_in.
    - replace (Z.to_nat (zlen (a ++ [48]))) with (List.length (a ++ [48])) by (unfold zlen; lia).
      rewrite skipn_app, skipn_all, Nat.sub_diag. reflexivity.
    - unfold small, int_max. rewrite !zlen_app. change (zlen [48]) with 1. lia.
    - rewrite !zlen_app. change (zlen [48]) with 1. lia. }
  pose proof (B [] ltac:(unfold zlen; cbn; lia)) as (A1 & A2 & A3 & A4 & A5 & A6 & A7 & A8).
  pose proof (B [45] ltac:(unfold zlen; cbn; lia)) as (B1 & B2 & B3 & B4 & B5 & B6 & B7 & B8).
  change (zlen (@nil Z)) with 0 in *. change (zlen [45]) with 1 in *. cbn [app] in *. clear B.
  assert (P : parseLong m (c :: u) 8 = Ok (-1)) by exact (parseLong_other m 8 (c :: u) ltac:(discriminate) ltac:(discriminate) ltac:(discriminate) ltac:(discriminate)).
  split.
  - exists (mk_long (-1)). split; [|reflexivity]. unfold valueOf, decode. cbn [Z.eqb Pos.eqb orb].
    rewrite A1, A2, A3, A4, A5. cbn [orb andb]. rewrite A6, A7. cbn [orb]. rewrite A8. cbn [bind]. rewrite P. reflexivity.
  - exists (mk_long 1). split; [|reflexivity]. unfold valueOf, decode. cbn [Z.eqb Pos.eqb orb].
    rewrite B1, B2, B3, B4, B5. cbn [orb andb]. rewrite B6, B7. cbn [orb]. rewrite B8. cbn [bind]. rewrite P. destruct m; reflexivity.
Qed.
Print Assumptions C122_leading_zero_refuted.

(** valueOf answers 1 for the text of MIN_VALUE, and takes "0x10", which is no
    decimal numeral, for 16. *)
Theorem C122_text_refuted : forall m,
  (canonical_signed 10 (T "-9223372036854775808") long_min /\
   exists o, valueOf m (T "-9223372036854775808") = Ok o /\ lval o = 1) /\
  ((forall v, ~ legal_numeral 10 (T "0x10") v) /\ exists o, valueOf m (T "0x10") = Ok o /\ lval o = 16).
Proof.
  intros m. split; split.
  - exact (itoa_canonical long_min).
  - exists (mk_long 1). split; [destruct m; vm_compute; reflexivity|reflexivity].
  - intros v [(_ & ds & F & _)|[(t & E & _)|(t & w & E & _)]]; [|discriminate|discriminate].
    change (T "0x10") with [48; 120; 49; 48] in F. inversion F as [|? ? ? ? _ F1]; subst. inversion F1 as [|? ? ? ? H _]; subst. apply digit10 in H. lia.
  - exists (mk_long 16). split; [destruct m; vm_compute; reflexivity|reflexivity].
Qed.
Print Assumptions C122_text_refuted.

(** getLong(nm, val) never returns a default other than 0, and getLong(nm)
    depends on nothing but the spelling of the name: for the decimal text of a
    number it answers that number. *)
Theorem C122_getLong_refuted :
  (forall nm val, val <> 0 -> lval (getLong_default nm val) <> val) /\
  (forall m x t, is_long x -> x <> long_min -> canonical_signed 10 t x ->
     exists o, getLong m t = Ok o /\ lval o = x).
Proof.
  split; [intros nm val H E; apply H; symmetry; exact E|].
  intros m x t R NM C. destruct (C122_round_trip_partial m x t R NM C) as (o & E & V & _). exists o. split; [exact E|exact V].
Qed.
Print Assumptions C122_getLong_refuted.

Example C122_ex : valueOf ISO (T "-42") = Ok (mk_long (-42)) /\ valueOf ISO (T "9223372036854775807") = Ok (mk_long long_max)
  /\ valueOf_radix ISO (T "-9223372036854775808") 10 = Ok (mk_long long_min)
  /\ valueOf ISO (T "042") = Ok (mk_long (-1)) /\ getLong ISO (T "java.version") = Ok (mk_long (-1))
  /\ canonical_signed 10 (T "-42") (-42) /\ numeral 10 (T "42") 42.
Proof.
  repeat split; try (vm_compute; reflexivity); try discriminate.
  - exact (itoa_canonical (-42)).
  - exists [4; 2]. split; [|reflexivity]. repeat constructor.
Qed.
