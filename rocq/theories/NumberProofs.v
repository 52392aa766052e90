(** Proofs about Integer.parseUnsignedInt and Integer.decode. *)

From Coq Require Import ZArith List Lia Bool String.
From Verif Require Import Base Bits CppText TextSpec TextLemmas BitSpec BitLemmas
  StringModel StringSpec StringProofs IntegerModel IntegerProofs IntegerProofs2 IntegerProofs3.
Import ListNotations.
Open Scope Z_scope.

Lemma numeral_pos b s v : 2 <= b -> numeral b s v -> 0 <= v.
Proof. intros B. apply numeral_range. lia. Qed.

Definition u_result (v : Z) : outcome Z := if v <? 2 ^ 32 then Ok (wrap 32 v) else Throw NumberFormatException.
Lemma u_result_ok b s v : 2 <= b <= 32 -> numeral b s v ->
  (let* u := catch_stoul (stoul b (cstr s)) in
   if (0xffffffff <? wrap 64 u) || (wrap 64 u <? 0) then Throw NumberFormatException else Ok (to_int (wrap 64 u))) = u_result v.
Proof.
  intros Hb N. pose proof (numeral_pos b s v ltac:(lia) N) as V0.
  rewrite cstr_id by (eapply numeral_nonul; eauto). rewrite (stoul_numeral b _ v) by auto. unfold u_result.
  destruct (Z.leb_spec (2 ^ 64) v); cbn [catch_stoul bind].
  - destruct (Z.ltb_spec v (2 ^ 32)); [lia|reflexivity].
  - destruct (Z_lt_le_dec v (2 ^ 63)).
    + rewrite wrap_id by (try lia; unfold in_s, smin, smax; lia).
      destruct (Z.ltb_spec v (2 ^ 32)).
      * replace ((4294967295 <? v) || (v <? 0)) with false by lia. reflexivity.
      * replace ((4294967295 <? v) || (v <? 0)) with true by lia. reflexivity.
    + assert (E : wrap 64 v = v - 2 ^ 64).
      { rewrite <- (wrap_id 64 (v - 2 ^ 64)) by (try lia; unfold in_s, smin, smax; lia). apply wrap_eq_mod; [lia|].
        replace v with (v - 2 ^ 64 + 1 * 2 ^ 64) at 1 by lia. rewrite Z.mod_add by lia. reflexivity. }
      rewrite E. replace ((4294967295 <? v - 2 ^ 64) || (v - 2 ^ 64 <? 0)) with true by lia.
      destruct (Z.ltb_spec v (2 ^ 32)); [lia|reflexivity].
Qed.
Lemma ctype_ascii m f c : 0 <= c < 128 -> ctype m f c = Ok (f c).
Proof. intros H. unfold ctype. destruct m; [|reflexivity]. replace ((128 <=? c) && (c <? 255)) with false by lia. reflexivity. Qed.
Lemma digit_ascii b c d : is_digit b c d -> 48 <= c < 123.
Proof.
  intros [H _]. revert H. unfold digit_val, is_digit_c, is_lower_c, is_upper_c.
  destruct ((48 <=? c) && (c <=? 57)) eqn:E1; [intros; lia|].
  destruct ((97 <=? c) && (c <=? 122)) eqn:E2; [intros; lia|].
  destruct ((65 <=? c) && (c <=? 90)) eqn:E3; [intros; lia|discriminate].
Qed.
Lemma parseUnsigned_plus m b s v (sg : str) : 2 <= b <= 32 -> sg = [] \/ sg = [43] -> numeral b s v -> small (sg ++ s) ->
  parseUnsignedInt m (sg ++ s) b = u_result v.
Proof.
  intros Hb SG N Hs. pose proof (numeral_pos b s v ltac:(lia) N) as V0.
  destruct (numeral_hd b s v N) as (c & t & -> & Hsp & H45 & H43 & H0).
  assert (CA : 48 <= c < 123) by (destruct N as [_ (ds & F & _)]; inversion F; subst; eapply digit_ascii; eauto).
  pose proof (zlen_nonneg t). unfold parseUnsignedInt.
  destruct SG as [-> | ->]; cbn [app] in *.
  - rewrite zlen_cons. replace (zlen t + 1 =? 0) with false by lia. replace ((32 <? b) || (b <? 2)) with false by lia.
    rewrite charAt_hd by auto. cbn [bind]. destruct ((c =? 48) && (zlen t + 1 =? 1)) eqn:Z.
    + assert (c = 48 /\ zlen t = 0) as [-> Ht] by lia. apply zlen_0 in Ht. subst t.
      assert (v = 0) by (eapply numeral_fun; [exact N | apply canonical_zero; lia]). subst v. reflexivity.
    + rewrite ctype_ascii by lia. cbn [bind]. destruct (Z.eqb_spec c 45); [lia|]. destruct (Z.eqb_spec c 43); [lia|].
      rewrite !andb_false_r. cbn [bind]. now apply u_result_ok.
  - rewrite zlen_cons. rewrite zlen_cons. replace (zlen t + 1 + 1 =? 0) with false by lia. replace ((32 <? b) || (b <? 2)) with false by lia.
    rewrite charAt_hd by auto. cbn [bind]. change (43 =? 48) with false. cbn [andb]. rewrite ctype_ascii by lia. cbn [bind].
    change (negb (is_digit_c 43)) with true. change (43 =? 45) with false. change (43 =? 43) with true. cbn [andb].
    rewrite getStringFromIndex_in; [|auto|rewrite !zlen_cons; lia]. cbn [bind]. change (skipn (Z.to_nat 1) (43 :: c :: t)) with (c :: t).
    now apply u_result_ok.
Qed.
Lemma parseUnsigned_minus m b t : small (45 :: t) -> parseUnsignedInt m (45 :: t) b = Throw NumberFormatException.
Proof.
  intros S. unfold parseUnsignedInt. rewrite zlen_cons. pose proof (zlen_nonneg t). replace (zlen t + 1 =? 0) with false by lia.
  destruct ((32 <? b) || (b <? 2)); [reflexivity|]. rewrite charAt_hd by auto. cbn [bind]. change (45 =? 48) with false. cbn [andb].
  rewrite ctype_ascii by lia. reflexivity.
Qed.
Lemma parseUnsigned_total s b : small s ->
  (exists v, parseUnsignedInt HW s b = Ok v /\ is_int v) \/ parseUnsignedInt HW s b = Throw NumberFormatException \/
  (s = [43] /\ parseUnsignedInt HW s b = Throw StringIndexOutOfBoundsException).
Proof.
  intros Hs. destruct s as [|c t]; [right; left; reflexivity|].
  unfold parseUnsignedInt. rewrite zlen_cons. pose proof (zlen_nonneg t).
  replace (zlen t + 1 =? 0) with false by lia.
  destruct ((32 <? b) || (b <? 2)) eqn:Hb; auto.
  rewrite charAt_hd by auto. cbn [bind].
  destruct ((c =? 48) && (zlen t + 1 =? 1)).
  { left. exists 0. split; auto. unfold is_int, int_min, int_max. lia. }
  cbn [ctype bind]. destruct (negb (is_digit_c c) && (c =? 45)); auto.
  assert (K : forall s', let o := (let* u := catch_stoul (stoul b (cstr s')) in
      if (0xffffffff <? wrap 64 u) || (wrap 64 u <? 0) then Throw NumberFormatException else Ok (to_int (wrap 64 u))) in
    (exists v, o = Ok v /\ is_int v) \/ o = Throw NumberFormatException).
  { intros s'. cbv zeta. destruct (stoul_outcome b (cstr s')) as [(u & -> & U)|[-> | ->]]; cbn [catch_stoul bind]; auto.
    destruct ((4294967295 <? wrap 64 u) || (wrap 64 u <? 0)); auto. left. eexists. split; [reflexivity|]. apply (proj2 (is_int_s _)). apply wrap_range. lia. }
  destruct (Z.eqb_spec c 43) as [-> |N].
  - change (negb (is_digit_c 43) && true) with true. cbn iota. destruct t as [|d t]; [right; right; split; reflexivity|].
    rewrite getStringFromIndex_in; [|auto|rewrite !zlen_cons in *; pose proof (zlen_nonneg t); lia]. cbn [bind].
    destruct (K (skipn (Z.to_nat 1) (43 :: d :: t))); auto.
  - rewrite andb_false_r. cbn [bind]. destruct (K (c :: t)); auto.
Qed.

(** ** decode *)
Definition literal (pre : str) (r : Z) (t : str) : Prop :=
  (pre = [] /\ r = 10 /\ hd 0 t <> 48) \/ (pre = [48] /\ r = 8) \/ (pre = [48; 120] /\ r = 16) \/ (pre = [48; 88] /\ r = 16).
Lemma stoul_0x x t w : x = 120 \/ x = 88 -> numeral 16 t w ->
  stoul 16 (48 :: x :: t) = if 2 ^ 64 <=? w then Throw OutOfRange else Ok w.
Proof.
  intros X [NE (ds & F & ->)]. unfold stoul. cbn [skip_ws]. change (is_space_c 48) with false. cbn iota. cbn [strip_sign].
  change (48 =? 45) with false. change (48 =? 43) with false. cbn iota. unfold strip_0x. destruct t as [|d t]; [congruence|].
  assert (H : is_digit 16 d (hd 0 ds)) by (inversion F; subst; assumption).
  destruct H as [H1 H2]. rewrite H1. replace (hd 0 ds <? 16) with true by lia.
  replace ((16 =? 16) && (48 =? 48) && ((x =? 120) || (x =? 88)) && true) with true by (destruct X as [-> | ->]; reflexivity).
  rewrite (take_digits_all 16 (d :: t) ds) by auto. inversion F; subst. reflexivity.
Qed.
Lemma parse_0x x t w : x = 120 \/ x = 88 -> numeral 16 t w -> small (48 :: x :: t) -> is_int w -> parseInt (48 :: x :: t) 16 = Ok w.
Proof.
  intros X N S W. pose proof (zlen_nonneg t). unfold parseInt. rewrite !zlen_cons. replace (zlen t + 1 + 1 =? 0) with false by lia.
  change ((32 <? 16) || (16 <? 2)) with false. cbn iota. rewrite charAt_hd by auto. cbn [bind].
  replace (zlen t + 1 + 1 =? 1) with false by lia. rewrite andb_false_r. change (48 =? 45) with false. cbn iota. cbn [bind].
  rewrite cstr_id.
  2: { constructor; [lia|]. constructor; [lia|]. eapply numeral_nonul; eauto. }
  rewrite (stoul_0x x t w X N). unfold is_int, int_min, int_max in W.
  destruct (Z.leb_spec (2 ^ 64) w); [lia|]. cbn [catch_stoul bind].
  rewrite wrap_id by (try lia; unfold in_s, smin, smax; lia). unfold MAX_VALUE, MIN_VALUE, int_max, int_min.
  replace ((2147483647 <? w) || (w <? -2147483648)) with false by lia. reflexivity.
Qed.
Lemma charAt_1 c d t : small (c :: d :: t) -> charAt (c :: d :: t) 1 = Ok d.
Proof. intros S. apply charAt_znth; [exact S|reflexivity]. Qed.
Lemma digit_value_zero b t w : 2 <= b -> numeral b t w -> numeral b (48 :: t) w.
Proof.
  intros B (NE & ds & F & ->). split; [discriminate|]. exists (0 :: ds). split; [constructor; [split; [reflexivity|lia]|exact F]|].
  rewrite numval_cons. lia.
Qed.
Definition base_of (u : str) : outcome Z :=
  let* d0 := charAt u 0 in
  if d0 =? 48 then let* d1 := charAt u 1 in Ok (if (d1 =? 120) || (d1 =? 88) then 16 else 8) else Ok 10.
Lemma decode_body pre r t w : literal pre r t -> numeral r t w -> small (pre ++ t) -> is_int w ->
  exists base, base_of (pre ++ t) = Ok base /\ parseInt (pre ++ t) base = Ok w.
Proof.
  intros LT N S W. unfold base_of. destruct (numeral_hd r t w N) as (c & u & -> & Hsp & H45 & H43 & H0).
  destruct LT as [(-> & -> & H)|[(-> & ->)|[(-> & ->)|(-> & ->)]]]; cbn [app hd] in *.
  - exists 10. rewrite charAt_hd by auto. cbn [bind]. destruct (Z.eqb_spec c 48); [contradiction|]. split; [reflexivity|].
    apply parse_accepts; auto; [lia|]. now left.
  - exists 8. rewrite charAt_hd by auto. cbn [bind]. rewrite charAt_1 by auto. cbn [bind]. split.
    + destruct N as [_ (ds & F & _)]. inversion F as [|? ? ? ? [D1 D2]]; subst.
      destruct (Z.eqb_spec c 120) as [-> |]; [vm_compute in D1; inversion D1; lia|].
      destruct (Z.eqb_spec c 88) as [-> |]; [vm_compute in D1; inversion D1; lia|]. reflexivity.
    + apply parse_accepts; auto; [lia|]. left. apply digit_value_zero; auto; lia.
  - exists 16. rewrite charAt_hd by auto. cbn [bind]. rewrite charAt_1 by auto. cbn [bind]. split; [reflexivity|]. apply parse_0x; auto.
  - exists 16. rewrite charAt_hd by auto. cbn [bind]. rewrite charAt_1 by auto. cbn [bind]. split; [reflexivity|]. apply parse_0x; auto.
Qed.
Lemma decode_literal m neg pre r t w : literal pre r t -> numeral r t w -> small ((if neg : bool then [45] else []) ++ pre ++ t) -> is_int w ->
  decode m ((if neg then [45] else []) ++ pre ++ t) = Ok (if neg then - w else w).
Proof.
  intros LT N S W. assert (Rb : 2 <= r <= 32) by (destruct LT as [(_ & -> & _)|[(_ & ->)|[(_ & ->)|(_ & ->)]]]; lia).
  pose proof (numeral_pos r t w ltac:(lia) N) as W0.
  assert (S' : small (pre ++ t)) by (destruct neg; [unfold small in *; cbn [app] in S; rewrite zlen_cons in S; lia|exact S]).
  destruct (decode_body pre r t w LT N S' W) as (base & B1 & B2). unfold base_of in B1.
  destruct (numeral_hd r t w N) as (c0 & t0 & E & _ & C45 & _).
  assert (HD : exists c u, pre ++ t = c :: u /\ c <> 45 /\ (c = 48 -> u <> [])).
  { destruct LT as [(-> & -> & H)|[(-> & ->)|[(-> & ->)|(-> & ->)]]]; cbn [app].
    - exists c0, t0. split; [exact E|]. split; [auto|]. intros ->. rewrite E in H. cbn in H. congruence.
    - exists 48, t. rewrite E. repeat split; [lia|discriminate].
    - exists 48, (120 :: t). repeat split; [lia|discriminate].
    - exists 48, (88 :: t). repeat split; [lia|discriminate]. }
  destruct HD as (c & u & EU & NC & NZ). rewrite EU in *. clear E C45. pose proof (zlen_nonneg u).
  unfold decode. destruct neg; cbn [app].
  - rewrite zlen_cons. rewrite zlen_cons. replace (zlen u + 1 + 1 =? 0) with false by lia. rewrite charAt_hd by exact S. cbn [bind].
    change (45 =? 48) with false. change (45 =? 45) with true. cbn [andb]. cbn iota.
    rewrite getStringFromIndex_in; [|exact S|rewrite !zlen_cons; lia]. cbn [bind]. change (skipn (Z.to_nat 1) (45 :: c :: u)) with (c :: u).
    destruct (charAt (c :: u) 0); try discriminate. cbn [bind] in *. destruct (if a =? 48 then _ else _); try discriminate. cbn [bind].
    assert (a0 = base) as -> by congruence. rewrite B2. cbn [bind]. unfold sneg. apply sres_ok. unfold is_int, int_min, int_max in W.
    unfold in_s, smin, smax. change (2 ^ (32 - 1)) with 2147483648. lia.
  - rewrite zlen_cons. replace (zlen u + 1 =? 0) with false by lia. rewrite charAt_hd by exact S'. cbn [bind].
    destruct ((c =? 48) && (zlen u + 1 =? 1)) eqn:Z.
    { exfalso. apply NZ; [lia|]. apply zlen_0. lia. }
    destruct (Z.eqb_spec c 45); [contradiction|]. cbn [bind]. rewrite charAt_hd in B1 by exact S'. rewrite charAt_hd by exact S'. cbn [bind] in *.
    destruct (if c =? 48 then _ else _); try discriminate. cbn [bind].
    assert (a = base) as -> by congruence. rewrite B2. reflexivity.
Qed.
