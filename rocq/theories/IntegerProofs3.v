(** Proofs about Integer: texts and parsing. *)

From Coq Require Import ZArith List Lia Bool.
From Verif Require Import Base Bits CppText TextSpec TextLemmas BitSpec BitLemmas
  StringModel StringSpec StringProofs IntegerModel IntegerProofs IntegerProofs2.
Import ListNotations.
Open Scope Z_scope.

(** ** Binary text is canonical *)

Definition bitds (v : Z) (ps : list Z) : list Z := map (fun i => Z.b2z (Z.testbit v i)) ps.
Lemma bitds_digits v ps : Forall2 (is_digit 2) (bitchars v ps) (bitds v ps).
Proof.
  induction ps as [|p ps IH]; constructor; auto.
  destruct (Z.testbit v p); split; reflexivity.
Qed.
Lemma positions_S n : positions (Z.of_nat (S n)) = positions (Z.of_nat n) ++ [Z.of_nat n].
Proof. unfold positions. rewrite !Nat2Z.id, seq_S, map_app. reflexivity. Qed.
Lemma mod_pow2_S v n : 0 <= n -> v mod 2 ^ (n + 1) = Z.b2z (Z.testbit v n) * 2 ^ n + v mod 2 ^ n.
Proof.
  intros Hn. rewrite Z.pow_add_r by lia. change (2 ^ 1) with 2.
  pose proof (pow2_pos n Hn).
  rewrite Z.rem_mul_r by lia. rewrite Z.testbit_spec' by lia. lia.
Qed.
Lemma bitds_value v n : numval 2 (bitds v (rev (positions (Z.of_nat n)))) = v mod 2 ^ Z.of_nat n.
Proof.
  induction n as [|n IH].
  - rewrite Z.mod_1_r. reflexivity.
  - rewrite positions_S, rev_app_distr. cbn [rev app]. cbn [bitds map]. fold (bitds v (rev (positions (Z.of_nat n)))).
    rewrite numval_cons, IH. rewrite Nat2Z.inj_succ. unfold Z.succ. rewrite mod_pow2_S by lia.
    f_equal. f_equal. f_equal. unfold bitds, positions. rewrite zlen_map, zlen_rev, zlen_map. unfold zlen. rewrite seq_length. lia.
Qed.

Lemma Forall2_skipn {A B} (R : A -> B -> Prop) n : forall l k, Forall2 R l k -> Forall2 R (skipn n l) (skipn n k).
Proof. induction n; intros l k H; auto. destruct H; cbn; auto. Qed.
Lemma Forall_skipn {A} (P : A -> Prop) n : forall l, Forall P l -> Forall P (skipn n l).
Proof. induction n; intros l H; auto. destruct H; cbn; auto. Qed.
Lemma numval_zeros b l : Forall (fun d => d = 0) l -> numval b l = 0.
Proof.
  unfold numval. induction 1 as [|d l -> H IH]; auto. 
Qed.

Lemma toBinaryString_canonical x : is_int x -> exists s, toBinaryString x = Ok s /\
  canonical_unsigned 2 s (unsigned 32 x).
Proof.
  intros Hx. destruct (Z.eq_dec x 0) as [->|E].
  { exists [48]. split; auto. split; [|split].
    - split; [discriminate|]. exists [0]. split; [repeat constructor|reflexivity].
    - repeat constructor.
    - auto. }
  destruct (toBinaryString_ok x Hx E) as (k & Hk & ->). eexists; split; [reflexivity|].
  pose proof Hk as Hk0. destruct Hk0 as (K1 & _).
  apply highest_at_uwrap in Hk; [|lia]. destruct Hk as (_ & K2 & K3).
  rewrite bitset_chars. set (v := uwrap 32 x) in *. set (ps := rev (positions 32)).
  set (n := Z.to_nat (31 - k)).
  assert (Z1 : nth_error (bitchars v ps) n = Some 49).
  { change (bitchars v ps) with (bitset32_to_string v). unfold n. rewrite <- znth_nth by lia.
    rewrite bitset_znth by lia. replace (31 - (31 - k)) with k by lia. rewrite K2. reflexivity. }
  assert (Hd : exists t, skipn n (bitchars v ps) = 49 :: t).
  { clear -Z1. revert Z1. generalize (bitchars v ps). induction n as [|n IH]; intros [|c l] H; try discriminate.
    - inversion H. exists l. reflexivity.
    - cbn [nth_error] in H. destruct (IH l H) as (t & Ht). exists t. exact Ht. }
  split; [split|split].
  - destruct Hd as (t & ->). discriminate.
  - exists (skipn n (bitds v ps)). split; [apply Forall2_skipn, bitds_digits|].
    assert (V : numval 2 (bitds v ps) = v).
    { pose proof (bitds_value v 32) as V. change (Z.of_nat 32) with 32 in V. fold ps in V. rewrite V.
      apply Z.mod_small. apply uwrap_range. lia. }
    rewrite <- (firstn_skipn n (bitds v ps)) in V. rewrite numval_app in V.
    rewrite (numval_zeros 2 (firstn n (bitds v ps))) in V; [change (unsigned 32 x) with v; lia|].
    apply Forall_forall. intros d Hdd. apply in_firstn in Hdd. destruct Hdd as (i & Hi & Ei).
    unfold bitds in Ei. rewrite nth_error_map in Ei.
    assert (Li : (i < 32)%nat) by lia.
    assert (P : nth_error ps i = Some (31 - Z.of_nat i)).
    { clear -Li. unfold ps. do 32 (destruct i as [|i]; [reflexivity|]). lia. }
    rewrite P in Ei. cbn [option_map] in Ei. rewrite K3 in Ei by lia. inversion Ei. reflexivity.
  - apply Forall_skipn. apply Forall_forall. intros c Hc. unfold bitchars in Hc.
    apply in_map_iff in Hc. destruct Hc as (i & <- & _). destruct (Z.testbit v i); reflexivity.
  - destruct Hd as (t & ->). discriminate.
Qed.

Definition supported (r : Z) : Prop := r = 2 \/ r = 8 \/ r = 10 \/ r = 16.

Lemma canonical_zero b : 2 <= b -> canonical_unsigned b [48] 0.
Proof.
  intros Hb. split; [|split; [repeat constructor|auto]].
  split; [discriminate|]. exists [0]. split; [|reflexivity]. constructor; [|constructor]. split; [reflexivity|lia].
Qed.

Lemma toUnsignedString_ok x r : is_int x -> supported r ->
  exists s, toUnsignedString x r = Ok s /\ canonical_unsigned r s (unsigned 32 x).
Proof.
  intros Hx Hr.
  destruct (Z.eq_dec r 2) as [->|N2]; [apply toBinaryString_canonical; auto|].
  unfold toUnsignedString. destruct (Z.eqb_spec x 0) as [->|E].
  - exists [48]. split; auto. apply canonical_zero. destruct Hr as [?|[?|[?|?]]]; lia.
  - replace ((32 <? r) || (r <? 2)) with false by (destruct Hr as [?|[?|[?|?]]]; lia). cbv zeta.
    pose proof (unsigned_bounds x Hx). rewrite toUnsignedLong_uwrap. fold (unsigned 32 x). change (uwrap 32 x) with (unsigned 32 x).
    destruct Hr as [->|[->|[->| ->]]]; [lia| | |]; eexists; (split; [reflexivity|]);
      apply utoa_canonical; lia.
Qed.
Lemma toUnsignedString_unsupported x r : x <> 0 -> 2 <= r <= 32 -> ~ supported r ->
  toUnsignedString x r = Throw UnsupportedOperationException.
Proof.
  intros Hx Hr Hs. unfold supported in Hs. unfold toUnsignedString.
  replace (x =? 0) with false by lia. replace ((32 <? r) || (r <? 2)) with false by lia. cbv zeta.
  replace (r =? 2) with false by lia. replace (r =? 8) with false by lia.
  replace (r =? 16) with false by lia. replace (r =? 10) with false by lia. reflexivity.
Qed.

Lemma toString_ok x r : is_int x -> 2 <= r <= 32 ->
  (x = 0 \/ supported r -> exists s, toString HW x r = Ok s /\ canonical_signed r s x) /\
  (x <> 0 -> ~ supported r -> toString HW x r = Throw UnsupportedOperationException).
Proof.
  intros Hx Hr. unfold toString. split.
  - intros H. destruct (Z.ltb_spec x 0).
    + assert (S : supported r) by (destruct H; [lia|auto]).
      unfold sneg. rewrite sres_HW by lia. cbn [bind].
      destruct (toUnsignedString_ok (wrap 32 (- x)) r) as (s & Es & C); auto.
      { apply (proj2 (is_int_s _)). apply wrap_range; lia. }
      rewrite Es. cbn [bind]. eexists; split; [reflexivity|]. right. exists s, (- x).
      split; auto. split; [lia|]. split; [|lia].
      replace (unsigned 32 (wrap 32 (- x))) with (- x) in C; auto.
      change (unsigned 32 (wrap 32 (- x))) with (uwrap 32 (wrap 32 (- x))). rewrite uwrap_wrap by lia.
      symmetry. apply uwrap_id. unfold is_int, int_min, int_max in Hx. lia.
    + destruct (Z.eq_dec x 0) as [->|Hn].
      * exists [48]. split; auto. left. apply canonical_zero; lia.
      * assert (S : supported r) by (destruct H; [lia|auto]).
        destruct (toUnsignedString_ok x r Hx S) as (s & Es & C). exists s. split; auto. left.
        replace (unsigned 32 x) with x in C; auto. symmetry. apply uwrap_id. unfold is_int, int_min, int_max in Hx. lia.
  - intros Hn Hs. destruct (Z.ltb_spec x 0).
    + unfold sneg. rewrite sres_HW by lia. cbn [bind].
      rewrite toUnsignedString_unsupported; auto.
      intros Z0. assert (uwrap 32 (wrap 32 (- x)) = 0) by (rewrite Z0; reflexivity).
      rewrite uwrap_wrap, uwrap_id in H0; unfold is_int, int_min, int_max in Hx; lia.
    + apply toUnsignedString_unsupported; auto.
Qed.

Lemma toString_iso x r : is_int x ->
  toString ISO x r = if x =? int_min then UB SignedOverflow else toString HW x r.
Proof.
  intros Hx. unfold toString. destruct (Z.ltb_spec x 0).
  - destruct (Z.eqb_spec x int_min) as [->|N]; [reflexivity|].
    unfold sneg. rewrite !sres_ok; auto; apply (proj1 (is_int_s _)); unfold is_int, int_min, int_max in *; lia.
  - replace (x =? int_min) with false by (unfold int_min; lia). reflexivity.
Qed.

(** ** parseInt *)

Lemma charAt_hd c t : small (c :: t) -> charAt (c :: t) 0 = Ok c.
Proof.
  intros H. destruct (charAt_in (c :: t) 0) as (d & Hd & ->); auto.
  - rewrite zlen_cons. pose proof (zlen_nonneg t). lia.
  - cbn in Hd. inversion Hd. reflexivity.
Qed.

Definition to_result (v : Z) : outcome Z :=
  if (- 2 ^ 64 <? v) && (v <? 2 ^ 64) && in_sb 32 (wrap 64 v) then Ok (wrap 64 v)
  else Throw NumberFormatException.

Lemma in_sb_int v : in_sb 32 v = negb ((MAX_VALUE <? v) || (v <? MIN_VALUE)).
Proof. unfold in_sb, smin, smax, MAX_VALUE, MIN_VALUE, int_max, int_min. change (2 ^ (32 - 1)) with 2147483648. lia. Qed.

Lemma parse_numeral b s v : 2 <= b <= 32 -> numeral b s v -> small s -> parseInt s b = to_result v.
Proof.
  intros Hb N Hs. pose proof (numeral_range b s v ltac:(lia) N) as V0.
  destruct (numeral_hd b s v N) as (c & t & -> & Hsp & H45 & H43 & H0).
  unfold parseInt. rewrite zlen_cons. pose proof (zlen_nonneg t).
  replace (zlen t + 1 =? 0) with false by lia.
  replace ((32 <? b) || (b <? 2)) with false by lia. rewrite charAt_hd by auto. cbn [bind].
  destruct ((c =? 48) && (zlen t + 1 =? 1)) eqn:Z.
  - assert (c = 48 /\ zlen t = 0) as [-> Ht] by lia. apply zlen_0 in Ht. subst t.
    assert (v = 0) by (eapply numeral_fun; [exact N | apply canonical_zero; lia]). subst v. reflexivity.
  - replace (c =? 45) with false by lia. cbn [bind].
    rewrite cstr_id by (eapply numeral_nonul; eauto). rewrite (stoul_numeral b _ v) by auto.
    unfold to_result. replace (- 2 ^ 64 <? v) with true by lia. rewrite in_sb_int.
    destruct (Z.leb_spec (2 ^ 64) v).
    + replace (v <? 2 ^ 64) with false by lia. reflexivity.
    + replace (v <? 2 ^ 64) with true by lia. cbn [catch_stoul bind andb].
      destruct ((MAX_VALUE <? wrap 64 v) || (wrap 64 v <? MIN_VALUE)); reflexivity.
Qed.

Lemma parse_negative b t v : 2 <= b <= 32 -> numeral b t v -> small (45 :: t) -> parseInt (45 :: t) b = to_result (- v).
Proof.
  intros Hb N Hs. pose proof (numeral_range b t v ltac:(lia) N) as V0.
  pose proof (zlen_nonneg t).
  assert (T : 0 < zlen t). { destruct N as [N _]. destruct t; [congruence|]. rewrite zlen_cons. pose proof (zlen_nonneg t). lia. }
  unfold parseInt. rewrite zlen_cons. 
  replace (zlen t + 1 =? 0) with false by lia.
  replace ((32 <? b) || (b <? 2)) with false by lia. rewrite charAt_hd by auto. cbn [bind].
  change (45 =? 48) with false. change (45 =? 45) with true. cbn [andb].
  rewrite getStringFromIndex_in; [|auto|rewrite zlen_cons; lia]. cbn [bind].
  change (skipn (Z.to_nat 1) (45 :: t)) with t.
  rewrite cstr_id by (eapply numeral_nonul; eauto). rewrite (stoul_numeral b _ v) by auto.
  unfold to_result. replace (- v <? 2 ^ 64) with true by lia. rewrite in_sb_int.
  destruct (Z.leb_spec (2 ^ 64) v).
  - replace (- 2 ^ 64 <? - v) with false by lia. reflexivity.
  - replace (- 2 ^ 64 <? - v) with true by lia. cbn [catch_stoul bind andb].
    rewrite wrap_uwrap by lia.
    destruct ((MAX_VALUE <? wrap 64 (- v)) || (wrap 64 (- v) <? MIN_VALUE)); reflexivity.
Qed.

Lemma parse_signed b s v : 2 <= b <= 32 -> signed_numeral b s v -> small s -> parseInt s b = to_result v.
Proof.
  intros Hb [N|(t & w & -> & N & ->)] Hs; [apply parse_numeral|apply parse_negative]; auto.
Qed.

Lemma to_result_in v : is_int v -> to_result v = Ok v.
Proof.
  intros H. unfold to_result. assert (wrap 64 v = v) as ->.
  { apply wrap_id; [lia|]. apply (proj1 (is_long_s _)). unfold is_int, is_long, int_min, int_max, long_min, long_max in *. lia. }
  apply (proj1 (is_int_s _)) in H. pose proof H as H'. apply in_s_b in H'. rewrite H'.
  replace (- 2 ^ 64 <? v) with true. replace (v <? 2 ^ 64) with true. reflexivity.
  all: symmetry; apply Z.ltb_lt; destruct H as [H1 H2]; unfold smin, smax in *; simpl in *; lia.
Qed.
(** Rejected: magnitude up to 2^63 and not an int. *)
Lemma to_result_out v : ~ is_int v -> is_long v -> to_result v = Throw NumberFormatException.
Proof.
  intros H L. unfold to_result. rewrite wrap_id; [|lia|apply (proj1 (is_long_s _)); auto].
  destruct (in_sb 32 v) eqn:E; [|rewrite andb_false_r; reflexivity].
  exfalso. apply H. apply in_s_b in E. apply (proj2 (is_int_s _)) in E. auto.
Qed.

Lemma parse_accepts b s v : 2 <= b <= 32 -> signed_numeral b s v -> small s -> is_int v -> parseInt s b = Ok v.
Proof. intros. rewrite (parse_signed b s v) by auto. apply to_result_in; auto. Qed.
Lemma parse_rejects_range b s v : 2 <= b <= 32 -> signed_numeral b s v -> small s -> ~ is_int v ->
  is_long v \/ v <= - 2 ^ 64 \/ 2 ^ 64 <= v -> parseInt s b = Throw NumberFormatException.
Proof.
  intros Hb N S I [L|L]; rewrite (parse_signed b s v) by auto.
  - apply to_result_out; auto.
  - unfold to_result. replace ((- 2 ^ 64 <? v) && (v <? 2 ^ 64)) with false by lia. reflexivity.
Qed.

Lemma canonical_signed_numeral b s v : canonical_signed b s v -> signed_numeral b s v.
Proof.
  intros [(N & _)|(t & w & -> & H & (N & _) & ->)]; [left|right]; eauto 6.
Qed.

Lemma numeral_len2 b s v : 2 <= b -> canonical_unsigned b s v -> v < 2 ^ 32 -> zlen s <= 32.
Proof.
  intros Hb ((N & ds & F & ->) & _ & C) Hv.
  assert (Ld : length s = length ds) by (clear -F; induction F; cbn [length]; auto).
  assert (D : Forall (fun d => 0 <= d < b) ds).
  { clear -F. induction F as [|c d s ds [Hc Hd] F IH]; constructor; auto.
    apply digit_val_range in Hc. lia. }
  destruct F as [|c d s ds Hc F]; [congruence|].
  destruct (Z.eq_dec d 0) as [->|Nd].
  - assert (c = 48).
    { destruct Hc as [Hc _]. unfold digit_val, is_digit_c, is_lower_c, is_upper_c in Hc.
      destruct ((48 <=? c) && (c <=? 57)) eqn:E1; [inversion Hc; lia|].
      destruct ((97 <=? c) && (c <=? 122)) eqn:E2; [inversion Hc; lia|].
      destruct ((65 <=? c) && (c <=? 90)) eqn:E3; [inversion Hc; lia|discriminate]. }
    subst c. cbn [hd] in C. rewrite C by auto. vm_compute; discriminate.
  - rewrite numval_cons in Hv. inversion D as [|? ? Hd Hds]; subst.
    pose proof (numval_bound b ds ltac:(lia) Hds) as B.
    assert (2 ^ zlen ds <= b ^ zlen ds) by (apply Z.pow_le_mono_l; lia).
    assert (2 ^ zlen ds < 2 ^ 32) by nia.
    apply Z.pow_lt_mono_r_iff in H0; [|lia|lia].
    unfold zlen in *. rewrite Ld. cbn [length]. lia.
Qed.
Lemma canonical_small b s x : 2 <= b -> is_int x -> canonical_signed b s x -> small s.
Proof.
  intros Hb Hx. unfold is_int, int_min, int_max in Hx. unfold small, int_max.
  intros [C|(t & w & -> & P & C & ->)].
  - apply numeral_len2 in C; lia.
  - apply numeral_len2 in C; try lia. rewrite zlen_cons. lia.
Qed.

Lemma toString_parse x r s : is_int x -> 2 <= r <= 32 -> toString HW x r = Ok s ->
  canonical_signed r s x /\ parseInt s r = Ok x.
Proof.
  intros Hx Hr E. destruct (toString_ok x r Hx Hr) as [A B].
  assert (C : canonical_signed r s x).
  { destruct (Z.eq_dec x 0) as [X0|X0].
    - destruct A as (s' & E' & C); auto. congruence.
    - assert (Sd : supported r \/ ~ supported r).
      { unfold supported. destruct (Z.eq_dec r 2), (Z.eq_dec r 8), (Z.eq_dec r 10), (Z.eq_dec r 16); tauto. }
      destruct Sd as [Sr|Sr]; [destruct A as (s' & E' & C); auto; congruence|].
      rewrite B in E by auto. discriminate. }
  split; auto. apply parse_accepts; auto.
  - apply canonical_signed_numeral; auto.
  - eapply canonical_small; eauto. lia.
Qed.

(** Totality. *)
Lemma stoul_outcome b s : (exists u, stoul b s = Ok u /\ 0 <= u < 2 ^ 64) \/ stoul b s = Throw InvalidArgument
  \/ stoul b s = Throw OutOfRange.
Proof.
  unfold stoul. destruct (strip_sign (skip_ws s)) as [neg s1].
  pose proof (take_digits b (strip_0x b s1)) as ds0.
  destruct (take_digits b (strip_0x b s1)) as [|d ds] eqn:E; auto.
  set (v := numval b (d :: ds)). destruct (Z.leb_spec (2 ^ 64) v); auto.
  left. eexists; split; [reflexivity|]. destruct neg; [apply uwrap_range; lia|].
  split; auto. clear H. revert v. rewrite <- E. clear E d ds ds0.
  assert (F : forall t, Forall (fun d => 0 <= d) (take_digits b t) /\ (take_digits b t <> [] -> 0 <= b)).
  { induction t as [|c t [IH1 IH2]]; cbn [take_digits]; [split; [constructor|congruence]|].
    destruct (digit_val c) eqn:D; [|split; [constructor|congruence]].
    apply digit_val_range in D.
    destruct (Z.ltb_spec z b); split; try constructor; try lia; auto; congruence. }
  destruct (F (strip_0x b s1)) as [F1 F2].
  destruct (take_digits b (strip_0x b s1)) as [|d ds]; [vm_compute; congruence|].
  specialize (F2 ltac:(congruence)). revert F1. generalize (d :: ds). unfold numval.
  assert (G : forall l a, 0 <= a -> Forall (fun d => 0 <= d) l -> 0 <= fold_left (fun a d => a * b + d) l a).
  { induction l as [|e l IH]; intros a Ha H; auto. inversion H; subst. cbn [fold_left]. apply IH; auto; nia. }
  intros l Hl. apply G; auto; lia.
Qed.

Lemma parseInt_total s b : small s ->
  (exists v, parseInt s b = Ok v /\ is_int v) \/ parseInt s b = Throw NumberFormatException \/
  (s = [45] /\ parseInt s b = Throw StringIndexOutOfBoundsException).
Proof.
  intros Hs. destruct s as [|c t]; [right; left; reflexivity|].
  unfold parseInt. rewrite zlen_cons. pose proof (zlen_nonneg t).
  replace (zlen t + 1 =? 0) with false by lia.
  destruct ((32 <? b) || (b <? 2)) eqn:Hb; auto.
  rewrite charAt_hd by auto. cbn [bind].
  destruct ((c =? 48) && (zlen t + 1 =? 1)).
  { left. exists 0. split; auto. unfold is_int, int_min, int_max. lia. }
  assert (K : forall s' (neg : bool), 
    let o := (let* u := catch_stoul (stoul b (cstr s')) in
      let result := if neg then wrap 64 (uwrap 64 (- u)) else wrap 64 u in
      if (MAX_VALUE <? result) || (result <? MIN_VALUE) then Throw NumberFormatException else Ok result) in
    (exists v, o = Ok v /\ is_int v) \/ o = Throw NumberFormatException).
  { intros s' neg. cbv zeta. destruct (stoul_outcome b (cstr s')) as [(u & -> & U)|[-> | ->]]; cbn [catch_stoul bind]; auto.
    set (result := if neg then _ else _). destruct ((MAX_VALUE <? result) || (result <? MIN_VALUE)) eqn:R; auto.
    left. exists result. split; auto. unfold MAX_VALUE, MIN_VALUE in R. unfold is_int. lia. }
  destruct (Z.eqb_spec c 45) as [->|Nc].
  - destruct (Z.eq_dec (zlen t) 0) as [T0|T0].
    + right; right. apply zlen_0 in T0. subst t. split; auto.
    + rewrite getStringFromIndex_in; [|auto|rewrite zlen_cons; lia]. cbn [bind].
      destruct (K (skipn (Z.to_nat 1) (45 :: t)) true) as [K1|K1]; auto.
  - cbn [bind]. destruct (K (c :: t) false) as [K1|K1]; auto.
Qed.
