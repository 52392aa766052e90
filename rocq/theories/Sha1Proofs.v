(** SHA-1: the model computes the FIPS 180 digest. *)

From Coq Require Import ZArith List Lia Bool Arith.
From Verif Require Import Base Bits CppText TextLemmas Md5Spec Md5Model Md5Proofs Sha1Spec Sha1Model.
Import ListNotations.
Open Scope Z_scope.

Definition word (x : Z) : Prop := 0 <= x < 2 ^ 32.
Lemma word_intro x : 0 <= x -> (forall i, 32 <= i -> Z.testbit x i = false) -> word x.
Proof.
  intros P H. assert (E : x = uwrap 32 x).
  { apply Z.bits_inj'. intros i I. rewrite uwrap_bits by lia. destruct (Z.ltb_spec i 32); [reflexivity|]. rewrite H by lia. reflexivity. }
  rewrite E. apply (uwrap_range 32). lia.
Qed.
Lemma word_xor a b : word a -> word b -> word (Z.lxor a b).
Proof.
  intros A B. apply word_intro; [apply Z.lxor_nonneg; unfold word in *; lia|].
  intros i I. rewrite Z.lxor_spec, !(testbit_above 32) by (assumption || lia). reflexivity.
Qed.
Lemma word_rot x n : word x -> 0 < n < 32 -> word (SHA_ROT x n).
Proof.
  intros X N. unfold SHA_ROT. pose proof (uwrap_range 32 (Z.shiftl x n) ltac:(lia)).
  apply word_intro; [apply Z.lor_nonneg; split; [lia | apply Z.shiftr_nonneg; unfold word in X; lia]|].
  intros i I. rewrite Z.lor_spec, Z.shiftr_spec, !(testbit_above 32) by (assumption || lia). reflexivity.
Qed.
Lemma rot_ok x n : word x -> 0 < n < 32 -> SHA_ROT x n = rotl32 x n.
Proof. exact (rotate32 x n). Qed.
Lemma word_uwrap x : word (uwrap 32 x).
Proof. apply (uwrap_range 32). lia. Qed.

Lemma ch_ok b c d : word b -> word c -> word d -> sha_ch b c d = Z.lxor (Z.land b c) (Z.land (not32 b) d).
Proof.
  intros B C D. unfold sha_ch. rewrite <- lnot32. apply Z.bits_inj'. intros i I.
  rewrite !Z.lxor_spec, !Z.land_spec, !Z.lxor_spec, uwrap_bits, Z.lnot_spec by lia.
  destruct (Z.ltb_spec i 32) as [L|L].
  - destruct (Z.testbit b i), (Z.testbit c i), (Z.testbit d i); reflexivity.
  - rewrite !(testbit_above 32) by (assumption || lia). reflexivity.
Qed.
Lemma maj_ok b c d : sha_maj b c d = Z.lxor (Z.lxor (Z.land b c) (Z.land b d)) (Z.land c d).
Proof.
  unfold sha_maj. apply Z.bits_inj'. intros i I.
  rewrite !Z.lxor_spec, !Z.lor_spec, !Z.land_spec, !Z.lor_spec.
  destruct (Z.testbit b i), (Z.testbit c i), (Z.testbit d i); reflexivity.
Qed.

Definition words5 (q : quint) : Prop := let '(a, b, c, d, e) := q in word a /\ word b /\ word c /\ word d /\ word e.

Lemma round_ok f k w r t : words5 r -> (forall x y z, word x -> word y -> word z -> f x y z = sha_f t x y z) -> k = sha_K t ->
  sha_round f k w r t = sha_step w r t /\ words5 (sha_step w r t).
Proof.
  destruct r as [[[[a b] c] d] e]. intros (A & B & C & D & E) F ->. unfold sha_round, sha_step.
  rewrite !rot_ok, F by (assumption || lia).
  assert (EQ : uwrap 32 (rotl32 a 5 + sha_f t b c d + e + nth t w 0 + sha_K t) =
          add32 (add32 (add32 (add32 (rotl32 a 5) (sha_f t b c d)) e) (sha_K t)) (nth t w 0)).
  { rewrite !add32_assoc. unfold add32, uwrap, W32. change (2 ^ 32) with 4294967296. f_equal. lia. }
  rewrite EQ. split; [reflexivity|]. cbn [words5]. split; [rewrite <- EQ; apply word_uwrap|].
  split; [assumption|]. split; [rewrite <- rot_ok by (assumption || lia); apply (word_rot b 30); (assumption || lia)|]. auto.
Qed.
Lemma rounds_ok f k w ts : forall r, words5 r ->
  (forall t, In t ts -> (forall x y z, word x -> word y -> word z -> f x y z = sha_f t x y z) /\ k = sha_K t) ->
  fold_left (sha_round f k w) ts r = fold_left (sha_step w) ts r /\ words5 (fold_left (sha_step w) ts r).
Proof.
  induction ts as [|t ts IH]; intros r R H; [split; [reflexivity | exact R]|].
  destruct (H t (or_introl eq_refl)) as (F & K). destruct (round_ok f k w r t R F K) as (E & R').
  cbn [fold_left]. rewrite E. apply IH; [exact R'|]. intros u U. apply H. right. exact U.
Qed.

(** The message schedule *)
Lemma firstn_upd {A} (l : list A) n v : (n < length l)%nat -> firstn (S n) (upd l n v) = firstn n l ++ [v].
Proof.
  revert n; induction l as [|a l IH]; intros n L; [cbn in L; lia|].
  destruct n as [|n]; [reflexivity|]. cbn [upd]. rewrite !firstn_cons. cbn [app]. f_equal. apply IH. cbn in L. lia.
Qed.
Lemma nth_firstn' {A} (l : list A) n k d : (k < n)%nat -> nth k (firstn n l) d = nth k l d.
Proof.
  revert n k; induction l as [|a l IH]; intros n k L; [rewrite firstn_nil; reflexivity|].
  destruct n as [|n]; [lia|]. destruct k as [|k]; [reflexivity|]. cbn. apply IH. lia.
Qed.
Lemma nth_word l k : Forall word l -> word (nth k l 0).
Proof.
  intros F. destruct (Nat.lt_ge_cases k (length l)) as [L|L].
  - rewrite Forall_forall in F. apply F. apply nth_In. exact L.
  - rewrite nth_overflow by exact L. unfold word. lia.
Qed.
Lemma expand_inv n : forall w s i, length w = 80%nat -> length s = i -> (16 <= i)%nat -> (i + n <= 80)%nat -> firstn i w = s -> Forall word s ->
  let w' := fold_left (fun w t => upd w t (SHA_ROT (Z.lxor (Z.lxor (Z.lxor (nth (t - 3) w 0) (nth (t - 8) w 0)) (nth (t - 14) w 0)) (nth (t - 16) w 0)) 1)) (seq i n) w in
  let s' := fold_left (fun w t => w ++ [next_word w t]) (seq i n) s in
  length w' = 80%nat /\ firstn (i + n) w' = s' /\ Forall word s'.
Proof.
  induction n as [|n IH]; intros w s i LW LS I16 I80 P F.
  - cbn [seq fold_left]. rewrite Nat.add_0_r. auto.
  - cbn [seq fold_left]. replace (i + S n)%nat with (S i + n)%nat by lia.
    assert (V : SHA_ROT (Z.lxor (Z.lxor (Z.lxor (nth (i - 3) w 0) (nth (i - 8) w 0)) (nth (i - 14) w 0)) (nth (i - 16) w 0)) 1 = next_word s i
       /\ word (next_word s i)).
    { unfold next_word. rewrite <- P, !nth_firstn' by lia.
      assert (X : word (Z.lxor (Z.lxor (Z.lxor (nth (i - 3) w 0) (nth (i - 8) w 0)) (nth (i - 14) w 0)) (nth (i - 16) w 0))).
      { repeat apply word_xor; rewrite <- (nth_firstn' w i) by lia; rewrite P; apply nth_word; exact F. }
      rewrite <- rot_ok by (exact X || lia). split; [reflexivity | apply word_rot; (exact X || lia)]. }
    destruct V as (V & VW). rewrite V. apply IH; try lia.
    + rewrite upd_length. exact LW.
    + rewrite app_length, LS. cbn. lia.
    + rewrite firstn_upd by lia. rewrite P. reflexivity.
    + apply Forall_app. auto.
Qed.

Lemma expand_ok w blk : length w = 80%nat ->
  firstn 16 w = map (fun k => be_word32 blk (Z.of_nat k)) (seq 0 16) -> Forall word (firstn 16 w) ->
  expand w = schedule blk /\ length (expand w) = 80%nat.
Proof.
  intros L P F. destruct (expand_inv 64 w (firstn 16 w) 16 L ltac:(rewrite firstn_length; lia) ltac:(lia) ltac:(lia) eq_refl F) as (A & B & _).
  unfold expand, schedule. rewrite <- P. clear P. cbn zeta in A, B.
  remember (fold_left _ (seq 16 64) w) as w' eqn:W. clear W.
  rewrite <- B. split; [| exact A]. symmetry. apply firstn_all2. lia.
Qed.

Lemma block_ok c blk : length (cW c) = 80%nat -> words5 (cH c) ->
  firstn 16 (cW c) = map (fun k => be_word32 blk (Z.of_nat k)) (seq 0 16) -> Forall word (firstn 16 (cW c)) ->
  let c' := shaHashBlock c in
  cH c' = sha_block (cH c) blk /\ length (cW c') = 80%nat /\ sizeHi c' = sizeHi c /\ sizeLo c' = sizeLo c.
Proof.
  intros L H P F. destruct (expand_ok (cW c) blk L P F) as (E & LE).
  cbn zeta. unfold shaHashBlock. rewrite E in *. unfold sha_block.
  change (seq 0 80) with (seq 0 20 ++ seq 20 20 ++ seq 40 20 ++ seq 60 20). rewrite !fold_left_app.
  set (w := schedule blk) in *.
  assert (R1 : forall r, words5 r -> fold_left (sha_round sha_ch 0x5a827999 w) (seq 0 20) r = fold_left (sha_step w) (seq 0 20) r /\ words5 (fold_left (sha_step w) (seq 0 20) r)).
  { intros r R. apply rounds_ok; [exact R|]. intros t T. apply in_seq in T. unfold sha_f, sha_K.
    destruct (Nat.ltb_spec t 20); [|lia]. split; [exact ch_ok | reflexivity]. }
  assert (R2 : forall r, words5 r -> fold_left (sha_round sha_parity 0x6ed9eba1 w) (seq 20 20) r = fold_left (sha_step w) (seq 20 20) r /\ words5 (fold_left (sha_step w) (seq 20 20) r)).
  { intros r R. apply rounds_ok; [exact R|]. intros t T. apply in_seq in T. unfold sha_f, sha_K.
    destruct (Nat.ltb_spec t 20); [lia|]. destruct (Nat.ltb_spec t 40); [|lia]. split; reflexivity. }
  assert (R3 : forall r, words5 r -> fold_left (sha_round sha_maj 0x8f1bbcdc w) (seq 40 20) r = fold_left (sha_step w) (seq 40 20) r /\ words5 (fold_left (sha_step w) (seq 40 20) r)).
  { intros r R. apply rounds_ok; [exact R|]. intros t T. apply in_seq in T. unfold sha_f, sha_K.
    destruct (Nat.ltb_spec t 20); [lia|]. destruct (Nat.ltb_spec t 40); [lia|]. destruct (Nat.ltb_spec t 60); [|lia].
    split; [intros; apply maj_ok | reflexivity]. }
  assert (R4 : forall r, words5 r -> fold_left (sha_round sha_parity 0xca62c1d6 w) (seq 60 20) r = fold_left (sha_step w) (seq 60 20) r /\ words5 (fold_left (sha_step w) (seq 60 20) r)).
  { intros r R. apply rounds_ok; [exact R|]. intros t T. apply in_seq in T. unfold sha_f, sha_K.
    destruct (Nat.ltb_spec t 20); [lia|]. destruct (Nat.ltb_spec t 40); [lia|]. destruct (Nat.ltb_spec t 60); [lia|]. split; reflexivity. }
  destruct (R1 _ H) as (-> & H1). destruct (R2 _ H1) as (-> & H2). destruct (R3 _ H2) as (-> & H3). destruct (R4 _ H3) as (-> & H4).
  destruct (cH c) as [[[[a b] c0] d] e].
  destruct (fold_left (sha_step w) (seq 60 20) _) as [[[[a' b'] c'] d'] e']. cbn [cH cW sizeHi sizeLo]. repeat split; auto.
Qed.

(** Partial words *)
Definition bev (l : list Z) : Z := fold_left (fun a b => a * 256 + b) l 0.
Lemma bev_snoc l x : bev (l ++ [x]) = bev l * 256 + x.
Proof. unfold bev. rewrite fold_left_app. reflexivity. Qed.
Lemma skipn_snoc {A} n (l : list A) x : (n <= length l)%nat -> skipn n (l ++ [x]) = skipn n l ++ [x].
Proof. intros L. rewrite skipn_app. replace (n - length l)%nat with 0%nat by lia. reflexivity. Qed.

Definition packed (w : list Z) (r : list Z) : Prop :=
  (forall j, (4 * j + 4 <= length r)%nat -> nth j w 0 = bev (firstn 4 (skipn (4 * j) r))) /\
  nth (length r / 4) w 0 mod 2 ^ (8 * (Z.of_nat (length r mod 4))) = bev (skipn (4 * (length r / 4)) r).

Lemma nth_upd {A} (l : list A) n k v d : (n < length l)%nat -> nth k (upd l n v) d = if Nat.eqb k n then v else nth k l d.
Proof.
  revert n k; induction l as [|a l IH]; intros n k L; [cbn in L; lia|].
  destruct n as [|n], k as [|k]; cbn [upd nth Nat.eqb]; try reflexivity. apply IH. cbn in L. lia.
Qed.

Lemma push_val v x k t : (k < 4)%nat -> byte_ok x -> v mod 2 ^ (8 * Z.of_nat k) = t ->
  (Z.lor (uwrap 32 (Z.shiftl v 8)) x) mod 2 ^ (8 * Z.of_nat (S k)) = t * 256 + x /\ word (Z.lor (uwrap 32 (Z.shiftl v 8)) x).
Proof.
  intros K X T. unfold byte_ok in X.
  assert (E : Z.lor (uwrap 32 (Z.shiftl v 8)) x = (v mod 2 ^ 24) * 256 + x).
  { assert (U : uwrap 32 (Z.shiftl v 8) = Z.shiftl (v mod 2 ^ 24) 8).
    { unfold uwrap. rewrite !Z.shiftl_mul_pow2 by lia. change (2 ^ 32) with (2 ^ 24 * 2 ^ 8). rewrite Z.mul_mod_distr_r by lia. reflexivity. }
    rewrite U, lor_shiftl_add by (cbn; lia). reflexivity. }
  rewrite E. split.
  - subst t. clear E. destruct k as [|[|[|[|k]]]]; [| | | |lia];
    (match goal with |- context [2 ^ (8 * Z.of_nat (S ?n))] => let u := eval vm_compute in (2 ^ (8 * Z.of_nat (S n))) in change (2 ^ (8 * Z.of_nat (S n))) with u;
       let u' := eval vm_compute in (2 ^ (8 * Z.of_nat n)) in change (2 ^ (8 * Z.of_nat n)) with u' end);
    change (2 ^ 24) with 16777216; Z.to_euclidean_division_equations; lia.
  - unfold word. change (2 ^ 24) with 16777216. change (2 ^ 32) with 4294967296. Z.to_euclidean_division_equations; lia.
Qed.

Lemma packed_push w r x v : length w = 80%nat -> (length r < 64)%nat -> byte_ok x -> packed w r -> nth (length r / 4) w 0 = v ->
  packed (upd w (length r / 4) (Z.lor (uwrap 32 (Z.shiftl v 8)) x)) (r ++ [x]).
Proof.
  intros LW LR X (P1 & P2) V. set (n := length r) in *. set (q := (n / 4)%nat) in *.
  pose proof (Nat.div_mod n 4 ltac:(lia)) as DM. fold q in DM. pose proof (Nat.mod_upper_bound n 4 ltac:(lia)) as MB.
  set (k := (n mod 4)%nat) in *.
  assert (Q16 : (q < 80)%nat) by lia.
  rewrite V in P2. destruct (push_val v x k (bev (skipn (4 * q) r)) MB X P2) as (V1 & VW).
  set (v' := Z.lor (uwrap 32 (Z.shiftl v 8)) x) in *.
  assert (LN : length (r ++ [x]) = S n) by (rewrite app_length; cbn; lia).
  unfold packed. rewrite LN. split.
  - intros j J. rewrite nth_upd by lia. destruct (Nat.eqb_spec j q) as [->|NE].
    + assert (K3 : k = 3%nat) by lia. rewrite K3 in V1.
      rewrite skipn_snoc by (fold n; lia).
      assert (L4 : length (skipn (4 * q) r ++ [x]) = 4%nat) by (rewrite app_length, skipn_length; cbn [length]; fold n; lia).
      rewrite firstn_all2 by lia. rewrite bev_snoc, <- V1. symmetry. apply Z.mod_small. exact VW.
    + assert (J2 : (4 * j + 4 <= n)%nat) by lia. rewrite (P1 j J2).
      rewrite skipn_snoc by (fold n; lia). rewrite firstn_app.
      replace (4 - length (skipn (4 * j) r))%nat with 0%nat by (rewrite skipn_length; fold n; lia).
      rewrite firstn_O, app_nil_r. reflexivity.
  - destruct (Nat.eq_dec k 3) as [K3|K3].
    + assert (S n = 4 * (q + 1))%nat by lia.
      assert (M0 : (S n mod 4 = 0)%nat) by (rewrite H; rewrite Nat.mul_comm; apply Nat.mod_mul; lia).
      assert (D0 : (S n / 4 = q + 1)%nat) by (rewrite H; rewrite Nat.mul_comm; apply Nat.div_mul; lia).
      rewrite M0, D0. rewrite skipn_all2 by (rewrite LN; lia). cbn [Z.of_nat Z.mul]. rewrite Z.mod_1_r. reflexivity.
    + assert (D0 : (S n / 4 = q)%nat) by (symmetry; apply (Nat.div_unique _ _ _ (S k)); lia).
      assert (M0 : (S n mod 4 = S k)%nat) by (symmetry; apply (Nat.mod_unique _ _ q); lia).
      rewrite D0, M0, nth_upd, Nat.eqb_refl, skipn_snoc, bev_snoc by (fold n; lia). exact V1.
Qed.

Lemma packed_full w r : length w = 80%nat -> length r = 64%nat -> Forall byte_ok r -> packed w r ->
  firstn 16 w = map (fun k => be_word32 r (Z.of_nat k)) (seq 0 16) /\ Forall word (firstn 16 w).
Proof.
  intros LW LR F (P & _).
  assert (E : firstn 16 w = map (fun k => be_word32 r (Z.of_nat k)) (seq 0 16)).
  { apply (nth_ext _ _ 0 0).
    - rewrite firstn_length, map_length, seq_length. lia.
    - intros j J. rewrite firstn_length in J. rewrite nth_firstn' by lia.
      rewrite (nth_indep (map _ _) 0 (be_word32 r (Z.of_nat 0))) by (rewrite map_length, seq_length; lia).
      rewrite (map_nth (fun k => be_word32 r (Z.of_nat k)) (seq 0 16) 0%nat j), seq_nth by lia. cbn [Nat.add].
      rewrite P by lia. unfold be_word32, byte_at.
      replace (Z.to_nat (4 * Z.of_nat j)) with (4 * j)%nat by lia.
      replace (Z.to_nat (4 * Z.of_nat j + 1)) with (4 * j + 1)%nat by lia.
      replace (Z.to_nat (4 * Z.of_nat j + 2)) with (4 * j + 2)%nat by lia.
      replace (Z.to_nat (4 * Z.of_nat j + 3)) with (4 * j + 3)%nat by lia.
      rewrite <- (Nat.add_0_r (4 * j)) at 2.
      assert (NS : forall i, nth (4 * j + i) r 0 = nth i (skipn (4 * j) r) 0).
      { intros i. rewrite <- (firstn_skipn (4 * j) r) at 1. rewrite app_nth2; rewrite firstn_length; [f_equal; lia | lia]. }
      rewrite !NS. assert (L4 : (4 <= length (skipn (4 * j) r))%nat) by (rewrite skipn_length; lia).
      destruct (skipn (4 * j) r) as [|a [|b [|c [|d l]]]]; cbn in L4; try lia.
      cbn [firstn nth]. unfold bev. cbn [fold_left]. lia. }
  split; [exact E|]. rewrite E. apply Forall_forall. intros y Y. apply in_map_iff in Y. destruct Y as (k & <- & _).
  assert (B : forall i, byte_ok (byte_at r i)).
  { intros i. unfold byte_at. destruct (Nat.lt_ge_cases (Z.to_nat i) (length r)).
    - rewrite Forall_forall in F. apply F. apply nth_In. assumption.
    - rewrite nth_overflow by assumption. unfold byte_ok. lia. }
  unfold word, be_word32. pose proof (B (4 * Z.of_nat k)). pose proof (B (4 * Z.of_nat k + 1)). pose proof (B (4 * Z.of_nat k + 2)). pose proof (B (4 * Z.of_nat k + 3)).
  unfold byte_ok in *. lia.
Qed.

(** Sequences of blocks *)
Lemma sblocks_app n : forall k h a b, length a = (64 * n)%nat ->
  sha_blocks (n + k) h (a ++ b) = sha_blocks k (sha_blocks n h a) b.
Proof.
  induction n as [|n IH]; intros k h a b L.
  - destruct a; [reflexivity | cbn in L; lia].
  - cbn [sha_blocks Nat.add]. rewrite firstn_app, skipn_app.
    replace (64 - length a)%nat with 0%nat by lia. rewrite firstn_O, skipn_O, app_nil_r. apply IH.
    rewrite skipn_length. lia.
Qed.
Lemma sblocks_pre n : forall h a b, (64 * n <= length a)%nat -> sha_blocks n h (a ++ b) = sha_blocks n h a.
Proof.
  induction n as [|n IH]; intros h a b L; [reflexivity|].
  cbn [sha_blocks]. rewrite firstn_app, skipn_app. replace (64 - length a)%nat with 0%nat by lia.
  rewrite firstn_O, skipn_O, app_nil_r. apply IH. rewrite skipn_length. lia.
Qed.
Lemma sblock_words h l : words5 (sha_block h l).
Proof.
  unfold sha_block. destruct h as [[[[? ?] ?] ?] ?]. destruct (fold_left _ _ _) as [[[[? ?] ?] ?] ?].
  unfold words5, add32, W32. repeat split; apply Z.mod_pos_bound; lia.
Qed.
Lemma sblocks_words n : forall h l, words5 h -> words5 (sha_blocks n h l).
Proof. induction n as [|n IH]; intros h l H; [exact H|]. cbn [sha_blocks]. apply IH. apply sblock_words. Qed.
Lemma sha_iv_words : words5 sha_iv.
Proof. repeat split; try discriminate; reflexivity. Qed.

(** A context that has consumed [msg] *)
Definition sinv (c : sha_ctx) (msg : list Z) : Prop :=
  cH c = sha_blocks (full msg) sha_iv msg /\ length (cW c) = 80%nat /\ lenW c = zlen (rest msg) /\ packed (cW c) (rest msg) /\
  Forall byte_ok msg /\ sizeLo c = (8 * zlen msg) mod 2 ^ 32 /\ sizeHi c = (8 * zlen msg / 2 ^ 32) mod 2 ^ 32.

Lemma sinv_init : sinv SHA1_Init [].
Proof.
  unfold sinv. repeat split; try reflexivity.
  - intros j J. cbn in J. lia.
  - constructor.
Qed.

Lemma size_step n : 0 <= n ->
  ((8 * n) mod 2 ^ 32 + 8) mod 2 ^ 32 = (8 * (n + 1)) mod 2 ^ 32 /\
  ((8 * n / 2 ^ 32) mod 2 ^ 32 + (if ((8 * n) mod 2 ^ 32 + 8) mod 2 ^ 32 <? 8 then 1 else 0)) mod 2 ^ 32 = (8 * (n + 1) / 2 ^ 32) mod 2 ^ 32.
Proof.
  intros N. destruct (count_add n 1 N ltac:(lia)) as (A & B). cbn zeta in A, B.
  change ((8 * 1) mod 2 ^ 32) with 8 in A, B. change (1 / 2 ^ 29) with 0 in B. rewrite Z.add_0_r, Z.mod_mod in B by lia.
  split; [exact A | exact B].
Qed.

Lemma byte_step c msg x : sinv c msg -> byte_ok x -> exists c', sha_byte c x = Ok c' /\ sinv c' (msg ++ [x]).
Proof.
  intros (H & LW & LN & PK & FB & SL & SH) X. unfold sha_byte.
  pose proof (rest_len msg) as RL. pose proof (Nat.mod_upper_bound (length msg) 64 ltac:(lia)) as MB.
  set (r := rest msg) in *. set (n := length r) in *.
  assert (QN : Z.quot (lenW c) 4 = Z.of_nat (n / 4)).
  { rewrite LN. unfold zlen. fold n. rewrite Z.quot_div_nonneg, Nat2Z.inj_div by lia. reflexivity. }
  assert (QL : (n / 4 < 16)%nat) by (apply Nat.div_lt_upper_bound; lia).
  rewrite QN.
  assert (G : raw_get (cW c) (Z.of_nat (n / 4)) = Ok (nth (n / 4) (cW c) 0)).
  { unfold raw_get. rewrite znth_nth, Nat2Z.id by lia. rewrite (nth_error_nth' (cW c) 0) by lia. reflexivity. }
  rewrite G. cbn [bind]. set (v := nth (n / 4) (cW c) 0).
  assert (ST : forall y, raw_set (cW c) (Z.of_nat (n / 4)) y = Ok (upd (cW c) (n / 4) y)).
  { intros y. unfold raw_set, zupd. rewrite ?Nat2Z.id.
    destruct (znth_ex (cW c) (Z.of_nat (n / 4))) as (z & ->); [unfold zlen; lia | reflexivity]. }
  rewrite ST. cbn [bind]. set (w' := upd _ _ _).
  assert (PK' : packed w' (r ++ [x])).
  { unfold w', v. apply packed_push; auto; fold n; lia. }
  assert (LW' : length w' = 80%nat) by (unfold w'; rewrite upd_length; exact LW).
  pose proof (zlen_nonneg msg) as NM. destruct (size_step (zlen msg) NM) as (S1 & S2).
  assert (ZL : zlen (msg ++ [x]) = zlen msg + 1) by (rewrite zlen_app; reflexivity).
  pose proof (rest_split msg) as SP. set (mf := firstn (64 * full msg) msg) in *. fold r in SP.
  assert (LF : length mf = (64 * full msg)%nat).
  { subst mf. rewrite firstn_length. pose proof (Nat.mul_div_le (length msg) 64 ltac:(lia)). unfold full. lia. }
  assert (EM : msg ++ [x] = mf ++ (r ++ [x])) by (rewrite app_assoc, <- SP; reflexivity).
  assert (HF : cH c = sha_blocks (full msg) sha_iv mf).
  { rewrite H. rewrite SP at 2. apply sblocks_pre. lia. }
  assert (LRX : length (r ++ [x]) = S n) by (rewrite app_length; cbn; lia).
  assert (FBX : Forall byte_ok (msg ++ [x])) by (apply Forall_app; auto).
  cbn [sizeHi sizeLo cH cW lenW]. rewrite LN. change (zlen r) with (Z.of_nat n).
  destruct (Nat.eq_dec n 63) as [E|E].
  - rewrite E. change (Z.of_nat 63 + 1) with 64. change (Z.rem 64 64 =? 0) with true. cbn iota.
    assert (FBR : Forall byte_ok (r ++ [x])) by (rewrite EM in FBX; apply Forall_app in FBX; tauto).
    destruct (packed_full w' (r ++ [x]) LW' ltac:(lia) FBR PK') as (PF & WF).
    destruct (block_ok (mkSha (cH c) w' 64 (sizeHi c) (sizeLo c)) (r ++ [x])) as (B1 & B2 & B3 & B4); cbn [cW cH]; auto.
    { rewrite H. apply sblocks_words, sha_iv_words. }
    cbn [cH cW sizeHi sizeLo lenW] in *. rewrite B3, B4, B1, SL, SH. unfold uwrap. rewrite S1, S2 in *.
    eexists. split; [reflexivity|]. unfold sinv. cbn [cH cW sizeHi sizeLo lenW]. rewrite ZL.
    assert (F1 : full (msg ++ [x]) = (full msg + 1)%nat).
    { rewrite EM, (full_mult mf _ _ LF). f_equal. unfold full. rewrite LRX, E. reflexivity. }
    assert (R1 : rest (msg ++ [x]) = []).
    { rewrite EM, (rest_mult mf _ _ LF). unfold rest, full. rewrite LRX, E. apply skipn_all2. rewrite LRX, E. reflexivity. }
    rewrite F1, R1. split; [|split; [rewrite <- SL, <- SH; exact B2|split; [reflexivity|split; [|split; [exact FBX|split; reflexivity]]]]].
    + rewrite EM, sblocks_app by exact LF. cbn [sha_blocks]. rewrite HF. f_equal.
      replace 64%nat with (length (r ++ [x])) by lia. rewrite firstn_all. reflexivity.
    + split; [intros j J; cbn in J; lia|]. cbn [length]. change (2 ^ (8 * Z.of_nat (0 mod 4))) with 1. rewrite Z.mod_1_r. reflexivity.
  - assert (RM : Z.rem (Z.of_nat n + 1) 64 =? 0 = false).
    { apply Z.eqb_neq. rewrite Z.rem_small by lia. lia. }
    rewrite RM. cbn [sizeHi sizeLo cH cW lenW]. rewrite SL, SH. unfold uwrap.
    eexists. split; [reflexivity|]. unfold sinv. cbn [cH cW sizeHi sizeLo lenW]. rewrite ZL.
    assert (F0 : full (r ++ [x]) = 0%nat) by (unfold full; apply Nat.div_small; lia).
    assert (F1 : full (msg ++ [x]) = full msg) by (rewrite EM, (full_mult mf _ _ LF), F0; lia).
    assert (R1 : rest (msg ++ [x]) = r ++ [x]) by (rewrite EM, (rest_mult mf _ _ LF); unfold rest at 1; rewrite F0; reflexivity).
    rewrite F1, R1. split; [|split; [exact LW'|split; [|split; [exact PK'|split; [exact FBX|split; [exact S1|exact S2]]]]]].
    + rewrite EM. rewrite sblocks_pre by lia. exact HF.
    + unfold zlen. rewrite LRX. lia.
Qed.

Theorem update_ok data : forall c msg post, sinv c msg -> Forall byte_ok data ->
  exists c', SHA1_Update c (data ++ post) (zlen data) = Ok c' /\ sinv c' (msg ++ data).
Proof.
  unfold SHA1_Update, zlen. setoid_rewrite Nat2Z.id.
  induction data as [|x data IH]; intros c msg post I F.
  - exists c. rewrite app_nil_r. split; [reflexivity | exact I].
  - inversion F as [|? ? X F']; subst. cbn [app length sha_loop].
    destruct (byte_step c msg x I X) as (c1 & -> & I1). cbn [bind].
    destruct (IH c1 (msg ++ [x]) post I1 F') as (c2 & R & I2). exists c2. split; [exact R|].
    rewrite <- app_assoc in I2. exact I2.
Qed.

Lemma zeroes_ok k : forall fuel c msg, (k < fuel)%nat -> sinv c msg -> Z.of_nat k = (56 - zlen msg) mod 64 ->
  exists c', sha_zeroes fuel c = Ok c' /\ sinv c' (msg ++ repeat 0 k).
Proof.
  induction k as [|k IH]; intros fuel c msg FU I E; (destruct fuel as [|fuel]; [lia|]); cbn [sha_zeroes].
  - pose proof I as (_ & _ & LN & _). rewrite LN. unfold zlen. rewrite rest_len, Nat2Z.inj_mod. fold (zlen msg).
    change (Z.of_nat 64) with 64.
    replace (zlen msg mod 64 =? 56) with true by (symmetry; apply Z.eqb_eq; clear - E; Z.to_euclidean_division_equations; lia).
    exists c. cbn [repeat]. rewrite app_nil_r. auto.
  - pose proof I as (_ & _ & LN & _). rewrite LN. unfold zlen at 1. rewrite rest_len, Nat2Z.inj_mod. fold (zlen msg).
    change (Z.of_nat 64) with 64.
    replace (zlen msg mod 64 =? 56) with false by (symmetry; apply Z.eqb_neq; clear - E; Z.to_euclidean_division_equations; lia).
    destruct (update_ok [0] c msg [] I) as (c1 & R & I1); [constructor; [unfold byte_ok; lia | constructor]|].
    cbn [app] in R. change (zlen [0]) with 1 in R. rewrite R. cbn [bind].
    destruct (IH fuel c1 (msg ++ [0]) ltac:(lia) I1) as (c2 & R2 & I2).
    { rewrite zlen_app. change (zlen [0]) with 1. clear - E. Z.to_euclidean_division_equations; lia. }
    exists c2. split; [exact R2|]. rewrite <- app_assoc in I2. exact I2.
Qed.

Lemma top_bytes_ok x : word x -> top_bytes x = be_bytes 4 x.
Proof.
  intros X. unfold top_bytes, be_bytes, le_bytes. cbn [seq map rev app Z.of_nat].
  unfold uwrap. rewrite !Z.shiftl_mul_pow2, !Z.shiftr_div_pow2 by lia. unfold word in X.
  change (Pos.of_succ_nat 0) with 1%positive. change (256 ^ 1) with 256. change (256 ^ 0) with 1.
  change (256 ^ Z.pos (Pos.of_succ_nat 1)) with 65536. change (256 ^ Z.pos (Pos.of_succ_nat 2)) with 16777216.
  change (2 ^ 8) with 256. change (2 ^ 24) with 16777216. change (2 ^ 32) with 4294967296 in *.
  assert (S1 : (x * 256) mod 4294967296 = x mod 16777216 * 256) by (change 4294967296 with (16777216 * 256); apply Z.mul_mod_distr_r; lia).
  assert (S2 : (x mod 16777216 * 256 * 256) mod 4294967296 = x mod 65536 * 65536).
  { clear S1. replace (x mod 16777216 * 256 * 256) with (x mod 16777216 * 65536) by lia. change 4294967296 with (65536 * 65536).
    rewrite Z.mul_mod_distr_r by lia. f_equal. Z.to_euclidean_division_equations; lia. }
  assert (S3 : (x mod 65536 * 65536 * 256) mod 4294967296 = x mod 256 * 16777216).
  { clear S1 S2. replace (x mod 65536 * 65536 * 256) with (x mod 65536 * 16777216) by lia. change 4294967296 with (256 * 16777216).
    rewrite Z.mul_mod_distr_r by lia. f_equal. Z.to_euclidean_division_equations; lia. }
  rewrite S1, S2, S3. clear S1 S2 S3. rewrite Z.div_1_r, Z.div_mul by lia.
  assert (A1 : (x mod 16777216 * 256 / 16777216) mod 256 = (x / 65536) mod 256) by (Z.to_euclidean_division_equations; lia).
  assert (A2 : (x mod 65536 * 65536 / 16777216) mod 256 = (x / 256) mod 256) by (Z.to_euclidean_division_equations; lia).
  rewrite A1, A2, Z.mod_mod by lia. reflexivity.
Qed.
Lemma byte_ok_be n x : Forall byte_ok (be_bytes n x).
Proof.
  apply Forall_forall. intros y Y. unfold be_bytes in Y. apply in_rev in Y. unfold le_bytes in Y.
  apply in_map_iff in Y. destruct Y as (i & <- & _). unfold byte_ok.
  pose proof (Z.mod_pos_bound (x / 256 ^ Z.of_nat i) 256 ltac:(lia)). lia.
Qed.
Lemma padlen_byte x i k : 0 <= x -> (i < 4)%nat -> k = 8 * Z.of_nat i ->
  uwrap 8 (Z.land (Z.shiftr (x mod 2 ^ 32) k) 255) = (x / 256 ^ Z.of_nat i) mod 256.
Proof.
  intros X I ->. rewrite <- byte_word by assumption. change 255 with (2 ^ 8 - 1). rewrite land_ones_mod by lia.
  unfold uwrap. rewrite Z.mod_mod by lia. rewrite (Z.shiftl_mul_pow2 (Z.of_nat i)) by lia. do 2 f_equal. lia.
Qed.

Theorem final_ok c msg : sinv c msg -> SHA1_Final c = Ok (SHA1_Init, sha1 msg).
Proof.
  intros I. pose proof I as (_ & _ & _ & _ & FB & SL & SH). pose proof (zlen_nonneg msg) as NM. unfold SHA1_Final.
  destruct (update_ok [128] c msg [] I) as (c1 & R1 & I1); [constructor; [unfold byte_ok; lia | constructor]|].
  cbn [app] in R1. change (zlen [128]) with 1 in R1. rewrite R1. cbn [bind].
  set (k := Z.to_nat ((55 - zlen msg) mod 64)).
  pose proof (Z.mod_pos_bound (55 - zlen msg) 64 ltac:(lia)) as KB.
  destruct (zeroes_ok k 65 c1 (msg ++ [128])) as (c2 & -> & I2); [unfold k; lia | exact I1 | |].
  { rewrite zlen_app. change (zlen [128]) with 1. unfold k. rewrite Z2Nat.id by lia. f_equal. lia. }
  cbn [bind].
  assert (D : [uwrap 8 (Z.land (Z.shiftr (sizeHi c) 24) 255); uwrap 8 (Z.land (Z.shiftr (sizeHi c) 16) 255);
               uwrap 8 (Z.land (Z.shiftr (sizeHi c) 8) 255); uwrap 8 (Z.land (Z.shiftr (sizeHi c) 0) 255);
               uwrap 8 (Z.land (Z.shiftr (sizeLo c) 24) 255); uwrap 8 (Z.land (Z.shiftr (sizeLo c) 16) 255);
               uwrap 8 (Z.land (Z.shiftr (sizeLo c) 8) 255); uwrap 8 (Z.land (Z.shiftr (sizeLo c) 0) 255)] = be_bytes 8 (8 * zlen msg)).
  { unfold be_bytes. rewrite le_bytes_split by lia. rewrite rev_app_distr. unfold le_bytes. cbn [seq map rev app].
    assert (0 <= 8 * zlen msg / 2 ^ 32) by (apply Z.div_pos; lia).
    rewrite SL, SH. rewrite !(padlen_byte _ 3 24), !(padlen_byte _ 2 16), !(padlen_byte _ 1 8), !(padlen_byte _ 0 0) by lia. reflexivity. }
  rewrite D. destruct (update_ok (be_bytes 8 (8 * zlen msg)) c2 _ [] I2 (byte_ok_be _ _)) as (c3 & R3 & I3).
  rewrite app_nil_r in R3. assert (Z8 : zlen (be_bytes 8 (8 * zlen msg)) = 8) by (unfold zlen, be_bytes, le_bytes; rewrite rev_length, map_length, seq_length; reflexivity).
  rewrite Z8 in R3. rewrite R3. cbn [bind].
  assert (E : ((msg ++ [128]) ++ repeat 0 k) ++ be_bytes 8 (8 * zlen msg) = sha_pad msg).
  { unfold sha_pad. fold k. rewrite <- !app_assoc. reflexivity. }
  rewrite E in I3. destruct I3 as (H & _). unfold full in H. unfold sha1.
  pose proof (sblocks_words (length (sha_pad msg) / 64) sha_iv (sha_pad msg) sha_iv_words) as W. rewrite H.
  destruct (sha_blocks _ _ _) as [[[[a b] c0] d] e]. destruct W as (? & ? & ? & ? & ?).
  rewrite !top_bytes_ok by assumption. reflexivity.
Qed.
