(** MD5: the model computes the RFC 1321 digest. *)

From Coq Require Import ZArith List Lia Bool Arith.
From Verif Require Import Base Bits TextLemmas CMem Md5Spec Md5Model.
Import ListNotations.
Open Scope Z_scope.

Lemma lnot32 x : uwrap 32 (Z.lnot x) = not32 x.
Proof.
  unfold uwrap, not32, W32, Z.lnot. change (2 ^ 32) with 4294967296.
  rewrite <- (Z.mod_add (Z.pred (- x)) 1 4294967296) by lia. f_equal. lia.
Qed.

Lemma rotate32 x n : 0 <= x < 2 ^ 32 -> 0 < n < 32 -> ROTATE_LEFT x n = rotl32 x n.
Proof.
  intros X N. unfold ROTATE_LEFT, rotl32, W32. change 4294967296 with (2 ^ 32).
  rewrite lor_disjoint_add.
  - unfold uwrap. rewrite Z.shiftl_mul_pow2, Z.shiftr_div_pow2 by lia. reflexivity.
  - apply Z.bits_inj'. intros i I. rewrite Z.land_spec, Z.bits_0, uwrap_bits, Z.shiftr_spec, Z.shiftl_spec by lia.
    destruct (i <? 32) eqn:E; [| reflexivity]. apply Z.ltb_lt in E.
    destruct (Z.lt_ge_cases i n).
    + rewrite (Z.testbit_neg_r x (i - n)) by lia. reflexivity.
    + rewrite (testbit_above 32 x (i + (32 - n))) by lia. cbn. apply andb_false_r.
Qed.

Lemma add32_assoc a b c : add32 (add32 a b) c = add32 a (b + c).
Proof. unfold add32, W32. rewrite Z.add_mod_idemp_l by lia. f_equal. lia. Qed.

(** Register renaming: the step after the one that assigns [r] sees the
    registers one place further. *)
Definition view (r : register) (st : quad) : quad :=
  let '(a, b, c, d) := st in
  match r with RA => (a, b, c, d) | RD => (d, a, b, c) | RC => (c, d, a, b) | RB => (b, c, d, a) end.
Definition next (r : register) : register := match r with RA => RD | RD => RC | RC => RB | RB => RA end.

Definition matches (l : set_line) (i : Z) : Prop :=
  (forall x y z, aux l x y z = md5_aux (i / 16) x y z) /\ sk l = md5_index i /\ ss l = md5_shift i /\
  0 < ss l < 32 /\ sT l = nth (Z.to_nat i) md5_T 0.
Fixpoint good (r : register) (ls : list set_line) (is : list Z) : Prop :=
  match ls, is with
  | [], [] => True
  | l :: ls', i :: is' => target l = r /\ matches l i /\ good (next r) ls' is'
  | _, _ => False
  end.
Fixpoint after (r : register) (ls : list set_line) : register := match ls with [] => r | _ :: l => after (next r) l end.

Lemma step_ok blk r st l i : target l = r -> matches l i ->
  view (next r) (do_set (le_word32 blk) st l) = md5_step blk (view r st) i.
Proof.
  intros R (A & K & Sh & B & T). destruct st as [[[a b] c] d].
  assert (G : forall a b c d,
    uwrap 32 (ROTATE_LEFT (uwrap 32 (a + aux l b c d + le_word32 blk (sk l) + sT l)) (ss l) + b) =
    add32 b (rotl32 (add32 (add32 (add32 a (md5_aux (i / 16) b c d)) (le_word32 blk (md5_index i))) (nth (Z.to_nat i) md5_T 0)) (md5_shift i))).
  { intros. rewrite rotate32 by (try apply (uwrap_range 32); lia). rewrite A, K, Sh, T, !add32_assoc.
    unfold add32, uwrap, W32. change (2 ^ 32) with 4294967296. rewrite (Z.add_comm b0).
    do 4 f_equal. lia. }
  unfold md5_step, do_set, view. rewrite R. destruct r; cbn [next]; rewrite G; reflexivity.
Qed.

Lemma steps_ok blk ls : forall r is st, good r ls is ->
  view (after r ls) (fold_left (do_set (le_word32 blk)) ls st) = fold_left (md5_step blk) is (view r st).
Proof.
  induction ls as [|l ls IH]; intros r is st G; destruct is as [|i is]; try contradiction; [reflexivity|].
  destruct G as (R & M & G). cbn [after fold_left]. rewrite (IH (next r) is) by assumption.
  rewrite (step_ok blk r st l i) by assumption. reflexivity.
Qed.

Lemma lines_good : good RA set_lines (map Z.of_nat (seq 0 64)).
Proof.
  cbn [set_lines good map seq next target].
  repeat match goal with
  | |- _ /\ _ => split
  | |- True => exact I
  | |- _ = _ :> register => reflexivity
  | |- matches _ _ => split; [intros x y z; cbv [aux]; unfold md5_F, md5_G, md5_H, md5_I; rewrite ?lnot32; reflexivity |
                      split; [vm_compute; reflexivity | split; [vm_compute; reflexivity | split; [vm_compute; split; reflexivity | vm_compute; reflexivity]]]]
  end.
Qed.

Definition state_quad (s : md5_state) : quad := (abcd0 s, abcd1 s, abcd2 s, abcd3 s).

Lemma word_of_le blk k : word_of blk k = le_word32 blk k.
Proof. unfold word_of, le_word32, byte_at. rewrite Z.add_0_r. reflexivity. Qed.

Lemma fold_ext {A B} (f g : A -> B -> A) (E : forall a b, f a b = g a b) l : forall a, fold_left f l a = fold_left g l a.
Proof. induction l as [|x l IH]; intros a; cbn; [reflexivity|]. rewrite E. apply IH. Qed.

Lemma do_set_ext X Y (E : forall k, X k = Y k) st l : do_set X st l = do_set Y st l.
Proof. unfold do_set. rewrite E. reflexivity. Qed.

Lemma process_ok s blk : state_quad (md5_process s blk) = md5_block (state_quad s) blk /\
  count0 (md5_process s blk) = count0 s /\ count1 (md5_process s blk) = count1 s /\ mbuf (md5_process s blk) = mbuf s.
Proof.
  pose proof (steps_ok blk set_lines RA (map Z.of_nat (seq 0 64)) (state_quad s) lines_good) as H.
  change (after RA set_lines) with RA in H.
  assert (V : forall q, view RA q = q) by (intros [[[? ?] ?] ?]; reflexivity). rewrite !V in H.
  unfold md5_process.
  change (abcd0 s, abcd1 s, abcd2 s, abcd3 s) with (state_quad s).
  rewrite (fold_ext _ _ (do_set_ext _ _ (word_of_le blk))). unfold md5_block. rewrite H.
  unfold state_quad at 3.
  destruct (fold_left (md5_step blk) (map Z.of_nat (seq 0 64)) (state_quad s)) as [[[a b] c] d].
  cbn [count0 count1 mbuf state_quad abcd0 abcd1 abcd2 abcd3]. repeat split; reflexivity.
Qed.

(** Sequences of blocks *)
Lemma blocks_app n : forall k h a b, length a = (64 * n)%nat ->
  md5_blocks (n + k) h (a ++ b) = md5_blocks k (md5_blocks n h a) b.
Proof.
  induction n as [|n IH]; intros k h a b L.
  - destruct a; [reflexivity | cbn in L; lia].
  - cbn [md5_blocks Nat.add]. rewrite firstn_app, skipn_app.
    replace (64 - length a)%nat with 0%nat by lia. rewrite firstn_O, skipn_O, app_nil_r. apply IH.
    rewrite skipn_length. lia.
Qed.
Lemma blocks_pre n : forall h a b, (64 * n <= length a)%nat -> md5_blocks n h (a ++ b) = md5_blocks n h a.
Proof.
  induction n as [|n IH]; intros h a b L; [reflexivity|].
  cbn [md5_blocks]. rewrite firstn_app, skipn_app. replace (64 - length a)%nat with 0%nat by lia.
  rewrite firstn_O, skipn_O, app_nil_r. apply IH. rewrite skipn_length. lia.
Qed.

Definition full (msg : list Z) : nat := (length msg / 64)%nat.
Definition rest (msg : list Z) : list Z := skipn (64 * full msg) msg.
Lemma rest_len msg : length (rest msg) = (length msg mod 64)%nat.
Proof. unfold rest, full. rewrite skipn_length. pose proof (Nat.div_mod (length msg) 64 ltac:(lia)). lia. Qed.
Lemma rest_split msg : msg = firstn (64 * full msg) msg ++ rest msg.
Proof. symmetry. apply firstn_skipn. Qed.

(** A state that has consumed [msg] *)
Definition hashed (s : md5_state) (msg : list Z) : Prop :=
  state_quad s = md5_blocks (full msg) md5_iv msg /\ length (mbuf s) = 64%nat /\
  exists junk, mbuf s = map Some (rest msg) ++ junk.
Definition counted (s : md5_state) (n : Z) : Prop := count0 s = (8 * n) mod 2 ^ 32 /\ count1 s = (8 * n / 2 ^ 32) mod 2 ^ 32.

Lemma read_mid pre c post : length c = 64%nat -> read_block (pre ++ c ++ post) (zlen pre) = Ok c.
Proof.
  intros L. unfold read_block. pose proof (zlen_nonneg pre). pose proof (zlen_nonneg post).
  assert (Lz : zlen c = 64) by (unfold zlen; rewrite L; reflexivity). rewrite !zlen_app, Lz.
  destruct (Z.leb_spec 0 (zlen pre)); [|lia].
  destruct (Z.leb_spec (zlen pre + 64) (zlen pre + (64 + zlen post))); [|lia]. cbn [andb].
  unfold zlen. rewrite Nat2Z.id, skipn_app, skipn_all, Nat.sub_diag. cbn [app skipn].
  rewrite firstn_app, L, Nat.sub_diag, firstn_O, app_nil_r, <- L, firstn_all. reflexivity.
Qed.
Lemma copy_mid b off pre c post : 0 <= off -> off + zlen c <= zlen b ->
  copy_bytes b off (pre ++ c ++ post) (zlen pre) (zlen c) =
  Ok (firstn (Z.to_nat off) b ++ map Some c ++ skipn (Z.to_nat (off + zlen c)) b).
Proof.
  intros O L. unfold copy_bytes. pose proof (zlen_nonneg pre). pose proof (zlen_nonneg post). pose proof (zlen_nonneg c).
  rewrite !zlen_app.
  destruct (Z.leb_spec 0 (zlen c)); [|lia]. destruct (Z.leb_spec 0 (zlen pre)); [|lia].
  destruct (Z.leb_spec (zlen pre + zlen c) (zlen pre + (zlen c + zlen post))); [|lia].
  destruct (Z.leb_spec 0 off); [|lia]. destruct (Z.leb_spec (off + zlen c) (zlen b)); [|lia]. cbn [andb].
  do 3 f_equal. unfold zlen. rewrite !Nat2Z.id, skipn_app, skipn_all, Nat.sub_diag. cbn [app skipn].
  rewrite firstn_app, firstn_all, Nat.sub_diag. cbn [firstn]. rewrite app_nil_r. reflexivity.
Qed.
Lemma copy_front b off c post : 0 <= off -> off + zlen c <= zlen b ->
  copy_bytes b off (c ++ post) 0 (zlen c) = Ok (firstn (Z.to_nat off) b ++ map Some c ++ skipn (Z.to_nat (off + zlen c)) b).
Proof. exact (copy_mid b off [] c post). Qed.
Lemma all_bytes_map l : all_bytes_of (map Some l) = Ok l.
Proof. induction l as [|x l IH]; cbn; [reflexivity|]. rewrite IH. reflexivity. Qed.

Lemma full_blocks_ok f : forall s pre c post, (length c / 64 < f)%nat ->
  exists s', full_blocks f s (pre ++ c ++ post) (zlen pre) (zlen c) =
    Ok (s', zlen pre + 64 * Z.of_nat (full c), zlen (rest c)) /\
    state_quad s' = md5_blocks (full c) (state_quad s) c /\
    count0 s' = count0 s /\ count1 s' = count1 s /\ mbuf s' = mbuf s.
Proof.
  induction f as [|f IH]; intros s pre c post F; [lia|].
  cbn [full_blocks]. destruct (Z.leb_spec 64 (zlen c)) as [L|L]; unfold zlen in L.
  - pose (c1 := firstn 64 c). pose (c2 := skipn 64 c).
    assert (E : c = c1 ++ c2) by (symmetry; apply firstn_skipn).
    assert (L1 : length c1 = 64%nat) by (subst c1; rewrite firstn_length; lia).
    assert (L2 : length c = (64 + length c2)%nat) by (rewrite E at 1; rewrite app_length; lia).
    assert (FU : full c = S (full c2)).
    { unfold full. rewrite L2. replace (64 + length c2)%nat with (length c2 + 1 * 64)%nat by lia. rewrite Nat.div_add by lia. lia. }
    assert (RE : rest c = rest c2).
    { unfold rest. rewrite FU. rewrite E at 1. rewrite skipn_app, L1, (skipn_all2 c1) by lia.
      cbn [app]. f_equal. lia. }
    rewrite FU, RE. replace (pre ++ c ++ post) with (pre ++ c1 ++ (c2 ++ post)) by (rewrite E, <- app_assoc; reflexivity).
    rewrite read_mid by assumption. cbn [bind].
    destruct (process_ok s c1) as (Q & C0 & C1 & MB).
    replace (pre ++ c1 ++ c2 ++ post) with ((pre ++ c1) ++ c2 ++ post) by (rewrite <- !app_assoc; reflexivity).
    replace (zlen pre + 64) with (zlen (pre ++ c1)) by (rewrite zlen_app; unfold zlen; rewrite L1; lia).
    replace (zlen c - 64) with (zlen c2) by (unfold zlen; rewrite L2; lia).
    destruct (IH (md5_process s c1) (pre ++ c1) c2 post) as (s' & R & Q' & A & B & D).
    { unfold full in FU. lia. }
    exists s'. rewrite R. split; [| split; [| repeat split; congruence]].
    + f_equal. f_equal. f_equal. rewrite zlen_app. unfold zlen. rewrite L1. lia.
    + rewrite Q', Q. cbn [md5_blocks]. reflexivity.
  - assert (FU : full c = 0%nat) by (unfold full; apply Nat.div_small; lia).
    exists s. unfold rest. rewrite FU. cbn [Nat.mul skipn md5_blocks]. repeat split.
    f_equal. f_equal. f_equal. cbn. lia.
Qed.

Lemma full_mult a c n : length a = (64 * n)%nat -> full (a ++ c) = (n + full c)%nat.
Proof. intros L. unfold full. rewrite app_length, L. replace (64 * n + length c)%nat with (length c + n * 64)%nat by lia. rewrite Nat.div_add by lia. lia. Qed.
Lemma rest_mult a c n : length a = (64 * n)%nat -> rest (a ++ c) = rest c.
Proof.
  intros L. unfold rest. rewrite (full_mult a c n L), skipn_app, (skipn_all2 a) by lia. cbn [app]. f_equal. lia.
Qed.

Lemma append_rest_ok s m0 n pre c post : length m0 = (64 * n)%nat ->
  state_quad s = md5_blocks n md5_iv m0 -> length (mbuf s) = 64%nat ->
  exists s', append_rest s (pre ++ c ++ post) (zlen pre) (zlen c) = Ok s' /\ hashed s' (m0 ++ c) /\
    count0 s' = count0 s /\ count1 s' = count1 s.
Proof.
  intros L Q MB. unfold append_rest.
  destruct (full_blocks_ok (S (length (pre ++ c ++ post))) s pre c post) as (s1 & R & Q1 & C0 & C1 & B1).
  { rewrite !app_length. pose proof (Nat.div_le_upper_bound (length c) 64 (length c) ltac:(lia) ltac:(lia)). lia. }
  rewrite R. cbn [bind].
  assert (QQ : state_quad s1 = md5_blocks (full (m0 ++ c)) md5_iv (m0 ++ c)).
  { rewrite (full_mult m0 c n L), blocks_app by exact L. rewrite Q1, Q. reflexivity. }
  pose proof (rest_len c) as RL.
  assert (RB : (length c mod 64 < 64)%nat) by (apply Nat.mod_upper_bound; lia).
  destruct (Z.eqb_spec (zlen (rest c)) 0) as [E|E].
  - exists s1. repeat split; auto; [congruence|]. rewrite (rest_mult m0 c n L).
    unfold zlen in E. destruct (rest c); [|cbn in E; lia]. exists (mbuf s1). reflexivity.
  - pose proof (rest_split c) as SP. set (cf := firstn (64 * full c) c) in *.
    assert (LF : length cf = (64 * full c)%nat).
    { subst cf. rewrite firstn_length. pose proof (Nat.mul_div_le (length c) 64 ltac:(lia)). unfold full. lia. }
    replace (pre ++ c ++ post) with ((pre ++ cf) ++ rest c ++ post) by (rewrite SP at 2; rewrite <- !app_assoc; reflexivity).
    replace (zlen pre + 64 * Z.of_nat (full c)) with (zlen (pre ++ cf)) by (rewrite zlen_app; unfold zlen; rewrite LF; lia).
    rewrite copy_mid; [| lia | unfold zlen; rewrite B1, MB; lia]. cbn [bind].
    eexists. split; [reflexivity|]. cbn [count0 count1 mbuf]. repeat split; try assumption.
    + cbn [mbuf]. rewrite !app_length, map_length, skipn_length, B1, MB. change (Z.to_nat 0) with 0%nat. rewrite firstn_O.
      change (@length (option Z) []) with 0%nat. unfold zlen. lia.
    + rewrite (rest_mult m0 c n L). cbn [mbuf firstn Z.to_nat app]. eexists. reflexivity.
Qed.

Lemma off_val n : 0 <= n -> Z.land (Z.shiftr ((8 * n) mod 2 ^ 32) 3) 63 = n mod 64.
Proof.
  intros N. change 63 with (2 ^ 6 - 1). rewrite land_ones_mod, Z.shiftr_div_pow2 by lia.
  change (2 ^ 32) with 4294967296. change (2 ^ 3) with 8. change (2 ^ 6) with 64. Z.to_euclidean_division_equations. lia.
Qed.

(** What [md5_append] needs of the number of bytes *)
Definition size_ok (m : cpp) (already n : Z) : Prop :=
  match m with ISO => 0 <= n < 2 ^ 29 | HW => 0 <= n /\ already mod 64 + n <= int_max end.

Lemma count_add x y : 0 <= x -> 0 <= y < 2 ^ 31 ->
  let nbits := (8 * y) mod 2 ^ 32 in
  let c0 := ((8 * x) mod 2 ^ 32 + nbits) mod 2 ^ 32 in
  c0 = (8 * (x + y)) mod 2 ^ 32 /\
  (((8 * x / 2 ^ 32) mod 2 ^ 32 + y / 2 ^ 29) mod 2 ^ 32 + (if c0 <? nbits then 1 else 0)) mod 2 ^ 32 = (8 * (x + y) / 2 ^ 32) mod 2 ^ 32.
Proof.
  intros X Y nbits c0. change (2 ^ 32) with 4294967296 in *. change (2 ^ 31) with 2147483648 in *. change (2 ^ 29) with 536870912.
  split.
  - subst c0 nbits. rewrite <- Z.add_mod by lia. f_equal. lia.
  - assert (E : 8 * (x + y) / 4294967296 = 8 * x / 4294967296 + y / 536870912 + (if c0 <? nbits then 1 else 0)).
    { subst c0 nbits. destruct (Z.ltb_spec (((8 * x) mod 4294967296 + (8 * y) mod 4294967296) mod 4294967296) ((8 * y) mod 4294967296)) as [E|E];
      Z.to_euclidean_division_equations; lia. }
    rewrite E, !Z.add_mod_idemp_l by lia. rewrite <- Z.add_assoc, Z.add_mod_idemp_l by lia. f_equal. lia.
Qed.

Theorem append_ok m s msg c post : hashed s msg -> counted s (zlen msg) -> size_ok m (zlen msg) (zlen c) ->
  exists s', md5_append m s (c ++ post) (zlen c) = Ok s' /\ hashed s' (msg ++ c) /\ counted s' (zlen (msg ++ c)).
Proof.
  intros (Q & MB & J) (C0 & C1) SZ. unfold md5_append.
  pose proof (zlen_nonneg msg) as NM. pose proof (zlen_nonneg c) as NC.
  pose proof (Z.mod_pos_bound (zlen msg) 64 ltac:(lia)) as OB.
  assert (B31 : zlen c < 2 ^ 31) by (destruct m; unfold size_ok, int_max in SZ; lia).
  assert (SH : exists sh, sshl m 32 (zlen c) 3 = Ok sh /\ uwrap 32 sh = (8 * zlen c) mod 2 ^ 32).
  { unfold sshl. rewrite Z.shiftl_mul_pow2 by lia. destruct m.
    - replace ((0 <=? 3) && (3 <? 32) && (0 <=? zlen c) && (zlen c * 2 ^ 3 <? 2 ^ 32)) with true
        by (symmetry; cbn in SZ; rewrite !andb_true_iff, Z.ltb_lt, Z.leb_le; repeat split; lia).
      eexists. split; [reflexivity|]. rewrite uwrap_wrap by lia. unfold uwrap. f_equal. lia.
    - change (3 mod 32) with 3. rewrite Z.shiftl_mul_pow2 by lia.
      eexists. split; [reflexivity|]. rewrite uwrap_wrap by lia. unfold uwrap. f_equal. lia. }
  destruct SH as (sh & -> & U). cbn [bind]. rewrite U, C0, C1, off_val by lia. cbn zeta.
  destruct (Z.leb_spec (zlen c) 0) as [E|E].
  { exists s. split; [reflexivity|]. destruct c; [|unfold zlen in E; cbn in E; lia]. rewrite app_nil_r. repeat split; assumption. }
  destruct (count_add (zlen msg) (zlen c) NM ltac:(lia)) as (D0 & D1). cbn zeta in D0, D1.
  set (nbits := (8 * zlen c) mod 2 ^ 32) in *.
  assert (SR : uwrap 32 (Z.shiftr (zlen c) 29) = zlen c / 2 ^ 29).
  { rewrite Z.shiftr_div_pow2 by lia. apply uwrap_id. split; [apply Z.div_pos; lia|]. apply Z.div_lt_upper_bound; lia. }
  rewrite SR. unfold uwrap.
  set (c0 := ((8 * zlen msg) mod 2 ^ 32 + nbits) mod 2 ^ 32) in *.
  match goal with |- context [mkMd5 c0 ?x _ _ _ _ _] => set (c1 := x) end.
  assert (CC1 : c1 = (8 * (zlen msg + zlen c) / 2 ^ 32) mod 2 ^ 32).
  { rewrite <- D1. subst c1. unfold uwrap. destruct (c0 <? nbits); [reflexivity|].
    rewrite Z.add_0_r, Z.mod_mod by lia. reflexivity. }
  assert (OFF : zlen msg mod 64 = zlen (rest msg)).
  { unfold zlen. rewrite rest_len, Nat2Z.inj_mod. reflexivity. }
  assert (SD : forall x, 0 <= x -> x <= int_max -> sadd m 32 (zlen msg mod 64) x = Ok (zlen msg mod 64 + x) \/ int_max < zlen msg mod 64 + x).
  { intros x X1 X2. unfold sadd. destruct (Z.le_gt_cases (zlen msg mod 64 + x) int_max); [left | right; lia].
    apply sres_ok. unfold in_s, smin, smax, int_max in *. lia. }
  assert (SMALL : zlen msg mod 64 + zlen c <= int_max).
  { destruct m; unfold size_ok, int_max in *; lia. }
  destruct J as [junk J]. pose proof (rest_split msg) as SP. set (mf := firstn (64 * full msg) msg) in *.
  assert (LF : length mf = (64 * full msg)%nat).
  { subst mf. rewrite firstn_length. pose proof (Nat.mul_div_le (length msg) 64 ltac:(lia)). unfold full. lia. }
  assert (LM : length msg = (64 * full msg + length (rest msg))%nat) by (rewrite SP at 1; rewrite app_length, LF; reflexivity).
  assert (QF : state_quad s = md5_blocks (full msg) md5_iv mf).
  { rewrite Q. rewrite SP at 2. apply blocks_pre. lia. }
  destruct (Z.eqb_spec (zlen msg mod 64) 0) as [Z0|Z0]; cbn [negb].
  - (* no partial block *)
    assert (RN : rest msg = []) by (rewrite OFF in Z0; unfold zlen in Z0; destruct (rest msg); [reflexivity | cbn in Z0; lia]).
    rewrite RN, app_nil_r in SP.
    destruct (append_rest_ok (mkMd5 c0 c1 (abcd0 s) (abcd1 s) (abcd2 s) (abcd3 s) (mbuf s)) msg (full msg) [] c post)
      as (s' & R & H & K0 & K1).
    { rewrite RN in LM. cbn [length] in LM. lia. }
    { exact Q. } { exact MB. }
    exists s'. split; [exact R|]. split; [exact H|]. unfold counted. rewrite K0, K1, zlen_app. cbn. split; [exact D0 | exact CC1].
  - (* a partial block *)
    destruct (SD (zlen c)) as [-> | ?]; [lia | unfold int_max; lia | | lia]. cbn [bind].
    assert (LR : zlen (rest msg) = zlen msg mod 64) by auto.
    assert (BUF : forall k, (k <= 64 - length (rest msg))%nat ->
      firstn (Z.to_nat (zlen msg mod 64)) (mbuf s) = map Some (rest msg)).
    { intros. rewrite <- LR. unfold zlen. rewrite Nat2Z.id, J, firstn_app, map_length, Nat.sub_diag. cbn [firstn].
      rewrite app_nil_r, <- (map_length Some), firstn_all. reflexivity. }
    specialize (BUF 0%nat ltac:(lia)).
    destruct (Z.ltb_spec 64 (zlen msg mod 64 + zlen c)) as [G|G].
    + (* fill the block and go on *)
      pose (k := (64 - length (rest msg))%nat). pose (d1 := firstn k c). pose (d2 := skipn k c).
      assert (EC : c = d1 ++ d2) by (symmetry; apply firstn_skipn).
      assert (L1 : zlen d1 = 64 - zlen msg mod 64).
      { unfold d1, zlen. rewrite firstn_length. unfold k. unfold zlen in G, LR, OB. lia. }
      assert (L2 : zlen c = zlen d1 + zlen d2) by (rewrite EC at 1; apply zlen_app).
      rewrite <- L1.
      replace (c ++ post) with (d1 ++ (d2 ++ post)) by (rewrite EC, <- app_assoc; reflexivity).
      rewrite copy_front; [| lia | cbn [mbuf]; unfold zlen in *; rewrite MB; lia]. cbn [bind mbuf]. rewrite BUF.
      replace (zlen msg mod 64 + zlen d1) with 64 by lia.
      rewrite (skipn_all2 (mbuf s)) by (rewrite MB; reflexivity). rewrite app_nil_r, <- map_app.
      destruct (SD (zlen d1)) as [-> | ?]; [lia | unfold int_max; lia | | unfold int_max in *; lia]. cbn [bind].
      replace (zlen msg mod 64 + zlen d1) with 64 by lia. cbn [Z.ltb Z.compare Pos.compare Pos.compare_cont].
      rewrite all_bytes_map. cbn [bind].
      match goal with |- context [md5_process ?s0 ?b] => pose (s2 := s0); destruct (process_ok s2 b) as (P & P0 & P1 & PB) end.
      assert (LB : length (rest msg ++ d1) = 64%nat) by (rewrite app_length; unfold zlen in L1, LR; lia).
      destruct (append_rest_ok (md5_process s2 (rest msg ++ d1)) (msg ++ d1) (S (full msg)) d1 d2 post) as (s' & R & H & K0 & K1).
      { rewrite app_length in *. lia. }
      { rewrite P. change (state_quad s2) with (state_quad s). rewrite QF.
        replace (msg ++ d1) with (mf ++ (rest msg ++ d1)) by (rewrite app_assoc, <- SP; reflexivity). replace (S (full msg)) with (full msg + 1)%nat by lia.
        rewrite blocks_app by exact LF. cbn [md5_blocks]. f_equal. rewrite <- LB, firstn_all. reflexivity. }
      { rewrite PB. unfold s2. cbn [mbuf]. rewrite map_length. exact LB. }
      cbn [app]. fold s2. replace (zlen c - zlen d1) with (zlen d2) by lia. rewrite R.
      exists s'. split; [reflexivity|]. rewrite EC at 1. rewrite app_assoc. split; [exact H|].
      unfold counted. rewrite K0, K1, P0, P1, zlen_app. cbn. split; [exact D0 | exact CC1].
    + rewrite copy_front; [| lia | cbn [mbuf]; unfold zlen in *; rewrite MB; lia]. cbn [bind mbuf]. rewrite BUF.
      destruct (SD (zlen c)) as [-> | ?]; [lia | unfold int_max; lia | | lia]. cbn [bind].
      destruct (Z.ltb_spec (zlen msg mod 64 + zlen c) 64) as [G2|G2].
      * eexists. split; [reflexivity|].
        assert (LRC : (length (rest msg ++ c) < 64)%nat) by (rewrite app_length; unfold zlen in *; lia).
        assert (FF : full (msg ++ c) = full msg /\ rest (msg ++ c) = rest msg ++ c).
        { assert (EM : msg ++ c = mf ++ (rest msg ++ c)) by (rewrite app_assoc, <- SP; reflexivity). rewrite EM.
          assert (F0 : full (rest msg ++ c) = 0%nat) by (unfold full; apply Nat.div_small; exact LRC). split.
          - rewrite (full_mult mf _ _ LF), F0. lia.
          - rewrite (rest_mult mf _ _ LF). unfold rest at 1. rewrite F0. reflexivity. }
        destruct FF as (FF & RR). split.
        -- unfold hashed. rewrite FF, RR. cbn [mbuf]. split; [|split].
           ++ change (state_quad s = md5_blocks (full msg) md5_iv (msg ++ c)). rewrite Q. symmetry. apply blocks_pre.
              pose proof (Nat.mul_div_le (length msg) 64 ltac:(lia)). unfold full. lia.
           ++ rewrite !app_length, !map_length, skipn_length, MB. rewrite app_length in LRC. unfold zlen in *. lia.
           ++ rewrite map_app, app_assoc. eexists. reflexivity.
        -- unfold counted. rewrite zlen_app. cbn. split; [exact D0 | exact CC1].
      * assert (E64 : zlen msg mod 64 + zlen c = 64) by lia. rewrite E64.
        rewrite (skipn_all2 (mbuf s)) by (rewrite MB; reflexivity). rewrite app_nil_r, <- map_app, all_bytes_map. cbn [bind].
        match goal with |- context [md5_process ?s0 ?b] => pose (s2 := s0); destruct (process_ok s2 b) as (P & P0 & P1 & PB) end.
        assert (LB : length (rest msg ++ c) = 64%nat) by (rewrite app_length; unfold zlen in *; lia).
        destruct (append_rest_ok (md5_process s2 (rest msg ++ c)) (msg ++ c) (S (full msg)) c [] post) as (s' & R & H & K0 & K1).
        { rewrite app_length in *. lia. }
        { rewrite P. change (state_quad s2) with (state_quad s). rewrite QF.
          replace (msg ++ c) with (mf ++ (rest msg ++ c)) by (rewrite app_assoc, <- SP; reflexivity). replace (S (full msg)) with (full msg + 1)%nat by lia.
          rewrite blocks_app by exact LF. cbn [md5_blocks]. f_equal. rewrite <- LB, firstn_all. reflexivity. }
        { rewrite PB. unfold s2. cbn [mbuf]. rewrite map_length. exact LB. }
        cbn [app]. fold s2. replace (zlen c - zlen c) with (zlen (@nil Z)) by (unfold zlen; cbn; lia). cbn [app] in R. rewrite R.
        exists s'. split; [reflexivity|]. rewrite app_nil_r in H. split; [exact H|].
        unfold counted. rewrite K0, K1, P0, P1, zlen_app. cbn. split; [exact D0 | exact CC1].
Qed.

Lemma init_ok b : length b = 64%nat -> hashed (md5_init b) [] /\ counted (md5_init b) 0.
Proof.
  intros L. split; [| split; reflexivity]. unfold hashed. split; [reflexivity|]. split; [exact L|]. exists b. reflexivity.
Qed.

Lemma byte_word x i : 0 <= x -> (i < 4)%nat -> uwrap 8 (Z.shiftr (x mod 2 ^ 32) (Z.shiftl (Z.of_nat i) 3)) = (x / 256 ^ Z.of_nat i) mod 256.
Proof.
  intros X I. unfold uwrap. change (2 ^ 8) with 256.
  destruct i as [|[|[|[|i]]]]; [| | | | lia];
  (match goal with |- context [Z.shiftl ?a 3] => let v := eval vm_compute in (Z.shiftl a 3) in change (Z.shiftl a 3) with v end);
  rewrite Z.shiftr_div_pow2 by lia;
  (match goal with |- context [256 ^ ?a] => let v := eval vm_compute in (256 ^ a) in change (256 ^ a) with v end);
  (match goal with |- context [?y / 2 ^ ?a] => let v := eval vm_compute in (2 ^ a) in change (2 ^ a) with v end);
  change (2 ^ 32) with 4294967296; Z.to_euclidean_division_equations; lia.
Qed.
Lemma bytes_of_word_le x : 0 <= x -> bytes_of_word (x mod 2 ^ 32) = le_bytes 4 x.
Proof.
  intros X. unfold bytes_of_word, le_bytes. apply map_ext_in. intros i I. apply in_seq in I. apply byte_word; lia.
Qed.
Lemma bytes_of_word_le32 x : 0 <= x < 2 ^ 32 -> bytes_of_word x = le_bytes 4 x.
Proof. intros X. rewrite <- bytes_of_word_le by lia. rewrite Z.mod_small by lia. reflexivity. Qed.
Lemma le_bytes_split x : 0 <= x -> le_bytes 8 x = le_bytes 4 x ++ le_bytes 4 (x / 2 ^ 32).
Proof.
  intros X. unfold le_bytes. cbn [seq map app].
  assert (E : forall i, (x / 256 ^ Z.of_nat (4 + i)) mod 256 = (x / 2 ^ 32 / 256 ^ Z.of_nat i) mod 256).
  { intros i. rewrite Z.div_div by (try apply Z.pow_nonzero; try apply Z.pow_pos_nonneg; lia).
    do 2 f_equal. change (2 ^ 32) with (256 ^ 4). rewrite <- Z.pow_add_r by lia. f_equal. lia. }
  rewrite <- !E. reflexivity.
Qed.

Lemma quad_range n : forall h l, (forall a b c d, h = (a, b, c, d) -> 0 <= a < 2 ^ 32 /\ 0 <= b < 2 ^ 32 /\ 0 <= c < 2 ^ 32 /\ 0 <= d < 2 ^ 32) ->
  forall a b c d, md5_blocks n h l = (a, b, c, d) -> 0 <= a < 2 ^ 32 /\ 0 <= b < 2 ^ 32 /\ 0 <= c < 2 ^ 32 /\ 0 <= d < 2 ^ 32.
Proof.
  induction n as [|n IH]; intros h l H a b c d E; [exact (H _ _ _ _ E)|].
  cbn [md5_blocks] in E. apply (IH _ _) in E; [exact E|]. clear - H.
  intros a b c d E. unfold md5_block in E. destruct h as [[[a0 b0] c0] d0].
  destruct (fold_left _ _ _) as [[[a1 b1] c1] d1]. injection E as <- <- <- <-. unfold add32, W32.
  repeat split; apply Z.mod_pos_bound; lia.
Qed.
Lemma iv_range a b c d : md5_iv = (a, b, c, d) -> 0 <= a < 2 ^ 32 /\ 0 <= b < 2 ^ 32 /\ 0 <= c < 2 ^ 32 /\ 0 <= d < 2 ^ 32.
Proof. unfold md5_iv. intros E. injection E as <- <- <- <-. lia. Qed.

Definition md5_output (s : md5_state) : list Z :=
  bytes_of_word (abcd0 s) ++ bytes_of_word (abcd1 s) ++ bytes_of_word (abcd2 s) ++ bytes_of_word (abcd3 s).

Lemma pad_split k : (k <= 63)%nat -> md5_pad_bytes = ([128] ++ repeat 0 k) ++ repeat 0 (63 - k).
Proof. intros K. unfold md5_pad_bytes. cbn [app]. f_equal. rewrite <- repeat_app. f_equal. lia. Qed.

Lemma zlen_le_bytes n x : zlen (le_bytes n x) = Z.of_nat n.
Proof. unfold zlen, le_bytes. rewrite map_length, seq_length. reflexivity. Qed.

Theorem finish_ok m s msg : hashed s msg -> counted s (zlen msg) ->
  exists s', md5_finish m s = Ok (s', md5 msg) /\ hashed s' (md5_pad msg) /\ counted s' (zlen (md5_pad msg)).
Proof.
  intros H C. pose proof C as (C0 & C1). pose proof (zlen_nonneg msg) as N. unfold md5_finish.
  set (k := Z.to_nat ((55 - zlen msg) mod 64)).
  assert (K : (k <= 63)%nat) by (unfold k; pose proof (Z.mod_pos_bound (55 - zlen msg) 64 ltac:(lia)); lia).
  assert (KZ : Z.of_nat k = (55 - zlen msg) mod 64) by (unfold k; pose proof (Z.mod_pos_bound (55 - zlen msg) 64 ltac:(lia)); lia).
  assert (PN : Z.land (uwrap 32 (55 - Z.shiftr (count0 s) 3)) 63 + 1 = zlen ([128] ++ repeat 0 k)).
  { rewrite zlen_app. unfold zlen. rewrite repeat_length. cbn [length]. rewrite KZ, C0.
    change 63 with (2 ^ 6 - 1). rewrite land_ones_mod, Z.shiftr_div_pow2 by lia. unfold uwrap.
    change (2 ^ 32) with 4294967296. change (2 ^ 3) with 8. change (2 ^ 6) with 64. fold (zlen msg).
    clear - N. generalize dependent (zlen msg). intros n N.
    assert (E : ((55 - (8 * n) mod 4294967296 / 8) mod 4294967296) mod 64 = (55 - n) mod 64); [| lia].
    Z.to_euclidean_division_equations. lia. }
  rewrite PN, (pad_split k K).
  destruct (append_ok m s msg ([128] ++ repeat 0 k) (repeat 0 (63 - k)) H C) as (s1 & -> & H1 & C1').
  { rewrite zlen_app. unfold zlen at 2 3. rewrite repeat_length. cbn [length]. pose proof (Z.mod_pos_bound (zlen msg) 64 ltac:(lia)). destruct m; unfold size_ok, int_max; lia. }
  cbn [bind].
  assert (D : bytes_of_word (count0 s) ++ bytes_of_word (count1 s) = le_bytes 8 (8 * zlen msg)).
  { rewrite C0, C1, le_bytes_split, !bytes_of_word_le by (try apply Z.div_pos; lia). reflexivity. }
  rewrite D.
  destruct (append_ok m s1 _ (le_bytes 8 (8 * zlen msg)) [] H1 C1') as (s2 & R & H2 & C2).
  { rewrite zlen_le_bytes. match goal with |- size_ok _ ?x _ => pose proof (Z.mod_pos_bound x 64 ltac:(lia)) end. destruct m; unfold size_ok, int_max; lia. }
  rewrite app_nil_r, zlen_le_bytes in R. change (Z.of_nat 8) with 8 in R. rewrite R. cbn [bind].
  assert (E : (msg ++ [128] ++ repeat 0 k) ++ le_bytes 8 (8 * zlen msg) = md5_pad msg).
  { unfold md5_pad. fold k. rewrite <- !app_assoc. reflexivity. }
  rewrite E in H2, C2. exists s2. split; [| split; assumption].
  f_equal. f_equal. unfold md5. destruct H2 as (Q & _). unfold full in Q.
  pose proof (quad_range (length (md5_pad msg) / 64) md5_iv (md5_pad msg) iv_range) as R2.
  destruct (md5_blocks _ _ _) as [[[a b] c] d]. unfold state_quad in Q. injection Q as -> -> -> ->.
  destruct (R2 _ _ _ _ eq_refl) as (? & ? & ? & ?). rewrite !bytes_of_word_le32 by assumption. reflexivity.
Qed.
