(** Proofs about the StringBuilder model: the representation invariant and
    one call. *)

From Coq Require Import ZArith List Lia Bool.
From Verif Require Import Base Bits TextLemmas CppText StringSpec CMem CharacterModel StringBuilderSpec StringBuilderModel.
Import ListNotations.
Open Scope Z_scope.

(** Lengths up to which no int computation overflows. *)
Definition lim (m : cpp) : Z := match m with ISO => 1073741823 | HW => 2147483646 end.
Lemma lim_le m : lim m <= 2147483646.
Proof. destruct m; cbn; lia. Qed.

(** The object holds the characters [w]. *)
Definition sinv (s : sb) (w : str) : Prop :=
  exists j, buf s = map Some w ++ j /\ slen s = zlen w /\ scap s = zlen (buf s) /\ scap s <= int_max.

Lemma s32 m x : int_min <= x <= int_max -> sres m 32 x = Ok x.
Proof. intros H. apply sres_ok. unfold in_s, smin, smax. change (2 ^ (32 - 1)) with 2147483648. unfold int_min, int_max in H. lia. Qed.
Lemma zlen_map_some (w : list Z) : zlen (map Some w) = zlen w.
Proof. unfold zlen. now rewrite map_length. Qed.
Lemma zlen_calloc n : 0 <= n -> zlen (c_calloc n) = n.
Proof. intros H. unfold zlen, c_calloc. rewrite repeat_length. lia. Qed.

Lemma zlen_nil' {A} : zlen (@nil A) = 0.
Proof. auto. Qed.
Lemma zupd_app {A} (p : list A) x y z : zupd (p ++ x :: z) (zlen p) y = p ++ y :: z.
Proof. unfold zupd, zlen. rewrite Nat2Z.id. induction p; cbn; auto. now rewrite IHp. Qed.
Lemma znth_app_mid {A} (p : list A) x z : znth (p ++ x :: z) (zlen p) = Some x.
Proof. rewrite znth_nth by (apply zlen_nonneg). unfold zlen. rewrite Nat2Z.id. induction p; cbn; auto. Qed.
Lemma mset_mid p x z v i : i = zlen p -> mset (p ++ x :: z) i v = Ok (p ++ Some v :: z).
Proof. intros ->. unfold mset. now rewrite znth_app_mid, zupd_app. Qed.
Lemma mget_mid p v z i : i = zlen p -> mget (p ++ Some v :: z) i = Ok v.
Proof. intros ->. unfold mget. now rewrite znth_app_mid. Qed.

Lemma copy_in_ok : forall (l : list Z) fuel rd p md z dst src stop, length md = length l -> zlen p = dst -> stop = src + zlen l ->
  (forall k x, znth l k = Some x -> rd (src + k) = Ok x) -> (length l < fuel)%nat ->
  copy_in fuel rd (p ++ md ++ z) dst src stop = Ok (p ++ map Some l ++ z).
Proof.
  induction l as [|x l IH]; intros fuel rd p md z dst src stop L P ST R F; destruct fuel as [|fuel]; cbn [length] in *; try lia; cbn [copy_in].
  - subst stop. rewrite zlen_nil'. replace (src <? src + 0) with false by lia. destruct md; [auto|discriminate].
  - destruct md as [|y md]; [discriminate|]. rewrite zlen_cons in ST. pose proof (zlen_nonneg l). replace (src <? stop) with true by lia.
    assert (R0 : rd src = Ok x) by (rewrite <- (Z.add_0_r src); apply R; auto). rewrite R0. cbn [bind app]. rewrite mset_mid by auto. cbn [bind].
    assert (E1 : p ++ Some x :: md ++ z = (p ++ [Some x]) ++ md ++ z) by (rewrite <- app_assoc; auto). rewrite E1.
    rewrite (IH fuel rd (p ++ [Some x]) md z (dst + 1) (src + 1) stop); auto; try lia.
    + rewrite <- app_assoc. auto.
    + rewrite zlen_app. change (zlen [Some x]) with 1. lia.
    + intros k y0 K. rewrite <- (R (k + 1) y0); [f_equal; lia|]. apply znth_Some_lt in K as K2. rewrite znth_nth in * by lia. replace (Z.to_nat (k + 1)) with (S (Z.to_nat k)) by lia. auto.
Qed.

Lemma firstn_add {A} (n k : nat) (l : list A) : firstn (n + k) l = firstn n l ++ firstn k (skipn n l).
Proof. revert l. induction n as [|n IH]; intros [|x l]; cbn; auto; [destruct k; auto|]. now rewrite IH. Qed.
Lemma firstn_map_app (w : list Z) (j : block) n : (n <= length w)%nat -> firstn n (map Some w ++ j) = map Some (firstn n w).
Proof. intros L. rewrite firstn_app, map_length. replace (n - length w)%nat with 0%nat by lia. rewrite firstn_O, app_nil_r. now rewrite firstn_map. Qed.
Lemma skipn_map_app (w : list Z) (j : block) n : (n <= length w)%nat -> skipn n (map Some w ++ j) = map Some (skipn n w) ++ j.
Proof. intros L. rewrite skipn_app, map_length. replace (n - length w)%nat with 0%nat by lia. cbn [skipn]. now rewrite skipn_map. Qed.

(** Move the tail from [i2] to [i1 + |t|] and copy [t] in at [i1]. *)
Lemma splice_ok (w : str) j (t : str) i1 i2 fuel rd src stop : let b := map Some w ++ j in
  0 <= i1 <= i2 -> i2 <= zlen w -> i1 + zlen t + (zlen w - i2) <= zlen b -> stop = src + zlen t ->
  (forall k x, znth t k = Some x -> rd (src + k) = Ok x) -> (length t < fuel)%nat ->
  exists b1 j2, memmove b (i1 + zlen t) i2 (zlen w - i2) = Ok b1 /\ copy_in fuel rd b1 i1 src stop = Ok (map Some (splice w i1 i2 t) ++ j2) /\
    zlen (map Some (splice w i1 i2 t) ++ j2) = zlen b.
Proof.
  intros b H1 H2 H3 H4 R F. assert (LB : zlen b = zlen w + zlen j) by (unfold b; rewrite zlen_app, zlen_map_some; auto). pose proof (zlen_nonneg t) as T0. pose proof (zlen_nonneg j) as J0.
  unfold memmove. replace ((0 <=? zlen w - i2) && (0 <=? i2) && (i2 + (zlen w - i2) <=? zlen b) && (0 <=? i1 + zlen t) && (i1 + zlen t + (zlen w - i2) <=? zlen b)) with true by lia.
  assert (W : (Z.to_nat i1 <= length w)%nat /\ (Z.to_nat i2 <= length w)%nat) by (unfold zlen in H2; lia). destruct W as (W1 & W2).
  set (tl := skipn (Z.to_nat (i1 + zlen t + (zlen w - i2))) b).
  assert (E1 : firstn (Z.to_nat (zlen w - i2)) (skipn (Z.to_nat i2) b) = map Some (skipn (Z.to_nat i2) w)).
  { unfold b. rewrite skipn_map_app by auto. replace (Z.to_nat (zlen w - i2)) with (length (map Some (skipn (Z.to_nat i2) w))) by (rewrite map_length, skipn_length; unfold zlen; lia). rewrite firstn_app, Nat.sub_diag, firstn_O, app_nil_r, firstn_all. auto. }
  assert (E2 : firstn (Z.to_nat (i1 + zlen t)) b = map Some (firstn (Z.to_nat i1) w) ++ firstn (length t) (skipn (Z.to_nat i1) b)).
  { replace (Z.to_nat (i1 + zlen t)) with (Z.to_nat i1 + length t)%nat by (unfold zlen in *; lia). rewrite firstn_add. f_equal. unfold b. apply firstn_map_app. auto. }
  exists (firstn (Z.to_nat (i1 + zlen t)) b ++ firstn (Z.to_nat (zlen w - i2)) (skipn (Z.to_nat i2) b) ++ tl), tl. split; [auto|]. rewrite E1, E2, <- app_assoc.
  split.
  - rewrite (copy_in_ok t fuel rd _ _ _ i1 src stop); auto.
    + unfold splice. rewrite !map_app, <- !app_assoc. auto.
    + rewrite firstn_length, skipn_length. unfold zlen in *. lia.
    + rewrite zlen_map_some. unfold zlen. rewrite firstn_length. unfold zlen in *. lia.
  - unfold splice, tl. rewrite zlen_app, zlen_map_some, !zlen_app. unfold zlen in *. rewrite firstn_length, !skipn_length. lia.
Qed.

Lemma sinv_len s w : sinv s w -> slen s = zlen w.
Proof. intros (j & _ & H & _). auto. Qed.
Lemma sinv_cap s w : sinv s w -> zlen w <= scap s.
Proof. intros (j & E & _ & H & _). rewrite H, E, zlen_app, zlen_map_some. pose proof (zlen_nonneg j). lia. Qed.

Lemma ensure_ok m s w n : sinv s w -> n <= lim m -> exists s', sb_ensureCapacity m s n = Ok s' /\ sinv s' w /\ n <= scap s'.
Proof.
  intros (j & E & L & C & B) N. unfold sb_ensureCapacity. destruct ((n <=? 0) || (n <=? scap s)) eqn:Q.
  - exists s. split; auto. split; [exists j; auto|]. pose proof (zlen_nonneg (buf s)). lia.
  - pose proof (zlen_nonneg (buf s)) as B0. pose proof (lim_le m) as LM. unfold int_max in *.
    assert (K : exists c, (let* d := smul m 32 (scap s) 2 in sadd m 32 d 2) = Ok c /\ c <= 2147483647).
    { unfold smul, sadd. destruct m; cbn [lim] in N.
      - rewrite s32 by (unfold int_min, int_max; lia). cbn [bind]. rewrite s32 by (unfold int_min, int_max; lia). eexists. split; [reflexivity|lia].
      - rewrite sres_HW by lia. cbn [bind]. rewrite sres_HW by lia. eexists. split; [reflexivity|]. pose proof (wrap_range 32 (wrap 32 (scap s * 2) + 2)) as W. unfold in_s, smin, smax in W. change (2 ^ (32 - 1)) with 2147483648 in W. lia. }
    destruct K as (c & K & K2). set (nc := if c <? n then n else c). exists (mkSB (c_realloc (buf s) nc) (slen s) nc).
    split. { destruct (smul m 32 (scap s) 2) as [d| | |]; cbn [bind] in *; try discriminate. rewrite K. cbn [bind]. auto. }
    assert (NC : n <= nc <= 2147483647) by (unfold nc; destruct (Z.ltb_spec c n); lia). assert (W : (length w <= Z.to_nat nc)%nat). { assert (zlen w <= zlen (buf s)) by (rewrite E, zlen_app, zlen_map_some; pose proof (zlen_nonneg j); lia). unfold zlen in *. lia. }
    split; [|cbn; lia]. exists (firstn (Z.to_nat nc - length w) j ++ repeat None (Z.to_nat nc - length (buf s))). cbn [buf slen scap]. split; [|split; [auto|split; [|unfold int_max; lia]]].
    + unfold c_realloc. rewrite app_assoc. f_equal. rewrite E, firstn_app, map_length. f_equal. rewrite firstn_all2; [auto|rewrite map_length; auto].
    + unfold c_realloc, zlen. rewrite app_length, firstn_length, repeat_length. lia.
Qed.

Lemma rd_all (t : str) : forall k x, znth t k = Some x -> str_get t (0 + k) = Ok x.
Proof. intros k x H. unfold str_get. rewrite Z.add_0_l, H. auto. Qed.
Lemma znth_part (t : str) i j k x : 0 <= i <= j -> j <= zlen t -> znth (part t i j) k = Some x -> znth t (i + k) = Some x.
Proof.
  intros H1 H2 H. apply znth_Some_lt in H as K. unfold part in *. unfold zlen in K. rewrite firstn_length, skipn_length in K. rewrite znth_nth in * by lia. replace (Z.to_nat (i + k)) with (Z.to_nat i + Z.to_nat k)%nat by lia.
  assert (L : (Z.to_nat k < Z.to_nat (j - i))%nat) by lia. revert H L. generalize (Z.to_nat (j - i)) (Z.to_nat k). clear. revert t. induction (Z.to_nat i) as [|n IH]; intros t a b H L; cbn [skipn Nat.add] in *.
  - revert b t H L. induction a as [|a IH]; intros b t H L; [lia|]. destruct t; [destruct b; discriminate|]. destruct b; cbn in *; auto. apply IH; auto. lia.
  - destruct t; [cbn in H; rewrite firstn_nil in H; destruct b; discriminate|]. cbn. eapply IH; eauto.
Qed.
Lemma zlen_part (t : str) i j : 0 <= i <= j -> j <= zlen t -> zlen (part t i j) = j - i.
Proof. intros H1 H2. unfold part, zlen in *. rewrite firstn_length, skipn_length. lia. Qed.

(** The state after a splice that fits. *)
Lemma splice_state s w i1 i2 (t : str) fuel rd src stop L : sinv s w ->
  0 <= i1 <= i2 -> i2 <= zlen w -> L = zlen w + zlen t - (i2 - i1) -> L <= scap s -> stop = src + zlen t ->
  (forall k x, znth t k = Some x -> rd (src + k) = Ok x) -> (length t < fuel)%nat ->
  exists b1 b2, memmove (buf s) (i1 + zlen t) i2 (slen s - i2) = Ok b1 /\ copy_in fuel rd b1 i1 src stop = Ok b2 /\ sinv (mkSB b2 L (scap s)) (splice w i1 i2 t).
Proof.
  intros (j & E & SL & C & B) H1 H2 HL H3 H4 R F. destruct (splice_ok w j t i1 i2 fuel rd src stop H1 H2) as (b1 & j2 & E1 & E2 & E3); auto.
  - rewrite <- E. rewrite <- C. lia.
  - exists b1, (map Some (splice w i1 i2 t) ++ j2). rewrite E, SL. split; auto. split; auto. exists j2. cbn. split; auto. split; [|split; auto].
    + unfold splice. rewrite !zlen_app. unfold zlen in *. rewrite firstn_length, skipn_length. lia.
    + rewrite E3, <- E. auto.
Qed.
Lemma splice_end w (t : str) : splice w (zlen w) (zlen w) t = w ++ t.
Proof. unfold splice, zlen. rewrite Nat2Z.id, firstn_all, skipn_all2, app_nil_r by lia. auto. Qed.

(** Appending needs no move. *)
Lemma append_state s w (t : str) fuel rd src stop L : sinv s w -> L = zlen w + zlen t -> L <= scap s -> stop = src + zlen t ->
  (forall k x, znth t k = Some x -> rd (src + k) = Ok x) -> (length t < fuel)%nat ->
  exists b2, copy_in fuel rd (buf s) (slen s) src stop = Ok b2 /\ sinv (mkSB b2 L (scap s)) (w ++ t).
Proof.
  intros I HL H3 H4 R F. pose proof I as (j & E & SL & C & B). pose proof (zlen_nonneg w) as W0. assert (LJ : zlen t <= zlen j) by (rewrite C, E, zlen_app, zlen_map_some in H3; lia). exists (map Some w ++ map Some t ++ skipn (length t) j). split.
  - rewrite E. rewrite <- (firstn_skipn (length t) j) at 1. apply copy_in_ok; auto. + rewrite firstn_length. unfold zlen in LJ. lia. + rewrite SL. apply zlen_map_some.
  - exists (skipn (length t) j). cbn. split; [now rewrite map_app, <- app_assoc|]. split; [rewrite zlen_app; auto|]. split; auto. rewrite C, E, !zlen_app, !zlen_map_some. unfold zlen in *. rewrite skipn_length. lia.
Qed.
Lemma shift_in_ok m s w off (t : str) fuel rd from stop : sinv s w -> 0 <= off <= zlen w -> zlen w + zlen t <= lim m -> stop = from + zlen t ->
  (forall k x, znth t k = Some x -> rd (from + k) = Ok x) -> (length t < fuel)%nat ->
  exists s', shift_in m s off (zlen t) fuel rd from stop = Ok s' /\ sinv s' (splice w off off t).
Proof.
  intros I H1 H2 H3 R F. pose proof (lim_le m). pose proof (zlen_nonneg w). pose proof (zlen_nonneg t). unfold shift_in, sadd. rewrite (sinv_len s w I), s32 by (unfold int_min, int_max; lia). cbn [bind].
  destruct (ensure_ok m s w (zlen w + zlen t) I H2) as (s1 & -> & I1 & C1). cbn [bind].
  destruct (splice_state s1 w off off t fuel rd from stop (zlen w + zlen t) I1) as (b1 & b2 & E1 & E2 & I2); auto; try lia.
  rewrite E1. cbn [bind]. rewrite E2. cbn [bind]. eauto.
Qed.

Lemma copy_ok s w : sinv s w -> exists s', sb_copy s = Ok s' /\ sinv s' w /\ scap s' = scap s.
Proof.
  intros (j & E & SL & C & B). unfold sb_copy. pose proof (zlen_nonneg w) as W0. assert (LW : zlen w <= scap s) by (rewrite C, E, zlen_app, zlen_map_some; pose proof (zlen_nonneg j); lia).
  assert (LC : zlen (c_calloc (scap s)) = scap s) by (apply zlen_calloc; lia).
  assert (Q : c_calloc (scap s) = [] ++ firstn (length w) (c_calloc (scap s)) ++ skipn (length w) (c_calloc (scap s))) by (cbn; now rewrite firstn_skipn). rewrite Q.
  rewrite (copy_in_ok w _ (mget (buf s)) [] _ _ 0 0 (slen s)); auto.
  - cbn [bind app]. eexists. split; [reflexivity|]. split; [|auto]. exists (skipn (length w) (c_calloc (scap s))). cbn. split; auto. split; auto. split; auto. rewrite zlen_app, zlen_map_some. unfold zlen in *. rewrite skipn_length. lia.
  - rewrite firstn_length. unfold zlen in *. lia.
  - intros k x K. rewrite Z.add_0_l, E. unfold mget. apply znth_Some_lt in K as K2. rewrite znth_nth in K by lia. rewrite znth_nth by lia. rewrite nth_error_app1 by (rewrite map_length; unfold zlen in K2; lia). rewrite nth_error_map, K. auto.
  - rewrite E, app_length, map_length. lia.
Qed.
Lemma by_value_ok s w : sinv s w -> by_value s = Ok s.
Proof. intros I. unfold by_value. destruct (copy_ok s w I) as (s' & -> & _). auto. Qed.

Lemma c_string_ok l z : c_string (map Some l ++ Some 0 :: z) = Ok (cstr l).
Proof. induction l as [|c l IH]; cbn [map app c_string cstr]; auto. destruct (c =? 0); auto. rewrite IH. auto. Qed.

Lemma mget_content s w k x : sinv s w -> znth w k = Some x -> mget (buf s) k = Ok x.
Proof. intros (j & E & _) K. rewrite E. unfold mget. apply znth_Some_lt in K as K2. rewrite znth_nth in K by lia. rewrite znth_nth by lia. rewrite nth_error_app1 by (rewrite map_length; unfold zlen in K2; lia). rewrite nth_error_map, K. auto. Qed.

Lemma toString_ok m s w : sinv s w -> zlen w <= lim m -> sb_toString m s = Ok (cstr w).
Proof.
  intros I B. pose proof (lim_le m). pose proof (zlen_nonneg w) as W0. unfold sb_toString, sadd. rewrite (sinv_len s w I), s32 by (unfold int_min, int_max; lia). cbn [bind]. replace (zlen w + 1 <? 0) with false by lia.
  assert (Q : c_calloc (zlen w + 1) = [] ++ repeat (Some 0) (length w) ++ [Some 0]). { unfold c_calloc. replace (Z.to_nat (zlen w + 1)) with (length w + 1)%nat by (unfold zlen; lia). cbn [app]. now rewrite repeat_app. }
  rewrite Q. rewrite (copy_in_ok w _ (mget (buf s)) [] (repeat (Some 0) (length w)) [Some 0] 0 0 (zlen w)); auto.
  - cbn [bind app]. rewrite mset_mid by (now rewrite zlen_map_some). cbn [bind]. apply c_string_ok.
  - now rewrite repeat_length.
  - intros k x K. rewrite Z.add_0_l. eapply mget_content; eauto.
  - destruct I as (j & -> & _). rewrite app_length, map_length. lia.
Qed.
Lemma substring_ok m s w i j : sinv s w -> zlen w <= lim m -> 0 <= i <= j -> j <= zlen w -> sb_substring m s i j = Ok (cstr (part w i j)).
Proof.
  intros I B H1 H2. pose proof (lim_le m). pose proof (zlen_nonneg w) as W0. unfold sb_substring, sadd. rewrite (sinv_len s w I). replace ((i <? 0) || (zlen w <? i)) with false by lia. replace ((j <? 0) || (zlen w <? j)) with false by lia. replace (j <? i) with false by lia. rewrite s32 by (unfold int_min, int_max; lia). cbn [bind]. replace (j - i + 1 <? 0) with false by lia.
  pose proof (zlen_part w i j H1 H2) as LP.
  assert (Q : c_calloc (j - i + 1) = [] ++ repeat (Some 0) (length (part w i j)) ++ [Some 0]). { unfold c_calloc. replace (Z.to_nat (j - i + 1)) with (length (part w i j) + 1)%nat by (unfold zlen in LP; lia). cbn [app]. now rewrite repeat_app. }
  rewrite Q. rewrite (copy_in_ok (part w i j) _ (mget (buf s)) [] (repeat (Some 0) (length (part w i j))) [Some 0] 0 i j); auto.
  - cbn [bind app]. rewrite mset_mid by (rewrite zlen_map_some; auto). cbn [bind]. apply c_string_ok.
  - now rewrite repeat_length.
  - lia.
  - intros k x K. eapply mget_content; eauto. eapply znth_part; eauto.
  - unfold part. destruct I as (j' & -> & _). rewrite app_length, map_length, firstn_length, skipn_length. lia.
Qed.

Lemma not_surrogate c : byte_ok c -> isSurrogate (schar c) = false.
Proof. intros H. unfold byte_ok in H. unfold isSurrogate, schar. change MIN_SURROGATE with 221786160. destruct (c <? 128); replace (221786160 <=? _) with false by lia; auto. Qed.

Lemma reverse_loop_ok : forall fuel a mid c j len i, zlen a = i -> zlen c = i -> len = zlen (a ++ mid ++ c) -> (length mid < fuel)%nat -> Forall byte_ok (a ++ mid ++ c) ->
  reverse_loop fuel (map Some (rev c ++ mid ++ rev a) ++ j) len i (Z.quot len 2) false = Ok (map Some (rev (a ++ mid ++ c)) ++ j, false).
Proof.
  induction fuel as [|fuel IH]; intros a mid c j len i A C LEN F BK; [lia|]. cbn [reverse_loop]. rewrite !zlen_app in LEN. pose proof (zlen_nonneg a) as A0. pose proof (zlen_nonneg mid) as M0.
  assert (Q : Z.quot len 2 = len / 2) by (apply Z.quot_div_nonneg; lia). rewrite Q.
  assert (MC : (zlen mid <= 1 /\ rev mid = mid) \/ exists x m' y, mid = x :: m' ++ [y]).
  { destruct mid as [|x m]; [left; cbn; split; [lia|auto]|]. destruct m as [|z m]; [left; cbn; split; [lia|auto]|]. right. exists x. destruct (@exists_last _ (z :: m)) as (m' & y & E1); [discriminate|]. rewrite E1. eauto. }
  destruct MC as [(M1 & M2)|(x & m' & y & ->)].
  - replace (i <? len / 2) with false by (assert (len / 2 <= i) by (apply Z.lt_succ_r; apply Z.div_lt_upper_bound; lia); lia). rewrite !rev_app_distr, M2, <- app_assoc. auto.
  - rewrite zlen_cons, zlen_app in LEN. change (zlen [y]) with 1 in LEN. pose proof (zlen_nonneg m') as M1. assert (i < len / 2) by (assert (i + 1 <= len / 2) by (apply Z.div_le_lower_bound; lia); lia). replace (i <? len / 2) with true by lia.
    assert (BX : byte_ok x /\ byte_ok y). { rewrite Forall_forall in BK. split; apply BK; rewrite !in_app_iff; right; left; [left; auto|right; apply in_app_iff; right; left; auto]. } destruct BX as (BX & BY).
    set (B := map Some (rev c ++ (x :: m' ++ [y]) ++ rev a) ++ j).
    assert (E1 : B = map Some (rev c) ++ Some x :: (map Some (m' ++ [y] ++ rev a) ++ j)). { unfold B. rewrite !map_app, <- !app_assoc. cbn. rewrite !map_app, <- !app_assoc. auto. }
    assert (E2 : forall x0, map Some (rev c) ++ Some x0 :: (map Some (m' ++ [y] ++ rev a) ++ j) = map Some (rev c ++ x0 :: m') ++ Some y :: (map Some (rev a) ++ j)).
    { intros x0. rewrite !map_app, <- !app_assoc. cbn. rewrite ?map_app, <- ?app_assoc. auto. }
    assert (L1 : i = zlen (map Some (rev c))) by (rewrite zlen_map_some, zlen_rev; auto).
    assert (L2 : forall x0, len - 1 - i = zlen (map Some (rev c ++ x0 :: m'))) by (intros x0; rewrite zlen_map_some, zlen_app, zlen_cons, zlen_rev; lia).
    rewrite E1, mget_mid by auto. cbn [bind]. rewrite E2, mget_mid by auto. cbn [bind]. rewrite <- E2, mset_mid by auto. cbn [bind]. rewrite E2, mset_mid by auto. cbn [bind].
    rewrite !not_surrogate by auto. cbn [orb].
    specialize (IH (a ++ [x]) m' (y :: c) j len (i + 1)). rewrite Q in IH.
    assert (E3 : map Some (rev (y :: c) ++ m' ++ rev (a ++ [x])) ++ j = map Some (rev c ++ y :: m') ++ Some x :: map Some (rev a) ++ j). { rewrite rev_app_distr. cbn [rev app]. rewrite !map_app, <- !app_assoc. cbn. rewrite ?map_app, <- ?app_assoc. auto. }
    rewrite E3 in IH. rewrite IH.
    + f_equal. f_equal. f_equal. f_equal. f_equal. rewrite <- !app_assoc. cbn. rewrite <- !app_assoc. auto.
    + rewrite zlen_app. change (zlen [x]) with 1. lia.
    + rewrite zlen_cons. lia.
    + rewrite !zlen_app, (zlen_cons y c). change (zlen [x]) with 1. lia.
    + cbn [length] in F. rewrite app_length in F. cbn in F. lia.
    + rewrite <- !app_assoc. cbn. cbn in BK. rewrite <- !app_assoc in BK. exact BK.
Qed.
Lemma reverse_ok s w : sinv s w -> Forall byte_ok w -> exists s', sb_reverse s = Ok s' /\ sinv s' (rev w).
Proof.
  intros I BK. pose proof I as (j & E & SL & C & B). unfold sb_reverse.
  pose proof (reverse_loop_ok (S (length (buf s))) [] w [] j (slen s) 0) as R. cbn [rev app] in R. rewrite !app_nil_r in R. rewrite <- E in R. rewrite R; auto.
  - cbn [bind]. assert (I' : sinv (mkSB (map Some (rev w) ++ j) (slen s) (scap s)) (rev w)). { exists j. cbn. split; auto. split; [rewrite zlen_rev; auto|]. split; auto. rewrite C, E, !zlen_app, !zlen_map_some, zlen_rev. auto. }
    rewrite (by_value_ok _ _ I'). eauto.
  - rewrite E, app_length, map_length. lia.
Qed.
