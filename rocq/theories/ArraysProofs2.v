(** Proofs about Arrays.binarySearch, copyOf, copyOfRange, equals, fill, hashCode. *)

From Coq Require Import ZArith List Lia Bool.
From Verif Require Import Base Bits TextLemmas ArraysModel ArraysSpec ArraysProofs.
Import ListNotations.
Open Scope Z_scope.
Ltac dm := Z.to_euclidean_division_equations; lia.

Section Search.
Context {A : Type} (m : cpp) (raw : bool) (lt eqb : A -> A -> bool).

Lemma mid_ok l r : 0 <= l -> l < r -> r < 2 ^ 30 -> sadd m 32 l r = Ok (l + r) /\ Z.quot (l + r) 2 = l + (r - l) / 2 /\ l <= l + (r - l) / 2 < r.
Proof.
  intros H1 H2 H3. change (2 ^ 30) with 1073741824 in H3. unfold sadd. rewrite sres_ok by (unfold in_s, smin, smax; change (2 ^ (32 - 1)) with 2147483648; lia).
  rewrite Z.quot_div_nonneg by lia. split; auto. split; dm.
Qed.
Lemma search_sound a key : zlen a <= 2 ^ 30 -> forall fuel l r, 0 <= l <= r -> r < zlen a -> r - l < Z.of_nat fuel ->
  exists i, search_loop m raw lt eqb fuel a key l r = Ok i /\ (i = -1 \/ (l <= i <= r /\ exists x, znth a i = Some x /\ eqb x key = true)).
Proof.
  intros Hz. induction fuel as [|f IH]; intros l r H1 H2 Hf; [lia|]. cbn [search_loop]. destruct (Z.ltb_spec l r); [|exists (-1); auto].
  destruct (mid_ok l r ltac:(lia) H ltac:(lia)) as (-> & E & B). cbn [bind]. rewrite E. set (mid := l + (r - l) / 2) in *.
  destruct (znth_ex a mid ltac:(lia)) as (x & Ex). rewrite (rd_ok _ _ _ _ Ex). cbn [bind].
  assert (R : forall l' r', l <= l' -> l' <= r' -> r' <= r -> r' - l' < r - l ->
    exists i, (if l' =? r' - 1 then let* y := rd raw a l' in if eqb y key then Ok l' else let* z := rd raw a r' in if eqb z key then Ok r' else Ok (-1)
       else search_loop m raw lt eqb f a key l' r') = Ok i /\ (i = -1 \/ (l <= i <= r /\ exists x, znth a i = Some x /\ eqb x key = true))).
  { intros l' r' Q1 Q2 Q3 Q4. destruct (l' =? r' - 1).
    - destruct (znth_ex a l' ltac:(lia)) as (y & Ey). destruct (znth_ex a r' ltac:(lia)) as (z & Ez). rewrite (rd_ok _ _ _ _ Ey), (rd_ok _ _ _ _ Ez). cbn [bind].
      destruct (eqb y key) eqn:Qy; [exists l'; split; auto; right; split; [lia|eauto]|]. destruct (eqb z key) eqn:Qz; [exists r'; split; auto; right; split; [lia|eauto]|]. exists (-1). auto.
    - destruct (IH l' r' ltac:(lia) ltac:(lia) ltac:(lia)) as (i & Ei & D). exists i. split; auto. destruct D as [|[D1 D2]]; auto. right. split; auto. lia. }
  destruct (lt x key); apply R; lia.
Qed.

Hypothesis TO : total_order lt.
Hypothesis EQ : forall x y, eqb x y = true <-> lt x y = false /\ lt y x = false.

(** On ranges of 2^k elements, k >= 2, the first occurrence is found. *)
Definition first_in a key l r i := l <= i <= r /\ (exists x, znth a i = Some x /\ eqb x key = true) /\ forall p x, l <= p < i -> znth a p = Some x -> lt x key = true.
Lemma search_pow2 a key : zlen a <= 2 ^ 30 -> forall k fuel l r, (2 <= k)%nat -> r - l + 1 = 2 ^ Z.of_nat k -> 0 <= l -> r < zlen a -> (k <= fuel)%nat ->
  sorted_range lt a l r -> (exists i, first_in a key l r i /\ search_loop m raw lt eqb fuel a key l r = Ok i) \/
   ((forall p x, l <= p <= r -> znth a p = Some x -> eqb x key = false) /\ search_loop m raw lt eqb fuel a key l r = Ok (-1)).
Proof.
  intros Hz. induction k as [|k IH]; intros fuel l r Hk Hd Hl Hr Hf S; [lia|]. destruct fuel as [|f]; [lia|]. cbn [search_loop].
  rewrite Nat2Z.inj_succ, Z.pow_succ_r in Hd by lia. assert (P1 : 2 <= 2 ^ Z.of_nat k) by (rewrite <- (Z.pow_1_r 2) at 1; apply Z.pow_le_mono_r; lia).
  destruct (Z.ltb_spec l r); [|lia]. destruct (mid_ok l r ltac:(lia) H ltac:(lia)) as (-> & E & B). cbn [bind]. rewrite E.
  set (mid := l + (r - l) / 2) in *. assert (Hm : mid = l + 2 ^ Z.of_nat k - 1) by (unfold mid; dm). destruct (znth_ex a mid ltac:(lia)) as (x & Ex). rewrite (rd_ok _ _ _ _ Ex). cbn [bind].
  assert (R : forall l' r', l <= l' -> r' <= r -> r' - l' + 1 = 2 ^ Z.of_nat k -> (forall p y, l <= p < l' -> znth a p = Some y -> lt y key = true) ->
     (r' < r -> exists y, znth a r' = Some y /\ lt y key = false) ->
     let res := (if l' =? r' - 1 then let* y := rd raw a l' in if eqb y key then Ok l' else let* z := rd raw a r' in if eqb z key then Ok r' else Ok (-1)
       else search_loop m raw lt eqb f a key l' r') in
     (exists i, first_in a key l r i /\ res = Ok i) \/ ((forall p x, l <= p <= r -> znth a p = Some x -> eqb x key = false) /\ res = Ok (-1))).
  { intros l' r' Q1 Q2 Q3 Below Above.
    assert (Low : forall y, lt y key = true -> eqb y key = false).
    { intros y Ly. destruct (eqb y key) eqn:Q; auto. apply EQ in Q. destruct Q. congruence. }
    (* Nothing beyond r' equals the key unless r' itself does. *)
    assert (High : (forall y, znth a r' = Some y -> eqb y key = false) -> forall p y, r' < p <= r -> znth a p = Some y -> eqb y key = false).
    { intros N p y Hp Ey. destruct (Above ltac:(lia)) as (z & Ez & Lz). specialize (N z Ez). destruct (eqb y key) eqn:Q; auto. apply EQ in Q. destruct Q as [Q6 Q7].
      assert (lt y z = false) by (apply (S r' p z y); auto; lia).
      (* z <= y, y ~ key, so z <= key; with key <= z they are equal *)
      assert (lt key z = false). { apply (proj2 TO z y key); auto. }
      assert (eqb z key = true) by (apply EQ; auto). congruence. }
    cbn zeta. destruct (Z.eqb_spec l' (r' - 1)) as [Q|Q].
    - destruct (znth_ex a l' ltac:(lia)) as (y & Ey). destruct (znth_ex a r' ltac:(lia)) as (z & Ez). rewrite (rd_ok _ _ _ _ Ey), (rd_ok _ _ _ _ Ez). cbn [bind].
      destruct (eqb y key) eqn:Qy; [left; exists l'; split; auto; split; [lia|]; split; eauto|]. destruct (eqb z key) eqn:Qz.
      + left. exists r'. split; auto. split; [lia|]. split; [eauto|]. intros p w Hp Ew. destruct (Z.eq_dec p l') as [->|].
        * rewrite Ey in Ew. injection Ew as <-. apply EQ in Qz. destruct Qz as [Z1 Z2]. assert (L1 : lt z y = false) by (apply (S l' r' y z); auto; lia).
          assert (lt key y = false) by (apply (proj2 TO y z key); auto). destruct (lt y key) eqn:Ly; auto.
          assert (eqb y key = true) by (apply EQ; auto). congruence.
        * apply (Below p); auto. lia.
      + right. split; auto. intros p w Hp Ew. destruct (Z_lt_le_dec p l'); [apply Low, (Below p); auto; lia|].
        destruct (Z.eq_dec p l') as [->|]; [congruence|]. destruct (Z.eq_dec p r') as [->|]; [congruence|]. apply (High ltac:(intros; congruence) p); auto. lia.
    - destruct (Nat.eq_dec k 1) as [->|]; [change (2 ^ Z.of_nat 1) with 2 in Q3; lia|].
      destruct (IH f l' r') as [(i & (F1 & F2 & F3) & ->)|(N & ->)]; auto; try lia.
      { intros p q u v G1 G2 G3. apply S; lia. }
      + left. exists i. split; auto. split; [lia|]. split; auto. intros p w Hp Ew. destruct (Z_lt_le_dec p l'); [apply (Below p)|apply (F3 p)]; auto; lia.
      + right. split; auto. intros p w Hp Ew. destruct (Z_lt_le_dec p l'); [apply Low, (Below p); auto; lia|]. destruct (Z_le_dec p r'); [apply (N p); auto; lia|].
        apply (High (fun y Ey => N r' y ltac:(lia) Ey) p); auto. lia. }
  destruct (lt x key) eqn:Lx; apply R; try lia.
  - intros p y Hp Ey. destruct (Z.eq_dec p mid) as [->|]; [congruence|]. assert (L1 : lt x y = false) by (apply (S p mid y x); auto; lia).
    destruct (lt y key) eqn:Ly; auto. assert (Q : lt x key = false).
    { apply (proj2 TO key y x); auto. } congruence.
  - intros. eauto.
Qed.

(** The lengths on which some present key is missed. *)
Definition bad (n : Z) : Prop := forall k, (1 <= k)%nat -> n <> 2 ^ Z.of_nat k.
Definition strict a l r := forall p q x y, l <= p -> p < q -> q <= r -> znth a p = Some x -> znth a q = Some y -> lt x y = true.
Lemma bad_half n : 3 <= n -> bad n -> bad ((n + 1) / 2) \/ bad (n / 2).
Proof using Type.
  clear EQ TO. intros H B.
  assert (D : forall h, (exists k, (1 <= k)%nat /\ h = 2 ^ Z.of_nat k) \/ bad h \/ n < h).
  { intros h. assert (DD : forall N : nat, (exists k, (1 <= k)%nat /\ h = 2 ^ Z.of_nat k) \/ (forall k, (1 <= k <= N)%nat -> h <> 2 ^ Z.of_nat k)).
    { induction N as [|N [?|IH]]; auto; [right; lia|]. destruct (Z.eq_dec h (2 ^ Z.of_nat (S N))); [left; exists (S N); split; auto; lia|]. right. intros k Hk. destruct (Nat.eq_dec k (S N)) as [->|]; auto. apply IH. lia. }
    destruct (DD (Z.to_nat n)) as [?|N]; auto. destruct (Z_lt_le_dec n h); auto. right. left. intros k Hk. destruct (le_lt_dec k (Z.to_nat n)); [apply N; lia|].
    assert (Z.of_nat k < 2 ^ Z.of_nat k) by (apply Z.pow_gt_lin_r; lia). lia. }
  destruct (D (n / 2)) as [(k1 & K1 & E1)|[?|?]]; auto; [|dm]. destruct (D ((n + 1) / 2)) as [(k2 & K2 & E2)|[?|?]]; auto; [|dm]. exfalso.
  destruct k1 as [|k1]; [lia|]. destruct k2 as [|k2]; [lia|]. rewrite Nat2Z.inj_succ, Z.pow_succ_r in E1, E2 by lia.
  assert (n = 2 * (n / 2)) by dm. apply (B (S (S k1))); [lia|]. rewrite !Nat2Z.inj_succ, !Z.pow_succ_r by lia. lia.
Qed.
Lemma search_miss a : zlen a <= 2 ^ 30 -> forall fuel l r, bad (r - l + 1) -> 0 <= l <= r -> r < zlen a -> r - l < Z.of_nat fuel -> strict a l r ->
  exists p key, l <= p <= r /\ znth a p = Some key /\ search_loop m raw lt eqb fuel a key l r = Ok (-1).
Proof using TO.
  clear EQ. intros Hz. induction fuel as [|f IH]; intros l r Hb H1 H2 Hf S; [lia|]. destruct (Z.eq_dec l r) as [->|].
  - destruct (znth_ex a r ltac:(lia)) as (key & Ek). exists r, key. split; [lia|]. split; auto. cbn [search_loop]. rewrite Z.ltb_irrefl. auto.
  - assert (r - l + 1 <> 2) by (specialize (Hb 1%nat ltac:(lia)); cbn in Hb; auto).
    destruct (mid_ok l r ltac:(lia) ltac:(lia) ltac:(lia)) as (E0 & E & B). set (mid := l + (r - l) / 2) in *.
    destruct (znth_ex a mid ltac:(lia)) as (x & Ex).
    destruct (bad_half (r - l + 1) ltac:(lia) Hb) as [Q|Q].
    + replace ((r - l + 1 + 1) / 2) with (mid - l + 1) in Q by (unfold mid; dm).
      destruct (IH l mid Q ltac:(lia) ltac:(lia) ltac:(lia)) as (p & key & Hp & Ep & R). { intros u v; intros; apply (S u v); auto; lia. }
      exists p, key. split; [lia|]. split; auto. cbn [search_loop]. replace (l <? r) with true by lia. rewrite E0. cbn [bind]. rewrite E, (rd_ok _ _ _ _ Ex). cbn [bind].
      assert (lt x key = false) as ->. { destruct (Z.eq_dec p mid) as [->|]; [rewrite Ex in Ep; injection Ep as ->; destruct (lt key key) eqn:L; auto; rewrite (proj1 TO _ _ L) in L; auto|]. apply TO. apply (S p mid); auto; lia. }
      destruct (Z.eqb_spec l (mid - 1)); auto. exfalso. apply (Q 1%nat); [lia|]. cbn. lia.
    + replace ((r - l + 1) / 2) with (r - (mid + 1) + 1) in Q by (unfold mid; dm).
      destruct (IH (mid + 1) r Q ltac:(lia) ltac:(lia) ltac:(lia)) as (p & key & Hp & Ep & R). { intros u v; intros; apply (S u v); auto; lia. }
      exists p, key. split; [lia|]. split; auto. cbn [search_loop]. replace (l <? r) with true by lia. rewrite E0. cbn [bind]. rewrite E, (rd_ok _ _ _ _ Ex). cbn [bind].
      rewrite (S mid p x key) by (auto; lia).
      destruct (Z.eqb_spec (mid + 1) (r - 1)); auto. exfalso. apply (Q 1%nat); [lia|]. cbn. lia.
Qed.
End Search.

(** ** Copy *)

Lemma skipn_znth {A} (a : list A) i x : znth a i = Some x -> skipn (Z.to_nat i) a = x :: skipn (Z.to_nat (i + 1)) a.
Proof.
  intros E. pose proof (znth_Some_lt _ _ _ E). rewrite znth_nth in E by lia. replace (Z.to_nat (i + 1)) with (S (Z.to_nat i)) by lia.
  revert E. generalize (Z.to_nat i) as n. clear. induction a as [|y a IH]; intros [|n] E; cbn in *; try discriminate; [congruence|]. apply IH; auto.
Qed.
Lemma push_range_ok {A} (a : list A) to : to <= zlen a -> forall fuel from res, 0 <= from -> to - from <= Z.of_nat fuel ->
  push_range a fuel from to res = Ok (res ++ slice a from to).
Proof.
  intros Ht. induction fuel as [|f IH]; intros from res Hf Hd; cbn [push_range]; destruct (Z.ltb_spec from to); try lia.
  - unfold slice. replace (Z.to_nat (to - from)) with O by lia. cbn. rewrite app_nil_r. auto.
  - destruct (at_ok a from ltac:(lia)) as (x & Ex & ->). cbn [bind]. rewrite IH by lia. rewrite <- app_assoc. f_equal. f_equal. unfold slice.
    rewrite (skipn_znth a from x Ex). replace (Z.to_nat (to - from)) with (S (Z.to_nat (to - (from + 1)))) by lia. auto.
  - unfold slice. replace (Z.to_nat (to - from)) with O by lia. cbn. rewrite app_nil_r. auto.
Qed.
Lemma push_conv_ok {A B} (conv : A -> B) (a : list A) to : to <= zlen a -> forall fuel from res, 0 <= from -> to - from <= Z.of_nat fuel ->
  push_conv conv a fuel from to res = Ok (res ++ map conv (slice a from to)).
Proof.
  intros Ht. induction fuel as [|f IH]; intros from res Hf Hd; cbn [push_conv]; destruct (Z.ltb_spec from to); try lia.
  - unfold slice. replace (Z.to_nat (to - from)) with O by lia. cbn. rewrite app_nil_r. auto.
  - destruct (at_ok a from ltac:(lia)) as (x & Ex & ->). cbn [bind]. rewrite IH by lia. rewrite <- app_assoc. f_equal. f_equal. unfold slice.
    rewrite (skipn_znth a from x Ex). replace (Z.to_nat (to - from)) with (S (Z.to_nat (to - (from + 1)))) by lia. auto.
  - unfold slice. replace (Z.to_nat (to - from)) with O by lia. cbn. rewrite app_nil_r. auto.
Qed.

(** ** Fill, equals *)

Lemma fill_loop_ok {A} (v : A) to : forall fuel a from, 0 <= from -> to < zlen a -> to - from + 1 <= Z.of_nat fuel ->
  exists a', fill_loop v fuel a from to = Ok a' /\ zlen a' = zlen a /\ forall p, znth a' p = if (from <=? p) && (p <=? to) then Some v else znth a p.
Proof.
  induction fuel as [|f IH]; intros a from Hf Ht Hd; cbn [fill_loop]; (destruct (Z.leb_spec from to);
    [|exists a; split; auto; split; auto; intros p; replace ((from <=? p) && (p <=? to)) with false by lia; auto]); [lia|].
  rewrite at_set_ok by lia. cbn [bind]. destruct (IH (zupd a from v) (from + 1)) as (a' & E & L & R); try lia; [rewrite zupd_len; lia|].
  exists a'. split; auto. rewrite zupd_len in L. split; auto. intros p. rewrite R, znth_zupd by lia.
  destruct (Z.eqb_spec p from) as [->|].
  - replace (from + 1 <=? from) with false by lia. replace ((from <=? from) && (from <=? to)) with true by lia. auto.
  - replace (from + 1 <=? p) with (from <=? p) by lia. auto.
Qed.
Lemma equals_loop_ok {A} (neb : A -> A -> bool) (N : forall x y, neb x y = false <-> x = y) a b : zlen a = zlen b -> forall fuel i, 0 <= i -> zlen a - i <= Z.of_nat fuel ->
  exists r, equals_loop neb a b fuel i = Ok r /\ (r = true <-> forall p, i <= p < zlen a -> znth a p = znth b p).
Proof.
  intros L. induction fuel as [|f IH]; intros i Hi Hf; cbn [equals_loop]; (destruct (Z.ltb_spec i (zlen a)); [|exists true; split; auto; split; auto; intros _ p; lia]); [lia|].
  destruct (at_ok a i ltac:(lia)) as (x & Ex & ->). destruct (at_ok b i ltac:(lia)) as (y & Ey & ->). cbn [bind]. destruct (neb x y) eqn:E.
  - exists false. split; auto. split; [discriminate|]. intros Q. specialize (Q i ltac:(lia)). rewrite Ex, Ey in Q. injection Q as Q. apply N in Q. congruence.
  - destruct (IH (i + 1) ltac:(lia) ltac:(lia)) as (r & -> & R). exists r. split; auto. rewrite R. apply N in E. subst y. split; intros Q p Hp; [|apply Q; lia].
    destruct (Z.eq_dec p i) as [->|]; [congruence|apply Q; lia].
Qed.
Lemma equals_ok {A} (neb : A -> A -> bool) (N : forall x y, neb x y = false <-> x = y) a b : exists r, equals neb a b = Ok r /\ (r = true <-> a = b).
Proof.
  unfold equals. destruct (Z.eqb_spec (zlen a) (zlen b)); cbn [negb].
  - destruct (equals_loop_ok neb N a b e (length a) 0 ltac:(lia) ltac:(unfold zlen; lia)) as (r & -> & R). exists r. split; auto. rewrite R. split; [|intros ->; auto].
    intros Q. apply znth_ext; auto.
  - exists false. split; auto. split; [discriminate|]. intros ->. contradiction.
Qed.

(** ** hashCode *)

Fixpoint poly31 (l : list Z) (acc : Z) : Z := match l with [] => acc | x :: t => poly31 t (31 * acc + x) end.
Lemma poly31_mod l : forall a b, a mod 2 ^ 32 = b mod 2 ^ 32 -> poly31 l a mod 2 ^ 32 = poly31 l b mod 2 ^ 32.
Proof.
  induction l as [|x l IH]; intros a b E; cbn [poly31]; auto. apply IH. rewrite (Zplus_mod (31 * a)), (Zplus_mod (31 * b)), (Zmult_mod 31 a), (Zmult_mod 31 b), E. auto.
Qed.
Lemma wrap_mod32 x : wrap 32 x mod 2 ^ 32 = x mod 2 ^ 32.
Proof. unfold wrap. change (32 - 1) with 31. set (M := 2 ^ 32). set (h := 2 ^ 31). rewrite Zminus_mod, Zmod_mod, <- Zminus_mod. f_equal. lia. Qed.
Lemma wrap_congr x y : x mod 2 ^ 32 = y mod 2 ^ 32 -> wrap 32 x = wrap 32 y.
Proof. intros E. unfold wrap. rewrite (Zplus_mod x), (Zplus_mod y), E. auto. Qed.
Lemma hash_int_ok l : forall acc, exists r, hash_int HW l acc = Ok r /\ wrap 32 r = wrap 32 (poly31 l acc) /\ (l <> [] -> r = wrap 32 r).
Proof.
  induction l as [|x l IH]; intros acc; cbn [hash_int poly31]; [exists acc; split; auto; split; auto; contradiction|].
  unfold smul, sadd. rewrite !sres_HW by lia. cbn [bind]. rewrite ?sres_HW by lia. cbn [bind].
  destruct (IH (wrap 32 (wrap 32 (31 * acc) + x))) as (r & E & R1 & R2). exists r. split; auto. split.
  - rewrite R1. apply wrap_congr. apply poly31_mod. rewrite wrap_mod32, Zplus_mod, wrap_mod32, <- Zplus_mod. auto.
  - intros _. destruct l as [|y l]; [|apply R2; discriminate]. cbn in E. injection E as <-. symmetry. apply (wrap_wrap 32); lia.
Qed.
