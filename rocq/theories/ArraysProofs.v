(** Proofs about Arrays.sort. *)

From Coq Require Import ZArith List Lia Bool Permutation.
From Verif Require Import Base Bits TextLemmas ArraysModel ArraysSpec.
Import ListNotations.
Open Scope Z_scope.

Lemma rd_ok {A} raw (a : list A) i x : znth a i = Some x -> rd raw a i = Ok x.
Proof. intros E. unfold rd, raw_get, at_. rewrite E. destruct raw; auto. Qed.
Lemma wr_ok {A} raw (a : list A) i v : 0 <= i < zlen a -> wr raw a i v = Ok (zupd a i v).
Proof.
  intros H. unfold wr, raw_set, at_set. destruct (znth_ex a i H) as (x & ->). destruct raw; auto.
Qed.
Lemma znth_upd {A} (a : list A) i k v : 0 <= i < zlen a -> znth (zupd a i v) k = if k =? i then Some v else znth a k.
Proof. intros. rewrite znth_zupd by auto. destruct (Z.eqb_spec k i); auto. Qed.
Lemma znth_ext {A} (a b : list A) : zlen a = zlen b -> (forall i, 0 <= i < zlen a -> znth a i = znth b i) -> a = b.
Proof.
  revert b. induction a as [|x a IH]; intros [|y b] L H; auto; rewrite ?zlen_cons in L; try (change (zlen (@nil A)) with 0 in L; pose proof (zlen_nonneg a); pose proof (zlen_nonneg b); lia).
  - pose proof (zlen_nonneg b). change (zlen (@nil A)) with 0 in L. lia.
  - pose proof (zlen_nonneg a). change (zlen (@nil A)) with 0 in L. lia.
  - pose proof (zlen_nonneg a). f_equal.
    + specialize (H 0 ltac:(rewrite zlen_cons; lia)). cbn in H. congruence.
    + apply IH; [lia|]. intros i Hi. specialize (H (i + 1) ltac:(rewrite zlen_cons; lia)). unfold znth in *.
      destruct (Z.ltb_spec i 0); [lia|]. destruct (Z.ltb_spec (i + 1) 0); [lia|]. replace (Z.to_nat (i + 1)) with (S (Z.to_nat i)) in H by lia. exact H.
Qed.
Definition swap {A} (a : list A) i j x y : list A := zupd (zupd a i y) j x.
Lemma swap_len {A} (a : list A) i j x y : zlen (swap a i j x y) = zlen a.
Proof. unfold swap. rewrite !zupd_len. auto. Qed.
Lemma swap_znth {A} (a : list A) i j x y k : 0 <= i < zlen a -> 0 <= j < zlen a ->
  znth (swap a i j x y) k = if k =? j then Some x else if k =? i then Some y else znth a k.
Proof. intros. unfold swap. rewrite znth_upd by (rewrite zupd_len; auto). rewrite znth_upd by auto. auto. Qed.
Lemma swap_perm {A} (a : list A) i j x y : znth a i = Some x -> znth a j = Some y -> Permutation a (swap a i j x y).
Proof.
  intros Ei Ej. pose proof (znth_Some_lt _ _ _ Ei). pose proof (znth_Some_lt _ _ _ Ej).
  apply Permutation_nth_error. split; [pose proof (swap_len a i j x y); unfold zlen in *; lia|].
  exists (fun n => if Z.of_nat n =? j then Z.to_nat i else if Z.of_nat n =? i then Z.to_nat j else n). split.
  - intros n k. destruct (Z.eqb_spec (Z.of_nat n) j), (Z.eqb_spec (Z.of_nat k) j), (Z.eqb_spec (Z.of_nat n) i), (Z.eqb_spec (Z.of_nat k) i); lia.
  - intros n. assert (Q : forall (l : list A) n, nth_error l n = znth l (Z.of_nat n)) by (intros l n0; unfold znth; destruct (Z.ltb_spec (Z.of_nat n0) 0); [lia|]; rewrite Nat2Z.id; auto).
    rewrite !Q, swap_znth by auto. destruct (Z.eqb_spec (Z.of_nat n) j); [rewrite Z2Nat.id by lia; auto|].
    destruct (Z.eqb_spec (Z.of_nat n) i); auto. rewrite Z2Nat.id by lia. auto.
Qed.

Section S.
Context {A : Type} (m : cpp) (raw : bool) (lt : A -> A -> bool) (TO : total_order lt).
Let le x y := lt y x = false.

Lemma le_refl x : le x x.
Proof. unfold le. destruct (lt x x) eqn:E; auto. rewrite (proj1 TO _ _ E) in E. auto. Qed.
Lemma le_trans x y z : le x y -> le y z -> le x z.
Proof. apply TO. Qed.
Lemma lt_le x y : lt x y = true -> le x y.
Proof. apply TO. Qed.

Lemma scan_up_ok (a : list A) key j s : (exists v, znth a s = Some v /\ (lt v key = false \/ j < s)) ->
  forall fuel i, 0 <= i <= s -> s - i < Z.of_nat fuel -> exists i', scan_up raw lt fuel a key i j = Ok i' /\ i <= i' <= s /\ (i' <= j \/ i' = i \/ i' = j + 1) /\
  (forall p x, i <= p < i' -> znth a p = Some x -> lt x key = true) /\ (j < i' \/ exists x, znth a i' = Some x /\ lt x key = false).
Proof.
  intros (v & Ev & Hv). pose proof (znth_Some_lt _ _ _ Ev) as Hs. induction fuel as [|f IH]; intros i Hi Hf; [lia|]. cbn [scan_up].
  destruct (znth_ex a i ltac:(lia)) as (x & Ex). rewrite (rd_ok _ _ _ _ Ex). cbn [bind].
  destruct (lt x key) eqn:L; cbn [andb].
  - destruct (Z.leb_spec i j).
    + assert (i <> s) by (intros ->; rewrite Ev in Ex; injection Ex as ->; destruct Hv; [congruence|lia]).
      destruct (IH (i + 1) ltac:(lia) ltac:(lia)) as (i' & E & B & C & U & D). exists i'. split; auto. split; [lia|]. split; [lia|]. split; auto.
      intros p y Hp Ey. destruct (Z.eq_dec p i) as [->|]; [congruence|]. apply (U p); auto. lia.
    + exists i. split; auto. split; [lia|]. split; [lia|]. split; [intros; lia|left; lia].
  - exists i. split; auto. split; [lia|]. split; [lia|]. split; [intros; lia|right; eauto].
Qed.
Lemma scan_down_ok (a : list A) key i s : (exists v, znth a s = Some v /\ (lt key v = false \/ s < i)) ->
  forall fuel j, s <= j < zlen a -> j - s < Z.of_nat fuel -> exists j', scan_down raw lt fuel a key i j = Ok j' /\ s <= j' <= j /\ (i <= j' \/ j' = j \/ j' = i - 1) /\
  (forall p x, j' < p <= j -> znth a p = Some x -> lt key x = true) /\ (j' < i \/ exists x, znth a j' = Some x /\ lt key x = false).
Proof.
  intros (v & Ev & Hv). pose proof (znth_Some_lt _ _ _ Ev) as Hs. induction fuel as [|f IH]; intros j Hj Hf; [lia|]. cbn [scan_down].
  destruct (znth_ex a j ltac:(lia)) as (x & Ex). rewrite (rd_ok _ _ _ _ Ex). cbn [bind].
  destruct (lt key x) eqn:L; cbn [andb].
  - destruct (Z.leb_spec i j).
    + assert (j <> s) by (intros ->; rewrite Ev in Ex; injection Ex as ->; destruct Hv; [congruence|lia]).
      destruct (IH (j - 1) ltac:(lia) ltac:(lia)) as (j' & E & B & C & U & D). exists j'. split; auto. split; [lia|]. split; [lia|]. split; auto.
      intros p y Hp Ey. destruct (Z.eq_dec p j) as [->|]; [congruence|]. apply (U p); auto. lia.
    + exists j. split; auto. split; [lia|]. split; [lia|]. split; [intros; lia|left; lia].
  - exists j. split; auto. split; [lia|]. split; [lia|]. split; [intros; lia|right; eauto].
Qed.

(** a' is a with the cells of [l..r] rearranged. *)
Definition within (l r : Z) (a a' : list A) : Prop :=
  Permutation a a' /\ zlen a' = zlen a /\ (forall p, ~ (l <= p <= r) -> znth a' p = znth a p) /\
  (forall p, l <= p <= r -> exists p', l <= p' <= r /\ znth a' p = znth a p').
Lemma within_refl l r a : within l r a a.
Proof. repeat split; eauto. Qed.
Lemma within_trans l r a b c : within l r a b -> within l r b c -> within l r a c.
Proof.
  intros (P1 & L1 & O1 & I1) (P2 & L2 & O2 & I2). split; [eapply Permutation_trans; eauto|]. split; [lia|]. split.
  - intros p Hp. rewrite O2, O1 by auto. auto.
  - intros p Hp. destruct (I2 p Hp) as (p1 & H1 & E1). destruct (I1 p1 H1) as (p2 & H2 & E2). exists p2. split; auto. congruence.
Qed.
Lemma within_swap l r a i j x y : l <= i <= r -> l <= j <= r -> znth a i = Some x -> znth a j = Some y -> within l r a (swap a i j x y).
Proof.
  intros Hi Hj Ei Ej. pose proof (znth_Some_lt _ _ _ Ei). pose proof (znth_Some_lt _ _ _ Ej). split; [apply swap_perm; auto|]. split; [apply swap_len|].
  split; intros p Hp; rewrite swap_znth by auto; destruct (Z.eqb_spec p j), (Z.eqb_spec p i); subst; try lia; auto.
  - exists i. split; auto.
  - exists i. split; auto.
  - exists j. split; auto.
  - exists p. split; auto.
Qed.

Definition low (a : list A) key l i : Prop := forall p x, l <= p < i -> znth a p = Some x -> le x key.
Definition high (a : list A) key j r : Prop := forall p x, j < p <= r -> znth a p = Some x -> le key x.

Lemma partition_ok l r key : 0 <= l -> forall fuel a i j, r < zlen a -> l <= i -> j <= r -> i <= r + 1 -> l - 1 <= j -> j - i + 1 < Z.of_nat fuel ->
  low a key l i -> high a key j r ->
  ((exists s v, i <= s <= j /\ znth a s = Some v /\ lt v key = false /\ lt key v = false) \/ (l < i /\ j < r)) ->
  exists a' i' j', partition raw lt fuel a key i j = Ok (a', i', j') /\ within l r a a' /\ j' < i' /\ l < i' <= r + 1 /\ l - 1 <= j' < r /\
  low a' key l i' /\ high a' key j' r.
Proof.
  intros Hl. induction fuel as [|f IH]; intros a i j Hr Hi Hj Hir Hjl Hf Lo Hi' Sent; cbn [partition]; (destruct (Z.leb_spec i j); [|
    exists a, i, j; split; auto; split; [apply within_refl|]; destruct Sent as [(s & v & Hs & _)|[S1 S2]]; [lia|]; repeat split; auto; lia]); [lia|].
  assert (exists s, i <= s <= r /\ exists v, znth a s = Some v /\ (lt v key = false \/ j < s)) as (s1 & Hs1 & W1).
  { destruct Sent as [(s & v & Hs & Ev & L1 & L2)|[S1 S2]]; [exists s; split; [lia|eauto]|].
    destruct (znth_ex a (j + 1) ltac:(lia)) as (v & Ev). exists (j + 1). split; [lia|]. exists v. split; auto. right. lia. }
  destruct (scan_up_ok a key j s1 W1 (S (length a)) i ltac:(lia) ltac:(unfold zlen in *; lia)) as (i1 & -> & B1 & C1 & U1 & D1). cbn [bind].
  assert (exists s, l <= s <= j /\ exists v, znth a s = Some v /\ (lt key v = false \/ s < i1)) as (s2 & Hs2 & W2).
  { destruct Sent as [(s & v & Hs & Ev & L1 & L2)|[S1 S2]]; [exists s; split; [lia|eauto]|].
    destruct (znth_ex a (i - 1) ltac:(lia)) as (v & Ev). exists (i - 1). split; [lia|]. exists v. split; auto. right. lia. }
  destruct (scan_down_ok a key i1 s2 W2 (S (length a)) j ltac:(lia) ltac:(unfold zlen in *; lia)) as (j1 & -> & B2 & C2 & U2 & D2). cbn [bind].
  assert (Lo1 : low a key l i1). { intros p x Hp Ex. destruct (Z.lt_ge_cases p i); [apply (Lo p); auto; lia|]. apply lt_le. apply (U1 p); auto; lia. }
  assert (Hi1 : high a key j1 r). { intros p x Hp Ex. destruct (Z.le_gt_cases p j); [|apply (Hi' p); auto; lia]. apply lt_le. apply (U2 p); auto; lia. }
  destruct (Z.leb_spec i1 j1) as [Q|Q].
  - destruct D1 as [|(x & Ex & Lx)]; [lia|]. destruct D2 as [|(y & Ey & Ly)]; [lia|].
    rewrite (rd_ok _ _ _ _ Ex), (rd_ok _ _ _ _ Ey). cbn [bind]. rewrite !wr_ok by (rewrite ?zupd_len; lia). cbn [bind]. rewrite wr_ok by (rewrite ?zupd_len; lia). cbn [bind].
    fold (swap a i1 j1 x y).
    assert (LS := swap_len a i1 j1 x y). assert (ZS := swap_znth a i1 j1 x y). specialize (fun k => ZS k ltac:(lia) ltac:(lia)).
    destruct (IH (swap a i1 j1 x y) (i1 + 1) (j1 - 1)) as (a' & i' & j' & E & W & R); try lia.
    + intros p z Hp. rewrite ZS. destruct (Z.eqb_spec p j1).
      { assert (i1 = j1) by lia. subst. rewrite Ex in Ey. intros [= <-]. congruence. }
      destruct (Z.eqb_spec p i1); [intros [= <-]; auto|]. apply Lo1. lia.
    + intros p z Hp. rewrite ZS. destruct (Z.eqb_spec p j1); [intros [= <-]; auto|].
      destruct (Z.eqb_spec p i1); [lia|]. apply Hi1. lia.
    + exists a', i', j'. split; auto. split; auto. eapply within_trans; [|exact W]. apply within_swap; auto; lia.
  - destruct Sent as [(s & v & Hs & Ev & L1 & L2)|[S1 S2]].
    + exfalso. assert (i1 <= s). { destruct (Z.lt_ge_cases s i1); auto. exfalso. rewrite (U1 s v) in L1 by (auto; lia). discriminate. }
      assert (s <= j1). { destruct (Z.lt_ge_cases j1 s); auto. exfalso. rewrite (U2 s v) in L2 by (auto; lia). discriminate. } lia.
    + destruct f as [|f]; [lia|]. cbn [partition]. replace (i1 <=? j1) with false by lia. exists a, i1, j1. split; auto. split; [apply within_refl|].
      repeat split; auto; lia.
Qed.

(** ** The stack of ranges *)

Definition in_range (p q : Z) (lr : Z * Z) : Prop := fst lr <= p /\ q <= snd lr.
(** Every pair not inside one pending range is in order. *)
Definition ordered (from to : Z) (a : list A) (rs : list (Z * Z)) : Prop :=
  forall p q x y, from <= p -> p < q -> q <= to -> znth a p = Some x -> znth a q = Some y -> le x y \/ Exists (in_range p q) rs.
Fixpoint chain (from : Z) (rs : list (Z * Z)) (to : Z) : Prop :=
  match rs with [] => True | (l, r) :: t => from <= l /\ l < r <= to /\ chain (r + 1) t to end.
Fixpoint weight (rs : list (Z * Z)) : Z := match rs with [] => 0 | (l, r) :: t => 2 * (r - l) + 1 + weight t end.

Lemma weight_nonneg rs : forall from to, chain from rs to -> 0 <= weight rs.
Proof. induction rs as [|[l r] rs IH]; intros from to C; cbn [weight chain] in *; [lia|]. destruct C as (? & ? & C). apply IH in C. lia. Qed.
Lemma chain_low rs : forall from from' to, from' <= from -> chain from rs to -> chain from' rs to.
Proof. intros. destruct rs as [|[l r] rs]; cbn in *; auto. intuition lia. Qed.
Lemma chain_range rs p q : forall from to, chain from rs to -> Exists (in_range p q) rs -> from <= p.
Proof.
  induction rs as [|[l r] rs IH]; intros from to C E; [inversion E|]. cbn in C. inversion E as [? ? [E1 E2]|? ? E']; subst.
  - cbn in E1. lia.
  - destruct C as (? & ? & C). pose proof (IH _ _ C E'). lia.
Qed.

Lemma Permutation_Some a b : Permutation a b -> @zlen A a = zlen b.
Proof. intros P. unfold zlen. rewrite (Permutation_length P). auto. Qed.

Lemma sort_loop_ok from to : 0 <= from -> forall fuel a l r st, to < zlen a -> zlen a <= 2 ^ 30 ->
  from <= l -> r <= to -> l <= to + 1 -> chain (Z.max l (r + 1)) st to -> 2 * Z.max (r - l) 0 + weight st < Z.of_nat fuel -> ordered from to a ((l, r) :: st) ->
  exists a', sort_loop m raw lt fuel a l r st = Ok a' /\ within from to a a' /\ sorted_range lt a' from to.
Proof.
  intros Hfrom. induction fuel as [|f IH]; intros a l r st Ht Hz Hl Hr Hlt C Hf O; [pose proof (weight_nonneg _ _ _ C); lia|]. cbn [sort_loop].
  destruct (Z.ltb_spec l r).
  - unfold sadd. rewrite sres_ok. 2:{ unfold in_s, smin, smax. change (2 ^ (32 - 1)) with 2147483648. change (2 ^ 30) with 1073741824 in Hz. lia. }
    cbn [bind]. rewrite Z.quot_div_nonneg by lia. set (mid := (l + r) / 2). assert (Hm : l <= mid <= r /\ mid < r) by (unfold mid; Z.to_euclidean_division_equations; lia).
    destruct (znth_ex a mid ltac:(lia)) as (key & Ek). rewrite (rd_ok _ _ _ _ Ek). cbn [bind].
    destruct (partition_ok l r key ltac:(lia) (S (length a)) a l r) as (a' & i & j & -> & W & Hij & Hi & Hj & Lo & Hh); try lia.
    { unfold zlen in *. lia. } { intros p x Hp. lia. } { intros p x Hp. lia. }
    { left. exists mid, key. split; [lia|]. split; auto. split; apply le_refl. }
    cbn [bind]. destruct W as (P & L & Out & In_).
    assert (W' : within from to a a').
    { split; auto. split; auto. split; [intros p Hp; apply Out; lia|]. intros p Hp. destruct (Z_le_dec l p); [destruct (Z_le_dec p r)|].
      - destruct (In_ p ltac:(lia)) as (p' & Hp' & E). exists p'. split; auto. lia.
      - exists p. split; [lia|apply Out; lia].
      - exists p. split; [lia|apply Out; lia]. }
    assert (O' : ordered from to a' ((l, j) :: if i <? r then (i, r) :: st else st)).
    { assert (SubSt : forall p q, Exists (in_range p q) st -> Exists (in_range p q) ((l, j) :: if i <? r then (i, r) :: st else st)).
      { intros p q E. right. destruct (i <? r); auto. }
      intros p q x y Hp Hpq Hq Ex Ey.
      destruct (Z_lt_le_dec q l) as [Ql|Ql]; [|destruct (Z_lt_le_dec r p) as [Pr|Pr]; [|destruct (Z_lt_le_dec p l) as [Pl|Pl]; [|destruct (Z_lt_le_dec r q) as [Qr|Qr]]]].
      - rewrite Out in Ex, Ey by lia. destruct (O p q x y) as [?|E]; auto. inversion E as [? ? [E1 E2]|? ? E']; subst; cbn in *; [lia|auto].
      - rewrite Out in Ex, Ey by lia. destruct (O p q x y) as [?|E]; auto. inversion E as [? ? [E1 E2]|? ? E']; subst; cbn in *; [lia|auto].
      - rewrite Out in Ex by lia. destruct (Z_le_dec q r).
        + destruct (In_ q ltac:(lia)) as (q' & Hq' & E). rewrite E in Ey. destruct (O p q' x y) as [?|E']; auto; try lia.
          exfalso. inversion E' as [? ? [E1 E2]|? ? E2]; subst; cbn in *; [lia|]. pose proof (chain_range _ _ _ _ _ C E2). lia.
        + rewrite Out in Ey by lia. destruct (O p q x y) as [?|E]; auto. inversion E as [? ? [E1 E2]|? ? E']; subst; cbn in *; [lia|auto].
      - rewrite Out in Ey by lia. destruct (In_ p ltac:(lia)) as (p' & Hp' & E). rewrite E in Ex. destruct (O p' q x y) as [?|E']; auto; try lia.
        exfalso. inversion E' as [? ? [E1 E2]|? ? E2]; subst; cbn in *; [lia|]. pose proof (chain_range _ _ _ _ _ C E2). lia.
      - destruct (Z_le_dec q j); [right; left; cbn; split; cbn; lia|]. destruct (Z_lt_le_dec p i).
        + left. eapply le_trans; [apply (Lo p); auto; lia|apply (Hh q); auto; lia].
        + right. right. replace (i <? r) with true by lia. left. split; cbn; lia. }
    destruct (IH a' l j (if i <? r then (i, r) :: st else st)) as (a2 & -> & W2 & S2); auto; try lia.
    + destruct (Z.ltb_spec i r).
      * cbn [chain]. split; [lia|]. split; [lia|]. eapply chain_low; [|exact C]. lia.
      * eapply chain_low; [|exact C]. lia.
    + destruct (Z.ltb_spec i r); cbn [weight]; pose proof (weight_nonneg _ _ _ C); lia.
    + exists a2. split; auto. split; auto. eapply within_trans; eauto.
  - destruct st as [|[l2 r2] st].
    + exists a. split; auto. split; [apply within_refl|]. intros p q x y H1 H2 H3 E1 E2. destruct (O p q x y) as [?|E]; auto.
      exfalso. inversion E as [? ? [E3 E4]|? ? E']; subst; [cbn in *; lia|inversion E'].
    + cbn in C. destruct C as (C1 & C2 & C3). cbn [weight] in Hf. apply IH; auto; try lia.
      * eapply chain_low; [|exact C3]. lia.
      * intros p q x y H1 H2 H3 E1 E2. destruct (O p q x y) as [?|E]; auto. inversion E as [? ? [E3 E4]|? ? E']; subst; [cbn in *; lia|auto].
Qed.

Theorem sortOrigin_ok a from to : 0 <= from -> to < zlen a -> zlen a <= 2 ^ 30 ->
  exists a', sortOrigin m raw lt a from to = Ok a' /\ within from to a a' /\ sorted_range lt a' from to.
Proof.
  intros H1 H2 H3. unfold sortOrigin. destruct (Z_le_dec from (to + 1)).
  - apply sort_loop_ok; auto; try lia; [exact I| |].
    + cbn [weight]. pose proof (zlen_nonneg a). unfold zlen in *. lia.
    + intros p q x y Q1 Q2 Q3 _ _. right. left. split; cbn; lia.
  - exists a. split; [|split; [apply within_refl|intros p q x y; lia]].
    destruct (2 * length a + 2)%nat eqn:E; [lia|]. cbn [sort_loop]. replace (from <? to) with false by lia. auto.
Qed.
End S.
