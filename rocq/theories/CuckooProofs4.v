(** The breadth-first search for an empty slot. *)

From Coq Require Import ZArith List Lia Bool.
From Verif Require Import Base Bits CuckooModel CuckooProofs1 CuckooProofs2 CuckooProofs3.
Import ListNotations.
Open Scope Z_scope.

Definition push (a s : Z) : Z := a * 4 + s.
Definition code (r : Z) (ss : list Z) : Z := fold_left push ss r.
Lemma code_snoc r ss s : code r (ss ++ [s]) = code r ss * 4 + s.
Proof. unfold code. now rewrite fold_left_app. Qed.
Lemma code_bound ss : Forall (fun s => 0 <= s < 4) ss -> forall r, 0 <= r <= 1 -> 0 <= code r ss < 2 * 4 ^ Z.of_nat (length ss).
Proof.
  induction ss as [|s ss IH] using rev_ind; intros F r R; [cbn; lia|]. apply Forall_app in F. destruct F as [F1 F2]. inversion F2; subst.
  rewrite code_snoc, app_length. cbn [length]. specialize (IH F1 r R). rewrite Nat2Z.inj_add, Z.pow_add_r by lia. change (4 ^ Z.of_nat 1) with 4. lia.
Qed.
Lemma decode_code ss : Forall (fun s => 0 <= s < 4) ss -> forall r acc, decode (length ss) (code r ss) acc = (r, ss ++ acc).
Proof.
  induction ss as [|s ss IH] using rev_ind; intros F r acc; [reflexivity|]. apply Forall_app in F. destruct F as [F1 F2]. inversion F2; subst.
  rewrite code_snoc, app_length, Nat.add_comm. cbn [length Nat.add decode].
  replace ((code r ss * 4 + s) / 4) with (code r ss) by (rewrite Z.mul_comm, Z.add_comm, Z.mul_comm, Z.div_add by lia; rewrite Z.div_small; lia).
  replace ((code r ss * 4 + s) mod 4) with s by (rewrite Z.add_comm, Z.mod_add by lia; rewrite Z.mod_small; lia).
  rewrite IH by assumption. now rewrite <- app_assoc.
Qed.
(** How many buckets are queued up to a depth. *)
Fixpoint total (k : nat) : Z := match k with O => 2 | S k' => total k' + 2 * 4 ^ Z.of_nat (S k') end.

Section Proofs.
Context {K V : Type} (hash : K -> Z) (keq : K -> K -> bool) (simple : bool).
Notation entry := (@entry K V). Notation table := (@table K V). Notation cells := (@cells K V).
Notation view := (view hash). Notation search := (@search K V hash).
Notation wf := (wf hash). Notation same := (same hash).

Section Search.
Context (c : cells) (h i1 i2 : Z).
Definition root (r : Z) : Z := if r =? 0 then i1 else i2.
(** Following slots from bucket to bucket. *)
Fixpoint walks (b : Z) (ss : list Z) (b' : Z) : Prop :=
  match ss with [] => b = b' | s :: ss' => exists e, c b s = Some e /\ walks (alt_index h (e_part e) b) ss' b' end.
Lemma walks_app ss ss' : forall b b', walks b (ss ++ ss') b' <-> exists m, walks b ss m /\ walks m ss' b'.
Proof.
  induction ss as [|s ss IH]; intros b b'; cbn; [split; [intros W; exists b; auto|intros (m & -> & W); exact W]|].
  split.
  - intros (e & E & W). apply IH in W. destruct W as (m & W1 & W2). exists m. split; [exists e; auto|assumption].
  - intros (m & (e & E & W1) & W2). exists e. split; [assumption|]. apply IH. exists m. auto.
Qed.
Definition ok_slots (ss : list Z) : Prop := Forall (fun s => 0 <= s < 4) ss.
Definition reach (n : nat) (b : Z) : Prop := exists r ss, (r = 0 \/ r = 1) /\ length ss = n /\ ok_slots ss /\ walks (root r) ss b.
Definition full (b : Z) : Prop := forall s, 0 <= s < 4 -> c b s <> None.
Definition node (x : b_slot) : Prop := exists r ss, (r = 0 \/ r = 1) /\ b_depth x = Z.of_nat (length ss) /\ ok_slots ss /\
  b_code x = code r ss /\ walks (root r) ss (b_bucket x).

(** One bucket scanned. *)
Definition slot_at (x : b_slot) (i : Z) : Z := (b_code x mod 4 + i) mod 4.
Lemma slot_at_range x i : 0 <= slot_at x i < 4.
Proof. apply Z.mod_pos_bound. lia. Qed.
Lemma slot_at_all x s : 0 <= s < 4 -> exists i, 0 <= i < 4 /\ slot_at x i = s.
Proof.
  intros S. exists ((s - b_code x mod 4) mod 4). split; [apply Z.mod_pos_bound; lia|]. unfold slot_at.
  rewrite Z.add_mod_idemp_r by lia. replace (b_code x mod 4 + (s - b_code x mod 4)) with s by lia. apply Z.mod_small. lia.
Qed.
Definition child (x : b_slot) (s : Z) (e : entry) : b_slot := mkB (alt_index h (e_part e) (b_bucket x)) (uwrap 16 (b_code x * 4 + s)) (b_depth x + 1).
Lemma scan_spec (row : Z -> option entry) x : forall n i q last,
  match scan h row x i n q last with
  | Found y => exists s, 0 <= s < 4 /\ row s = None /\ y = mkB (b_bucket x) (uwrap 16 (b_code x * 4 + s)) (b_depth x)
  | Queued q2 last2 => (forall j, i <= j < i + Z.of_nat n -> row (slot_at x j) <> None) /\ exists ch, q2 = q ++ ch /\ last2 = last + zlen ch /\
      (b_depth x < 4 -> length ch = n /\ forall j e, i <= j < i + Z.of_nat n -> row (slot_at x j) = Some e -> In (child x (slot_at x j) e) ch) /\
      (4 <= b_depth x -> ch = []) /\
      (forall y, In y ch -> exists s e, 0 <= s < 4 /\ row s = Some e /\ y = child x s e)
  | Overfull => b_depth x < 4 /\ MAX_CUCKOO_COUNT < last + Z.of_nat n
  end.
Proof.
  induction n as [|n IH]; intros i q last; cbn [scan].
  { split; [intros; lia|]. exists []. rewrite app_nil_r. repeat split; auto; try (intros; lia); try (cbn; lia). }
  fold (slot_at x i). pose proof (slot_at_range x i) as SR. destruct (row (slot_at x i)) as [e|] eqn:E; [|exists (slot_at x i); auto].
  unfold MAX_BFS_PATH_LEN. change (5 - 1) with 4. destruct (Z.ltb_spec (b_depth x) 4).
  - destruct (Z.ltb_spec last MAX_CUCKOO_COUNT); [|split; [assumption|lia]].
    specialize (IH (i + 1) (q ++ [child x (slot_at x i) e]) (last + 1)). fold (child x (slot_at x i) e).
    destruct (scan h row x (i + 1) n (q ++ [child x (slot_at x i) e]) (last + 1)); [exact IH| |destruct IH; split; lia].
    destruct IH as (F & ch & -> & -> & C1 & C2 & C3). split.
    + intros j J. destruct (Z.eq_dec j i); [subst; congruence|apply F; lia].
    + exists (child x (slot_at x i) e :: ch). rewrite <- app_assoc. split; [reflexivity|]. split; [unfold zlen; cbn [length]; lia|]. destruct (C1 H) as [L1 L2].
      split; [|split; [intros; lia|]].
      * intros _. split; [cbn; now rewrite L1|]. intros j e' J R. destruct (Z.eq_dec j i); [subst j; left; congruence|right; apply L2; [lia|assumption]].
      * intros y [<-|Y]; [exists (slot_at x i), e; auto|apply C3; assumption].
  - specialize (IH (i + 1) q last). destruct (scan h row x (i + 1) n q last); [exact IH| |destruct IH; lia].
    destruct IH as (F & ch & -> & -> & C1 & C2 & C3). split.
    + intros j J. destruct (Z.eq_dec j i); [subst; congruence|apply F; lia].
    + exists ch. repeat split; auto; lia.
Qed.

(** What holds of the queue: [qa] is the rest of depth [k], [qb] the part of
    the next depth found so far. *)
Record bfs (qa qb : list b_slot) (k : nat) (last : Z) : Prop := {
  q_node : Forall node (qa ++ qb);
  q_a : Forall (fun x => b_depth x = Z.of_nat k) qa;
  q_b : Forall (fun x => b_depth x = Z.of_nat k + 1) qb;
  q_k : (k <= 4)%nat; q_4 : k = 4%nat -> qb = [];
  q_below : forall n b, (n < k)%nat -> reach n b -> full b;
  q_level : forall b, reach k b -> (exists x, In x qa /\ b_bucket x = b) \/
     (full b /\ ((k < 4)%nat -> forall s e, 0 <= s < 4 -> c b s = Some e -> exists x, In x qb /\ b_bucket x = alt_index h (e_part e) b));
  q_last : (k < 4)%nat -> last = total (S k) - 4 * zlen qa;
  q_len : zlen qb = last - total k }.
Lemma bfs_shift qb k last : bfs [] qb k last -> qb <> [] -> bfs qb [] (S k) last.
Proof.
  intros [N A B KK K4 BE LV LA LE] NE. assert (k < 4)%nat by (destruct (Nat.eq_dec k 4); [exfalso; auto|lia]). specialize (LA ltac:(assumption)). cbn [zlen length] in LA.
  split.
  - now rewrite app_nil_r.
  - eapply Forall_impl; [|exact B]. intros; cbv beta in *. lia.
  - constructor.
  - lia.
  - reflexivity.
  - intros n b L R. destruct (Nat.eq_dec n k); [|apply (BE n); [lia|assumption]]. subst n. destruct (LV b R) as [(x & [] & _)|[F _]]. exact F.
  - intros b (r & ss & RR & L & F & W). left.
    destruct ss as [|s ss _] using rev_ind; [discriminate|]. rewrite app_length in L. cbn in L. apply Forall_app in F. destruct F as [F1 F2].
    apply walks_app in W. destruct W as (m & W1 & W2). cbn in W2. destruct W2 as (e & E & <-). inversion F2; subst.
    destruct (LV m) as [(x & [] & _)|[_ CH]]; [exists r, ss; repeat split; auto; lia|]. apply (CH ltac:(lia) s e); assumption.
  - intros _. rewrite LA in LE. unfold zlen in *. cbn [length] in *. rewrite LE, LA. cbn [total]. rewrite (Nat2Z.inj_succ (S k)), Z.pow_succ_r by lia. lia.
  - unfold zlen in *. cbn [length] in *. lia.
Qed.

Context (C : 0 <= h) (RI1 : 0 <= i1 < 2 ^ h) (RI2 : 0 <= i2 < 2 ^ h).
Lemma walks_range ss : forall b b', 0 <= b < 2 ^ h -> walks b ss b' -> 0 <= b' < 2 ^ h.
Proof. induction ss as [|s ss IH]; intros b b' B W; cbn in W; [congruence|]. destruct W as (e & _ & W). apply (IH _ _ (alt_range h (e_part e) b C) W). Qed.
Lemma root_range r : 0 <= root r < 2 ^ h.
Proof. unfold root. destruct (r =? 0); assumption. Qed.
Lemma node_range x : node x -> 0 <= b_bucket x < 2 ^ h.
Proof. intros (r & ss & _ & _ & _ & _ & W). exact (walks_range ss _ _ (root_range r) W). Qed.
Lemma node_code x : node x -> b_depth x <= 4 -> forall s, 0 <= s < 4 -> uwrap 16 (b_code x * 4 + s) = b_code x * 4 + s.
Proof.
  intros (r & ss & R & D & F & E & _) L s S. pose proof (code_bound ss F r ltac:(lia)) as B. rewrite <- E in B.
  assert (4 ^ Z.of_nat (length ss) <= 4 ^ 4) by (apply Z.pow_le_mono_r; lia). change (4 ^ 4) with 256 in *.
  unfold uwrap. change (2 ^ 16) with 65536. apply Z.mod_small. lia.
Qed.
Lemma node_child x s e : node x -> b_depth x < 4 -> 0 <= s < 4 -> c (b_bucket x) s = Some e -> node (child x s e).
Proof.
  intros N L S E. pose proof (node_code x N ltac:(lia) s S) as W. destruct N as (r & ss & R & D & F & Cd & Wk).
  exists r, (ss ++ [s]). unfold child. cbn. rewrite W, app_length, code_snoc, <- Cd. repeat split; auto.
  - cbn. lia. - apply Forall_app. split; [assumption|]. constructor; auto. - apply walks_app. exists (b_bucket x). split; [assumption|]. cbn. exists e. auto.
Qed.

(** The result: no slot within four displacements, or the nearest one. *)
Definition nearest (y : b_slot) : Prop :=
  (b_depth y = -1 /\ forall n b, (n <= 4)%nat -> reach n b -> full b) \/
  (exists r ss s b, (r = 0 \/ r = 1) /\ (length ss <= 4)%nat /\ b_depth y = Z.of_nat (length ss) /\ ok_slots (ss ++ [s]) /\ b_code y = code r (ss ++ [s]) /\
     walks (root r) ss b /\ c b s = None /\ forall n b', (n < length ss)%nat -> reach n b' -> full b').
Lemma search_ok : forall fuel qa qb k last t, wf t -> hp t = h -> (forall i s, view t i s = c i s) -> bfs qa qb k last ->
  683 - (last - zlen qa - zlen qb) <= Z.of_nat fuel ->
  exists t' y, search fuel (qa ++ qb) last t = Done t' y /\ wf t' /\ same t t' /\ nearest y.
Proof.
  induction fuel as [|f IH]; intros qa qb k last t W HT VT Q FU.
  { exfalso. destruct Q as [_ _ _ KK K4 _ _ LA LE]. pose proof (zlen_nonneg qa). pose proof (zlen_nonneg qb).
    assert (T : forall j, (j <= 4)%nat -> total j <= 682) by (intros [|[|[|[|[|j]]]]] J; vm_compute; first [discriminate|lia]).
    assert (last <= 682); [|lia]. destruct (Nat.eq_dec k 4) as [->|NK]; [rewrite (K4 eq_refl) in LE; unfold zlen in LE; cbn [length] in LE; specialize (T 4%nat ltac:(lia)); lia|specialize (LA ltac:(lia)); specialize (T (S k) ltac:(lia)); lia]. }
  assert (STEP : forall qa qb k last, bfs qa qb k last -> 683 - (last - zlen qa - zlen qb) <= Z.of_nat (S f) -> qa <> [] ->
     exists t' y, search (S f) (qa ++ qb) last t = Done t' y /\ wf t' /\ same t t' /\ nearest y).
  { clear qa qb k last Q FU. intros [|x qa] qb k last Q FU NE; [contradiction|]. cbn [app CuckooModel.search].
    destruct Q as [N A B KK K4 BE LV LA LE]. cbn [app] in N. inversion N as [|? ? NX N']; subst. inversion A as [|? ? DX A']; subst.
    pose proof (node_range x NX) as RX.
    destruct (lock_one_ok hash (b_bucket x) t W ltac:(rewrite HT; assumption)) as (t1 & E1 & W1 & S1 & M1).
    rewrite E1. cbn [rbind]. rewrite (s_hp _ _ _ S1), HT.
    assert (ROW : forall s, cell t1 (b_bucket x) s = c (b_bucket x) s).
    { intros s. rewrite <- VT, <- (s_view _ _ _ S1). symmetry. apply view_cell; [rewrite (s_hp _ _ _ S1), HT; assumption|assumption]. }
    pose proof (scan_spec (cell t1 (b_bucket x)) x slots 0 (qa ++ qb) last) as SC.
    destruct (scan h (cell t1 (b_bucket x)) x 0 slots (qa ++ qb) last) as [y|q2 last2|].
    - exists t1, y. split; [reflexivity|]. split; [assumption|]. split; [assumption|]. right. destruct SC as (s & S & RN & ->).
      pose proof (node_code x NX ltac:(lia) s S) as WC. destruct NX as (r & ss & R & D & F & Cd & Wk). exists r, ss, s, (b_bucket x). cbn. rewrite WC, code_snoc, <- Cd.
      split; [assumption|]. split; [lia|]. split; [assumption|]. split; [apply Forall_app; split; [assumption|constructor; auto]|]. split; [reflexivity|]. split; [assumption|].
      split; [now rewrite <- ROW|]. intros n b' L Re. apply (BE n); [lia|assumption].
    - destruct SC as (F & ch & -> & -> & C1 & C2 & C3).
      assert (FX : full (b_bucket x)). { intros s S. destruct (slot_at_all x s S) as (j & J & <-). rewrite <- ROW. apply F. unfold slots. lia. }
      rewrite <- app_assoc. destruct (IH qa (qb ++ ch) k (last + zlen ch) t1) as (t' & y & E & W' & S' & NY).
      + assumption. + now rewrite (s_hp _ _ _ S1). + intros. now rewrite (s_view _ _ _ S1).
      + assert (CASES : (k < 4)%nat \/ k = 4%nat) by lia. split.
        * rewrite app_assoc. apply Forall_app. split; [assumption|]. apply Forall_forall. intros y Y. destruct (C3 y Y) as (s & e & S & RS & ->).
          apply node_child; try assumption; [|now rewrite <- ROW]. destruct CASES; [lia|]. exfalso. rewrite C2 in Y by lia. destruct Y.
        * assumption.
        * apply Forall_app. split; [assumption|]. apply Forall_forall. intros y Y. destruct (C3 y Y) as (s & e & S & RS & ->). cbn. lia.
        * assumption.
        * intros ->. rewrite K4 by reflexivity. rewrite C2 by lia. reflexivity.
        * assumption.
        * intros b Re. destruct (LV b Re) as [(x' & [->|X'] & BX)|[FB CH]].
          -- right. subst b. split; [assumption|]. intros KL s e S E. destruct (C1 ltac:(lia)) as [_ IN]. destruct (slot_at_all x' s S) as (j & J & JS).
             exists (child x' s e). split; [|reflexivity]. apply in_or_app. right. rewrite <- JS. apply IN; [unfold slots; lia|]. rewrite ROW, JS. assumption.
          -- left. exists x'. auto.
          -- right. split; [assumption|]. intros KL s e S E. destruct (CH KL s e S E) as (x' & X' & BX). exists x'. split; [apply in_or_app; auto|assumption].
        * intros KL. specialize (LA KL). destruct (C1 ltac:(lia)) as [LC _]. unfold slots in LC. unfold zlen in *. rewrite LC. cbn [length] in LA. lia.
        * rewrite zlen_app. lia.
      + rewrite zlen_app. unfold zlen in *. cbn [length] in FU. lia.
      + exists t', y. split; [exact E|]. split; [assumption|]. split; [eapply same_trans; eassumption|assumption].
    - exfalso. destruct SC as [SD SC]. unfold slots, MAX_CUCKOO_COUNT in SC. assert (KL : (k < 4)%nat) by lia. specialize (LA KL).
      assert (total (S k) <= 682) by (destruct k as [|[|[|[|k]]]]; [| | | |lia]; vm_compute; discriminate). unfold zlen in *. cbn [length] in LA. lia. }
  destruct qa as [|x qa]; [|apply (STEP _ _ k); [assumption|assumption|discriminate]].
  destruct qb as [|x qb].
  - cbn [app CuckooModel.search]. exists t, (mkB 0 0 (-1)). split; [reflexivity|]. split; [assumption|]. split; [apply same_refl|]. left. split; [reflexivity|].
    destruct Q as [N A B KK K4 BE LV LA LE]. assert (k = 4%nat).
    { destruct (Nat.eq_dec k 4); [assumption|]. exfalso. specialize (LA ltac:(lia)). unfold zlen in *. cbn [length] in *. cbn [total] in LA.
      assert (0 < 4 ^ Z.of_nat (S k)) by (apply Z.pow_pos_nonneg; lia). lia. }
    subst k. intros n b L Re. destruct (Nat.eq_dec n 4); [|apply (BE n); [lia|assumption]]. subst n. destruct (LV b Re) as [(x & [] & _)|[F _]]. exact F.
  - cbn [app]. rewrite <- (app_nil_r (x :: qb)). apply (STEP (x :: qb) [] (S k) last); [apply bfs_shift; [assumption|discriminate]| |discriminate].
    unfold zlen in *. cbn [length] in *. lia.
Qed.
Lemma slot_search_ok t : wf t -> hp t = h -> (forall i s, view t i s = c i s) ->
  exists t' y, slot_search hash i1 i2 t = Done t' y /\ wf t' /\ same t t' /\ nearest y.
Proof.
  intros W HT VT. unfold slot_search.
  assert (B : bfs [mkB i1 0 0; mkB i2 1 0] [] 0 2).
  { assert (N1 : node (mkB i1 0 0)) by (exists 0, []; repeat split; auto; constructor).
    assert (N2 : node (mkB i2 1 0)) by (exists 1, []; repeat split; auto; constructor).
    split.
    - cbn [app]. auto.
    - auto.
    - auto.
    - lia.
    - reflexivity.
    - intros; lia.
    - intros b (r & ss & R & L & _ & Wk). left. destruct ss; [|discriminate]. cbn in Wk. subst b. unfold root.
      destruct R as [-> | ->]; [exists (mkB i1 0 0)|exists (mkB i2 1 0)]; (split; [cbn; auto|reflexivity]).
    - reflexivity.
    - reflexivity. }
  rewrite <- (app_nil_r [mkB i1 0 0; mkB i2 1 0]). apply (search_ok _ _ _ 0 2); [assumption|assumption|assumption|exact B|].
  change (Z.of_nat (S (Z.to_nat MAX_CUCKOO_COUNT))) with 683. cbn. lia.
Qed.
End Search.
End Proofs.
