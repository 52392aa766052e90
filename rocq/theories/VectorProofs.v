(** Proofs about VectorModel.v. *)

From Coq Require Import ZArith List Lia Bool.
From Verif Require Import Base Bits TextLemmas StdVector ListSpec ArrayListModel ListProofs VectorModel.
Import ListNotations.
Open Scope Z_scope.

(** Sizes and capacities fit the int arithmetic; the increment is initialised and at most 2^30. *)
Definition vinv {E} (v : vector E) : Prop :=
  zlen (vdata v) <= 2 ^ 30 /\ 0 <= vcap v <= int_max /\ exists inc, vinc v = Some inc /\ int_min <= inc <= 2 ^ 30.

(** The calls whose behaviour is Java's (see the refuted theorems for the others). *)
Definition conforming {E} (m : cpp) (l : list E) (o : lop E) : Prop :=
  match o with
  | LAddAll xs => l = [] \/ xs = []
  | LAddAllAt i xs => xs <> [] \/ slot l i
  | LRemoveRange i j => 0 <= i <= j -> j <= zlen l -> i < j < zlen l
  | LIndexOfFrom _ i => i < zlen l
  | LLastIndexOf _ => l <> []
  | LLastIndexOfFrom _ i => 0 <= i
  | LRemoveAll _ | LRetainAll _ => m = HW
  | _ => True
  end.

Section P.
Context {E : Type} (E_dec : forall a b : E, {a = b} + {a <> b}) (m : cpp) (eqb : E -> E -> bool) (dv : E).
Context (Heq : forall a b, eqb a b = true <-> a = b).
Notation vec := (vector E).

Lemma w32 x : int_min <= x <= int_max -> wrap 32 x = x.
Proof using. intros H. apply wrap_id; [lia|]. unfold in_s, smin, smax, int_min, int_max in *. change (2 ^ (32 - 1)) with 2147483648. lia. Qed.
Lemma s32 x : int_min <= x <= int_max -> sres m 32 x = Ok x.
Proof using. intros H. apply sres_ok. unfold in_s, smin, smax, int_min, int_max in *. change (2 ^ (32 - 1)) with 2147483648. lia. Qed.
Lemma p30 : 2 ^ 30 = 1073741824. Proof using. reflexivity. Qed.

Lemma ensure_ok (v : vec) n : vinv v -> n <= 2 ^ 30 -> exists c, v_ensureCapacity m v n = Ok (mkV E (vdata v) c (vinc v)) /\ vcap v <= c <= int_max /\ (n <= vcap v -> c = vcap v) /\ n <= c.
Proof using.
  rewrite p30. intros (H1 & H2 & inc & Hi & H3) Hn. rewrite p30 in *. unfold int_max, int_min in *. unfold v_ensureCapacity, v_capacity. rewrite w32 by (unfold int_min, int_max; lia). rewrite Hi.
  destruct (_ && _) eqn:Q; [|exists (vcap v); split; [destruct v; cbn in *; subst; auto|lia]].
  assert (exists x, (if 0 <? inc then sadd m 32 (vcap v) inc else smul m 32 (vcap v) 2) = Ok x /\ vcap v <= x <= 2147483647) as (x & -> & Hx).
  { destruct (0 <? inc) eqn:Z0; unfold sadd, smul; rewrite s32 by (unfold int_min, int_max; lia); eexists; split; eauto; lia. }
  cbn [bind]. set (nc := if x <? n then n else x). exists (Z.max (vcap v) nc). split; [auto|]. unfold nc. destruct (x <? n) eqn:Z1; lia.
Qed.

Lemma vinv_mk l c i (v : vec) : vinv v -> vinc v = i -> vcap v <= c <= int_max -> zlen l <= 2 ^ 30 -> vinv (mkV E l c i).
Proof using. intros (H1 & H2 & inc & H3 & H4) <- Hc Hl. split; cbn; auto. split; [lia|]. exists inc. auto. Qed.
Lemma vinv_with l (v : vec) : vinv v -> zlen l <= 2 ^ 30 -> vinv (with_data v l).
Proof using. intros H Hl. unfold with_data. eapply vinv_mk; eauto. destruct H as (_ & H & _). lia. Qed.

Lemma add_ok (v : vec) x : vinv v -> zlen (vdata v) + 1 <= 2 ^ 30 -> exists v', v_add m v x = Ok (v', true) /\ vdata v' = vdata v ++ [x] /\ vinv v'.
Proof using.
  intros I H. pose proof I as (H1 & H2 & _). pose proof (zlen_nonneg (vdata v)). rewrite p30 in *. unfold v_add. rewrite w32 by (unfold int_min, int_max; lia). unfold sadd. rewrite s32 by (unfold int_min, int_max; lia). cbn [bind].
  destruct (ensure_ok v (zlen (vdata v) + 1) I) as (c & -> & Hc & _); [rewrite p30; lia|]. cbn [bind]. exists (mkV E (vdata v ++ [x]) c (vinc v)). split; [|split; [reflexivity|]].
  - f_equal. f_equal. cbn [with_data vdata]. rewrite zlen_app, zlen_cons, zlen_nil. unfold uwrap. rewrite Z.mod_small by (change (2 ^ 64) with 18446744073709551616; lia). lia.
  - cbn. eapply vinv_mk; eauto. rewrite zlen_app, zlen_cons, zlen_nil, p30. lia.
Qed.
Lemma addAt_ok (v : vec) i x : vinv v -> zlen (vdata v) + 1 <= 2 ^ 30 -> slot (vdata v) i -> exists v', v_addAt m v i x = Ok v' /\ vdata v' = insert_at i [x] (vdata v) /\ vinv v'.
Proof using.
  intros I H S. pose proof I as (H1 & H2 & _). pose proof (zlen_nonneg (vdata v)). rewrite p30 in *. unfold slot in S. unfold v_addAt. rewrite w32 by (unfold int_min, int_max; lia).
  replace ((i <? 0) || (zlen (vdata v) <? i)) with false by lia. unfold sadd. rewrite s32 by (unfold int_min, int_max; lia). cbn [bind].
  destruct (ensure_ok v (zlen (vdata v) + 1) I) as (c & -> & Hc & _); [rewrite p30; lia|]. cbn [bind vdata]. unfold vec_insert. replace ((0 <=? i) && (i <=? zlen (vdata v))) with true by lia. cbn [bind].
  eexists. split; [reflexivity|]. split; [reflexivity|]. cbn. eapply vinv_mk; eauto. rewrite p30. unfold zlen in *. rewrite app_length. cbn [length]. rewrite firstn_length, skipn_length. lia.
Qed.
Lemma addAt_bad (v : vec) i x : vinv v -> ~ slot (vdata v) i -> v_addAt m v i x = Throw IllegalArgumentException.
Proof using.
  intros I S. pose proof I as (H1 & H2 & _). pose proof (zlen_nonneg (vdata v)). rewrite p30 in *. unfold slot in S. unfold v_addAt. rewrite w32 by (unfold int_min, int_max; lia).
  replace ((i <? 0) || (zlen (vdata v) <? i)) with true by lia. auto.
Qed.
Lemma insert_at_cons i x xs (l : list E) : slot l i -> insert_at (i + 1) xs (insert_at i [x] l) = insert_at i (x :: xs) l.
Proof using.
  unfold slot, insert_at, zlen. intros H. replace (Z.to_nat (i + 1)) with (length (firstn (Z.to_nat i) l ++ [x])) by (rewrite app_length, firstn_length; cbn [length]; lia).
  replace (firstn (Z.to_nat i) l ++ [x] ++ skipn (Z.to_nat i) l) with ((firstn (Z.to_nat i) l ++ [x]) ++ skipn (Z.to_nat i) l) by (rewrite <- app_assoc; auto).
  rewrite firstn_app, Nat.sub_diag, firstn_all, firstn_O, app_nil_r. rewrite skipn_app, skipn_all, Nat.sub_diag. cbn [skipn app]. rewrite <- app_assoc. auto.
Qed.
Lemma zlen_insert_at i xs (l : list E) : slot l i -> zlen (insert_at i xs l) = zlen l + zlen xs.
Proof using. unfold slot, insert_at, zlen. intros H. rewrite !app_length, firstn_length, skipn_length. lia. Qed.
Lemma addAll_ok xs : forall (v : vec) i, vinv v -> zlen (vdata v) + zlen xs <= 2 ^ 30 -> slot (vdata v) i -> exists v', v_addAll_loop m v i xs = Ok v' /\ vdata v' = insert_at i xs (vdata v) /\ vinv v'.
Proof using.
  induction xs as [|x xs IH]; intros v i I H S; cbn [v_addAll_loop].
  - exists v. split; auto. split; auto. unfold insert_at. cbn [app]. now rewrite firstn_skipn.
  - rewrite zlen_cons in H. pose proof (zlen_nonneg xs). destruct (addAt_ok v i x I) as (v1 & E1 & D1 & I1); [lia|auto|]. rewrite E1. cbn [bind]. unfold sadd.
    pose proof (zlen_nonneg (vdata v)). pose proof S as S'. unfold slot in S'. rewrite p30 in *. rewrite s32 by (unfold int_min, int_max; lia). cbn [bind].
    destruct (IH v1 (i + 1) I1) as (v2 & E2 & D2 & I2).
    + rewrite D1, zlen_insert_at by auto. rewrite zlen_cons, zlen_nil. lia.
    + rewrite D1. unfold slot. rewrite zlen_insert_at by auto. change (zlen [x]) with 1. lia.
    + exists v2. split; auto. split; auto. rewrite D2, D1. now apply insert_at_cons.
Qed.
Lemma get_ok (v : vec) i : valid (vdata v) i -> exists x, znth (vdata v) i = Some x /\ v_get v i = Ok x.
Proof using. intros H. destruct (znth_ex (vdata v) i H) as (x & X). exists x. split; auto. unfold v_get, at_, valid in *. rewrite X. replace ((i <? 0) || (i >=? zlen (vdata v))) with false by lia. auto. Qed.
Lemma removeAt_ok (v : vec) i : valid (vdata v) i -> exists x, znth (vdata v) i = Some x /\ v_removeAt v i = Ok (with_data v (delete_at i (vdata v)), x).
Proof using.
  intros H. destruct (znth_ex (vdata v) i H) as (x & X). exists x. split; auto. unfold v_removeAt, at_, vec_erase, valid in *. rewrite X.
  replace ((i <? 0) || (i >=? zlen (vdata v))) with false by lia. replace ((0 <=? i) && (i <? zlen (vdata v))) with true by lia. reflexivity.
Qed.
Lemma zlen_delete_at i (l : list E) : valid l i -> zlen (delete_at i l) = zlen l - 1.
Proof using. intros H. apply zlen_cut. exact H. Qed.
Lemma sw Q : (forall a b, Q a b = eqb b a) -> forall a b : E, Q a b = true <-> a = b.
Proof using Heq. intros H a b. rewrite H, Heq. split; congruence. Qed.
Lemma indexOf_ok (v : vec) x lo : vinv v -> 0 <= lo <= zlen (vdata v) -> exists r, find_up (S (length (vdata v))) (raw_get (vdata v)) (fun y z => eqb z y) x lo (zlen (vdata v)) = Ok r /\ first_pos (fun p => valid (vdata v) p /\ lo <= p) x (vdata v) r.
Proof using Heq.
  intros I H. destruct (find_up_ok (fun y z => eqb z y) (sw _ (fun _ _ => eq_refl)) (raw_get (vdata v)) (vdata v) x (zlen (vdata v)) (raw_get_rd (vdata v)) (S (length (vdata v))) lo) as (r & E1 & F); [lia|unfold zlen; lia|].
  exists r. split; auto. eapply first_pos_ext; [|exact F]. unfold valid. intros; lia.
Qed.
Lemma lastIndexOf_ok (v : vec) x i : valid (vdata v) i -> exists r, v_lastIndexOfFrom eqb v x i = Ok r /\ last_pos (fun p => valid (vdata v) p /\ p <= i) x (vdata v) r.
Proof using Heq.
  intros H. unfold v_lastIndexOfFrom. unfold valid in H. replace ((i <? 0) || (i >=? zlen (vdata v))) with false by lia.
  destruct (find_down_ok (fun y z => eqb z y) (sw _ (fun _ _ => eq_refl)) (raw_get (vdata v)) (vdata v) x (zlen (vdata v)) (raw_get_rd (vdata v)) (S (length (vdata v))) i) as (r & E1 & F); [lia|lia|unfold zlen in *; lia|].
  exists r. split; auto. eapply last_pos_ext; [|exact F]. unfold valid. intros; lia.
Qed.
Lemma remove_times_ok n : forall (v : vec) i, 0 <= i -> i + Z.of_nat n <= zlen (vdata v) -> v_remove_times n v i = Ok (with_data v (cut i (i + Z.of_nat n) (vdata v))).
Proof using.
  induction n as [|n IH]; intros v i H1 H2.
  - cbn [v_remove_times]. rewrite Z.add_0_r. unfold cut. rewrite firstn_skipn. destruct v; auto.
  - cbn [v_remove_times]. destruct (removeAt_ok v i) as (x & _ & ->); [unfold valid; lia|]. cbn [bind]. rewrite IH; [|lia|cbn [with_data vdata]; rewrite zlen_delete_at by (unfold valid; lia); lia].
    f_equal. unfold with_data. cbn [vdata vcap vinc]. f_equal. unfold delete_at, cut.
    assert (L : length (firstn (Z.to_nat i) (vdata v)) = Z.to_nat i) by (rewrite firstn_length; unfold zlen in *; lia).
    rewrite firstn_app, L, Nat.sub_diag, firstn_O, app_nil_r, firstn_firstn, Nat.min_id. f_equal. rewrite skipn_app, L.
    rewrite (skipn_all2 (firstn _ _)) by lia. cbn [app]. replace (Z.to_nat (i + Z.of_nat (S n))) with (Z.to_nat (i + Z.of_nat n) - Z.to_nat i + Z.to_nat (i + 1))%nat by lia.
    clear. remember (Z.to_nat (i + 1)) as a. remember (Z.to_nat (i + Z.of_nat n) - Z.to_nat i)%nat as b. generalize (vdata v). clear. intros l.
    revert l. induction a as [|a IH]; intros l; [now rewrite Nat.add_0_r|]. rewrite Nat.add_succ_r. destruct l; cbn [skipn]; [now rewrite skipn_nil|apply IH].
Qed.
Lemma filter_loop_ok (drop : E -> bool) : forall fuel (l p : list E), (Z.of_nat fuel > zlen l - zlen p) -> (exists q, l = p ++ q) -> v_filter_loop HW fuel drop l (zlen p) = Ok (p ++ filter (fun y => negb (drop y)) (skipn (length p) l)).
Proof using.
  induction fuel as [|f IH]; intros l p H (q & ->); [rewrite zlen_app in H; pose proof (zlen_nonneg q); lia|]. cbn [v_filter_loop].
  rewrite skipn_app, skipn_all, Nat.sub_diag. cbn [skipn app]. destruct q as [|y q].
  - rewrite app_nil_r, Z.eqb_refl. cbn. now rewrite app_nil_r.
  - rewrite !zlen_app, zlen_cons in *. pose proof (zlen_nonneg q). pose proof (zlen_nonneg p). replace (negb (zlen p =? zlen p + (zlen q + 1))) with true by lia.
    assert (raw_get (p ++ y :: q) (zlen p) = Ok y) as ->. { unfold raw_get. rewrite znth_nth by lia. unfold zlen. rewrite Nat2Z.id, nth_error_app2, Nat.sub_diag by lia. auto. }
    cbn [bind]. destruct (drop y) eqn:D.
    + unfold vec_erase. rewrite zlen_app, zlen_cons. replace ((0 <=? zlen p) && (zlen p <? zlen p + (zlen q + 1))) with true by lia. cbn [bind].
      assert (firstn (Z.to_nat (zlen p)) (p ++ y :: q) ++ skipn (Z.to_nat (zlen p + 1)) (p ++ y :: q) = p ++ q) as ->.
      { unfold zlen. rewrite Nat2Z.id, firstn_app, Nat.sub_diag, firstn_all, firstn_O, app_nil_r. f_equal. replace (Z.to_nat (Z.of_nat (length p) + 1)) with (length p + 1)%nat by lia. rewrite skipn_app, skipn_all2 by lia. replace (length p + 1 - length p)%nat with 1%nat by lia. auto. }
      rewrite IH; [|rewrite zlen_app; lia|eauto]. rewrite skipn_app, skipn_all, Nat.sub_diag. cbn [filter]. rewrite D. auto.
    + replace (zlen p + 1) with (zlen (p ++ [y])) by (rewrite zlen_app, zlen_cons, zlen_nil; lia). replace (p ++ y :: q) with ((p ++ [y]) ++ q) by (rewrite <- app_assoc; auto).
      rewrite IH; [|rewrite !zlen_app, zlen_cons, zlen_nil; lia|eauto]. rewrite skipn_app, skipn_all, Nat.sub_diag. cbn [filter skipn app]. rewrite D. cbn [negb]. rewrite <- app_assoc. auto.
Qed.
Lemma filter_len_eq (f : E -> bool) l : zlen (filter f l) <= zlen l /\ (zlen (filter f l) = zlen l <-> existsb (fun x => negb (f x)) l = false).
Proof using. clear dv.
  induction l as [|x l IH]; [split; [cbn; lia|cbn; tauto]|]. cbn [filter existsb]. destruct (f x); cbn [negb orb]; rewrite !zlen_cons; [split; [lia|rewrite <- (proj2 IH); lia]|]. split; [lia|]. split; [lia|discriminate].
Qed.
Lemma memb_std l x : std_found eqb l x = memb E_dec x l.
Proof using Heq. apply memb_existsb; auto. Qed.
Lemma containsAll_ok (v : vec) xs : v_containsAll eqb v xs = forallb (fun x => memb E_dec x (vdata v)) xs.
Proof using Heq. induction xs as [|x xs IH]; cbn; auto. rewrite memb_std, IH. destruct (memb E_dec x (vdata v)); auto. Qed.
Lemma filter_call (v : vec) (drop : E -> bool) : vinv v -> exists l, v_filter_loop HW (S (length (vdata v))) drop (vdata v) 0 = Ok l /\ l = filter (fun y => negb (drop y)) (vdata v) /\
  negb (uwrap 64 (wrap 32 (zlen (vdata v))) =? zlen l) = existsb drop (vdata v) /\ zlen l <= zlen (vdata v).
Proof using.
  intros (H1 & _). rewrite p30 in H1. pose proof (filter_loop_ok drop (S (length (vdata v))) (vdata v) []) as F. rewrite zlen_nil in F. rewrite F; [|unfold zlen; lia|exists (vdata v); auto].
  cbn [length skipn app]. eexists. split; [reflexivity|]. split; auto. pose proof (zlen_nonneg (vdata v)). rewrite w32 by (unfold int_min, int_max; lia). unfold uwrap. rewrite Z.mod_small by (change (2 ^ 64) with 18446744073709551616; lia).
  pose proof (filter_len_eq (fun y => negb (drop y)) (vdata v)) as (L1 & L2). split; auto. assert (existsb (fun x => negb (negb (drop x))) (vdata v) = existsb drop (vdata v)) as X.
  { clear. induction (vdata v); cbn; auto. rewrite IHl, negb_involutive. auto. }
  rewrite X in L2. destruct (existsb drop (vdata v)); [|rewrite (proj2 L2 eq_refl); lia]. destruct (Z.eqb_spec (zlen (vdata v)) (zlen (filter (fun y => negb (drop y)) (vdata v)))); auto. assert (true = false); [|discriminate]. apply L2. auto.
Qed.
End P.
