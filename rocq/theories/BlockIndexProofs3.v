(** The invariant of the block index is preserved by its growth and by the
    readers, and so holds in every reachable state. *)

From Coq Require Import ZArith List Bool Lia ZifyBool ZifyNat Znumtheory.
From Verif Require Import Base SubQueueModel BlockIndexModel BlockIndexSpec BlockIndexProofs BlockIndexProofs2.
Import ListNotations.
Open Scope Z_scope.

Lemma in_slot h p e : slot_at h p = Some e -> In e (index h).
Proof. unfold slot_at. apply nth_error_In. Qed.

Section Inv.
Variable (lb : Z).
Hypothesis (HB : 1 <= lb <= 6).
Notation B := (2 ^ lb).
Notation structs := (structs lb).
Notation cons_ok := (cons_ok lb).
Notation looks_ok := (looks_ok lb).
Notation inv := (inv lb).

(** The slots are copied in the order of the blocks. *)
Lemma copied_spec s (g : nat -> nat) : structs s -> tail_is s (nb s - 1) -> cnt (cur s) = nb s -> lo (cur s) + cap (cur s) <= nb s ->
  g = (fun x => names s (nb s - cap (cur s) + Z.of_nat x)) ->
  forall r, (1 <= r <= Z.to_nat (cap (cur s)))%nat ->
  copied r (cur s) (pos (cur s) (nb s - 1 - Z.of_nat r)) = Some (map g (seq (Z.to_nat (cap (cur s)) - r) r)).
Proof.
  intros S T D F Eg. pose proof (cur_good _ _ S) as G. destruct G. pose proof (capp _ g_pow).
  set (c := cap (cur s)) in *.
  induction r as [|r IH]; intros R; [lia|]. cbn [copied].
  assert (Ep : Z.land (uwrap 64 (pos (cur s) (nb s - 1 - Z.of_nat (Datatypes.S r)) + 1)) (uwrap 64 (cap (cur s) - 1)) = pos (cur s) (nb s - 1 - Z.of_nat r)).
  { destruct g_pow as (a & Ra & Ea). fold c. rewrite Ea, land_mask by lia. rewrite <- Ea. unfold c. rewrite pos_shift by lia. f_equal. lia. }
  rewrite Ep. replace (nb s - 1 - Z.of_nat r) with (nb s - Z.of_nat (Datatypes.S r)) by lia.
  assert (W : win (cur s) (nb s - Z.of_nat (Datatypes.S r))) by (unfold win; lia). rewrite (g_win _ W). rewrite T.
  destruct (Z.eqb_spec (pos (cur s) (nb s - Z.of_nat (Datatypes.S r))) (pos (cur s) (nb s - 1))) as [Q|Q].
  - unfold pos in Q. fold c in Q. apply mod_inj in Q; [|lia|lia]. assert (r = 0)%nat by lia. subst r. cbn. rewrite Eg.
    do 3 f_equal. lia.
  - assert (r <> 0)%nat. { intros ->. apply Q. f_equal. }
    replace (nb s - Z.of_nat (Datatypes.S r)) with (nb s - 1 - Z.of_nat r) in * by lia. rewrite IH by lia. cbn [option_map seq map].
    do 2 f_equal; [rewrite Eg; f_equal; lia|]. f_equal. f_equal. lia.
Qed.

Lemma fresh_old f ne k x : (x < ne)%nat -> fresh_ents f ne k x = f x.
Proof. intros L. unfold fresh_ents. destruct (Nat.leb_spec ne x); [lia|reflexivity]. Qed.
Lemma fresh_new f ne k x : (ne <= x < ne + k)%nat -> fresh_ents f ne k x = mkEnt INVALID Garbage.
Proof. intros L. unfold fresh_ents. destruct (Nat.leb_spec ne x); [|lia]. destruct (Nat.ltb_spec x (ne + k)); [reflexivity|lia]. Qed.

Lemma step_grow s s' : inv s -> prod s = PGrow -> istep B s PGo = Some s' -> inv s'.
Proof.
  intros I E H. pose proof I as (S & P & C & L). unfold istep in H. rewrite E in H. unfold prod_ok in P. rewrite E in P. destruct P as (T & D & F).
  pose proof S as S0. pose proof (cur_good _ _ S) as G0. pose proof G0 as G1. destruct G1. pose proof (capp _ g_pow) as C2.
  destruct (fits s) eqn:Ef; injection H as <-.
  2:{ apply refuse_inv; auto. split; [exact T|]. change (cnt (cur s) = nb s + 1 -> val (ents s (names s (nb s))) = Null). lia. }
  set (c := cap (cur s)) in *.
  assert (Nh : Nat.eqb (nh s) 0 = false) by (destruct S; destruct (Nat.eqb_spec (nh s) 0); [lia|reflexivity]).
  assert (Ec : nextcap s = 2 * c) by (destruct S; exact s_next).
  assert (Cb : c <= 2 ^ 57).
  { unfold fits in Ef. rewrite Nh in Ef. fold c in Ef. rewrite Ec in Ef. unfold bytes, PTRDIFF_MAX, uwrap in Ef.
    destruct g_pow as (a & Ra & Ea). assert (a = 58 \/ a <= 57) as [->|R] by lia.
    - rewrite Ea in Ef. vm_compute in Ef. discriminate.
    - rewrite Ea. apply Z.pow_le_mono_r; lia. }
  set (g := fun x => names s (nb s - c + Z.of_nat x)).
  assert (Co : copied (Z.to_nat c) (cur s) (tailv (cur s)) = Some (map g (seq 0 (Z.to_nat c)))).
  { pose proof (copied_spec s g S T D F eq_refl (Z.to_nat c) ltac:(fold c; lia)) as Q. fold c in Q. rewrite Nat.sub_diag in Q. rewrite T.
    rewrite <- (pos_back (cur s)) by lia. fold c. replace (nb s - 1 - c) with (nb s - 1 - Z.of_nat (Z.to_nat c)) by lia. exact Q. }
  unfold new_block_index. rewrite Nh. fold c. rewrite Co, Ec.
  destruct (Z.ltb_spec (2 * c) (c + c)) as [Q|_]; [lia|].
  rewrite map_length, seq_length.
  destruct (Z.eqb_spec (Z.of_nat (Z.to_nat c)) c) as [_|Q]; [|lia]. cbn [negb].
  assert (Et : Z.land (uwrap 64 (c - 1)) (uwrap 64 (2 * c - 1)) = c - 1).
  { destruct g_pow as (a & Ra & Ea). replace (2 * c) with (2 ^ (a + 1)) by (rewrite Z.pow_add_r by lia; rewrite <- Ea; lia).
    rewrite land_mask by lia. apply Z.mod_small. rewrite Z.pow_add_r by lia. rewrite <- Ea. lia. }
  rewrite Et.
  assert (Eu : uwrap 64 (2 * (2 * c)) = 4 * c) by (unfold uwrap; rewrite Z.mod_small; lia). rewrite Eu.
  remember (2 * c) as cc eqn:Ecc. remember (4 * c) as c4 eqn:Ec4.
  set (h' := mkHdr cc [c - 1] (map g (seq 0 (Z.to_nat c)) ++ seq (ne s) (Z.to_nat c)) (nb s - c) (nb s)).
  assert (Old : forall m, win h' m -> win (cur s) m) by (unfold win; cbn; intros; fold c; lia).
  assert (Id : forall m, win (cur s) m -> (names s m < ne s)%nat).
  { intros m W. pose proof (g_win m W) as Q. apply in_slot in Q. destruct S. now apply s_ids. }
  assert (Lold : length (map g (seq 0 (Z.to_nat c))) = Z.to_nat c) by (rewrite map_length, seq_length; reflexivity).
  assert (Snew : forall m, win h' m -> slot_at h' (pos h' m) = Some (names s m)).
  { intros m W. unfold win in W. cbn in W. unfold slot_at, pos. cbn. rewrite Z.mod_small by lia.
    rewrite nth_error_app1 by lia. rewrite nth_error_map.
    assert (Q : nth_error (seq 0 (Z.to_nat c)) (Z.to_nat (m - (nb s - c))) = Some (Z.to_nat (m - (nb s - c)))).
    { rewrite (nth_error_nth' _ 0%nat) by (rewrite seq_length; lia). rewrite seq_nth by lia. reflexivity. }
    rewrite Q. cbn. unfold g. do 2 f_equal. lia. }
  assert (Fnew : forall m, nb s <= m < nb s + c -> slot_at h' (pos h' m) = Some (ne s + Z.to_nat (m - nb s))%nat).
  { intros m M. unfold slot_at, pos. cbn. rewrite Z.mod_small by lia.
    rewrite nth_error_app2 by lia. rewrite Lold. replace (Z.to_nat (m - (nb s - c)) - Z.to_nat c)%nat with (Z.to_nat (m - nb s)) by lia.
    rewrite (nth_error_nth' _ 0%nat) by (rewrite seq_length; lia). rewrite seq_nth by lia. reflexivity. }
  split; [|split; [|split]].
  - destruct S. unfold BlockIndexProofs.structs. cbn [ents ne hdrs nh nextcap nb names pubs gone ihist]. fold h'. constructor; cbn [pred]; rewrite ?fupd_same; auto; try lia; try (cbn [cap lo cnt h']; lia).
    + intros k K. destruct (Nat.eq_dec k (nh s)) as [->|N]; [rewrite fupd_same|rewrite fupd_other by auto; apply s_good; lia].
      constructor; auto.
      * destruct g_pow as (a & Ra & Ea). exists (a + 1). fold c in Ea.
        assert (a = 58 \/ a <= 57) as [->|R] by lia; [rewrite Ea in Cb; vm_compute in Cb; now elim Cb|].
        split; [lia|]. cbn. rewrite Z.pow_add_r by lia. rewrite <- Ea. lia.
      * cbn. rewrite app_length, Lold, seq_length. lia.
      * discriminate.
      * cbn. fold c in F. lia.
      * intros n Hn Gn _. assert (W : win (cur s) n) by (apply g_use; auto; lia). unfold win in *. cbn. fold c in W. lia.
      * intros n j t Hn _ _ Ej. destruct j as [|[|j]]; try discriminate. injection Ej as <-. exists (nb s - 1). split; [cbn; lia|].
        unfold pos. cbn. rewrite Z.mod_small; lia.
    + intros k K. rewrite fupd_other by lia. destruct (Nat.eq_dec k (pred (nh s))) as [->|N].
      * change (cnt (cur s) <= nb s). lia.
      * apply s_old. lia.
    + intros m W. rewrite fresh_old by auto. apply s_key. exact (Old m W).
    + intros m M. cbn in M. eexists. split; [apply Fnew; lia|]. rewrite fresh_new by lia. reflexivity.
    + cbn. apply NoDup_nth_error. intros x y Lx Exy.
      rewrite app_length, Lold, seq_length in Lx.
      assert (Ly : (y < Z.to_nat c + Z.to_nat c)%nat).
      { assert (y < length (map g (seq 0 (Z.to_nat c)) ++ seq (ne s) (Z.to_nat c)))%nat.
        { apply nth_error_Some. rewrite <- Exy. apply nth_error_Some. rewrite app_length, Lold, seq_length. lia. }
        rewrite app_length, Lold, seq_length in H. lia. }
      assert (A : forall z, (z < Z.to_nat c)%nat -> nth_error (map g (seq 0 (Z.to_nat c)) ++ seq (ne s) (Z.to_nat c)) z = Some (names s (nb s - c + Z.of_nat z))).
      { intros z Lz. rewrite nth_error_app1 by lia. rewrite nth_error_map. rewrite (nth_error_nth' _ 0%nat) by (rewrite seq_length; lia).
        rewrite seq_nth by lia. reflexivity. }
      assert (A' : forall z, (Z.to_nat c <= z < Z.to_nat c + Z.to_nat c)%nat -> nth_error (map g (seq 0 (Z.to_nat c)) ++ seq (ne s) (Z.to_nat c)) z = Some (ne s + (z - Z.to_nat c))%nat).
      { intros z Lz. rewrite nth_error_app2 by lia. rewrite Lold. rewrite (nth_error_nth' _ 0%nat) by (rewrite seq_length; lia).
        rewrite seq_nth by lia. reflexivity. }
      assert (Wz : forall z, (z < Z.to_nat c)%nat -> win (cur s) (nb s - c + Z.of_nat z)) by (intros z Lz; unfold win; fold c; lia).
      destruct (Nat.lt_ge_cases x (Z.to_nat c)) as [X|X]; destruct (Nat.lt_ge_cases y (Z.to_nat c)) as [Y|Y].
      * rewrite !A in Exy by auto. injection Exy as Q. apply (names_inj lb s _ _ S0 (Wz x X) (Wz y Y)) in Q. lia.
      * rewrite (A x), (A' y) in Exy by lia. injection Exy as Q. pose proof (Id _ (Wz x X)). lia.
      * rewrite (A y), (A' x) in Exy by lia. injection Exy as Q. pose proof (Id _ (Wz y Y)). lia.
      * rewrite (A' x), (A' y) in Exy by lia. injection Exy as Q. lia.
    + cbn. intros e I'. apply in_app_or in I'. destruct I' as [I'|I'].
      * apply in_map_iff in I'. destruct I' as (x & <- & Ix). apply in_seq in Ix. unfold g. assert (W : win (cur s) (nb s - c + Z.of_nat x)) by (unfold win; fold c; lia).
        pose proof (Id _ W). lia.
      * apply in_seq in I'. lia.
    + intros n Hn Gn. assert (W : win (cur s) n) by (apply g_use; auto; lia). rewrite fresh_old by auto. auto.
    + intros n W Hn. rewrite fresh_old by auto. apply s_set; auto.
    + intros n Hn. specialize (s_pub n Hn). lia.
  - cbn. unfold tail_is, cur, curh. cbn. rewrite fupd_same. fold h'. repeat split; try (cbn; lia).
    unfold pos. cbn. rewrite Z.mod_small; lia.
  - intros x. apply (cons_mono lb HB s); try reflexivity; cbn; try lia; auto.
    intros k Hk. rewrite fupd_other by lia. lia.
  - exact L.
Qed.

(** ** Readers *)

Lemma cons_frame s s' c c' p :
  s' = at_c s c p \/ (exists e, s' = log (at_c s c p) e) -> c' <> c -> cons_ok s c' -> cons_ok s' c'.
Proof.
  intros H N C. unfold BlockIndexProofs.cons_ok in *.
  assert (E : cons s' c' = cons s c') by (destruct H as [->|(e & ->)]; cbn; now apply fupd_other).
  rewrite E. destruct H as [->|(e & ->)]; exact C.
Qed.

(** Steps in which a reader does not change the users of its block. *)
Lemma read_move s c p : inv s -> cons_ok (at_c s c p) c -> inv (at_c s c p).
Proof.
  intros (S & P & C & L) K. split; [exact S|]. split; [exact P|]. split; [|exact L].
  intros c'. destruct (Nat.eq_dec c' c) as [->|N]; [exact K|]. apply (cons_frame s _ c c' p); auto.
Qed.

Lemma held_at s c p c' i : held lb s c' i -> held lb (at_c s c p) c' i.
Proof. exact (fun H => H). Qed.

Lemma step_start s s' c i : inv s -> istep B s (CStart c i) = Some s' -> inv s'.
Proof.
  intros (S & P & C & L) H. unfold istep in H. destruct (cons s c) eqn:E; try discriminate.
  destruct (there s (i / B)) eqn:T; [|discriminate]. injection H as <-. unfold there in T.
  split; [exact S|]. split; [exact P|]. split; [|exact L].
  assert (Hu : forall n c', In c' (users s n) -> In c' (zfupd (users s) (i / B) (c :: users s (i / B)) n)).
  { intros n c' I. destruct (Z.eq_dec n (i / B)) as [->|N]; [rewrite zfupd_same; now right|now rewrite zfupd_other]. }
  intros c'. unfold BlockIndexProofs.cons_ok. cbn [cons set_users at_c]. destruct (Nat.eq_dec c' c) as [->|N].
  - rewrite fupd_same. unfold held. cbn. rewrite zfupd_same. split; [lia|]. split; [destruct (gone s (i / B)); [lia|reflexivity]|now left].
  - rewrite fupd_other by auto. pose proof (C c') as Cc. unfold BlockIndexProofs.cons_ok in Cc.
    assert (Hh : forall i', held lb s c' i' -> held lb (set_users (at_c s c (L1 i)) (i / B) (c :: users s (i / B))) c' i').
    { intros i' (A1 & A2 & A3). unfold held. cbn. auto. }
    destruct (cons s c'); auto.
    + destruct Cc; split; auto.
    + destruct Cc; split; auto.
    + destruct Cc; split; auto.
    + destruct Cc; split; auto.
Qed.

Lemma step_hdr s s' c h : inv s -> istep B s (CHdr c h) = Some s' -> inv s'.
Proof.
  intros I H. pose proof I as (S & P & C & L). unfold istep in H. pose proof (C c) as Cc. unfold BlockIndexProofs.cons_ok in Cc.
  destruct (cons s c) eqn:E; try discriminate.
  destruct (Nat.leb_spec (fst (pubs s (i / B))) h); [|discriminate]. destruct (Nat.ltb_spec h (nh s)); [|discriminate]. injection H as <-.
  apply read_move; auto. unfold BlockIndexProofs.cons_ok. cbn [cons at_c]. rewrite fupd_same. split; [exact Cc|]. cbn. lia.
Qed.

Lemma step_tail s s' c j : inv s -> istep B s (CTail c j) = Some s' -> inv s'.
Proof.
  intros I H. pose proof I as (S & P & C & L). unfold istep in H. pose proof (C c) as Cc. unfold BlockIndexProofs.cons_ok in Cc.
  destruct (cons s c) eqn:E; try discriminate. destruct Cc as (Hd & R).
  destruct (nth_error (tails (hdrs s h)) j) as [t|] eqn:Ej; [|discriminate].
  destruct (negb (Nat.eqb h (fst (pubs s (i / B)))) || Nat.leb (snd (pubs s (i / B))) j)%bool eqn:Q; [|discriminate]. injection H as <-.
  apply read_move; auto. unfold BlockIndexProofs.cons_ok. cbn [cons at_c]. rewrite fupd_same. split; [exact Hd|]. split; [cbn; lia|].
  destruct S. destruct (s_good h ltac:(lia)). destruct Hd as (A1 & A2 & A3).
  apply (g_tl (i / B) j t); auto; [lia|].
  intros ->. rewrite Nat.eqb_refl in Q. cbn in Q. lia.
Qed.

Lemma step_read s s' c : inv s -> istep B s (CGo c) = Some s' -> inv s'.
Proof.
  intros I H. pose proof I as (S & P & C & L). unfold istep in H. pose proof (C c) as Cc. unfold BlockIndexProofs.cons_ok in Cc.
  destruct (cons s c) eqn:E; try discriminate.
  - destruct Cc as (Hd & R & m & M & Et). pose proof Hd as (A1 & A2 & A3).
    pose proof (cur_good _ _ S) as Gc. pose proof S as S0. destruct S. pose proof (s_good h R) as Gh.
    assert (Wk : win (hdrs s h) (i / B)) by (destruct Gh; apply g_use; auto; lia).
    assert (Wm : win (hdrs s h) m) by (unfold win in *; lia).
    assert (Wc : win (cur s) (i / B)) by (destruct Gc; apply g_use; auto; unfold cur, curh; lia).
    assert (Cm : cnt (hdrs s h) <= cnt (cur s)).
    { destruct (Nat.eq_dec h (curh s)) as [->|N]; [unfold cur; lia|]. specialize (s_old h ltac:(unfold curh in *; lia)). unfold cur, curh. lia. }
    assert (Wmc : win (cur s) m) by (unfold win in *; lia).
    destruct Gh. pose proof (capp _ g_pow). rewrite Et in H. rewrite (g_win m Wm) in H. rewrite (s_key m Wmc) in H.
    destruct (Z.eqb_spec (uwrap 64 (B * m)) INVALID) as [Q|_]; [now apply pow_even in Q|].
    rewrite slot_for_spec in H; auto; [|unfold win in *; lia]. rewrite (g_win _ Wk) in H. injection H as <-.
    apply read_move; auto. unfold BlockIndexProofs.cons_ok. cbn [cons at_c]. rewrite fupd_same. split; [exact Hd|reflexivity].
  - destruct Cc as (Hd & ->). pose proof Hd as (A1 & A2 & A3). pose proof S as S0. destruct S.
    destruct (s_val (i / B) A1 A2) as (b & Ev & Eb). rewrite Ev in H. injection H as <-.
    split; [exact S0|]. split; [exact P|]. split.
    + intros c'. destruct (Nat.eq_dec c' c) as [->|N].
      * unfold BlockIndexProofs.cons_ok. cbn [cons at_c log]. rewrite fupd_same. split; [exact Hd|reflexivity].
      * eapply (cons_frame s _ c c'); eauto.
    + intros j v [Q|Q].
      * injection Q as <- <-. split; [lia|]. exists b. split; [reflexivity|]. exact Eb.
      * destruct (L j v Q) as (Z0 & b' & E1 & E2). split; [exact Z0|]. exists b'. auto.
Qed.

Lemma step_done s s' c : inv s -> istep B s (CDone c) = Some s' -> inv s'.
Proof.
  intros I H. pose proof I as (S & P & C & L). unfold istep in H. destruct (cons s c) eqn:E; try discriminate. injection H as <-.
  split; [exact S|]. split; [exact P|]. split; [|exact L].
  intros c'. unfold BlockIndexProofs.cons_ok. cbn [cons set_users at_c]. destruct (Nat.eq_dec c' c) as [->|N].
  - now rewrite fupd_same.
  - rewrite fupd_other by auto. pose proof (C c') as Cc. unfold BlockIndexProofs.cons_ok in Cc.
    assert (Hh : forall i', held lb s c' i' -> held lb (set_users (at_c s c CIdle) (i / B) (remove Nat.eq_dec c (users s (i / B)))) c' i').
    { intros i' (A1 & A2 & A3). unfold held. cbn. split; [exact A1|]. split; [exact A2|].
      destruct (Z.eq_dec (i' / B) (i / B)) as [Q|Q]; [rewrite Q in *; rewrite zfupd_same; now apply in_in_remove|now rewrite zfupd_other]. }
    destruct (cons s c'); auto.
    + destruct Cc; split; auto.
    + destruct Cc; split; auto.
    + destruct Cc; split; auto.
    + destruct Cc; split; auto.
Qed.

Lemma step_clear s s' c : inv s -> istep B s (CClear c) = Some s' -> inv s'.
Proof.
  intros I H. pose proof I as (S & P & C & L). unfold istep in H. pose proof (C c) as Cc. unfold BlockIndexProofs.cons_ok in Cc.
  destruct (cons s c) eqn:E; try discriminate. destruct Cc as (Hd & ->). pose proof Hd as (A1 & A2 & A3).
  destruct (users s (i / B)) as [|u [|u2 us]] eqn:Eu; try discriminate. destruct A3 as [->|[]]. injection H as <-.
  pose proof (cur_good _ _ S) as Gc.
  assert (Wk : win (cur s) (i / B)). { destruct Gc. apply g_use; auto. destruct S. unfold cur, curh. lia. }
  split; [|split; [|split]].
  - pose proof S as S0. destruct S. unfold BlockIndexProofs.structs. cbn. constructor; auto.
    + intros k K. destruct (s_good k K). constructor; auto. intros n Hn Gn. apply g_use; auto.
      unfold zfupd in Gn. destruct (n =? i / B); [discriminate|exact Gn].
    + intros m W. rewrite key_keep. auto.
    + intros m M. destruct (s_fresh m M) as (e & E1 & E2). exists e. rewrite key_keep. auto.
    + intros n Hn Gn. destruct (Z.eq_dec n (i / B)) as [->|N]; [rewrite zfupd_same in Gn; discriminate|]. rewrite zfupd_other in Gn by auto.
      rewrite fupd_other; [auto|]. intros Q. apply N. apply (names_inj lb s); auto. destruct Gc. apply g_use; auto. unfold cur, curh. lia.
    + intros n W Hn. destruct (Nat.eq_dec (names s n) (names s (i / B))) as [Q|Q]; [rewrite Q, fupd_same; discriminate|rewrite fupd_other; auto].
    + intros n Hn. rewrite zfupd_other by lia. auto.
  - unfold prod_ok in *. cbn. unfold tail_is, cur, curh in *. cbn. destruct (prod s); auto.
    + destruct P as (T & V). split; [exact T|]. intros D.
      destruct (Nat.eq_dec (names s (nb s)) (names s (i / B))) as [Q|Q]; [rewrite Q, fupd_same; reflexivity|rewrite fupd_other; auto].
    + destruct P as (T & V). split; [exact T|]. intros D.
      destruct (Nat.eq_dec (names s (nb s)) (names s (i / B))) as [Q|Q]; [rewrite Q, fupd_same; reflexivity|rewrite fupd_other; auto].
    + destruct P as (T & V1 & V2 & V3). repeat split; auto. destruct V3 as [V3|[V3|[V3 V4]]]; auto. right. right. split; [exact V3|].
      unfold zfupd. destruct (_ =? i / B); auto.
  - intros c'. unfold BlockIndexProofs.cons_ok. cbn [cons set_users at_c set_ent]. destruct (Nat.eq_dec c' c) as [->|N].
    + now rewrite fupd_same.
    + rewrite fupd_other by auto. pose proof (C c') as Cc. unfold BlockIndexProofs.cons_ok in Cc.
      assert (Hh : forall i', held lb s c' i' -> i' / B <> i / B).
      { intros i' (Q1 & Q2 & Q3) Q. rewrite Q, Eu in Q3. destruct Q3 as [->|[]]. now apply N. }
      destruct (cons s c'); auto.
      1: pose proof (Hh _ Cc) as Nk; destruct Cc as (Q1 & Q2 & Q3); unfold held; cbn; rewrite !zfupd_other by auto; auto.
      all: destruct Cc as (Cc & Cr); pose proof (Hh _ Cc) as Nk; destruct Cc as (Q1 & Q2 & Q3); split; [|exact Cr].
      all: unfold held; cbn; rewrite !zfupd_other by auto; auto.
  - intros j v [Q|Q]; [discriminate|]. destruct (L j v Q) as (Z0 & b' & E1 & E2). split; [exact Z0|]. exists b'. auto.
Qed.

Lemma inv_step s s' x : inv s -> istep B s x = Some s' -> inv s'.
Proof.
  intros I H. pose proof I as (S & P & C & L). destruct x.
  - unfold istep in H. unfold prod_ok in P. destruct (prod s) eqn:E; try discriminate.
    assert (Nh : Nat.eqb (nh s) 0 = false) by (destruct S; destruct (Nat.eqb_spec (nh s) 0); [lia|reflexivity]). rewrite Nh in H.
    injection H as <-. apply move; auto.
  - destruct (prod s) eqn:E; try (unfold istep in H; rewrite E in H; discriminate).
    + now apply (step_P1 lb HB s).
    + now apply (step_grow s).
    + now apply (step_P1b lb HB s).
    + now apply (step_P2 lb HB s s' e nt).
    + now apply (step_P3 lb HB s s' e nt).
    + now apply (step_P5 lb HB s s' e).
    + now apply (step_P5b lb HB s s' e).
    + now apply (step_P6 lb HB s s' e b).
  - now apply (step_stale lb HB s).
  - unfold istep in H. unfold prod_ok in P. destruct (prod s) eqn:E; try discriminate; injection H as <-.
    + apply refuse_inv; auto. destruct P as (T & D & F). split; [exact T|]. change (cnt (cur s) = nb s + 1 -> val (ents s (names s (nb s))) = Null). lia.
    + apply move; auto.
    + apply move; auto.
  - unfold istep in H. unfold prod_ok in P. destruct (prod s) eqn:E; try discriminate; injection H as <-. apply move; auto.
  - now apply (step_start s s' c i).
  - now apply (step_hdr s s' c h).
  - now apply (step_tail s s' c j).
  - now apply (step_read s s' c).
  - now apply (step_done s s' c).
  - now apply (step_clear s s' c).
Qed.

End Inv.
