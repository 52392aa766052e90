(** Reachable states of the block index: cleared entries, its size, and what
    a put or a look-up alone does; and the protocol of the sub-queue. *)

From Coq Require Import ZArith List Bool Lia ZifyBool ZifyNat.
From Verif Require Import Base SubQueueModel BlockIndexModel BlockIndexSpec BlockIndexProofs BlockIndexProofs2 BlockIndexProofs3.
Import ListNotations.
Open Scope Z_scope.

Section Inv.
Variables (lb a0 : Z).
Hypothesis (HB : 1 <= lb <= 6) (HA : 1 <= a0 <= 32).
Notation B := (2 ^ lb).
Notation cap0 := (2 ^ a0).
Notation structs := (structs lb).
Notation cons_ok := (cons_ok lb).
Notation inv := (inv lb).

Lemma cap0_range : 2 <= cap0 <= 2 ^ 32.
Proof. split; [change 2 with (2 ^ 1) at 1|]; apply Z.pow_le_mono_r; lia. Qed.

Lemma init_true : init cap0 true =
  mkIst (fresh_ents (fun _ => mkEnt INVALID Garbage) 0 (Z.to_nat cap0)) (Z.to_nat cap0)
        (fupd (fun _ => mkHdr 0 [] [] 0 0) 0 (mkHdr cap0 [cap0 - 1] (seq 0 (Z.to_nat cap0)) 0 0)) 1
        (2 * cap0) 0 PIdle (fun _ => CIdle) (fun _ => 0%nat) (fun _ => (0, 0)%nat) (fun _ => false) (fun _ => []) [].
Proof.
  pose proof cap0_range as R. unfold init, fits, new_block_index, nothing.
  cbn [nh Nat.eqb nextcap ne ents hdrs nb prod cons names pubs gone users ihist andb cur curh pred].
  assert (E : (bytes cap0 cap0 <=? PTRDIFF_MAX) = true).
  { unfold bytes, PTRDIFF_MAX, uwrap. rewrite Z.mod_small; lia. }
  rewrite E. destruct (Z.ltb_spec cap0 (0 + cap0)); [lia|]. cbn [length negb Z.of_nat Z.eqb app].
  replace (Z.land (uwrap 64 (0 - 1)) (uwrap 64 (cap0 - 1))) with (cap0 - 1).
  - unfold uwrap. rewrite Z.mod_small by lia. reflexivity.
  - rewrite land_mask by lia. replace (0 - 1) with (cap0 - 1 + (-1) * cap0) by lia. rewrite Z.mod_add by lia. rewrite Z.mod_small; lia.
Qed.

Lemma inv_init : inv (init cap0 true).
Proof.
  pose proof cap0_range as R. rewrite init_true. split; [|split; [|split]].
  - unfold BlockIndexProofs.structs. cbn [ents ne hdrs nh nextcap nb names pubs gone ihist blocks_put]. constructor; cbn [pred]; rewrite ?fupd_same; try (cbn; lia).
    + intros k K. assert (k = 0)%nat by lia. subst k. rewrite fupd_same. constructor; cbn; try lia; try discriminate.
      * exists a0. split; [lia|reflexivity].
      * rewrite seq_length. reflexivity.
      * intros m (W1 & W2). cbn in *. lia.
    + intros m (W1 & W2). cbn in *. lia.
    + cbn. intros m M. exists (Z.to_nat m). unfold slot_at, pos. cbn. rewrite Z.mod_small by lia. rewrite Z.sub_0_r.
      rewrite (nth_error_nth' _ 0%nat) by (rewrite seq_length; lia). rewrite seq_nth by lia. split; [reflexivity|].
      rewrite fresh_new by lia. reflexivity.
    + cbn. apply seq_NoDup.
    + cbn. intros e I. apply in_seq in I. lia.
    + intros n (W1 & W2). cbn in *. lia.
  - cbn. unfold tail_is, cur, curh. cbn. split; [|intros Q; lia]. unfold pos. cbn.
    replace (-1) with (cap0 - 1 + (-1) * cap0) by lia. rewrite Z.mod_add by lia. rewrite Z.mod_small; unfold tailv; cbn; lia.
  - intros c. exact Logic.I.
  - intros i v [].
Qed.

Lemma inv_run s l s' : inv s -> irun B s l = Some s' -> inv s'.
Proof.
  revert s. induction l as [|x l IH]; cbn; intros s I H; [now injection H as <-|].
  destruct (istep B s x) as [s1|] eqn:E; [|discriminate]. apply (IH s1); auto. now apply (inv_step lb HB s s1 x).
Qed.
Lemma reach_inv l s : irun B (init cap0 true) l = Some s -> inv s.
Proof. apply inv_run, inv_init. Qed.

(** Without an index nothing ever happens but refusals. *)
Definition barren (s : ist) : Prop := nh s = 0%nat /\ nb s = 0 /\ prod s = PIdle /\ (forall c, cons s c = CIdle) /\ (forall e, In e (ihist s) -> e = Refused).
Lemma barren_step s x s' : barren s -> istep B s x = Some s' -> barren s'.
Proof.
  intros (A1 & A2 & A3 & A4 & A5) H. destruct x; unfold istep in H; rewrite ?A3, ?A4 in H; try discriminate.
  - rewrite A1 in H. cbn in H. injection H as <-. repeat split; auto. cbn. intros e [<-|I]; auto.
  - unfold there in H. rewrite A2 in H. destruct (0 <=? i / B) eqn:E1; destruct (i / B <? 0) eqn:E2; cbn in H; try discriminate. lia.
Qed.
Lemma barren_run s l s' : barren s -> irun B s l = Some s' -> barren s'.
Proof.
  revert s. induction l as [|x l IH]; cbn; intros s I H; [now injection H as <-|].
  destruct (istep B s x) as [s1|] eqn:E; [|discriminate]. apply (IH s1); auto. now apply (barren_step s x).
Qed.
Lemma barren_init : barren (init cap0 false).
Proof. repeat split; cbn; auto. intros e []. Qed.

(** ** Cleared entries and the size of the index *)

Record inv2 (s : ist) : Prop := mkInv2 {
  j_gone : forall n, gone s n = true <-> In n (cleared (ihist s));
  j_null : forall n, win (cur s) n -> n < nb s -> gone s n = true -> val (ents s (names s n)) = Null;
  j_cap : cap (cur s) <= cap0 \/ cap (cur s) <= 2 * nb s;
  j_pub : forall n, 0 <= n < nb s -> (snd (pubs s n) < length (tails (hdrs s (fst (pubs s n)))))%nat }.

Lemma grow_facts s p : match prod (new_block_index s p) with PBad _ => True | _ => nh s <> 0%nat ->
  cur (new_block_index s p) = mkHdr (nextcap s) (tails (cur (new_block_index s p))) (index (cur (new_block_index s p))) (nb s - cap (cur s)) (nb s) end /\
  (forall x, (x < ne s)%nat -> ents (new_block_index s p) x = ents s x) /\
  nb (new_block_index s p) = nb s /\ names (new_block_index s p) = names s /\ gone (new_block_index s p) = gone s /\ ihist (new_block_index s p) = ihist s /\
  pubs (new_block_index s p) = pubs s /\ (forall h, (h < nh s)%nat -> hdrs (new_block_index s p) h = hdrs s h).
Proof.
  unfold new_block_index.
  destruct (if Nat.eqb (nh s) 0 then Some [] else copied _ _ _) as [old|]; [|cbn; auto 12].
  destruct (_ <? _); [cbn; auto 10|]. destruct (negb _); [cbn; auto 10|].
  cbn [prod ents nb names gone ihist]. split; [|repeat split; auto].
  - destruct p; auto; intros N; destruct (Nat.eqb_spec (nh s) 0); try contradiction; unfold cur, curh; cbn [hdrs nh pred]; rewrite fupd_same; reflexivity.
  - intros x L. apply fresh_old. exact L.
  - intros h Hh. cbn. apply fupd_other. lia.
Qed.

Lemma not_bad s u : inv s -> prod s <> PBad u.
Proof. intros (_ & P & _ & _) E. unfold prod_ok in P. rewrite E in P. exact P. Qed.

Lemma win_id s m : inv s -> win (cur s) m -> (names s m < ne s)%nat.
Proof.
  intros (S & _) W. pose proof (cur_good _ _ S) as G. destruct G. pose proof (g_win m W) as Q. apply in_slot in Q. destruct S. now apply s_ids.
Qed.

(** What a step does to the current header. *)
Lemma cur_set (s : ist) h p : cur (at_p (set_hdr s (curh s) h) p) = h.
Proof. unfold cur, curh. cbn. apply fupd_same. Qed.

Lemma inv2_step s x s' : inv s -> inv2 s -> istep B s x = Some s' -> inv2 s'.
Proof.
  intros I J H. pose proof (inv_step lb HB s s' x I H) as I'. pose proof I as (S & P & C & L). destruct J as [J1 J2 J3 J4].
  destruct x.
  - unfold istep in H. destruct (prod s) eqn:E; try discriminate. destruct (Nat.eqb (nh s) 0); injection H as <-; constructor; auto.
  - unfold istep in H. unfold prod_ok in P. destruct (prod s) eqn:E; try discriminate.
    + destruct (slot_at _ _); [destruct (_ =? _); [|destruct (val _)]|]; injection H as <-; constructor; auto.
    + destruct (fits s); injection H as <-; [|constructor; auto].
      destruct (grow_facts s P1b) as (F1 & F2 & F3 & F4 & F5 & F6 & F7 & F8). pose proof (not_bad (new_block_index s P1b)) as NB.
      assert (Nh : nh s <> 0%nat) by (destruct S; lia). destruct P as (T & D & F). pose proof (cur_good _ _ S) as G. pose proof (capp _ (g_pow _ _ _ _ _ _ G)).
      assert (Ec : cur (new_block_index s P1b) = mkHdr (nextcap s) (tails (cur (new_block_index s P1b))) (index (cur (new_block_index s P1b))) (nb s - cap (cur s)) (nb s)).
      { destruct (prod (new_block_index s P1b)) eqn:Ep; auto. exfalso. now apply (NB u I'). }
      assert (En : nextcap s = 2 * cap (cur s)) by (destruct S; exact s_next).
      constructor.
      * rewrite F5, F6. exact J1.
      * rewrite F3, F4, F5, Ec. intros n W Hn Gn. unfold win in W. cbn in W. rewrite En in W.
        assert (W' : win (cur s) n) by (unfold win; lia). rewrite F2 by (apply win_id; auto). auto.
      * rewrite F3, Ec. cbn [cap]. right. destruct G. lia.
      * rewrite F3, F7. intros n Hn. rewrite F8 by (destruct S; auto). auto.
    + destruct (slot_at _ _); [destruct (_ =? _)|]; injection H as <-; constructor; auto.
    + injection H as <-. destruct P as (T & -> & Sl & F). pose proof (cur_good _ _ S) as G. pose proof (capp _ (g_pow _ _ _ _ _ _ G)).
      constructor; cbn [gone ihist]; auto.
      * unfold cur, curh. cbn. fold (curh s). rewrite !fupd_same. fold (cur s). intros n W Hn Gn. unfold win in W. cbn in W.
        rewrite zfupd_other by lia.
        assert (Cn : nb s <= cnt (cur s) <= nb s + 1) by (destruct S; exact s_cnt).
        assert (W' : win (cur s) n) by (unfold win; lia).
        specialize (J2 n W' Hn Gn). destruct (Nat.eq_dec (names s n) e) as [Q|N]; [rewrite Q, fupd_same; cbn; rewrite <- Q; exact J2|rewrite fupd_other by auto; exact J2].
      * unfold cur, curh. cbn. fold (curh s). rewrite !fupd_same. cbn. exact J3.
      * cbn. intros n Hn. specialize (J4 n Hn). destruct (Nat.eq_dec (fst (pubs s n)) (curh s)) as [Q|Q]; [rewrite Q in *; rewrite fupd_same; exact J4|rewrite fupd_other; auto].
    + injection H as <-. constructor; auto; rewrite ?cur_set; auto. cbn. intros n Hn. specialize (J4 n Hn).
      destruct (Nat.eq_dec (fst (pubs s n)) (curh s)) as [Q|Q]; [rewrite Q in *; rewrite fupd_same; cbn; rewrite app_length; unfold cur; lia|rewrite fupd_other; auto].
    + injection H as <-. constructor; auto; rewrite ?cur_set; auto. cbn. intros n Hn. specialize (J4 n Hn).
      destruct (Nat.eq_dec (fst (pubs s n)) (curh s)) as [Q|Q]; [rewrite Q in *; rewrite fupd_same; cbn; rewrite app_length; unfold cur; lia|rewrite fupd_other; auto].
    + injection H as <-. constructor; auto. intros n W Hn Gn. cbn. change (win (cur s) n) in W. specialize (J2 n W Hn Gn).
      destruct (Nat.eq_dec (names s n) e) as [->|N]; [rewrite fupd_same; reflexivity|rewrite fupd_other by auto; exact J2].
    + destruct P as (T & -> & D). injection H as <-. constructor; auto.
      * intros n W Hn Gn. cbn in *. change (win (cur s) n) in W. destruct (Z.eq_dec n (nb s)) as [->|N].
        -- destruct S. rewrite s_gone in Gn by lia. discriminate.
        -- rewrite fupd_other; [apply J2; auto; lia|]. apply (pending_other_win lb); auto. lia.
      * cbn. change (cap (cur s) <= cap0 \/ cap (cur s) <= 2 * (nb s + 1)). lia.
      * cbn. intros n Hn. destruct (Z.eq_dec n (nb s)) as [->|N]; [rewrite zfupd_same; cbn|rewrite zfupd_other by auto; apply J4; lia].
        pose proof (cur_good _ _ S) as G. destruct G. fold (cur s). destruct (tails (cur s)); [contradiction|cbn; lia].
  - unfold istep in H. destruct (prod s) eqn:E; try discriminate. destruct (slot_at _ _); [destruct (_ && _)%bool|]; try discriminate; injection H as <-; constructor; auto.
  - unfold istep in H. destruct (prod s) eqn:E; try discriminate; injection H as <-; constructor; auto.
  - unfold istep in H. destruct (prod s) eqn:E; try discriminate; injection H as <-; constructor; auto.
  - unfold istep in H. destruct (cons s c) eqn:E; try discriminate. destruct (there _ _); try discriminate. injection H as <-; constructor; auto.
  - unfold istep in H. destruct (cons s c) eqn:E; try discriminate. destruct (_ && _)%bool; try discriminate. injection H as <-; constructor; auto.
  - unfold istep in H. destruct (cons s c) eqn:E; try discriminate. destruct (nth_error _ _); try discriminate. destruct (_ || _)%bool; try discriminate. injection H as <-; constructor; auto.
  - unfold istep in H. destruct (cons s c) eqn:E; try discriminate.
    + destruct (slot_at _ _); [destruct (_ =? _); [|destruct (slot_at _ _)]|]; injection H as <-; constructor; auto.
    + destruct (val _); injection H as <-; constructor; auto.
  - unfold istep in H. destruct (cons s c) eqn:E; try discriminate. injection H as <-; constructor; auto.
  - unfold istep in H. destruct (cons s c) eqn:E; try discriminate. destruct (users _ _) as [|u [|u2 us]]; try discriminate. injection H as <-. constructor; auto.
    + cbn. intros n. destruct (Z.eq_dec n (i / B)) as [->|N]; [rewrite zfupd_same; tauto|rewrite zfupd_other by auto]. rewrite J1. split; [auto|]. intros [Q|Q]; [congruence|exact Q].
    + cbn. intros n W Hn Gn. change (win (cur s) n) in W. destruct (Nat.eq_dec (names s n) e) as [->|N]; [rewrite fupd_same; reflexivity|rewrite fupd_other by auto].
      apply J2; auto. destruct (Z.eq_dec n (i / B)) as [->|Ni]; [|rewrite zfupd_other in Gn; auto].
      exfalso. pose proof (C c) as Cc. unfold BlockIndexProofs.cons_ok in Cc. rewrite E in Cc. destruct Cc as (_ & ->). now apply N.
Qed.

Lemma inv2_init : inv2 (init cap0 true).
Proof.
  rewrite init_true. constructor; cbn.
  - split; [discriminate|intros []].
  - intros n (W1 & W2). cbn in *. lia.
  - left. unfold cur, curh. cbn. lia.
  - intros n Hn. lia.
Qed.

Lemma run_ind (Q : ist -> Prop) : Q (init cap0 true) -> (forall s x s', inv s -> inv2 s -> Q s -> istep B s x = Some s' -> Q s') ->
  forall l s, irun B (init cap0 true) l = Some s -> Q s.
Proof.
  intros Q0 Qs.
  assert (A : forall l s s', inv s -> inv2 s -> Q s -> irun B s l = Some s' -> Q s').
  { induction l as [|x l IH]; cbn; intros s s' I J K H; [now injection H as <-|].
    destruct (istep B s x) as [s1|] eqn:E; [|discriminate]. apply (IH s1); eauto using inv2_step. now apply (inv_step lb HB s s1 x). }
  intros l s. apply A; auto using inv_init, inv2_init.
Qed.
Lemma reach_inv2 l s : irun B (init cap0 true) l = Some s -> inv2 s.
Proof. apply (run_ind inv2); [apply inv2_init|]. intros; eapply inv2_step; eauto. Qed.

Lemma in_use_spec s n : inv s -> inv2 s -> in_use (ihist s) n <-> 0 <= n < nb s /\ gone s n = false.
Proof.
  intros (S & _) [J _ _ _]. unfold in_use. destruct S. rewrite <- s_nb. rewrite <- J. destruct (gone s n); intuition congruence.
Qed.

End Inv.
