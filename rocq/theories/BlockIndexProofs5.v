(** What a put or a look-up does by itself, when the index grows, and the use
    that the sub-queue makes of it. *)

From Coq Require Import ZArith List Bool Lia ZifyBool ZifyNat.
From Verif Require Import Base Bits SubQueueModel BlockIndexModel BlockIndexSpec BlockIndexProofs BlockIndexProofs2 BlockIndexProofs3 BlockIndexProofs4.
From Verif Require SubQueueProofs SubQueueProofs2 SubQueueProofs3.
Import ListNotations.
Open Scope Z_scope.

Section Inv.
Variables (lb a0 : Z).
Hypothesis (HB : 1 <= lb <= 6) (HA : 1 <= a0 <= 32).
Notation B := (2 ^ lb).
Notation cap0 := (2 ^ a0).
Notation structs := (structs lb).
Notation cons_ok := (cons_ok lb).
Notation inv := (inv lb).
Notation inv2 := (inv2 a0).

Lemma slots_cap s : inv s -> slots s = cap (cur s).
Proof. intros (S & _). pose proof (cur_good _ _ S) as G. destruct G. pose proof (capp _ g_pow). unfold slots. lia. Qed.

Lemma run_app s l1 l2 : irun B s (l1 ++ l2) = match irun B s l1 with Some s1 => irun B s1 l2 | None => None end.
Proof. revert s. induction l1 as [|x l1 IH]; cbn; intros s; [reflexivity|]. destruct (istep B s x); [apply IH|reflexivity]. Qed.

(** ** A put by itself *)

Definition kept (s s' : ist) : Prop := cons s' = cons s /\ users s' = users s /\ gone s' = gone s.

Lemma finish s e nt b : prod s = P2 e nt -> exists s', irun B s [PGo; PGo; PBlock b; PGo] = Some s' /\
  ihist s' = Put b :: ihist s /\ prod s' = PIdle /\ nb s' = nb s + 1 /\ kept s s'.
Proof.
  intros E. cbn [irun istep]. rewrite E. cbn [prod at_p]. cbn [prod]. eexists. split; [reflexivity|]. cbn. repeat split.
Qed.

Lemma put_alone s b : inv s -> inv2 s -> prod s = PIdle -> nb s < 2 ^ 56 -> exists l s', (length l <= 8)%nat /\
  (forall x, In x l -> x = CPut \/ x = PGo \/ x = PBlock b) /\ irun B s l = Some s' /\
  ihist s' = Put b :: ihist s /\ prod s' = PIdle /\ nb s' = nb s + 1 /\ kept s s'.
Proof.
  intros I J E Nb. pose proof I as (S & P & C & L). destruct J as [_ _ Jc _].
  assert (Nh : Nat.eqb (nh s) 0 = false) by (destruct S; destruct (Nat.eqb_spec (nh s) 0); [lia|reflexivity]).
  pose proof (cap0_range a0 HA) as R0.
  set (s1 := at_p s P1).
  assert (E1 : istep B s CPut = Some s1) by (unfold istep; rewrite E, Nh; reflexivity).
  pose proof (inv_step lb HB s s1 CPut I E1) as I1.
  assert (E2 : exists s2, istep B s1 PGo = Some s2) by (unfold istep; change (prod s1) with P1; eauto). destruct E2 as (s2 & E2).
  pose proof (inv_step lb HB s1 s2 PGo I1 E2) as I2.
  assert (D : (exists e nt, s2 = at_p s1 (P2 e nt)) \/ s2 = at_p s1 PGrow).
  { pose proof I2 as (_ & P2' & _). unfold istep in E2. change (prod s1) with P1 in E2. cbv iota in E2. clear I2.
    destruct (slot_at (cur s1) (turn (cur s1) 1)) as [e|]; [|injection E2 as <-; elim P2']. destruct (key (ents s1 e) =? INVALID); [injection E2 as <-; eauto|].
    destruct (val (ents s1 e)); injection E2 as <-; [elim P2'|eauto|auto]. }
  destruct D as [(e & nt & ->)| ->].
  - destruct (finish (at_p s1 (P2 e nt)) e nt b eq_refl) as (s' & F1 & F2 & F3 & F4 & F5).
    exists (CPut :: PGo :: [PGo; PGo; PBlock b; PGo]), s'. split; [cbn; lia|]. split; [cbn; intuition auto|]. split; [|split; [exact F2|split; [exact F3|split; [exact F4|exact F5]]]].
    cbn [irun]. rewrite E1, E2. exact F1.
  - set (s3 := new_block_index (at_p s1 PGrow) P1b).
    assert (E3 : istep B (at_p s1 PGrow) PGo = Some s3).
    { unfold istep. cbn [prod at_p]. assert (F : fits (at_p s1 PGrow) = true); [|now rewrite F].
      unfold fits. change (nh (at_p s1 PGrow)) with (nh s). rewrite Nh. change (cap (cur (at_p s1 PGrow))) with (cap (cur s)). change (nextcap (at_p s1 PGrow)) with (nextcap s).
      assert (En : nextcap s = 2 * cap (cur s)) by (destruct S; exact s_next). rewrite En.
      pose proof (cur_good _ _ S) as G. pose proof (capp _ (g_pow _ _ _ _ _ _ G)).
      unfold bytes, PTRDIFF_MAX, uwrap. rewrite Z.mod_small; lia. }
    pose proof (inv_step lb HB _ s3 PGo I2 E3) as I3.
    destruct (grow_facts (at_p s1 PGrow) P1b) as (_ & _ & F3 & _ & F5 & F6 & _). fold s3 in F3, F5, F6.
    assert (K : prod s3 = P1b /\ cons s3 = cons s /\ users s3 = users s).
    { pose proof (not_bad lb s3) as NB. unfold s3, new_block_index in *. clear E3.
      destruct (if Nat.eqb _ _ then _ else _) as [old|]; [|exfalso; now apply (NB OutOfBounds)].
      destruct (_ <? _); [exfalso; now apply (NB OutOfBounds)|]. destruct (negb _); [exfalso; now apply (NB Precondition)|]. cbn. auto. }
    destruct K as (K1 & K2 & K3).
    assert (E4 : exists s4, istep B s3 PGo = Some s4) by (unfold istep; rewrite K1; eauto). destruct E4 as (s4 & E4).
    pose proof (inv_step lb HB s3 s4 PGo I3 E4) as I4.
    assert (D : exists e nt, s4 = at_p s3 (P2 e nt)).
    { pose proof I4 as (_ & P2' & _). unfold istep in E4. rewrite K1 in E4. cbv iota in E4. clear I4.
      destruct (slot_at (cur s3) (turn (cur s3) 1)) as [e|]; [|injection E4 as <-; elim P2']. destruct (key (ents s3 e) =? INVALID); injection E4 as <-; [eauto|elim P2']. }
    destruct D as (e & nt & ->).
    destruct (finish (at_p s3 (P2 e nt)) e nt b eq_refl) as (s' & G2 & G3 & G4 & G5 & G6).
    exists (CPut :: PGo :: PGo :: PGo :: [PGo; PGo; PBlock b; PGo]), s'. split; [cbn; lia|]. split; [cbn; intuition auto|].
    split; [cbn [irun]; rewrite E1, E2, E3, E4; exact G2|]. cbn in G3. rewrite F6 in G3. cbn in G5. rewrite F3 in G5. split; [exact G3|]. split; [exact G4|]. split; [exact G5|].
    destruct G6 as (Q1 & Q2 & Q3). unfold kept. cbn in *. rewrite Q1, Q2, Q3, K2, K3, F5. auto.
Qed.

(** ** A look-up by itself *)

Lemma look_alone s c i : inv s -> inv2 s -> cons s c = CIdle -> in_use (ihist s) (i / B) -> exists b s',
  irun B s [CStart c i; CHdr c (curh s); CTail c (pred (length (tails (cur s)))); CGo c; CGo c] = Some s' /\
  ihist s' = Look i (Ptr b) :: ihist s /\ nth_error (blocks_put (ihist s)) (Z.to_nat (i / B)) = Some b /\
  prod s' = prod s /\ nb s' = nb s /\ gone s' = gone s /\ users s' = zfupd (users s) (i / B) (c :: users s (i / B)) /\
  (exists e, cons s' = fupd (fupd (fupd (fupd (fupd (cons s) c (L1 i)) c (L2 i (curh s))) c (L3 i (curh s) (tailv (cur s)))) c (L4 i e)) c (L5 i e)).
Proof.
  intros I J E U. apply (in_use_spec lb a0 HB HA s (i / B) I J) in U. destruct U as (U1 & U2).
  pose proof I as (S & _). pose proof (cur_good _ _ S) as G.
  set (s1 := set_users (at_c s c (L1 i)) (i / B) (c :: users s (i / B))).
  assert (E1 : istep B s (CStart c i) = Some s1).
  { unfold istep. rewrite E. assert (T : there s (i / B) = true) by (unfold there; rewrite U2; lia). now rewrite T. }
  pose proof (inv_step lb HB s s1 _ I E1) as I1.
  set (s2 := at_c s1 c (L2 i (curh s))).
  assert (E2 : istep B s1 (CHdr c (curh s)) = Some s2).
  { unfold istep. change (cons s1 c) with (fupd (cons s) c (L1 i) c). rewrite fupd_same. change (pubs s1) with (pubs s). change (nh s1) with (nh s).
    assert (T : (Nat.leb (fst (pubs s (i / B))) (curh s) && Nat.ltb (curh s) (nh s))%bool = true).
    { destruct S. pose proof (s_pub _ U1). unfold curh. apply andb_true_intro. split; [apply Nat.leb_le|apply Nat.ltb_lt]; lia. }
    now rewrite T. }
  pose proof (inv_step lb HB s1 s2 _ I1 E2) as I2.
  set (s3 := at_c s2 c (L3 i (curh s) (tailv (cur s)))).
  assert (E3 : istep B s2 (CTail c (pred (length (tails (cur s))))) = Some s3).
  { unfold istep. change (cons s2 c) with (fupd (cons s1) c (L2 i (curh s)) c). rewrite fupd_same. change (pubs s2) with (pubs s). change (hdrs s2 (curh s)) with (cur s).
    destruct G. rewrite (last_nth _ 0 g_tls). fold (tailv (cur s)).
    assert (T : (negb (Nat.eqb (curh s) (fst (pubs s (i / B)))) || Nat.leb (snd (pubs s (i / B))) (pred (length (tails (cur s)))))%bool = true); [|now rewrite T].
    destruct (Nat.eqb_spec (curh s) (fst (pubs s (i / B)))) as [Q|Q]; [|reflexivity]. cbn.
    apply Nat.leb_le. destruct (Nat.le_gt_cases (snd (pubs s (i / B))) (pred (length (tails (cur s))))) as [|Hn]; [assumption|exfalso].
    destruct J as [_ _ _ J4]. specialize (J4 _ U1). rewrite <- Q in J4. fold (cur s) in J4. lia. }
  pose proof (inv_step lb HB s2 s3 _ I2 E3) as I3.
  assert (E4 : exists e, istep B s3 (CGo c) = Some (at_c s3 c (L4 i e))).
  { assert (Ex : exists s4, istep B s3 (CGo c) = Some s4).
    { unfold istep. change (cons s3 c) with (fupd (cons s2) c (L3 i (curh s) (tailv (cur s))) c). rewrite fupd_same. eauto. }
    destruct Ex as (s4 & E4). pose proof (inv_step lb HB s3 s4 _ I3 E4) as (_ & _ & C4 & _). specialize (C4 c).
    rewrite E4. unfold istep in E4. change (cons s3 c) with (fupd (cons s2) c (L3 i (curh s) (tailv (cur s))) c) in E4. rewrite fupd_same in E4.
    injection E4 as E4. rewrite <- E4. rewrite <- E4 in C4. clear E4. unfold BlockIndexProofs.cons_ok in C4.
    destruct (slot_at _ _) as [e0|]; [|cbn [cons at_c] in C4; rewrite fupd_same in C4; contradiction].
    destruct (_ =? _); [cbn [cons at_c] in C4; rewrite fupd_same in C4; contradiction|].
    destruct (slot_at _ _) as [e|]; [eauto|cbn [cons at_c] in C4; rewrite fupd_same in C4; contradiction]. }
  destruct E4 as (e & E4). pose proof (inv_step lb HB s3 _ _ I3 E4) as I4. set (s4 := at_c s3 c (L4 i e)) in *.
  assert (Cs4 : cons s4 c = L4 i e) by (change (cons s4 c) with (fupd (cons s3) c (L4 i e) c); apply fupd_same).
  pose proof I4 as (S4 & _ & C4 & _). specialize (C4 c). unfold BlockIndexProofs.cons_ok in C4. rewrite Cs4 in C4. destruct C4 as (Hd & Ee).
  destruct S4. destruct (s_val (i / B) (proj1 Hd) (proj1 (proj2 Hd))) as (b & Ev & Eb). change (names s4) with (names s) in *. change (ents s4) with (ents s) in *.
  exists b, (log (at_c s4 c (L5 i e)) (Look i (Ptr b))). split.
  - cbn [irun]. rewrite E1, E2, E3, E4. unfold istep at 1. rewrite Cs4. change (ents s4) with (ents s). rewrite Ee, Ev. reflexivity.
  - split; [reflexivity|]. split; [exact Eb|]. repeat split; try reflexivity. exists e. reflexivity.
Qed.

(** ** Refusals *)

Definition pending (p : ppc) : nat := match p with P5 _ | P5b _ => 1 | _ => 0 end.
Lemma refusal_step s x s' : inv s -> inv2 s -> nb s < 2 ^ 56 -> istep B s x = Some s' ->
  (refusals (ihist s') + pending (prod s') <= refusals (ihist s) + pending (prod s) + (match x with PFail => 1 | _ => 0 end))%nat.
Proof.
  intros I J Nb H. pose proof I as (S & P & C & L). pose proof (inv_step lb HB s s' x I H) as I'.
  assert (Nh : Nat.eqb (nh s) 0 = false) by (destruct S; destruct (Nat.eqb_spec (nh s) 0); [lia|reflexivity]).
  destruct x; unfold istep in H.
  - rewrite Nh in H. destruct (prod s) eqn:E; try discriminate. injection H as <-. cbn. lia.
  - destruct (prod s) eqn:E; try discriminate.
    + destruct (slot_at _ _); [destruct (_ =? _); [|destruct (val _)]|]; injection H as <-; cbn; lia.
    + assert (F : fits s = true).
      { destruct J as [_ _ Jc _]. unfold fits. rewrite Nh. assert (En : nextcap s = 2 * cap (cur s)) by (destruct S; exact s_next). rewrite En.
        pose proof (cur_good _ _ S) as G. pose proof (capp _ (g_pow _ _ _ _ _ _ G)). pose proof (cap0_range a0 HA).
        unfold bytes, PTRDIFF_MAX, uwrap. rewrite Z.mod_small; lia. }
      rewrite F in H. injection H as <-. destruct (grow_facts s P1b) as (_ & _ & _ & _ & _ & F6 & _). rewrite F6.
      assert (K : (pending (prod (new_block_index s P1b)) = 0)%nat).
      { unfold new_block_index. destruct (if Nat.eqb _ _ then _ else _); [|reflexivity]. destruct (_ <? _); [reflexivity|]. destruct (negb _); reflexivity. }
      rewrite K. cbn. lia.
    + destruct (slot_at _ _); [destruct (_ =? _)|]; injection H as <-; cbn; lia.
    + injection H as <-. cbn. lia.
    + injection H as <-. cbn. lia.
    + injection H as <-. cbn. lia.
    + injection H as <-. cbn. lia.
    + injection H as <-. cbn. lia.
  - destruct (prod s) eqn:E; try discriminate. destruct (slot_at _ _); [destruct (_ && _)%bool|]; try discriminate; injection H as <-; cbn; lia.
  - destruct (prod s) eqn:E; try discriminate; injection H as <-; cbn; lia.
  - destruct (prod s) eqn:E; try discriminate; injection H as <-; cbn; lia.
  - destruct (cons s c) eqn:E; try discriminate. destruct (there _ _); try discriminate. injection H as <-; cbn; lia.
  - destruct (cons s c) eqn:E; try discriminate. destruct (_ && _)%bool; try discriminate. injection H as <-; cbn; lia.
  - destruct (cons s c) eqn:E; try discriminate. destruct (nth_error _ _); try discriminate. destruct (_ || _)%bool; try discriminate. injection H as <-; cbn; lia.
  - destruct (cons s c) eqn:E; try discriminate.
    + destruct (slot_at _ _); [destruct (_ =? _); [|destruct (slot_at _ _)]|]; injection H as <-; cbn; lia.
    + destruct (val _); injection H as <-; cbn; lia.
  - destruct (cons s c) eqn:E; try discriminate. injection H as <-; cbn; lia.
  - destruct (cons s c) eqn:E; try discriminate. destruct (users _ _) as [|u [|u2 us]]; try discriminate. injection H as <-. cbn. lia.
Qed.

(** ** The history and the number of blocks only grow *)

Lemma hist_step s x s' : istep B s x = Some s' -> (exists new, ihist s' = new ++ ihist s) /\ nb s <= nb s'.
Proof.
  assert (K : forall s', ihist s' = ihist s -> nb s' = nb s -> (exists new, ihist s' = new ++ ihist s) /\ nb s <= nb s') by (intros s1 -> ->; split; [now exists []|lia]).
  assert (K1 : forall s' e, ihist s' = e :: ihist s -> nb s' = nb s -> (exists new, ihist s' = new ++ ihist s) /\ nb s <= nb s') by (intros s1 e -> ->; split; [now exists [e]|lia]).
  intros H. destruct x; unfold istep in H.
  - destruct (prod s) eqn:E; try discriminate. destruct (Nat.eqb (nh s) 0); injection H as <-; [eapply K1|apply K]; reflexivity.
  - destruct (prod s) eqn:E; try discriminate.
    + destruct (slot_at _ _); [destruct (_ =? _); [|destruct (val _)]|]; injection H as <-; apply K; reflexivity.
    + destruct (fits s); injection H as <-; [|eapply K1; reflexivity]. destruct (grow_facts s P1b) as (_ & _ & F3 & _ & _ & F6 & _). now apply K.
    + destruct (slot_at _ _); [destruct (_ =? _)|]; injection H as <-; apply K; reflexivity.
    + injection H as <-. apply K; reflexivity.
    + injection H as <-. apply K; reflexivity.
    + injection H as <-. apply K; reflexivity.
    + injection H as <-. eapply K1; reflexivity.
    + injection H as <-. cbn. split; [now exists [Put b]|lia].
  - destruct (prod s) eqn:E; try discriminate. destruct (slot_at _ _); [destruct (_ && _)%bool|]; try discriminate; injection H as <-; apply K; reflexivity.
  - destruct (prod s) eqn:E; try discriminate; injection H as <-; [eapply K1|apply K|apply K]; reflexivity.
  - destruct (prod s) eqn:E; try discriminate; injection H as <-; apply K; reflexivity.
  - destruct (cons s c) eqn:E; try discriminate. destruct (there _ _); try discriminate. injection H as <-; apply K; reflexivity.
  - destruct (cons s c) eqn:E; try discriminate. destruct (_ && _)%bool; try discriminate. injection H as <-; apply K; reflexivity.
  - destruct (cons s c) eqn:E; try discriminate. destruct (nth_error _ _); try discriminate. destruct (_ || _)%bool; try discriminate. injection H as <-; apply K; reflexivity.
  - destruct (cons s c) eqn:E; try discriminate.
    + destruct (slot_at _ _); [destruct (_ =? _); [|destruct (slot_at _ _)]|]; injection H as <-; apply K; reflexivity.
    + destruct (val _); injection H as <-; [apply K|apply K|eapply K1]; reflexivity.
  - destruct (cons s c) eqn:E; try discriminate. injection H as <-; apply K; reflexivity.
  - destruct (cons s c) eqn:E; try discriminate. destruct (users _ _) as [|u [|u2 us]]; try discriminate. injection H as <-. eapply K1; reflexivity.
Qed.

Lemma refusal_run l s s' : inv s -> inv2 s -> nb s' < 2 ^ 56 -> irun B s l = Some s' ->
  (refusals (ihist s') + pending (prod s') <= refusals (ihist s) + pending (prod s) + failures l)%nat.
Proof.
  revert s. induction l as [|x l IH]; cbn [irun]; intros s I J Nb H; [injection H as <-; cbn; lia|].
  destruct (istep B s x) as [s1|] eqn:E; [|discriminate].
  assert (I1 : inv s1) by now apply (inv_step lb HB s s1 x). assert (J1 : inv2 s1) by now apply (inv2_step lb a0 HB HA s x).
  assert (M : nb s1 <= nb s').
  { clear -H HB. revert s1 H. induction l as [|y l IH]; cbn; intros s1 H; [injection H as <-; lia|]. destruct (istep B s1 y) as [s2|] eqn:E2; [|discriminate].
    apply hist_step in E2. specialize (IH s2 H). lia. }
  pose proof (hist_step s x s1 E) as (_ & M1).
  pose proof (refusal_step s x s1 I J ltac:(lia) E). specialize (IH s1 I1 J1 Nb H).
  assert (F : (failures (x :: l) = (match x with PFail => 1 | _ => 0 end) + failures l)%nat) by (destruct x; reflexivity). lia.
Qed.

(** ** Growth *)

Lemma size_step s x s' d : inv s -> inv2 s -> x <> PStale -> spread (ihist s) d -> istep B s x = Some s' ->
  cap (cur s) <= Z.max cap0 (2 * d) /\ (prod s = PGrow -> cap (cur s) <= d) ->
  cap (cur s') <= Z.max cap0 (2 * d) /\ (prod s' = PGrow -> cap (cur s') <= d).
Proof.
  intros I J Ns Sp H (Q1 & Q2). pose proof I as (S & P & C & L). pose proof (inv_step lb HB s s' x I H) as I'.
  assert (K : forall s', cap (cur s') = cap (cur s) -> prod s' <> PGrow -> cap (cur s') <= Z.max cap0 (2 * d) /\ (prod s' = PGrow -> cap (cur s') <= d)).
  { intros s1 E1 E2. split; [lia|contradiction]. }
  assert (K' : forall s', cap (cur s') = cap (cur s) -> prod s' = prod s -> cap (cur s') <= Z.max cap0 (2 * d) /\ (prod s' = PGrow -> cap (cur s') <= d)).
  { intros s1 E1 E2. rewrite E1, E2. auto. }
  destruct x; try contradiction; unfold istep in H.
  - destruct (prod s) eqn:E; try discriminate. destruct (Nat.eqb (nh s) 0); injection H as <-; apply K; try reflexivity; discriminate.
  - destruct (prod s) eqn:E; try discriminate.
    + unfold prod_ok in P. rewrite E in P. destruct P as (T & V). rewrite (tail_next lb s _ S T) in H. replace (nb s - 1 + 1) with (nb s) in H by lia.
      destruct (slot_next lb HB s S) as [(D & Sl & Ky)|[(D & F & e & Sl & Ky)|(D & F & W & Sl & Ky)]]; rewrite Sl, Ky in H.
      * destruct (Z.eqb_spec (uwrap 64 (B * nb s)) INVALID) as [Q|_]; [now apply pow_even in Q|].
        rewrite (V D) in H. injection H as <-. apply K; [reflexivity|discriminate].
      * rewrite Z.eqb_refl in H. injection H as <-. apply K; [reflexivity|discriminate].
      * destruct (Z.eqb_spec (uwrap 64 (B * (nb s - cap (cur s)))) INVALID) as [Q|_]; [now apply pow_even in Q|].
        pose proof (cur_good _ _ S) as G. destruct G. pose proof (capp _ g_pow).
        destruct (val (ents s (names s (nb s - cap (cur s))))) as [| |b] eqn:Ev; injection H as <-; try (apply K; [reflexivity|discriminate]).
        split; [exact Q1|]. intros _. change (cap (cur s) <= d).
        assert (U : in_use (ihist s) (nb s - cap (cur s))).
        { apply (in_use_spec lb a0 HB HA s _ I J). split; [lia|]. destruct (gone s (nb s - cap (cur s))) eqn:Gn; [|reflexivity].
          destruct J as [_ J2 _ _]. rewrite (J2 _ W ltac:(lia) Gn) in Ev. discriminate. }
        specialize (Sp _ U). destruct S. lia.
    + destruct (fits s); injection H as <-; [|apply K; [reflexivity|discriminate]].
      destruct (grow_facts s P1b) as (F1 & _). specialize (Q2 eq_refl).
      assert (Ep : prod (new_block_index s P1b) <> PGrow).
      { unfold new_block_index. destruct (if Nat.eqb _ _ then _ else _); [|discriminate]. destruct (_ <? _); [discriminate|]. destruct (negb _); discriminate. }
      split; [|contradiction].
      assert (Nh : nh s <> 0%nat) by (destruct S; lia).
      assert (Ec : cap (cur (new_block_index s P1b)) = nextcap s).
      { pose proof (not_bad lb (new_block_index s P1b)) as NB. destruct (prod (new_block_index s P1b)) eqn:Ep'; try (rewrite (F1 Nh); reflexivity). exfalso. now apply (NB u I'). }
      rewrite Ec. destruct S. rewrite s_next. change (2 * cap (cur s) <= Z.max cap0 (2 * d)). lia.
    + destruct (slot_at _ _); [destruct (_ =? _)|]; injection H as <-; (apply K; [reflexivity|discriminate]).
    + injection H as <-. apply K; [|discriminate]. unfold cur, curh. cbn. fold (curh s). rewrite fupd_same. reflexivity.
    + injection H as <-. apply K; [|discriminate]. rewrite cur_set. reflexivity.
    + injection H as <-. apply K; [|discriminate]. rewrite cur_set. reflexivity.
    + injection H as <-. apply K; [reflexivity|discriminate].
    + injection H as <-. apply K; [reflexivity|discriminate].
  - destruct (prod s) eqn:E; try discriminate; injection H as <-; (apply K; [reflexivity|discriminate]).
  - destruct (prod s) eqn:E; try discriminate; injection H as <-; (apply K; [reflexivity|discriminate]).
  - destruct (cons s c) eqn:E; try discriminate. destruct (there _ _); try discriminate. injection H as <-; apply K'; reflexivity.
  - destruct (cons s c) eqn:E; try discriminate. destruct (_ && _)%bool; try discriminate. injection H as <-; apply K'; reflexivity.
  - destruct (cons s c) eqn:E; try discriminate. destruct (nth_error _ _); try discriminate. destruct (_ || _)%bool; try discriminate. injection H as <-; apply K'; reflexivity.
  - destruct (cons s c) eqn:E; try discriminate.
    + destruct (slot_at _ _); [destruct (_ =? _); [|destruct (slot_at _ _)]|]; injection H as <-; apply K'; reflexivity.
    + destruct (val _); injection H as <-; apply K'; reflexivity.
  - destruct (cons s c) eqn:E; try discriminate. injection H as <-; apply K'; reflexivity.
  - destruct (cons s c) eqn:E; try discriminate. destruct (users _ _) as [|u [|u2 us]]; try discriminate. injection H as <-. apply K'; reflexivity.
Qed.

Lemma size_run l s s' d : inv s -> inv2 s -> ~ In PStale l -> irun B s l = Some s' -> (forall h, earlier h (ihist s') -> spread h d) ->
  cap (cur s) <= Z.max cap0 (2 * d) /\ (prod s = PGrow -> cap (cur s) <= d) ->
  (exists new, ihist s' = new ++ ihist s) /\ cap (cur s') <= Z.max cap0 (2 * d).
Proof.
  revert s. induction l as [|x l IH]; cbn [irun]; intros s I J Ns H Sp Q; [injection H as <-; split; [now exists []|tauto]|].
  destruct (istep B s x) as [s1|] eqn:E; [|discriminate].
  assert (I1 : inv s1) by now apply (inv_step lb HB s s1 x). assert (J1 : inv2 s1) by now apply (inv2_step lb a0 HB HA s x).
  assert (Hs : forall s1, irun B s1 l = Some s' -> exists new, ihist s' = new ++ ihist s1).
  { clear. induction l as [|y l IH]; cbn; intros s1 H; [injection H as <-; now exists []|]. destruct (istep B s1 y) as [s2|] eqn:E2; [|discriminate].
    apply hist_step in E2. destruct E2 as ((n1 & E2) & _). destruct (IH s2 H) as (n2 & E3). exists (n2 ++ n1). rewrite E3, E2. now rewrite app_assoc. }
  destruct (Hs s1 H) as (n2 & E2). pose proof (hist_step s x s1 E) as ((n1 & E1) & _).
  assert (Sp0 : spread (ihist s) d). { apply Sp. exists (n2 ++ n1). rewrite E2, E1. now rewrite app_assoc. }
  destruct (IH s1 I1 J1 ltac:(cbn in Ns; tauto) H Sp) as (_ & Q').
  { apply (size_step s x s1 d); auto. cbn in Ns. intros ->. tauto. }
  split; [|exact Q']. exists (n2 ++ n1). rewrite E2, E1. now rewrite app_assoc.
Qed.

End Inv.
