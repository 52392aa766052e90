(** An index that keeps growing, and the use that the sub-queue makes of the
    index. *)

From Coq Require Import ZArith List Bool Lia ZifyBool ZifyNat.
From Verif Require Import Base Bits SubQueueModel BlockIndexModel BlockIndexSpec BlockIndexProofs BlockIndexProofs2 BlockIndexProofs3 BlockIndexProofs4 BlockIndexProofs5.
From Verif Require SubQueueProofs SubQueueProofs2 SubQueueProofs3.
Import ListNotations.
Open Scope Z_scope.

(** ** One block that is not emptied *)

Section Stalled.
Variables (lb a0 : Z).
Hypothesis (HB : 1 <= lb <= 6) (HA : 1 <= a0 <= 32).
Notation B := (2 ^ lb).
Notation cap0 := (2 ^ a0).
Notation inv := (inv lb).
Notation inv2 := (inv2 a0).

(** The first block stays; each of the [n] others is put, looked up and
    cleared. *)
Fixpoint stalled (n : nat) : list event :=
  match n with
  | O => [Put 0]
  | S n => Clear (Z.of_nat n + 1) :: Look (B * (Z.of_nat n + 1)) (Ptr 0) :: Put 0 :: stalled n
  end.
Lemma stalled_put n : blocks_put (stalled n) = repeat 0%nat (S n).
Proof. induction n as [|n IH]; [reflexivity|]. cbn [stalled blocks_put]. rewrite IH. change [0%nat] with (repeat 0%nat 1). rewrite <- repeat_app. f_equal. lia. Qed.
Lemma stalled_cleared n : length (cleared (stalled n)) = n /\ forall x, In x (cleared (stalled n)) -> 1 <= x <= Z.of_nat n.
Proof.
  induction n as [|n (IH1 & IH2)]; cbn; [split; [reflexivity|intros x []]|]. split; [now rewrite IH1|]. intros x [<-|I]; [lia|]. specialize (IH2 x I). lia.
Qed.
Lemma stalled_live n h : earlier h (stalled n) -> live h <= 2.
Proof.
  revert h. induction n as [|n IH]; intros h (l & E).
  - destruct l as [|e l]; cbn in E; [subst h; cbn; lia|]. injection E as _ E. destruct l; [|discriminate]. cbn in E. subst h. cbn. lia.
  - assert (L0 : live (stalled n) = 1) by (unfold live; rewrite stalled_put, repeat_length, (proj1 (stalled_cleared n)); lia).
    destruct l as [|e l]; cbn [stalled app] in E.
    { subst h. unfold live in *. cbn [blocks_put cleared]. rewrite app_length. cbn [length]. lia. }
    injection E as _ E. destruct l as [|e1 l]; cbn [app] in E.
    { subst h. unfold live in *. cbn [blocks_put cleared]. rewrite app_length. cbn [length]. lia. }
    injection E as _ E. destruct l as [|e2 l]; cbn [app] in E.
    { subst h. unfold live in *. cbn [blocks_put cleared]. rewrite app_length. cbn [length]. lia. }
    injection E as _ E. apply IH. now exists l.
Qed.

Definition resting (s : ist) (n : nat) : Prop :=
  prod s = PIdle /\ (forall c, cons s c = CIdle) /\ (forall k, users s k = []) /\ nb s = Z.of_nat n + 1 /\ ihist s = stalled n.

Lemma stalled_reach n : Z.of_nat n < 2 ^ 50 -> exists l s, irun B (init cap0 true) l = Some s /\ resting s n.
Proof.
  assert (PB : 0 < B) by (apply Z.pow_pos_nonneg; lia).
  induction n as [|n IH]; intros Hn.
  - destruct (put_alone lb a0 HB HA (init cap0 true) 0%nat) as (l & s & _ & _ & R & H1 & H2 & H3 & (K1 & K2 & K3)).
    + now apply inv_init.
    + now apply inv2_init.
    + rewrite init_true by auto. reflexivity.
    + rewrite init_true by auto. cbn. lia.
    + exists l, s. split; [exact R|]. unfold resting. rewrite H1, H2, H3, K1, K2, init_true by auto. cbn. auto.
  - destruct IH as (l & s & R & (E1 & E2 & E3 & E4 & E5)); [lia|].
    assert (I : inv s) by (eapply reach_inv; eauto). assert (J : inv2 s) by (eapply reach_inv2; eauto).
    destruct (put_alone lb a0 HB HA s 0%nat I J E1 ltac:(lia)) as (l1 & s1 & _ & _ & R1 & H1 & H2 & H3 & (K1 & K2 & K3)).
    assert (R1' : irun B (init cap0 true) (l ++ l1) = Some s1) by (rewrite run_app, R; exact R1).
    assert (I1 : inv s1) by (eapply reach_inv; eauto). assert (J1 : inv2 s1) by (eapply reach_inv2; eauto).
    set (m := Z.of_nat n + 1) in *.
    assert (Dm : B * m / B = m) by (rewrite Z.mul_comm; apply Z.div_mul; lia).
    assert (U : in_use (ihist s1) (B * m / B)).
    { rewrite Dm, H1, E5. split; [cbn [blocks_put]; rewrite app_length, stalled_put, repeat_length; cbn [length]; lia|].
      cbn [cleared]. intros Q. apply stalled_cleared in Q. lia. }
    destruct (look_alone lb a0 HB HA s1 0%nat (B * m) I1 J1 ltac:(rewrite K1; apply E2) U) as (b & s2 & R2 & L1' & L2' & L3' & L4' & L5' & L6' & (e & L7')).
    assert (b = 0%nat).
    { rewrite H1, E5 in L2'. cbn [blocks_put] in L2'. rewrite stalled_put in L2'. change [0%nat] with (repeat 0%nat 1) in L2'. rewrite <- repeat_app in L2'.
      apply nth_error_In in L2'. now apply repeat_spec in L2'. }
    subst b. set (l2 := [CStart 0 (B * m); CHdr 0 (curh s1); CTail 0 (pred (length (tails (cur s1)))); CGo 0; CGo 0]) in *.
    assert (Eu : users s2 (B * m / B) = [0%nat]) by (rewrite L6', zfupd_same, K2, E3; reflexivity).
    assert (Ec : cons s2 0%nat = L5 (B * m) e) by (rewrite L7'; apply fupd_same).
    assert (R3 : exists s3, istep B s2 (CClear 0) = Some s3 /\ prod s3 = prod s2 /\ nb s3 = nb s2 /\ cons s3 = fupd (cons s2) 0%nat CIdle /\
                 users s3 = zfupd (users s2) (B * m / B) [] /\ ihist s3 = Clear m :: ihist s2).
    { unfold istep. rewrite Ec, Eu. eexists. split; [reflexivity|]. cbn. rewrite Dm. auto. }
    destruct R3 as (s3 & R3 & M1 & M2 & M3 & M4 & M5).
    exists ((l ++ l1) ++ l2 ++ [CClear 0]), s3. split.
    { rewrite run_app, R1', run_app, R2. cbn [irun]. now rewrite R3. }
    unfold resting. rewrite M1, M2, M3, M4, M5, L3', L4', H2, H3. split; [reflexivity|]. split; [|split; [|split]].
    + intros c. rewrite L7'. destruct (Nat.eq_dec c 0) as [->|N]; [apply fupd_same|]. rewrite !fupd_other by auto. rewrite K1. apply E2.
    + intros k. destruct (Z.eq_dec k (B * m / B)) as [->|N]; [apply zfupd_same|]. rewrite zfupd_other by auto. rewrite L6', zfupd_other by auto. rewrite K2. apply E3.
    + lia.
    + rewrite L1', H1, E5. cbn [stalled]. fold m. reflexivity.
Qed.

End Stalled.

(** ** The protocol of the sub-queue *)

Section Protocol.
Context {T : Type}.
Variables (B : Z) (nothrow : bool).
Hypothesis (HB : 0 < B).
Import SubQueueProofs2.

Lemma entry_held (s : @state T) g t q i : SubQueueProofs.invA s (fst g) -> invB B nothrow s (snd g) -> holds (pcs s t) = Some (q, i) -> 0 <= i /\ entry (subs s q) (bnum B i) <> None.
Proof.
  intros GA G E. destruct g as [gA g]. cbn in *. pose proof (b_ok _ _ _ _ G t) as K. pose proof (SubQueueProofs.head_tail _ _ q GA) as HT.
  assert (A : forall b, own g b = At q (bnum B i) -> entry (subs s q) (bnum B i) <> None).
  { intros b O. pose proof (b_block _ _ _ _ G b) as Bb. unfold blockB in Bb. rewrite O in Bb. destruct Bb as (_ & Q & _). congruence. }
  destruct (pcs s t); try discriminate; injection E as -> ->; cbn in K.
  - destruct K as (K1 & K2). split; [lia|]. destruct (b_live _ _ _ _ G q i ltac:(lia)) as (b & O); [congruence|]. eauto.
  - split; [lia|]. apply (A b). tauto.
  - split; [lia|]. apply (A b). tauto.
  - split; [lia|]. apply (A b). tauto.
  - split; [lia|]. destruct K as (_ & O & _). pose proof (b_block _ _ _ _ G b) as Bb. unfold blockB in Bb. rewrite O in Bb. destruct Bb as (_ & Q & _). congruence.
Qed.

Lemma clearing_alone (s : @state T) g t u q i j b r : SubQueueProofs.invA s (fst g) -> invB B nothrow s (snd g) -> pcs s t = D11 q i b r -> holds (pcs s u) = Some (q, j) -> u <> t -> bnum B j <> bnum B i.
Proof.
  intros GA G E F N Q. destruct g as [gA g]. cbn in *.
  pose proof (b_ok _ _ _ _ G t) as K. rewrite E in K. cbn in K. destruct K as (K1 & K2 & K3).
  pose proof (b_block _ _ _ _ G b) as Bb. unfold blockB in Bb. rewrite K2 in Bb. destruct Bb as (_ & Be & Bj & _ & Bg & _).
  pose proof (b_ok _ _ _ _ G u) as Ku.
  assert (St : st g q j = Gone).
  { pose proof (split_index B HB j) as Sj. rewrite <- Sj. rewrite Q. apply Bg. now apply slot_range. }
  assert (A : forall b', own g b' = At q (bnum B j) -> False).
  { intros b' O. pose proof (b_block _ _ _ _ G b') as Bb. unfold blockB in Bb. rewrite O in Bb. destruct Bb as (_ & Be' & _). rewrite Q in Be'. assert (b' = b) by congruence. subst b'. congruence. }
  destruct (pcs s u); try discriminate; injection F as -> ->; cbn in Ku.
  - destruct Ku as (_ & Ku). congruence.
  - apply (A b0). tauto.
  - apply (A b0). tauto.
  - apply (A b0). tauto.
  - destruct Ku as (_ & O & _). pose proof (b_block _ _ _ _ G b0) as Bb. unfold blockB in Bb. rewrite O in Bb. destruct Bb as (_ & Be' & _). rewrite Q in Be'.
    assert (b0 = b) by congruence. subst b0. rewrite O in K2. injection K2 as _ ->. now apply N.
Qed.
End Protocol.
