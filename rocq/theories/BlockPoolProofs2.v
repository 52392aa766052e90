(** Every access keeps the invariant of the pool of blocks. *)
From Coq Require Import ZArith List Bool Lia Permutation.
From Verif Require Import Base BlockPoolModel BlockPoolSpec BlockPoolProofs.
Import ListNotations.
Open Scope Z_scope.

Lemma zseq_in n b : In b (map Z.of_nat (seq 0 n)) <-> 0 <= b < Z.of_nat n.
Proof.
  rewrite in_map_iff. split.
  - intros (k & <- & I). apply in_seq in I. lia.
  - intros H. exists (Z.to_nat b). split; [lia|]. apply in_seq. lia.
Qed.
Lemma zseq_nodup n : NoDup (map Z.of_nat (seq 0 n)).
Proof. apply FinFun.Injective_map_NoDup; [intros x y H; lia|apply seq_NoDup]. Qed.
Lemma count_all (l : list Z) n : 0 <= n -> NoDup l -> (forall b, In b l <-> 0 <= b < n) -> zl l = n.
Proof.
  intros N D A. unfold zl.
  assert (P : Permutation l (map Z.of_nat (seq 0 (Z.to_nat n)))).
  { apply NoDup_Permutation; [exact D|apply zseq_nodup|]. intros x. rewrite A, zseq_in. lia. }
  rewrite (Permutation_length P), map_length, seq_length. lia.
Qed.

Section Step.
Variables (size : Z) (threads : nat).
Hypothesis sizes : 0 <= size.
Hypothesis fits : size + Z.of_nat threads < 2 ^ 64.
Notation step := (step size threads).
Notation access := (access size threads).
Notation run := (run size threads).
Notation inv := (inv size threads).

Ltac others := intros ? ?; cbn [forallb of_thread]; repeat match goal with
  |- context [Nat.eqb ?a ?b] => destruct (Nat.eqb_spec a b); [congruence|] end; reflexivity.

Lemma NoDup_mid {A} (b : A) (l l' : list A) : NoDup (l ++ l') -> ~ In b (l ++ l') -> NoDup (l ++ b :: l').
Proof. intros N I. apply (Permutation_NoDup (Permutation_middle l l' b)). constructor; assumption. Qed.
Lemma in_mid {A} (b x : A) (l l' : list A) : In x (l ++ b :: l') <-> x = b \/ In x (l ++ l').
Proof. rewrite !in_app_iff. cbn [In]. intuition congruence. Qed.

Lemma access_inv s h c s' e : inv s h -> access s c = Some (s', e) -> inv s' (h ++ e).
Proof.
  intros [IB IN IC] E. destruct c as [t m|t v|t|t b|t|t ok|b]; cbn [BlockPoolModel.access] in E.
  - (* Begin *)
    destruct (call_of t (calls s)) as [d|] eqn:C; [discriminate|].
    destruct (Nat.ltb_spec t threads) as [L|L]; [|discriminate]. injection E as <- <-.
    pose proof (call_of_none _ _ C) as F.
    split; cbn [next seen spare out made calls].
    + apply (b_silent size threads (next s)); try assumption; try reflexivity; try lia.
      intros t' b [Q|[]]. discriminate.
    + destruct IN as [A S N W P]. split; try assumption.
      * cbn [map who]. constructor; [|exact N]. intros J. apply in_map_iff in J as (d & Q & J). apply (F d J). exact Q.
      * intros d [<-|J]; [exact L|apply W; exact J].
      * intros d [<-|J]; [exact I|apply P; exact J].
    + destruct IC as [W D P Y S]. split.
      * intros d [<-|J]; [discriminate|apply W; exact J].
      * rewrite demand_app, D. cbn [demand]. unfold zl. cbn [length]. lia.
      * intros d H. unfold committed. cbn [filter place_of pending]. apply P. exact (within_app _ _ _ H).
      * intros d [<-|J]; [exists h, []; split; reflexivity|].
        apply way_app; [apply Y; exact J|]. cbn [forallb of_thread]. specialize (F d J).
        destruct (Nat.eqb_spec t (who d)); [congruence|reflexivity].
      * intros d [<-|J] R; [discriminate|]. apply free_app; [apply S; assumption|]. cbn [forallb of_thread]. specialize (F d J).
        destruct (Nat.eqb_spec t (who d)); [congruence|reflexivity].
  - (* Load *)
    destruct (call_of t (calls s)) as [[w m []]|] eqn:C; try discriminate.
    destruct (Z.leb_spec (seen s t) v) as [L1|]; [|discriminate].
    destruct (Z.leb_spec v (next s)) as [L2|]; [|discriminate]. cbn [andb] in E. injection E as <- <-.
    rewrite app_nil_r. pose proof (i_seen _ _ _ _ _ IN) as S.
    rewrite (stored_id size threads fits _ _ _ v IN) by (specialize (S t); lia).
    split; cbn [next seen spare out made calls].
    + exact IB.
    + apply (n_move size threads (next s) (seen s) (calls s) t); try assumption; try lia.
      * destruct (i_next _ _ _ _ _ IN) as [_ N].
        pose proof (beyond_mono size threads (seen s) (see (seen s) t v)) as B.
        enough (zl (beyond size threads (seen s)) <= zl (beyond size threads (see (seen s) t v))) by lia.
        apply B. intros x. unfold see. destruct (Nat.eqb_spec x t); [subst|]; lia.
      * intros x. unfold see. specialize (S t) as S1. specialize (S x) as S2. destruct (Nat.eqb x t); lia.
      * intros x D. unfold see. destruct (Nat.eqb_spec x t); [contradiction|reflexivity].
      * destruct (Z.geb_spec v size); [lia|]. unfold see. rewrite Nat.eqb_refl. lia.
    + apply (c_move size threads (out s) (made s) (calls s) h t); try assumption; try exact (i_calls _ _ _ _ _ IN).
      * destruct (v >=? size); discriminate.
      * destruct (v >=? size); discriminate.
  - (* Advance *)
    destruct (call_of t (calls s)) as [[w m []]|] eqn:C; try discriminate.
    destruct (call_of_in _ _ _ C) as [I1 I2]. cbn [who] in I2. subst w.
    pose proof (i_seen _ _ _ _ _ IN) as S.
    pose proof (i_place _ _ _ _ _ IN _ I1) as PL. cbn [place_of who] in PL.
    pose proof (i_who _ _ _ _ _ IN _ I1) as WH. cbn [who] in WH.
    destruct (i_next _ _ _ _ _ IN) as [N0 N].
    cbv zeta in E. rewrite (stored_id size threads fits _ _ _ (next s) IN) in E by lia.
    assert (S' : forall x, 0 <= see (seen s) t (next s + 1) x <= next s + 1).
    { intros x. unfold see. specialize (S x). destruct (Nat.eqb x t); lia. }
    assert (E' : forall x, x <> t -> see (seen s) t (next s + 1) x = seen s x).
    { intros x D. unfold see. destruct (Nat.eqb_spec x t); [contradiction|reflexivity]. }
    destruct (Z.ltb_spec (next s) size) as [L|L]; injection E as <- <-.
    + split; cbn [next seen spare out made calls].
      * destruct (i_made _ _ _ _ _ _ IB) as [M1 M2].
        assert (M0 : made s = 0) by lia.
        assert (NB : ~ In (next s) (spare s ++ out s)).
        { rewrite (i_all _ _ _ _ _ _ IB). lia. }
        apply (b_took size (next s) (spare s) (out s) (made s)); try assumption; try lia.
        -- intros x. apply in_mid.
        -- apply NoDup_mid; [exact (i_nodup _ _ _ _ _ _ IB)|exact NB].
        -- intros x. rewrite (i_all _ _ _ _ _ _ IB). lia.
      * apply (n_drop size threads (next s) (seen s)); try assumption; try lia.
        unfold zl. lia.
      * apply (c_drop size threads (out s) _ (made s) _ (calls s) h t (mkCall t m AtAdd)); try assumption; try exact (i_calls _ _ _ _ _ IN).
        -- cbn [demand]. unfold zl. cbn [length]. lia.
        -- left. reflexivity.
        -- others.
    + rewrite app_nil_r. pose proof (beyond_more size threads (seen s) t (next s + 1) WH ltac:(lia) ltac:(lia)) as BM.
      split; cbn [next seen spare out made calls].
      * rewrite <- (app_nil_r h). apply (b_silent size threads (next s)); try assumption; try lia; [reflexivity|intros ? ? []].
      * apply (n_move size threads (next s) (seen s) (calls s) t); try assumption; try lia.
      * apply (c_move size threads (out s) (made s) (calls s) h t); try assumption; try exact (i_calls _ _ _ _ _ IN); discriminate.
  - (* Pop *)
    destruct (call_of t (calls s)) as [[w m []]|] eqn:C; try discriminate.
    destruct (take b (spare s)) as [l|] eqn:K; [|discriminate]. injection E as <- <-.
    pose proof (take_perm _ _ _ K) as Q.
    assert (QQ : Permutation (spare s ++ out s) (l ++ b :: out s)).
    { rewrite Q. cbn [app]. apply Permutation_middle. }
    split; cbn [next seen spare out made calls].
    + destruct (i_made _ _ _ _ _ _ IB) as [M1 M2].
      assert (BI : In b (spare s ++ out s)).
      { rewrite QQ. apply in_or_app. right. left. reflexivity. }
      apply (b_took size (next s) (spare s) (out s) (made s)); try assumption.
      * intros x. split.
        -- intros J. right. rewrite QQ. exact J.
        -- intros [->|J]; [rewrite <- QQ; exact BI|rewrite <- QQ; exact J].
      * rewrite <- QQ. exact (i_nodup _ _ _ _ _ _ IB).
      * intros x. rewrite <- (i_all _ _ _ _ _ _ IB). split; [intros [->|J]; assumption|tauto].
    + apply (n_drop size threads (next s) (seen s)); try assumption; try lia; try apply IN; try reflexivity.
    + apply (c_drop size threads (out s) _ (made s) _ (calls s) h t (mkCall w m (AtList was_empty))); try assumption; try exact (i_calls _ _ _ _ _ IN).
      * cbn [demand]. unfold zl. cbn [length]. lia.
      * left. reflexivity.
      * others.
  - (* Miss *)
    destruct (call_of t (calls s)) as [[w m [| |[]|]]|] eqn:C; try discriminate.
    destruct (call_of_in _ _ _ C) as [I1 I2].
    pose proof (i_place _ _ _ _ _ IN _ I1) as PL. cbn [place_of who] in PL.
    destruct m; injection E as <- <-.
    + rewrite app_nil_r. split; cbn [next seen spare out made calls].
      * exact IB.
      * apply (n_move size threads (next s) (seen s) (calls s) t); try assumption; try lia; try apply IN; try reflexivity.
      * apply (c_move size threads (out s) (made s) (calls s) h t); try assumption; try exact (i_calls _ _ _ _ _ IN); reflexivity.
    + split; cbn [next seen spare out made calls].
      * apply (b_silent size threads (next s)); try assumption; try lia; try reflexivity. intros ? ? [Q|[]]. discriminate.
      * apply (n_drop size threads (next s) (seen s)); try assumption; try lia; try apply IN; try reflexivity.
      * eapply (c_drop size threads (out s) _ (made s) _ (calls s) h t); try eassumption; try exact (i_calls _ _ _ _ _ IN).
        -- cbn [demand]. lia.
        -- left. reflexivity.
        -- others.
  - (* Make *)
    destruct (call_of t (calls s)) as [[w m []]|] eqn:C; try discriminate.
    destruct (call_of_in _ _ _ C) as [I1 I2].
    pose proof (i_place _ _ _ _ _ IN _ I1) as PL. cbn [place_of who] in PL.
    destruct ok; injection E as <- <-.
    + split; cbn [next seen spare out made calls].
      * destruct (i_made _ _ _ _ _ _ IB) as [M1 M2].
        assert (NB : ~ In (size + made s) (spare s ++ out s)).
        { rewrite (i_all _ _ _ _ _ _ IB). lia. }
        apply (b_took size (next s) (spare s) (out s) (made s)); try assumption; try lia.
        -- intros x. apply in_mid.
        -- apply NoDup_mid; [exact (i_nodup _ _ _ _ _ _ IB)|exact NB].
        -- intros x. rewrite (i_all _ _ _ _ _ _ IB). lia.
      * apply (n_drop size threads (next s) (seen s)); try assumption; try lia; try apply IN; try reflexivity.
      * apply (c_drop size threads (out s) _ (made s) _ (calls s) h t (mkCall w m AtNew)); try assumption; try exact (i_calls _ _ _ _ _ IN).
        -- cbn [demand]. unfold zl. cbn [length]. lia.
        -- right. split; reflexivity.
        -- others.
    + split; cbn [next seen spare out made calls].
      * apply (b_silent size threads (next s)); try assumption; try lia; try reflexivity. intros ? ? [Q|[]]. discriminate.
      * apply (n_drop size threads (next s) (seen s)); try assumption; try lia; try apply IN; try reflexivity.
      * eapply (c_drop size threads (out s) _ (made s) _ (calls s) h t); try eassumption; try exact (i_calls _ _ _ _ _ IN).
        -- cbn [demand]. lia.
        -- left. reflexivity.
        -- others.
  - (* Give *)
    destruct (take b (out s)) as [l|] eqn:K; [|discriminate]. injection E as <- <-.
    pose proof (take_perm _ _ _ K) as Q.
    split; cbn [next seen spare out made calls].
    + apply (b_gave size (next s) (spare s) (out s)); assumption.
    + exact IN.
    + destruct IC as [W D P Y S]. split.
      * exact W.
      * rewrite demand_app, D, (zl_perm _ _ Q). cbn [demand]. unfold zl. cbn [length]. lia.
      * intros d H. apply P. exact (within_app _ _ _ H).
      * intros d J. apply way_app; [apply Y; exact J|reflexivity].
      * intros d J R. apply free_app; [apply S; assumption|reflexivity].
Qed.

Definition mark (c : call) : call :=
  mkCall (who c) (can c) match place_of c with AtList _ => AtList true | p => p end.

Lemma committed_le l : zl (committed l) <= zl l.
Proof. unfold committed, zl. induction l as [|c l IH]; cbn [filter length]; [lia|]. destruct (pending (place_of c)); cbn [length]; lia. Qed.

Lemma notice_inv s h : inv s h -> inv (notice s) h.
Proof.
  intros [IB IN IC]. unfold notice. destruct (spare s) as [|x l] eqn:SP; [|cbn [none_left]; split; try rewrite SP; assumption].
  cbn [none_left]. fold mark.
  split; cbn [next seen spare out made calls]; [exact IB| |].
  - destruct IN as [A S N W P]. split; try assumption.
    + rewrite map_map. exact N.
    + intros c I. apply in_map_iff in I as (d & <- & I). exact (W d I).
    + intros c I. apply in_map_iff in I as (d & <- & I). specialize (P d I). cbn [place_of who mark].
      destruct (place_of d); exact P.
  - assert (ALL : forall c, In c (calls s) -> pending (place_of (mark c)) = true -> size <= next s).
    { intros c I R. pose proof (i_place _ _ _ _ _ IN c I) as P. cbn [mark place_of] in R. destruct (place_of c); try discriminate; exact P. }
    pose proof (i_nodup _ _ _ _ _ _ IB) as ND. pose proof (i_all _ _ _ _ _ _ IB) as AL.
    destruct (i_made _ _ _ _ _ _ IB) as [M1 M2]. cbn [app] in ND, AL.
    pose proof IC as [W D P Y S]. split.
    + intros c I Q. apply in_map_iff in I as (d & <- & I). cbn [mark place_of can] in *. apply (W d I). destruct (place_of d); try discriminate. reflexivity.
    + rewrite D. unfold zl. rewrite map_length. reflexivity.
    + intros d H.
      destruct (committed (map mark (calls s))) as [|c k] eqn:CM.
      * specialize (P d H). unfold zl at 1. cbn [length]. pose proof (Nat2Z.is_nonneg (length (committed (calls s)))). unfold zl in P. lia.
      * assert (NX : size <= next s).
        { assert (I : In c (committed (map mark (calls s)))) by (rewrite CM; left; reflexivity).
          unfold committed in I. apply filter_In in I as [I R]. apply in_map_iff in I as (e & <- & I). apply (ALL e I R). }
        rewrite <- CM. pose proof (committed_le (map mark (calls s))) as CL.
        assert (OL : zl (out s) = size + made s).
        { apply count_all; [lia|exact ND|]. intros b. rewrite AL. lia. }
        specialize (H h [] ltac:(rewrite app_nil_r; reflexivity)). rewrite D in H.
        unfold zl in *. rewrite map_length in CL. lia.
    + intros c I. apply in_map_iff in I as (d & <- & I). exact (Y d I).
    + intros c I R. apply in_map_iff in I as (d & <- & I). pose proof (ALL d I R) as NX.
      cbn [mark who]. exists h, []. rewrite app_nil_r. repeat split; try reflexivity.
      * exact (Y d I).
      * intros b B. apply (i_use _ _ _ _ _ _ IB). apply AL. lia.
      * intros t b J. apply (i_use _ _ _ _ _ _ IB). apply (i_took _ _ _ _ _ _ IB). exists t. exact J.
Qed.

Lemma run_inv s h : run s h -> inv s h.
Proof.
  induction 1 as [|s h c s' e R IH E].
  - split; cbn [start next seen spare out made calls].
    + split; cbn [app]; try (constructor; fail); try lia.
      * intros b. cbn [In]. lia.
      * intros b. cbn [In in_use]. tauto.
      * intros b. cbn [In]. split; [tauto|intros (? & [])].
    + split; try (constructor; fail); try (intros ? []); try lia.
      unfold zl. lia.
    + split; try (intros ? []; fail); try reflexivity.
      intros d _. unfold zl. cbn. lia.
  - unfold BlockPoolModel.step in E. destruct (access s c) as [[s1 e1]|] eqn:A; [|discriminate]. injection E as <- <-.
    apply notice_inv. exact (access_inv _ _ _ _ _ IH A).
Qed.
End Step.
