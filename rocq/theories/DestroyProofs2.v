(** Two more facts about the blocks of a sub-queue: which one is the last,
    and that elements taken are no longer in them. *)

From Coq Require Import ZArith List Bool Lia ZifyBool.
From Verif Require Import Base Bits SubQueueModel SubQueueSpec SubQueueProofs SubQueueProofs2 SubQueueProofs3 DestroyProofs.
Import ListNotations.
Open Scope Z_scope.

Section Blocks.
Context {T : Type}.
Variables (B : Z) (nothrow : bool).
Hypothesis HB : 0 < B.
Notation state := (@state T).
Notation bnum := (bnum B).
Notation slot := (slot B).
Notation inv := (inv B nothrow).
Notation invD := (invD B).

Definition reading (p : @pc T) : option (nat * Z) := match p with D7 q i | D8 q i _ | D9 q i _ _ => Some (q, i) | _ => None end.
Record invE (s : state) : Prop := mkInvE {
  e_last : forall q j b, entry (subs s q) j = Some b -> tail (subs s q) < (j + 1) * B \/ (tail (subs s q) = (j + 1) * B /\ ~ writing (pcs s q)) -> tailBlock (subs s q) = Some b;
  e_cell : forall q j b r, entry (subs s q) j = Some b -> 0 <= r < B -> j * B + r < head (subs s q) -> cell (blocks s b) r = None \/ exists t, reading (pcs s t) = Some (q, j * B + r) }.

Lemma invE_init : invE init.
Proof. constructor; cbn; discriminate. Qed.

Lemma frameE s s' t : invE s -> (forall q, entry (subs s' q) = entry (subs s q) /\ tailBlock (subs s' q) = tailBlock (subs s q) /\ head (subs s' q) = head (subs s q)) ->
  (forall q j b r, entry (subs s q) j = Some b -> cell (blocks s' b) r = cell (blocks s b) r) ->
  (forall q, tail (subs s' q) = tail (subs s q) \/ (q = t /\ tail (subs s' q) = tail (subs s q) + 1)) ->
  (forall u, u <> t -> pcs s' u = pcs s u) -> (writing (pcs s t) -> writing (pcs s' t) \/ slot (tail (subs s t)) <> 0 \/ tail (subs s' t) = tail (subs s t) + 1) ->
  reading (pcs s' t) = reading (pcs s t) -> invE s'.
Proof.
  intros [H1 H2] E M TL O W R.
  assert (Q : forall u, reading (pcs s' u) = reading (pcs s u)) by (intros u; destruct (Nat.eq_dec u t) as [->|N]; [exact R|now rewrite O]).
  constructor.
  - intros q j b. destruct (E q) as (E1 & E2 & E3). rewrite E1, E2. intros X Y. apply (H1 q j b X).
    destruct (TL q) as [T0|(-> & T0)]; rewrite T0 in *; [|lia]. destruct Y as [Y|(Y & Y')]; [left; exact Y|right; split; [exact Y|]]. intros Z0. destruct (Nat.eq_dec q t) as [->|N]; [|apply Y'; now rewrite O].
    destruct (W Z0) as [A|[A|A]]; [contradiction|apply A; rewrite Y; apply Z.mod_mul; lia|lia].
  - intros q j b r. destruct (E q) as (E1 & E2 & E3). rewrite E1, E3. intros X Y Z0. rewrite (M q j b r X). destruct (H2 q j b r X Y Z0) as [A|(u & A)]; [left; exact A|right; exists u; now rewrite Q].
Qed.

Ltac split_step E := repeat match type of E with
  | context [match ?x with _ => _ end] => destruct x eqn:?
  end; try discriminate E; injection E as <-.
Ltac eqbs := repeat match goal with |- context [Nat.eqb ?a ?b] => destruct (Nat.eqb_spec a b); [subst|] end; cbn.
Ltac who u t := destruct (Nat.eq_dec u t) as [->|?]; [rewrite ?fupd_same|rewrite ?fupd_other by assumption].

Lemma stepE s t c s' : inv s -> inv s' -> invD s -> invE s -> step B nothrow s t c = Some s' -> invE s'.
Proof.
  intros V V' D H E. pose proof V as [(gA & GA) (g & G) C]. pose proof (b_ok _ _ _ _ G t) as K. pose proof (fun q => head_le_tail B nothrow s q V) as HT.
  assert (NB : forall u, pcs s' t <> Bad u).
  { intros u X. destruct V' as [_ (g' & G') _]. pose proof (b_ok _ _ _ _ G' t) as K'. rewrite X in K'. exact K'. }
  unfold SubQueueModel.step, free_block in E. destruct (pcs s t) eqn:P; destruct c; try discriminate E; cbn [okB] in K.
  all: try solve [split_step E; try (exfalso; eapply NB; cbn; rewrite fupd_same; reflexivity); (eapply (frameE s _ t); [exact H|intros q'; cbn; unfold fupd; eqbs; repeat split; reflexivity|
    intros q' j' b' r' _; cbn; unfold fupd; eqbs; reflexivity|intros q'; cbn; unfold fupd; eqbs; tauto|intros u U; cbn; now rewrite fupd_other| |cbn; rewrite fupd_same, P; reflexivity];
    cbn; rewrite ?fupd_same, P; cbn; first [tauto|intros _; right; left; destruct K; [congruence|assumption]])].
  - (* E4 *) destruct K as (K1 & K2 & K3 & K4 & K5). rewrite K1, (K3 0) in E by lia. injection E as <-.
    eapply (frameE s _ t); [exact H|intros q'; repeat split; reflexivity| |intros q'; left; reflexivity|intros u U; cbn; now rewrite fupd_other|cbn; rewrite P; tauto|cbn; rewrite fupd_same, P; reflexivity].
    intros q' j' b' r' X. cbn. rewrite fupd_other; [reflexivity|]. intros ->. destruct (d_ent _ _ D _ _ _ X) as (_ & _ & _ & Y). apply (Y t). rewrite P. reflexivity.
  - (* E5 *) injection E as <-. destruct K as (K1 & K2 & K3 & K4). pose proof (bnum_0 B HB (tail (subs s t)) K1) as Bt. set (jt := bnum (tail (subs s t))) in *.
    assert (HP : reading (if nothrow then E6 v else E7 v) = None) by (destruct nothrow; reflexivity).
    destruct H as [H1 H2]. constructor; cbn.
    + intros q j b'. who q t; cbn.
      * unfold zfupd. destruct (Z.eqb_spec j jt) as [->|N]; [auto|]. intros X Y. exfalso. destruct (d_ent _ _ D _ _ _ X) as (_ & _ & [Z0|(Z0 & W)] & _); [|rewrite P in W; exact W].
        destruct Y as [Y|(_ & Y)]; [|apply Y; destruct nothrow; exact Logic.I]. nia.
      * intros X Y. apply (H1 q j b' X). exact Y.
    + intros q j b' r. who q t; cbn.
      * unfold zfupd. destruct (Z.eqb_spec j jt) as [->|N]; intros X Y Z0; [specialize (HT t); lia|]. destruct (H2 t j b' r X Y Z0) as [A|(u & A)]; [left; exact A|right; exists u; who u t; [rewrite P in A; discriminate|exact A]].
      * intros X Y Z0. destruct (H2 q j b' r X Y Z0) as [A|(u & A)]; [left; exact A|right; exists u; who u t; [rewrite P in A; discriminate|exact A]].
  - (* E6 *) destruct (b_tail _ _ _ _ G t) as (b & Tb & Ob); [right; rewrite P; exact Logic.I|]. rewrite Tb in E. pose proof (b_block _ _ _ _ G b) as Bb. unfold blockB in Bb. rewrite Ob in Bb. destruct Bb as (_ & Bb2 & _).
    split_step E; try (exfalso; eapply NB; cbn; rewrite fupd_same; reflexivity). destruct H as [H1 H2]. constructor; cbn.
    + intros q j b' X Y. apply (H1 q j b' X). destruct Y as [Y|(Y & Y')]; [left; exact Y|right; split; [exact Y|]]. revert Y'. who q t; cbn; [tauto|auto].
    + intros q j b' r X Y Z0. assert (Cc : cell (fupd (blocks s) b (mkBlock (zfupd (cell (blocks s b)) (slot (tail (subs s t))) (Some v)) (emptied (blocks s b))) b') r = cell (blocks s b') r).
      { unfold fupd. destruct (Nat.eqb_spec b' b) as [->|]; [|reflexivity]. cbn. unfold zfupd. destruct (Z.eqb_spec r (slot (tail (subs s t)))) as [->|]; [|reflexivity]. exfalso.
        destruct (d_uniq _ _ D _ _ _ _ _ Bb2 X) as (-> & ->). rewrite (split_index B HB) in Z0. specialize (HT t). lia. }
      rewrite Cc. destruct (H2 q j b' r X Y Z0) as [A|(u & A)]; [left; exact A|right; exists u; who u t; [rewrite P in A; discriminate|exact A]].
  - (* D5 *) injection E as <-. destruct H as [H1 H2]. constructor; cbn.
    + intros q0 j b'. assert (NW : forall u, writing (fupd (pcs s) t (D7 q (head (subs s q))) u) <-> writing (pcs s u)) by (intros u; who u t; [rewrite P; cbn; tauto|tauto]).
      rewrite NW. who q0 q; cbn; apply H1.
    + intros q0 j b' r. who q0 q; cbn; intros X Y Z0.
      * destruct (Z.eq_dec (j * B + r) (head (subs s q))) as [Ej|Nj]; [right; exists t; rewrite fupd_same; cbn; congruence|].
        destruct (H2 q j b' r X Y ltac:(lia)) as [A|(u & A)]; [left; exact A|right; exists u; who u t; [rewrite P in A; discriminate|exact A]].
      * destruct (H2 q0 j b' r X Y Z0) as [A|(u & A)]; [left; exact A|right; exists u; who u t; [rewrite P in A; discriminate|exact A]].
  - (* D9 *) injection E as <-. destruct K as (K1 & K2 & K3 & K4). pose proof (b_block _ _ _ _ G b) as Bb. unfold blockB in Bb. rewrite K3 in Bb. destruct Bb as (_ & Bb2 & _). destruct H as [H1 H2]. constructor; cbn.
    + intros q0 j b'. assert (NW : forall u, writing (fupd (pcs s) t (D10 q i b r) u) <-> writing (pcs s u)) by (intros u; who u t; [rewrite P; cbn; tauto|tauto]). rewrite NW. apply H1.
    + intros q0 j b' r0 X Y Z0. assert (Cc : cell (fupd (blocks s) b (mkBlock (zfupd (cell (blocks s b)) (slot i) None) (emptied (blocks s b))) b') r0 = None \/
        (cell (fupd (blocks s) b (mkBlock (zfupd (cell (blocks s b)) (slot i) None) (emptied (blocks s b))) b') r0 = cell (blocks s b') r0 /\ ~ (b' = b /\ r0 = slot i))).
      { unfold fupd. destruct (Nat.eqb_spec b' b) as [->|]; [|right; tauto]. cbn. unfold zfupd. destruct (Z.eqb_spec r0 (slot i)) as [->|]; [left; reflexivity|right; tauto]. }
      destruct Cc as [Cc|(Cc & Nc)]; [left; exact Cc|]. rewrite Cc. destruct (H2 q0 j b' r0 X Y Z0) as [A|(u & A)]; [left; exact A|]. right. exists u. who u t; [|exact A]. exfalso. rewrite P in A. cbn in A. injection A as <- Ei.
      apply Nc. symmetry in Ei. destruct (index_inj B HB j r0 i Y Ei) as (-> & ->). split; [congruence|reflexivity].
  - (* D11 *) injection E as <-. destruct H as [H1 H2]. constructor; cbn.
    + intros q0 j b'. assert (NW : forall u, writing (fupd (pcs s) t (D12 q i b r) u) <-> writing (pcs s u)) by (intros u; who u t; [rewrite P; cbn; tauto|tauto]). rewrite NW.
      who q0 q; cbn; [|apply H1]. unfold zfupd. destruct (_ =? _); [discriminate|apply H1].
    + intros q0 j b' r0. assert (A : forall j b', entry (subs s q0) j = Some b' -> 0 <= r0 < B -> j * B + r0 < head (subs s q0) -> cell (blocks s b') r0 = None \/ exists u, reading (fupd (pcs s) t (D12 q i b r) u) = Some (q0, j * B + r0)).
      { intros j0 b0 X Y Z0. destruct (H2 q0 j0 b0 r0 X Y Z0) as [A|(u & A)]; [left; exact A|right; exists u; who u t; [rewrite P in A; discriminate|exact A]]. }
      revert A. who q0 q; cbn; [|intros A; apply A]. unfold zfupd. destruct (_ =? _); [discriminate|intros A; apply A].
Qed.

Lemma reach_invE s : reachable B nothrow s -> inv s /\ invD s /\ invE s.
Proof.
  apply (reach_ind B nothrow (fun s => inv s /\ invD s /\ invE s)).
  - split; [apply (reach_inv B nothrow HB); exists []; reflexivity|split; [apply invD_init|apply invE_init]].
  - intros s0 t c s1 _ (I0 & D0 & E0) E. pose proof (inv_step B nothrow HB s0 t c s1 I0 E) as I1. split; [exact I1|]. split; [exact (stepD B nothrow HB s0 t c s1 I0 I1 D0 E)|exact (stepE s0 t c s1 I0 I1 D0 E0 E)].
Qed.

(** ** When all is quiet *)
Lemma hcount_le h q j : hcount B h q j <= zlen h.
Proof. unfold hcount. apply filter_len_le. Qed.
Lemma quiet_entry (s : state) q j b : inv s -> invD s -> quiet s -> entry (subs s q) j = Some b -> 0 <= j /\ j * B < tail (subs s q) /\ head (subs s q) < (j + 1) * B /\ avail s b = false.
Proof.
  intros V D Q X. destruct (d_ent _ _ D q j b X) as (Y1 & Y2 & Y3 & _). destruct Y3 as [Y3|(_ & Y3)]; [|rewrite Q in Y3; destruct Y3]. repeat split; auto.
  destruct (Z.lt_ge_cases (head (subs s q)) ((j + 1) * B)) as [L|L]; [exact L|exfalso].
  destruct (d_count _ _ D q j b X) as [(t & Z0)|(Z1 & Z2)]; [rewrite Q in Z0; discriminate|].
  assert (M : (length (map (fun r : Z => (q, (j * B + r)%Z)) (zrange B)) <= length (filter (in_block B q j) (handed_out (hist s))))%nat).
  { apply NoDup_incl_length.
    - apply FinFun.Injective_map_NoDup; [intros a c I; injection I; lia|apply zrange_nodup].
    - intros d I. apply in_map_iff in I as (r & <- & I). apply in_zrange in I; [|exact HB]. apply filter_In. split.
      + apply (quiet_handed B nothrow s q _ V Q). split; [nia|lia].
      + unfold in_block. cbn. rewrite Nat.eqb_refl, (bnum_of B HB) by exact I. now rewrite Z.eqb_refl. }
  rewrite map_length in M. pose proof (zrange_len B HB) as ZL. unfold hcount, zlen in *. lia.
Qed.
Lemma quiet_lost (s : state) b : invD s -> quiet s -> avail s b = false -> exists q j, entry (subs s q) j = Some b.
Proof. intros D Q A. destruct (d_all _ _ D b A) as [(t & X)|X]; [rewrite Q in X; discriminate|exact X]. Qed.
Lemma quiet_cell (s : state) q j b r : inv s -> invD s -> invE s -> quiet s -> entry (subs s q) j = Some b -> 0 <= r < B ->
  j * B + r < head (subs s q) \/ tail (subs s q) <= j * B + r -> cell (blocks s b) r = None.
Proof.
  intros V D H Q X R [L|L].
  - destruct (e_cell _ H q j b r X R L) as [A|(t & A)]; [exact A|rewrite Q in A; discriminate].
  - pose proof V as [_ (g & G) _]. destruct (quiet_entry s q j b V D Q X) as (Y1 & Y2 & Y3 & Y4).
    pose proof (b_block _ _ _ _ G b) as Bb. unfold blockB in Bb. destruct (own g b) as [|u|q' j'|q' j' u] eqn:O; try (destruct Bb; congruence).
    + assert (Hl : exists b0, own g b0 = At q j).
      { destruct (Z.lt_ge_cases (head (subs s q)) (tail (subs s q))) as [L'|L'].
        - set (i0 := Z.max (head (subs s q)) (j * B)). assert (bnum i0 = j).
          { unfold SubQueueModel.bnum, i0. symmetry. apply (Z.div_unique _ _ _ (i0 - j * B)); unfold i0; lia. }
          rewrite <- H0. apply (b_live _ _ _ _ G q i0); [pose proof (head_le_tail B nothrow s q V); unfold i0; lia|]. rewrite (b_fresh _ _ _ _ G q i0) by (unfold i0; lia). discriminate.
        - pose proof (head_le_tail B nothrow s q V). assert (tail (subs s q) = head (subs s q)) by lia.
          assert (bnum (tail (subs s q)) = j) by (unfold SubQueueModel.bnum; symmetry; apply (Z.div_unique _ _ _ (tail (subs s q) - j * B)); lia).
          destruct (b_tail _ _ _ _ G q) as (b0 & _ & O0); [left|exists b0; congruence]. unfold SubQueueModel.slot. intros Z0. pose proof (Z.div_mod (tail (subs s q)) B ltac:(lia)). unfold SubQueueModel.bnum in H2. nia. }
      destruct Hl as (b0 & O0). pose proof (b_block _ _ _ _ G b0) as B0. unfold blockB in B0. rewrite O0 in B0. destruct B0 as (_ & B0 & _). assert (b0 = b) by congruence. congruence.
    + destruct Bb as (_ & Bb2 & _ & Bb4 & _). destruct (d_uniq _ _ D _ _ _ _ _ X Bb2) as (-> & ->). rewrite Bb4 by exact R. unfold content. destruct (Z.ltb_spec (j * B + r) (tail (subs s q))); [lia|]. rewrite Q. destruct (_ =? _); reflexivity.
    + destruct Bb as (_ & _ & _ & Bb4 & _). apply Bb4. exact R.
Qed.
End Blocks.
