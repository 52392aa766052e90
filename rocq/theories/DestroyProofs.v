(** What is known of a queue when all is quiet: no block is lost. *)

From Coq Require Import ZArith List Bool Lia ZifyBool.
From Verif Require Import Base Bits SubQueueModel SubQueueSpec SubQueueProofs SubQueueProofs2 SubQueueProofs3.
Import ListNotations.
Open Scope Z_scope.

Section Lost.
Context {T : Type}.
Variables (B : Z) (nothrow : bool).
Hypothesis HB : 0 < B.
Notation state := (@state T).
Notation bnum := (bnum B).
Notation slot := (slot B).
Notation inv := (inv B nothrow).
Notation in_range := (in_range B).

Definition holding (p : @pc T) : option nat :=
  match p with E3 _ b | E4 _ b | E4x b | E5 _ b | D12 _ _ b _ => Some b | _ => None end.
Definition closing (p : @pc T) : option nat := match p with D11 _ _ b _ => Some b | _ => None end.
Definition closed (p : @pc T) : option (nat * Z) := match p with D12 q i _ _ => Some (q, i) | _ => None end.
Definition in_block (q : nat) (j : Z) (d : nat * Z) : bool := Nat.eqb (fst d) q && (bnum (snd d) =? j).
Definition hcount (h : list (nat * Z)) (q : nat) (j : Z) : Z := zlen (filter (in_block q j) h).

Record invD (s : state) : Prop := mkInvD {
  d_uniq : forall q j q' j' b, entry (subs s q) j = Some b -> entry (subs s q') j' = Some b -> q' = q /\ j' = j;
  d_ent : forall q j b, entry (subs s q) j = Some b -> avail s b = false /\ 0 <= j /\ in_range s q j /\ (forall t, holding (pcs s t) <> Some b);
  d_hold : forall t u b, holding (pcs s t) = Some b -> avail s b = false /\ (holding (pcs s u) = Some b -> u = t);
  d_all : forall b, avail s b = false -> (exists t, holding (pcs s t) = Some b) \/ exists q j, entry (subs s q) j = Some b;
  d_closed : forall t q i, closed (pcs s t) = Some (q, i) -> entry (subs s q) (bnum i) = None;
  d_count : forall q j b, entry (subs s q) j = Some b -> (exists t, closing (pcs s t) = Some b) \/ (emptied (blocks s b) = hcount (handed_out (hist s)) q j /\ emptied (blocks s b) < B) }.

Lemma invD_init : invD init.
Proof. constructor; cbn; try discriminate. Qed.

Lemma frameD s s' t : invD s -> (forall q, entry (subs s' q) = entry (subs s q)) -> avail s' = avail s -> (forall b, emptied (blocks s' b) = emptied (blocks s b)) ->
  handed_out (hist s') = handed_out (hist s) -> (forall q, tail (subs s q) <= tail (subs s' q)) -> (writing (pcs s t) -> writing (pcs s' t) \/ slot (tail (subs s t)) <> 0 \/ tail (subs s t) < tail (subs s' t)) -> (forall u, u <> t -> pcs s' u = pcs s u) ->
  holding (pcs s' t) = holding (pcs s t) -> closing (pcs s' t) = closing (pcs s t) -> closed (pcs s' t) = closed (pcs s t) -> invD s'.
Proof.
  intros D E A M H R1 R2 O P1 P2 P3.
  assert (R : forall q j, in_range s q j -> in_range s' q j).
  { intros q j. unfold SubQueueProofs2.in_range. specialize (R1 q). destruct (Nat.eq_dec q t) as [->|N]; [|rewrite (O q N)].
    - intros [X|(X & W)]; [lia|]. destruct (R2 W) as [Y|[Y|Y]]; [|exfalso; apply Y; rewrite <- X; apply Z.mod_mul; lia|lia]. destruct (Z.eq_dec (tail (subs s t)) (tail (subs s' t))); [right; split; [congruence|exact Y]|lia].
    - intros [X|(X & W)]; [lia|]. destruct (Z.eq_dec (tail (subs s q)) (tail (subs s' q))); [right; split; [congruence|exact W]|lia]. }
  assert (Q1 : forall u, holding (pcs s' u) = holding (pcs s u)) by (intros u; destruct (Nat.eq_dec u t) as [->|N]; [exact P1|now rewrite O]).
  assert (Q2 : forall u, closing (pcs s' u) = closing (pcs s u)) by (intros u; destruct (Nat.eq_dec u t) as [->|N]; [exact P2|now rewrite O]).
  assert (Q3 : forall u, closed (pcs s' u) = closed (pcs s u)) by (intros u; destruct (Nat.eq_dec u t) as [->|N]; [exact P3|now rewrite O]).
  destruct D as [D1 D2 D3 D4 D5 D6]. constructor.
  - intros q j q' j' b. rewrite !E. apply D1.
  - intros q j b. rewrite E, A. intros X. destruct (D2 q j b X) as (Y1 & Y2 & Y3 & Y4). repeat split; auto. intros u. rewrite Q1. apply Y4.
  - intros u v b. rewrite !Q1, A. apply D3.
  - intros b. rewrite A. intros X. destruct (D4 b X) as [(u & U)|(q & j & U)]; [left; exists u; now rewrite Q1|right; exists q, j; now rewrite E].
  - intros u q i. rewrite Q3, E. apply D5.
  - intros q j b. rewrite E, M, H. intros X. destruct (D6 q j b X) as [(u & U)|U]; [left; exists u; now rewrite Q2|right; exact U].
Qed.

Ltac split_step E := repeat match type of E with
  | context [match ?x with _ => _ end] => destruct x eqn:?
  end; try discriminate E; injection E as <-.
Ltac eqbs := repeat match goal with |- context [Nat.eqb ?a ?b] => destruct (Nat.eqb_spec a b); [subst|] end; cbn.
Lemma hcount_cons d h q j : hcount (d :: h) q j = hcount h q j + (if in_block q j d then 1 else 0).
Proof. unfold hcount. cbn [filter]. unfold zlen. destruct (in_block q j d); cbn [length]; lia. Qed.
Lemma hcount_0 h q j : (forall i, In (q, i) h -> bnum i <> j) -> hcount h q j = 0.
Proof.
  induction h as [|(q', i) h IH]; intros H; [reflexivity|]. rewrite hcount_cons, IH by (intros i' I; apply H; right; exact I).
  unfold in_block. cbn. destruct (Nat.eqb_spec q' q) as [->|]; [|reflexivity]. destruct (Z.eqb_spec (bnum i) j); [|reflexivity]. exfalso. apply (H i); [left; reflexivity|assumption].
Qed.
Ltac who u t := destruct (Nat.eq_dec u t) as [->|?]; [rewrite ?fupd_same|rewrite ?fupd_other by assumption].
Lemma stepD s t c s' : inv s -> inv s' -> invD s -> step B nothrow s t c = Some s' -> invD s'.
Proof.
  intros V V' D E. pose proof V as [(gA & GA) (g & G) C]. pose proof (b_ok _ _ _ _ G t) as K. pose proof (fun q => head_le_tail B nothrow s q V) as HT.
  assert (NB : forall u, pcs s' t <> Bad u).
  { intros u X. destruct V' as [_ (g' & G') _]. pose proof (b_ok _ _ _ _ G' t) as K'. rewrite X in K'. exact K'. }
  unfold SubQueueModel.step, free_block in E. destruct (pcs s t) eqn:P; destruct c; try discriminate E; cbn [okB] in K.
  all: try solve [split_step E; try (exfalso; eapply NB; cbn; rewrite fupd_same; reflexivity); (eapply (frameD s _ t); [exact D|intros q'; cbn; unfold fupd; eqbs; reflexivity|reflexivity|
    intros b'; cbn; unfold fupd; eqbs; reflexivity|reflexivity|intros q'; cbn; unfold fupd; eqbs; cbn; lia| |intros u U; cbn; now rewrite fupd_other|cbn; rewrite fupd_same, P; reflexivity..];
    cbn; rewrite ?fupd_same, P; cbn; first [tauto|intros _; right; right; lia|intros _; right; left; destruct K; [congruence|assumption]])].
  all: destruct D as [D1 D2 D3 D4 D5 D6].
  - (* E2 *) destruct (avail s b) eqn:A; [|discriminate]. injection E as <-. constructor; cbn.
    + exact D1.
    + intros q j b' X. destruct (D2 q j b' X) as (Y1 & Y2 & Y3 & Y4). assert (b' <> b) by congruence. rewrite fupd_other by assumption. repeat split; auto.
      * destruct Y3 as [Y3|(Y3 & Y5)]; [left; exact Y3|right; split; [exact Y3|]]. cbn. who q t; [rewrite P in Y5; exact Y5|exact Y5].
      * intros u. who u t; [cbn; congruence|apply Y4].
    + intros u v0 b'. who u t.
      * cbn. intros [= <-]. rewrite fupd_same. split; [reflexivity|]. who v0 t; [auto|]. intros Y. destruct (D3 v0 v0 b Y). congruence.
      * intros X. destruct (D3 u v0 b' X) as (Y1 & Y2). assert (b' <> b) by congruence. rewrite fupd_other by assumption. split; [exact Y1|]. who v0 t; [cbn; congruence|exact Y2].
    + intros b' X. destruct (Nat.eq_dec b' b) as [->|N]; [left; exists t; now rewrite fupd_same|]. rewrite fupd_other in X by exact N.
      destruct (D4 b' X) as [(u & U)|U]; [|right; exact U]. left. exists u. who u t; [rewrite P in U; discriminate|exact U].
    + intros u q i. who u t; [discriminate|apply D5].
    + intros q j b' X. destruct (D6 q j b' X) as [(u & U)|U]; [left; exists u; who u t; [rewrite P in U; discriminate|exact U]|right; exact U].
  - (* E3 *) injection E as <-. assert (H0 : holding (pcs s t) = Some b) by (rewrite P; reflexivity).
    assert (HP : holding (if nothrow then E5 v b else E4 v b) = Some b) by (destruct nothrow; reflexivity). constructor; cbn.
    + exact D1.
    + intros q j b' X. destruct (D2 q j b' X) as (Y1 & Y2 & Y3 & Y4). repeat split; auto.
      * destruct Y3 as [Y3|(Y3 & Y5)]; [left; exact Y3|right; split; [exact Y3|]]. cbn. who q t; [rewrite P in Y5; destruct Y5|exact Y5].
      * intros u. who u t; [rewrite HP, <- H0; apply Y4|apply Y4].
    + intros u v0 b'. who u t; rewrite ?HP, <- ?H0; (intros X; destruct (D3 _ v0 b' X) as (Y1 & Y2); split; [exact Y1|]; who v0 t; [rewrite ?HP, <- ?H0; exact Y2|exact Y2]).
    + intros b' X. destruct (D4 b' X) as [(u & U)|U]; [|right; exact U]. left. exists u. who u t; [rewrite HP, <- H0; exact U|exact U].
    + intros u q i. who u t; [destruct nothrow; discriminate|apply D5].
    + intros q j b' X. assert (b' <> b) by (intros ->; destruct (D2 q j b X) as (_ & _ & _ & Y); apply (Y t); exact H0). rewrite fupd_other by assumption.
      destruct (D6 q j b' X) as [(u & U)|U]; [left; exists u; who u t; [rewrite P in U; discriminate|exact U]|right; exact U].
  - (* E4x *) destruct (avail s b) eqn:A; injection E as <-; [exfalso; eapply NB; cbn; rewrite fupd_same; reflexivity|]. assert (H0 : holding (pcs s t) = Some b) by (rewrite P; reflexivity). constructor; cbn.
    + exact D1.
    + intros q j b' X. destruct (D2 q j b' X) as (Y1 & Y2 & Y3 & Y4). assert (b' <> b) by (intros ->; apply (Y4 t); exact H0). rewrite fupd_other by assumption. repeat split; auto.
      * destruct Y3 as [Y3|(Y3 & Y5)]; [left; exact Y3|right; split; [exact Y3|]]. cbn. who q t; [rewrite P in Y5; destruct Y5|exact Y5].
      * intros u. who u t; [discriminate|apply Y4].
    + intros u v0 b'. who u t; [discriminate|]. intros X. destruct (D3 u v0 b' X) as (Y1 & Y2). assert (b' <> b) by (intros ->; destruct (D3 t u b H0) as (_ & Z0); apply n; apply Z0; exact X).
      rewrite fupd_other by assumption. split; [exact Y1|]. who v0 t; [discriminate|exact Y2].
    + intros b' X. destruct (Nat.eq_dec b' b) as [->|N]; [rewrite fupd_same in X; discriminate|]. rewrite fupd_other in X by exact N.
      destruct (D4 b' X) as [(u & U)|U]; [|right; exact U]. left. exists u. who u t; [rewrite H0 in U; congruence|exact U].
    + intros u q i. who u t; [discriminate|apply D5].
    + intros q j b' X. destruct (D6 q j b' X) as [(u & U)|U]; [left; exists u; who u t; [rewrite P in U; discriminate|exact U]|right; exact U].
  - (* E5 *) injection E as <-. assert (H0 : holding (pcs s t) = Some b) by (rewrite P; reflexivity). destruct K as (K1 & K2 & K3 & K4).
    pose proof (bnum_0 B HB (tail (subs s t)) K1) as Bt. set (jt := bnum (tail (subs s t))) in *.
    assert (HP : holding (if nothrow then E6 v else E7 v) = None) by (destruct nothrow; reflexivity).
    assert (HQ : closing (if nothrow then E6 v else E7 v) = None) by (destruct nothrow; reflexivity).
    assert (HW : writing (if nothrow then E6 v else E7 v)) by (destruct nothrow; exact Logic.I).
    assert (EN : entry (subs s t) jt = None).
    { destruct (entry (subs s t) jt) as [b'|] eqn:X; [|reflexivity]. destruct (D2 t jt b' X) as (_ & _ & [Y|(Y & W)] & _); [lia|]. rewrite P in W. destruct W. }
    assert (EQ : forall q j b', entry (fupd (subs s) t (mkSub (tail (subs s t)) (head (subs s t)) (opt (subs s t)) (over (subs s t)) (zfupd (entry (subs s t)) jt (Some b)) (Some b) (sent (subs s t))) q) j = Some b' ->
                (q = t /\ j = jt /\ b' = b) \/ ((q, j) <> (t, jt) /\ entry (subs s q) j = Some b')).
    { intros q j b'. who q t; [|intros X; right; split; [congruence|exact X]]. cbn. unfold zfupd. destruct (Z.eqb_spec j jt) as [->|N]; [intros [= <-]; left; auto|intros X; right; split; [congruence|exact X]]. }
    assert (TQ : forall q, tail (fupd (subs s) t (mkSub (tail (subs s t)) (head (subs s t)) (opt (subs s t)) (over (subs s t)) (zfupd (entry (subs s t)) jt (Some b)) (Some b) (sent (subs s t))) q) = tail (subs s q)).
    { intros q. who q t; reflexivity. }
    constructor; cbn.
    + intros q j q' j' b' X Y. apply EQ in X, Y. destruct X as [(-> & -> & ->)|(N & X)], Y as [(-> & -> & Eb)|(N' & Y)]; auto.
      * exfalso. destruct (D2 q' j' b Y) as (_ & _ & _ & Z0). apply (Z0 t). exact H0.
      * subst b'. exfalso. destruct (D2 q j b X) as (_ & _ & _ & Z0). apply (Z0 t). exact H0.
      * exact (D1 q j q' j' b' X Y).
    + intros q j b' X. apply EQ in X as [(-> & -> & ->)|(N & X)].
      * destruct (D3 t t b H0) as (Y & _). assert (0 <= jt) by (apply bnum_nonneg; [exact HB|apply Z.le_trans with (head (subs s t)); apply HT]). split; [exact Y|]. split; [assumption|]. split.
        -- right. cbn. rewrite !fupd_same. cbn. split; [exact Bt|exact HW].
        -- intros u. who u t; [rewrite HP; discriminate|]. intros Z0. destruct (D3 t u b H0) as (_ & Y1). apply n. apply Y1. exact Z0.
      * destruct (D2 q j b' X) as (Y1 & Y2 & Y3 & Y4). repeat split; auto.
        -- unfold SubQueueProofs2.in_range. cbn. rewrite TQ. destruct Y3 as [Y3|(Y3 & Y5)]; [left; exact Y3|right; split; [exact Y3|]]. who q t; [exact HW|exact Y5].
        -- intros u. who u t; [rewrite HP; discriminate|apply Y4].
    + intros u v0 b'. who u t; [rewrite HP; discriminate|]. intros X. destruct (D3 u v0 b' X) as (Y1 & Y2). split; [exact Y1|]. who v0 t; [rewrite HP; discriminate|exact Y2].
    + intros b' X. destruct (Nat.eq_dec b' b) as [->|N]; [right; exists t, jt; rewrite fupd_same; cbn; apply zfupd_same|].
      destruct (D4 b' X) as [(u & U)|(q & j & U)].
      * left. exists u. who u t; [rewrite H0 in U; congruence|exact U].
      * right. exists q, j. who q t; [|exact U]. cbn. unfold zfupd. destruct (Z.eqb_spec j jt) as [->|]; [congruence|exact U].
    + intros u q i. who u t; [destruct nothrow; discriminate|]. intros X. pose proof (D5 u q i X) as Y. who q t; [|exact Y]. cbn. unfold zfupd. destruct (Z.eqb_spec (bnum i) jt) as [Ej|]; [|exact Y]. exfalso.
      pose proof (b_ok _ _ _ _ G u) as Ku. destruct (pcs s u) eqn:Pu; try discriminate X. cbn in X. injection X as -> ->. cbn in Ku. destruct Ku as ((Ku1 & Ku2) & _). pose proof (split_index B HB i). pose proof (slot_range B HB i). specialize (HT t). rewrite Ej in *. lia.
    + intros q j b' X. apply EQ in X as [(-> & -> & ->)|(N & X)].
      * right. rewrite K3, hcount_0; [lia|]. intros i I. pose proof (c_range _ C t i I). pose proof (split_index B HB i). pose proof (slot_range B HB i). specialize (HT t). intros Ej. rewrite Ej in *. lia.
      * destruct (D6 q j b' X) as [(u & U)|U]; [left; exists u; who u t; [rewrite P in U; discriminate|exact U]|right; exact U].
  - (* D10 *) destruct K as (K1 & K2 & K3 & K4). pose proof (b_block _ _ _ _ G b) as Bb. unfold blockB in Bb. rewrite K3 in Bb. destruct Bb as (Bb1 & Bb2 & _).
    destruct (Z.ltb_spec (emptied (blocks s b)) B) as [L|]; [|injection E as <-; exfalso; eapply NB; cbn; rewrite fupd_same; reflexivity].
    assert (F : forall q j b', entry (subs s q) j = Some b' -> b' <> b -> emptied (fupd (blocks s) b (mkBlock (cell (blocks s b)) (emptied (blocks s b) + 1)) b') = emptied (blocks s b')) by (intros; now rewrite fupd_other).
    destruct (Z.eqb_spec (emptied (blocks s b)) (B - 1)) as [L'|L']; injection E as <-; constructor; cbn.
    + exact D1.
    + intros q0 j b' X. destruct (D2 q0 j b' X) as (Y1 & Y2 & Y3 & Y4). repeat split; auto.
      * destruct Y3 as [Y3|(Y3 & Y5)]; [left; exact Y3|right; split; [exact Y3|]]. cbn. who q0 t; [rewrite P in Y5; destruct Y5|exact Y5].
      * intros u. who u t; [discriminate|apply Y4].
    + intros u v0 b'. who u t; [discriminate|]. intros X. destruct (D3 u v0 b' X) as (Y1 & Y2). split; [exact Y1|]. who v0 t; [discriminate|exact Y2].
    + intros b' X. destruct (D4 b' X) as [(u & U)|U]; [|right; exact U]. left. exists u. who u t; [rewrite P in U; discriminate|exact U].
    + intros u q0 i0. who u t; [discriminate|apply D5].
    + intros q0 j b' X. destruct (Nat.eq_dec b' b) as [->|Nb]; [left; exists t; now rewrite fupd_same|]. rewrite (F q0 j b' X Nb).
      destruct (D6 q0 j b' X) as [(u & U)|U]; [left; exists u; who u t; [rewrite P in U; discriminate|exact U]|right; exact U].
    + exact D1.
    + intros q0 j b' X. destruct (D2 q0 j b' X) as (Y1 & Y2 & Y3 & Y4). repeat split; auto.
      * destruct Y3 as [Y3|(Y3 & Y5)]; [left; exact Y3|right; split; [exact Y3|]]. cbn. who q0 t; [rewrite P in Y5; destruct Y5|exact Y5].
      * intros u. who u t; [discriminate|apply Y4].
    + intros u v0 b'. who u t; [discriminate|]. intros X. destruct (D3 u v0 b' X) as (Y1 & Y2). split; [exact Y1|]. who v0 t; [discriminate|exact Y2].
    + intros b' X. destruct (D4 b' X) as [(u & U)|U]; [|right; exact U]. left. exists u. who u t; [rewrite P in U; discriminate|exact U].
    + intros u q0 i0. who u t; [discriminate|apply D5].
    + intros q0 j b' X. rewrite hcount_cons. destruct (Nat.eq_dec b' b) as [->|Nb].
      * destruct (D1 _ _ _ _ _ Bb2 X) as (-> & ->). rewrite fupd_same. cbn. unfold in_block. cbn. rewrite Nat.eqb_refl, Z.eqb_refl. cbn.
        destruct (D6 _ _ _ X) as [(u & U)|(U1 & U2)]; [left; exists u; who u t; [rewrite P in U; discriminate|exact U]|right; lia].
      * rewrite (F q0 j b' X Nb). assert (IB : in_block q0 j (q, i) = false).
        { unfold in_block. cbn. destruct (Nat.eqb_spec q q0) as [->|]; [|reflexivity]. destruct (Z.eqb_spec (bnum i) j) as [<-|]; [congruence|reflexivity]. }
        rewrite IB. destruct (D6 q0 j b' X) as [(u & U)|U]; [left; exists u; who u t; [rewrite P in U; discriminate|exact U]|right; lia].
  - (* D11 *) destruct K as (K1 & K2 & K3). pose proof (b_block _ _ _ _ G b) as Bb. unfold blockB in Bb. rewrite K2 in Bb. destruct Bb as (Bb1 & Bb2 & _). injection E as <-.
    assert (EQ : forall q0 j b', entry (fupd (subs s) q (mkSub (tail (subs s q)) (head (subs s q)) (opt (subs s q)) (over (subs s q)) (zfupd (entry (subs s q)) (bnum i) None) (tailBlock (subs s q)) (sent (subs s q))) q0) j = Some b' ->
                entry (subs s q0) j = Some b' /\ b' <> b).
    { intros q0 j b' X. assert (Y : entry (subs s q0) j = Some b' /\ (q0, j) <> (q, bnum i)).
      { revert X. who q0 q; [|intros X; split; [exact X|congruence]]. cbn. unfold zfupd. destruct (Z.eqb_spec j (bnum i)) as [->|]; [discriminate|]. intros X. split; [exact X|congruence]. }
      destruct Y as (Y1 & Y2). split; [exact Y1|]. intros ->. destruct (D1 _ _ _ _ _ Bb2 Y1). congruence. }
    assert (TQ : forall q0, tail (fupd (subs s) q (mkSub (tail (subs s q)) (head (subs s q)) (opt (subs s q)) (over (subs s q)) (zfupd (entry (subs s q)) (bnum i) None) (tailBlock (subs s q)) (sent (subs s q))) q0) = tail (subs s q0)).
    { intros q0. who q0 q; reflexivity. }
    constructor; cbn.
    + intros q1 j q2 j' b' X Y. apply EQ in X as (X & _), Y as (Y & _). exact (D1 _ _ _ _ _ X Y).
    + intros q0 j b' X. apply EQ in X as (X & Nb). destruct (D2 q0 j b' X) as (Y1 & Y2 & Y3 & Y4). repeat split; auto.
      * unfold SubQueueProofs2.in_range. cbn. rewrite TQ. destruct Y3 as [Y3|(Y3 & Y5)]; [left; exact Y3|right; split; [exact Y3|]]. who q0 t; [rewrite P in Y5; destruct Y5|exact Y5].
      * intros u. who u t; [cbn; congruence|apply Y4].
    + assert (NH : forall u, holding (pcs s u) <> Some b) by (destruct (D2 _ _ _ Bb2) as (_ & _ & _ & Y); exact Y).
      intros u v0 b'. who u t.
      * cbn. intros [= <-]. split; [exact Bb1|]. who v0 t; [auto|]. intros Y. destruct (NH _ Y).
      * intros X. destruct (D3 u v0 b' X) as (Y1 & Y2). split; [exact Y1|]. who v0 t; [cbn; intros [= <-]; destruct (NH _ X)|exact Y2].
    + intros b' X. destruct (Nat.eq_dec b' b) as [->|N]; [left; exists t; now rewrite fupd_same|]. destruct (D4 b' X) as [(u & U)|(q0 & j & U)].
      * left. exists u. who u t; [rewrite P in U; discriminate|exact U].
      * right. exists q0, j. who q0 q; [|exact U]. cbn. unfold zfupd. destruct (Z.eqb_spec j (bnum i)) as [->|]; [congruence|exact U].
    + intros u q0 i0 X. destruct (Nat.eq_dec u t) as [->|N].
      * rewrite fupd_same in X. cbn in X. injection X as <- <-. rewrite fupd_same. cbn. apply zfupd_same.
      * rewrite fupd_other in X by exact N. pose proof (D5 u q0 i0 X) as Y. who q0 q; [|exact Y]. cbn. unfold zfupd. destruct (_ =? _); [reflexivity|exact Y].
    + intros q0 j b' X. apply EQ in X as (X & Nb). destruct (D6 q0 j b' X) as [(u & U)|U]; [left; exists u; who u t; [rewrite P in U; cbn in U; congruence|exact U]|right; exact U].
  - (* D12 *) destruct (avail s b) eqn:A; injection E as <-; [exfalso; eapply NB; cbn; rewrite fupd_same; reflexivity|]. assert (H0 : holding (pcs s t) = Some b) by (rewrite P; reflexivity).
    assert (H1 : entry (subs s q) (bnum i) = None) by (apply (D5 t); rewrite P; reflexivity). constructor; cbn.
    + exact D1.
    + intros q0 j b' X. destruct (D2 q0 j b' X) as (Y1 & Y2 & Y3 & Y4). assert (b' <> b) by (intros ->; apply (Y4 t); exact H0). rewrite fupd_other by assumption. repeat split; auto.
      * destruct Y3 as [Y3|(Y3 & Y5)]; [left; exact Y3|right; split; [exact Y3|]]. cbn. who q0 t; [rewrite P in Y5; destruct Y5|exact Y5].
      * intros u. who u t; [discriminate|apply Y4].
    + intros u v0 b'. who u t; [discriminate|]. intros X. destruct (D3 u v0 b' X) as (Y1 & Y2). assert (b' <> b) by (intros ->; destruct (D3 t u b H0) as (_ & Z0); apply n; apply Z0; exact X).
      rewrite fupd_other by assumption. split; [exact Y1|]. who v0 t; [discriminate|exact Y2].
    + intros b' X. destruct (Nat.eq_dec b' b) as [->|N]; [rewrite fupd_same in X; discriminate|]. rewrite fupd_other in X by exact N.
      destruct (D4 b' X) as [(u & U)|U]; [|right; exact U]. left. exists u. who u t; [rewrite H0 in U; congruence|exact U].
    + intros u q0 i0. who u t; [discriminate|apply D5].
    + intros q0 j b' X. rewrite hcount_cons. assert (IB : in_block q0 j (q, i) = false).
      { unfold in_block. cbn. destruct (Nat.eqb_spec q q0) as [->|]; [|reflexivity]. destruct (Z.eqb_spec (bnum i) j) as [<-|]; [congruence|reflexivity]. }
      rewrite IB, Z.add_0_r. destruct (D6 q0 j b' X) as [(u & U)|U]; [left; exists u; who u t; [rewrite P in U; discriminate|exact U]|right; exact U].
Qed.

Lemma reach_invD s : reachable B nothrow s -> inv s /\ invD s.
Proof.
  apply (reach_ind B nothrow (fun s => inv s /\ invD s)).
  - split; [apply (reach_inv B nothrow HB); exists []; reflexivity|apply invD_init].
  - intros s0 t c s1 _ (I0 & D0) E. pose proof (inv_step B nothrow HB s0 t c s1 I0 E) as I1. split; [exact I1|exact (stepD s0 t c s1 I0 I1 D0 E)].
Qed.
End Lost.
