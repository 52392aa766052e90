(** The destructors at work. *)

From Coq Require Import ZArith List Bool Lia ZifyBool.
From Verif Require Import Base Bits SubQueueModel SubQueueSpec SubQueueProofs SubQueueProofs2 SubQueueProofs3 SubQueueProofs4 DestroyModel DestroyProofs DestroyProofs2.
Import ListNotations.
Open Scope Z_scope.

Section Walk.
Context {T : Type}.
Variables (B : Z) (nothrow : bool).
Hypothesis HB : 0 < B.
Notation state := (@state T).
Notation mem := (@mem T).
Notation bnum := (bnum B).
Notation slot := (slot B).
Notation inv := (inv B nothrow).
Notation invD := (invD B).
Notation invE := (invE B).

(** what the walk of sub-queue [q] has done when it has come to [i], [cur]
    being the block it is in *)
Record walked (s : state) (q : nat) (m0 m : mem) (i : Z) (cur : option nat) : Prop := mkWalked {
  w_i : head (subs s q) <= i <= tail (subs s q);
  w_cur : match cur with None => i = head (subs s q) | Some b => head (subs s q) < i /\ entry (subs s q) (bnum (i - 1)) = Some b end;
  w_other : forall b, (forall j, entry (subs s q) j <> Some b) -> mblocks m b = mblocks m0 b /\ mavail m b = mavail m0 b;
  w_avail : forall j b, entry (subs s q) j = Some b -> mavail m b = match cur with None => false | Some _ => j <? bnum (i - 1) end;
  w_cell : forall j b r, entry (subs s q) j = Some b -> 0 <= r < B -> cell (mblocks m b) r = if j * B + r <? i then None else cell (blocks s b) r }.

Lemma bnum_pred i : slot i <> 0 -> bnum (i - 1) = bnum i.
Proof.
  intros N. pose proof (split_index B HB i). pose proof (slot_range B HB i). unfold SubQueueModel.bnum at 1. symmetry. apply (Z.div_unique _ _ _ (slot i - 1)); lia.
Qed.
Lemma bnum_pred0 i : slot i = 0 -> bnum (i - 1) = bnum i - 1.
Proof. intros N. pose proof (bnum_0 B HB i N). unfold SubQueueModel.bnum at 1. symmetry. apply (Z.div_unique _ _ _ (B - 1)); lia. Qed.

Lemma walk_ok s q m0 : inv s -> invD s -> invE s -> quiet s -> forall fuel m i cur, walked s q m0 m i cur -> (Z.to_nat (tail (subs s q) - i) <= fuel)%nat ->
  exists m' cur', walk B fuel (subs s q) m i cur = Ok m' /\ walked s q m0 m' (tail (subs s q)) cur' /\ destroyed m' = destroyed m ++ skipn (Z.to_nat i) (sent (subs s q)) /\
  (cur' = None <-> cur = None /\ i = tail (subs s q)).
Proof.
  intros V D H Q. assert (TS : tail (subs s q) = zlen (sent (subs s q))) by (rewrite (tail_enqueued B nothrow s q V), (c_sent _ (v_C _ _ _ V)); reflexivity).
  pose proof (head_le_tail B nothrow s q V) as HT.
  induction fuel as [|fuel IH]; intros m i cur W F; pose proof (w_i _ _ _ _ _ _ W) as Wi; cbn [walk]; destruct (Z.eqb_spec i (tail (subs s q))) as [Ei|Ni].
  1, 3: exists m, cur; split; [reflexivity|]; split; [subst i; exact W|]; split; [|tauto]; subst i; rewrite TS; unfold zlen; rewrite Nat2Z.id, skipn_all, app_nil_r; reflexivity.
  1: lia.
  destruct (kept B nothrow HB s q i V ltac:(lia)) as (b & Eb & Ab & Cb).
  assert (Dj : 0 <= bnum i) by (apply bnum_nonneg; [exact HB|lia]).
  (* the block the element is in *)
  assert (N : exists m1, bind (if (slot i =? 0) || match cur with None => true | Some _ => false end
               then bind (match cur with Some b => give_back m b | None => Ok m end)
                         (fun m => match entry (subs s q) (bnum i) with Some b => Ok (m, b) | None => UB NullDeref end)
               else match cur with Some b => Ok (m, b) | None => UB NullDeref end)
              (fun d => let (m, b) := d in bind (end_element B m b i) (fun m => walk B fuel (subs s q) m (i + 1) (Some b))) =
            bind (end_element B m1 b i) (fun m => walk B fuel (subs s q) m (i + 1) (Some b)) /\
            mblocks m1 = mblocks m /\ destroyed m1 = destroyed m /\
            (forall b', (forall j, entry (subs s q) j <> Some b') -> mavail m1 b' = mavail m0 b') /\
            forall j b', entry (subs s q) j = Some b' -> mavail m1 b' = (j <? bnum i)).
  { pose proof (w_cur _ _ _ _ _ _ W) as Wc. pose proof (w_avail _ _ _ _ _ _ W) as Wa. pose proof (w_other _ _ _ _ _ _ W) as Wo. destruct cur as [c|].
    - destruct Wc as (Wc1 & Wc2). destruct (Z.eqb_spec (slot i) 0) as [S0|S0]; cbn [orb].
      + unfold give_back. rewrite (Wa _ _ Wc2), Z.ltb_irrefl. cbn [bind]. rewrite Eb. cbn [bind]. eexists. split; [reflexivity|]. cbn. split; [reflexivity|]. split; [reflexivity|]. split.
        * intros b' X. rewrite fupd_other by (intros ->; exact (X _ Wc2)). apply (Wo b' X).
        * intros j b' X. unfold fupd. rewrite (bnum_pred0 i S0) in *. destruct (Nat.eqb_spec b' c) as [->|Nc].
          -- destruct (d_uniq _ _ D _ _ _ _ _ Wc2 X) as (_ & ->). symmetry. apply Z.ltb_lt. lia.
          -- rewrite (Wa j b' X). assert (j <> bnum i - 1) by congruence. destruct (Z.ltb_spec j (bnum i - 1)), (Z.ltb_spec j (bnum i)); lia.
      + rewrite (bnum_pred i S0) in *. assert (c = b) by congruence. subst c. cbn [bind]. exists m. split; [reflexivity|]. split; [reflexivity|]. split; [reflexivity|]. split; [intros b' X; apply (Wo b' X)|exact Wa].
    - rewrite orb_true_r. cbn [bind]. rewrite Eb. cbn [bind]. exists m. split; [reflexivity|]. split; [reflexivity|]. split; [reflexivity|]. split; [intros b' X; apply (Wo b' X)|].
      intros j b' X. rewrite (Wa j b' X). destruct (quiet_entry B nothrow HB s q j b' V D Q X) as (Y1 & Y2 & Y3 & Y4). symmetry. apply Z.ltb_ge. subst i.
      pose proof (split_index B HB (head (subs s q))). pose proof (slot_range B HB (head (subs s q))). nia. }
  destruct N as (m1 & -> & M1 & M2 & M3 & M4).
  assert (Ci : cell (mblocks m1 b) (slot i) = cell (blocks s b) (slot i)).
  { rewrite M1, (w_cell _ _ _ _ _ _ W _ b (slot i) Eb (slot_range B HB i)), (split_index B HB i), Z.ltb_irrefl. reflexivity. }
  destruct (znth_ex (sent (subs s q)) i ltac:(lia)) as (v & Ev). unfold end_element. rewrite Ci, Cb, Ev. cbn [bind].
  set (m2 := mkMem _ _ _).
  assert (W2 : walked s q m0 m2 (i + 1) (Some b)).
  { constructor.
    - lia.
    - replace (i + 1 - 1) with i by lia. split; [lia|exact Eb].
    - intros b' X. cbn. assert (b' <> b) by (intros ->; exact (X _ Eb)). rewrite fupd_other by assumption. rewrite M1. destruct (w_other _ _ _ _ _ _ W b' X) as (Y & _). split; [exact Y|apply M3; exact X].
    - intros j b' X. cbn. replace (i + 1 - 1) with i by lia. apply M4. exact X.
    - intros j b' r X R. cbn. rewrite M1. destruct (Nat.eq_dec b' b) as [->|Nb].
      + destruct (d_uniq _ _ D _ _ _ _ _ Eb X) as (_ & ->). rewrite fupd_same. cbn. unfold zfupd. pose proof (split_index B HB i). destruct (Z.eqb_spec r (slot i)) as [->|Nr].
        * destruct (Z.ltb_spec (bnum i * B + slot i) (i + 1)); [reflexivity|lia].
        * rewrite (w_cell _ _ _ _ _ _ W _ b r Eb R). destruct (Z.ltb_spec (bnum i * B + r) i), (Z.ltb_spec (bnum i * B + r) (i + 1)); try reflexivity; lia.
      + rewrite fupd_other by exact Nb. rewrite (w_cell _ _ _ _ _ _ W j b' r X R). assert (j * B + r <> i).
        { intros Ej. destruct (index_inj B HB j r i R Ej) as (-> & _). congruence. }
        destruct (Z.ltb_spec (j * B + r) i), (Z.ltb_spec (j * B + r) (i + 1)); try reflexivity; lia. }
  destruct (IH m2 (i + 1) (Some b) W2 ltac:(lia)) as (m' & cur' & R1 & R2 & R3 & R4). exists m', cur'. split; [exact R1|]. split; [exact R2|]. split.
  - rewrite R3. cbn. rewrite M2, <- app_assoc. f_equal. rewrite znth_nth in Ev by lia. replace (Z.to_nat (i + 1)) with (S (Z.to_nat i)) by lia.
    clear -Ev. revert Ev. generalize (Z.to_nat i) as n. induction (sent (subs s q)) as [|a l IHl]; intros n Ev; [destruct n; discriminate|]. destruct n as [|n]; [cbn in Ev; injection Ev as ->; reflexivity|]. cbn. apply IHl. exact Ev.
  - rewrite R4. split; [intros (X & _); discriminate|intros (_ & X); congruence].
Qed.

Lemma sub_ok (s : state) q (m : mem) : inv s -> invD s -> invE s -> quiet s -> (forall j b, entry (subs s q) j = Some b -> mblocks m b = blocks s b /\ mavail m b = avail s b) ->
  exists m', destroy_sub B (subs s q) m = Ok m' /\ destroyed m' = destroyed m ++ skipn (Z.to_nat (head (subs s q))) (sent (subs s q)) /\
  (forall b, (forall j, entry (subs s q) j <> Some b) -> mblocks m' b = mblocks m b /\ mavail m' b = mavail m b) /\
  (forall j b, entry (subs s q) j = Some b -> mavail m' b = true /\ forall r, 0 <= r < B -> cell (mblocks m' b) r = None).
Proof.
  intros V D H Q M. pose proof (head_le_tail B nothrow s q V) as HT. unfold destroy_sub. destruct (Z.ltb_spec (tail (subs s q)) (head (subs s q))); [lia|].
  assert (W0 : walked s q m m (head (subs s q)) None).
  { constructor; auto.
    - lia.
    - intros j b X. destruct (M j b X) as (_ & ->). apply (quiet_entry B nothrow HB s q j b V D Q X).
    - intros j b r X R. destruct (M j b X) as (-> & _). destruct (Z.ltb_spec (j * B + r) (head (subs s q))); [|reflexivity]. apply (quiet_cell B nothrow HB s q j b r V D H Q X R). left. assumption. }
  destruct (walk_ok s q m V D H Q _ m (head (subs s q)) None W0 (le_n _)) as (m1 & cur & -> & W & De & Wn). cbn [bind].
  assert (Cl : forall j b r, entry (subs s q) j = Some b -> 0 <= r < B -> cell (mblocks m1 b) r = None).
  { intros j b r X R. rewrite (w_cell _ _ _ _ _ _ W j b r X R). destruct (Z.ltb_spec (j * B + r) (tail (subs s q))); [reflexivity|]. apply (quiet_cell B nothrow HB s q j b r V D H Q X R). right. assumption. }
  pose proof (w_other _ _ _ _ _ _ W) as Wo. pose proof (w_avail _ _ _ _ _ _ W) as Wa. pose proof (w_cur _ _ _ _ _ _ W) as Wc.
  set (tl := tail (subs s q)) in *. set (hd := head (subs s q)) in *.
  destruct (negb (hd =? tl) || negb (slot tl =? 0)) eqn:Last.
  - (* the last block *)
    assert (LB : exists b jl, tailBlock (subs s q) = Some b /\ entry (subs s q) jl = Some b /\ (forall j b', entry (subs s q) j = Some b' -> mavail m1 b' = (j <? jl)) /\ forall j b', entry (subs s q) j = Some b' -> j <= jl).
    { destruct cur as [c|].
      - destruct Wc as (Wc1 & Wc2). exists c, (bnum (tl - 1)). split; [|split; [exact Wc2|split; [exact Wa|]]].
        + apply (e_last _ _ H q _ c Wc2). rewrite Q. pose proof (split_index B HB (tl - 1)). pose proof (slot_range B HB (tl - 1)). fold tl. cbn. assert (tl <= (bnum (tl - 1) + 1) * B) by lia.
          destruct (Z.eq_dec tl ((bnum (tl - 1) + 1) * B)); [right; split; [assumption|tauto]|left; lia].
        + intros j b' X. destruct (quiet_entry B nothrow HB s q j b' V D Q X) as (Y1 & Y2 & _). fold tl in Y2. unfold SubQueueModel.bnum. apply Z.div_le_lower_bound; lia.
      - assert (Eh : hd = tl) by (symmetry; exact Wc). rewrite Eh, Z.eqb_refl in Last. cbn in Last. assert (S0 : slot tl <> 0) by (destruct (Z.eqb_spec (slot tl) 0); [discriminate|assumption]).
        pose proof V as [_ (g & G) _]. destruct (b_tail _ _ _ _ G q (or_introl S0)) as (b & Tb & Ob). fold tl in Ob. pose proof (b_block _ _ _ _ G b) as Bb. unfold blockB in Bb. rewrite Ob in Bb. destruct Bb as (_ & Bb2 & _).
        assert (Jl : forall j b', entry (subs s q) j = Some b' -> j = bnum tl).
        { intros j b' X. destruct (quiet_entry B nothrow HB s q j b' V D Q X) as (Y1 & Y2 & Y3 & _). fold tl in Y2. fold hd in Y3. unfold SubQueueModel.bnum. apply (Z.div_unique _ _ _ (tl - j * B)); lia. }
        exists b, (bnum tl). split; [exact Tb|]. split; [exact Bb2|]. split; [|intros j b' X; rewrite (Jl j b' X); lia]. intros j b' X. rewrite (Wa j b' X), (Jl j b' X), Z.ltb_irrefl. reflexivity. }
    destruct LB as (b & jl & Tb & Eb & A1 & A2). rewrite Tb. unfold give_back. rewrite (A1 _ _ Eb), Z.ltb_irrefl. eexists. split; [reflexivity|]. cbn. split; [exact De|]. split.
    + intros b' X. destruct (Wo b' X) as (Y1 & Y2). rewrite fupd_other by (intros ->; exact (X _ Eb)). auto.
    + intros j b' X. split; [|intros r R; exact (Cl j b' r X R)]. unfold fupd. destruct (Nat.eqb_spec b' b) as [->|Nb]; [reflexivity|]. rewrite (A1 j b' X). assert (j <> jl) by congruence. specialize (A2 j b' X). apply Z.ltb_lt. lia.
  - assert (hd = tl /\ slot tl = 0) as (Eh & S0) by lia. assert (NE : forall j b, entry (subs s q) j <> Some b).
    { intros j b X. destruct (quiet_entry B nothrow HB s q j b V D Q X) as (Y1 & Y2 & Y3 & _). fold tl in Y2. fold hd in Y3. pose proof (bnum_0 B HB tl S0) as Bt. rewrite Eh, <- Bt in Y3. rewrite <- Bt in Y2. apply Z.mul_lt_mono_pos_r in Y2, Y3; [lia|exact HB..]. }
    exists m1. split; [destruct (tailBlock (subs s q)); reflexivity|]. split; [exact De|]. split; [exact Wo|]. intros j b X. destruct (NE j b X).
Qed.

Lemma subs_ok (s : state) : inv s -> invD s -> invE s -> quiet s -> forall ps (m : mem), NoDup ps -> (forall q j b, In q ps -> entry (subs s q) j = Some b -> mblocks m b = blocks s b /\ mavail m b = avail s b) ->
  exists m', destroy_subs B (subs s) ps m = Ok m' /\ destroyed m' = destroyed m ++ concat (map (fun q => skipn (Z.to_nat (head (subs s q))) (sent (subs s q))) ps) /\
  (forall b, (forall q j, In q ps -> entry (subs s q) j <> Some b) -> mblocks m' b = mblocks m b /\ mavail m' b = mavail m b) /\
  (forall q j b, In q ps -> entry (subs s q) j = Some b -> mavail m' b = true /\ forall r, 0 <= r < B -> cell (mblocks m' b) r = None).
Proof.
  intros V D H Q. induction ps as [|q ps IH]; intros m ND M; cbn [destroy_subs map concat].
  - exists m. split; [reflexivity|]. rewrite app_nil_r. split; [reflexivity|]. split; [auto|intros q j b []].
  - inversion_clear ND as [|? ? NI ND']. destruct (sub_ok s q m V D H Q) as (m1 & -> & De & Fr & Dn); [intros j b; apply M; left; reflexivity|]. cbn [bind].
    destruct (IH m1 ND') as (m' & R & De' & Fr' & Dn').
    { intros q' j b I X. assert (NX : forall j', entry (subs s q) j' <> Some b) by (intros j' X'; destruct (d_uniq _ _ D _ _ _ _ _ X X') as (-> & _); contradiction).
      destruct (Fr b NX) as (-> & ->). apply (M q' j b); [right; exact I|exact X]. }
    exists m'. split; [exact R|]. split; [rewrite De', De, <- app_assoc; reflexivity|]. split.
    + intros b X. destruct (Fr' b) as (-> & ->); [intros q' j I; apply X; right; exact I|]. apply Fr. intros j. apply X. left. reflexivity.
    + intros q' j b [<-|I] X; [|exact (Dn' q' j b I X)]. destruct (Fr' b) as (-> & ->); [|exact (Dn j b X)].
      intros q' j' I X'. destruct (d_uniq _ _ D _ _ _ _ _ X X') as (-> & _). contradiction.
Qed.
End Walk.
