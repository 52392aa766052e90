(** Doubling the number of buckets. *)

From Coq Require Import ZArith List Lia Bool.
From Verif Require Import Base Bits CuckooModel CuckooProofs1 CuckooProofs2 CuckooProofs3.
Import ListNotations.
Open Scope Z_scope.

Section Proofs.
Context {K V : Type} (hash : K -> Z).
Notation entry := (@entry K V). Notation table := (@table K V). Notation cells := (@cells K V).
Notation I1 := (I1 hash). Notation I2 := (I2 hash). Notation view := (view hash).
Notation wf0 := (wf0 hash). Notation wf := (wf hash). Notation same := (same hash). Notation shape := (shape hash).
Notation split := (split hash). Notation splits := (splits hash).

Lemma split_bucket h (c : cells) b : 0 <= h -> shape h c -> 0 <= b < 2 ^ h ->
  splits h c b /\ exists g,
    (forall x e, c b x = Some e -> if goes hash h b e then split h c b (b + 2 ^ h) (g x) = Some e /\ 0 <= g x < 4 else split h c b b x = Some e) /\
    (forall x e, split h c b b x = Some e -> c b x = Some e /\ goes hash h b e = false) /\
    (forall x e, split h c b (b + 2 ^ h) x = Some e -> exists y, c b y = Some e /\ goes hash h b e = true /\ x = g y /\ 0 <= x < 4).
Proof.
  intros H S B. destruct (move_slots_ok hash h b (c b) H B slots 0 0 no_cells) as (d & g & E & _ & O2 & O3 & C1 & C2 & C3); unfold slots in *; try lia; try reflexivity.
  { intros x e _ X. apply (S _ _ _ X). }
  assert (SE : split h c b = d) by (unfold CuckooProofs2.split, move_bucket, slots; now rewrite E).
  split; [unfold CuckooProofs2.splits, move_bucket, slots; rewrite E; discriminate|]. exists g. rewrite SE.
  assert (F : forall x e, c b x = Some e -> if goes hash h b e then d (b + 2 ^ h) (g x) = Some e /\ 0 <= g x < 4 else d b x = Some e).
  { intros x e X. destruct (S _ _ _ X) as (_ & R & _). specialize (C1 x e ltac:(lia) X). destruct (goes hash h b e); [|exact C1]. split; [apply C1|lia]. }
  split; [exact F|]. split.
  - intros x e X. destruct (Z.ltb_spec x 0) as [L|L]; [rewrite O2 in X by lia; discriminate|]. destruct (C2 x e L X) as (_ & ? & ?). auto.
  - intros x e X. destruct (Z.ltb_spec x 0) as [L|L]; [rewrite O3 in X by lia; discriminate|]. destruct (C3 x e L X) as (y & Y1 & Y2 & Y3 & Y4).
    exists y. specialize (F y e Y2). rewrite Y3 in F. repeat split; try assumption; subst; lia.
Qed.

(** The doubled table. *)
Definition double (h : Z) (c : cells) : cells := fun i s => if (0 <=? i) && (i <? 2 ^ (h + 1)) then split h c (i mod 2 ^ h) i s else None.
Lemma double_ok h (c : cells) : 0 <= h -> shape h c -> uniq c ->
  shape (h + 1) (double h c) /\ uniq (double h c) /\ forall x, holds (double h c) x <-> holds c x.
Proof.
  intros H S U. assert (P2 : 0 < 2 ^ h) by (apply Z.pow_pos_nonneg; lia). assert (PS := pow_split h H).
  assert (B : forall i s e, double h c i s = Some e -> let b := i mod 2 ^ h in 0 <= i < 2 ^ (h + 1) /\ 0 <= b < 2 ^ h /\ split h c b i s = Some e /\ (i = b \/ i = b + 2 ^ h)).
  { intros i s e X b. unfold double in X. destruct (Z.leb_spec 0 i), (Z.ltb_spec i (2 ^ (h + 1))); try discriminate. cbn [andb] in X.
    split; [lia|]. split; [apply Z.mod_pos_bound; lia|]. split; [exact X|]. apply up_or_stay; lia. }
  split; [|split].
  - intros i s e X. destruct (B i s e X) as (R & RB & SP & IB). set (b := i mod 2 ^ h) in *. destruct (split_bucket h c b H S RB) as (_ & g & F1 & F2 & F3).
    destruct IB as [IB|IB]; rewrite IB in SP.
    + destruct (F2 _ _ SP) as [Y G]. destruct (S _ _ _ Y) as (_ & R2 & P & Q). repeat split; try lia; try assumption.
      destruct (stays_down hash h b e H Q G) as [[_ Z1]|[_ Z1]]; rewrite IB, Z1; auto.
    + destruct (F3 _ _ SP) as (y & Y & G & _ & R2). destruct (S _ _ _ Y) as (_ & _ & P & Q). repeat split; try lia; try assumption.
      rewrite IB. now apply goes_up.
  - intros i s e i' s' e' X Y Q. destruct (B i s e X) as (R & RB & SP & IB). destruct (B i' s' e' Y) as (R' & RB' & SP' & IB').
    set (b := i mod 2 ^ h) in *. set (b' := i' mod 2 ^ h) in *.
    assert (EB : b' = b).
    { destruct (split_bucket h c b H S RB) as (_ & g & F1 & F2 & F3). destruct (split_bucket h c b' H S RB') as (_ & g' & F1' & F2' & F3').
      assert (X1 : exists y, c b y = Some e) by (destruct IB as [IB|IB]; rewrite IB in SP; [apply F2 in SP; exists s; apply SP|apply F3 in SP; destruct SP as (y & ? & _); exists y; assumption]).
      assert (X2 : exists y, c b' y = Some e') by (destruct IB' as [IB'|IB']; rewrite IB' in SP'; [apply F2' in SP'; exists s'; apply SP'|apply F3' in SP'; destruct SP' as (y & ? & _); exists y; assumption]).
      destruct X1 as (y1 & X1), X2 as (y2 & X2). destruct (U _ _ _ _ _ _ X1 X2 Q). auto. }
    rewrite EB in *. destruct (split_bucket h c b H S RB) as (_ & g & F1 & F2 & F3).
    destruct IB as [IB|IB], IB' as [IB'|IB']; rewrite IB in SP; rewrite IB' in SP'.
    + apply F2 in SP, SP'. destruct SP as [A1 A2], SP' as [A3 A4]. destruct (U _ _ _ _ _ _ A1 A3 Q). split; congruence.
    + apply F2 in SP. apply F3 in SP'. destruct SP as [A1 A2], SP' as (y & A3 & A4 & _). destruct (U _ _ _ _ _ _ A1 A3 Q). assert (e = e') by congruence. congruence.
    + apply F3 in SP. apply F2 in SP'. destruct SP' as [A1 A2], SP as (y & A3 & A4 & _). destruct (U _ _ _ _ _ _ A3 A1 Q). assert (e = e') by congruence. congruence.
    + apply F3 in SP, SP'. destruct SP as (y & A1 & A2 & A3 & _), SP' as (y' & B1 & B2 & B3 & _). destruct (U _ _ _ _ _ _ A1 B1 Q). split; congruence.
  - intros e. split.
    + intros (i & s & X). destruct (B i s e X) as (R & RB & SP & IB). set (b := i mod 2 ^ h) in *. destruct (split_bucket h c b H S RB) as (_ & g & F1 & F2 & F3).
      destruct IB as [IB|IB]; rewrite IB in SP; [apply F2 in SP; exists b, s; apply SP|]. apply F3 in SP. destruct SP as (y & A & _). exists b, y. exact A.
    + intros (b & s & X). destruct (S _ _ _ X) as (RB & _). destruct (split_bucket h c b H S RB) as (_ & g & F1 & _). specialize (F1 s e X). destruct (goes hash h b e).
      * exists (b + 2 ^ h), (g s). unfold double. replace ((0 <=? b + 2 ^ h) && (b + 2 ^ h <? 2 ^ (h + 1))) with true by lia.
        replace ((b + 2 ^ h) mod 2 ^ h) with b; [apply F1|]. replace (b + 2 ^ h) with (b + 1 * 2 ^ h) by lia. rewrite Z.mod_add by lia. symmetry. now apply Z.mod_small.
      * exists b, s. unfold double. replace ((0 <=? b) && (b <? 2 ^ (h + 1))) with true by lia. rewrite Z.mod_small by assumption. exact F1.
Qed.

(** *** All locks migrated *)
Definition settled (t : table) : Prop := forall l, 0 <= l < nlocks t -> migrated t l = true.
Lemma view_settled t i s : wf0 t -> settled t -> 0 <= i < 2 ^ hp t -> view t i s = cell t i s.
Proof. intros W A R. apply view_cell; [assumption|]. apply A. eapply in_locks; eassumption. Qed.
Lemma settled_wf0 t : 0 <= hp t -> Z.min (2 ^ hp t) 65536 <= nlocks t <= 65536 -> settled t -> wf0 t.
Proof. intros H L A. split; auto. left. exact A. Qed.
Lemma settled_unmigrated (t : table) : 0 <= nlocks t -> settled t -> unmigrated t = 0.
Proof. intros L A. unfold unmigrated. rewrite (sum_ext _ (fun _ => 0)); [apply sum_zero|]. intros i I. rewrite A by lia. reflexivity. Qed.

Lemma rehash_locks_ok : forall n l (t : table), wf0 t -> 0 <= l -> l + Z.of_nat n <= nlocks t ->
  exists t', rehash_locks hash l n t = Done t' tt /\ wf0 t' /\ same t t' /\ (forall j, l <= j < l + Z.of_nat n -> migrated t' j = true).
Proof.
  induction n as [|n IH]; intros l t W L N; cbn [rehash_locks].
  - exists t. split; [reflexivity|]. split; [assumption|]. split; [apply same_refl|]. intros; lia.
  - destruct (rehash_lock_core hash false l t W ltac:(discriminate) ltac:(lia)) as (t1 & E & W1 & _ & S1 & M & _). rewrite E. cbn [rbind].
    destruct (IH (l + 1) t1 W1 ltac:(lia)) as (t2 & E2 & W2 & S2 & M2); [rewrite (s_locks _ _ _ S1); lia|]. exists t2. split; [exact E2|]. split; [assumption|].
    split; [eapply same_trans; eassumption|]. intros j J. destruct (Z.eq_dec j l); [subst j; now apply S2|apply M2; lia].
Qed.
Lemma rehash_all_ok (t : table) : wf0 t -> exists t', rehash_all hash t = Done t' tt /\ wf t' /\ same t t' /\ settled t' /\ old t' = None.
Proof.
  intros W. assert (0 < nlocks t) by (destruct W as [H L _]; assert (0 < 2 ^ hp t) by (apply Z.pow_pos_nonneg; lia); lia).
  unfold rehash_all. destruct (rehash_locks_ok (Z.to_nat (nlocks t)) 0 t W ltac:(lia) ltac:(lia)) as (t1 & E & W1 & S1 & M). rewrite E. cbn [rbind].
  assert (A1 : settled t1) by (intros l L; rewrite (s_locks _ _ _ S1) in L; apply M; lia).
  exists (set_remaining 0 t1). split; [reflexivity|]. assert (W2 : wf0 (set_remaining 0 t1)) by (apply settled_wf0; [apply W1|apply W1|exact A1]).
  split; [split; [exact W2|cbn; symmetry; apply settled_unmigrated; [cbn; destruct W1; lia|exact A1]]|].
  split; [|split; [exact A1|reflexivity]]. split; try (cbn; apply S1).
  intros i s. rewrite <- (s_view _ _ _ S1). unfold CuckooProofs2.view. cbn [hp migrated cell set_remaining old old_hp Z.eqb].
  destruct ((0 <=? i) && (i <? 2 ^ hp t1)) eqn:R; [|reflexivity]. rewrite A1; [reflexivity|]. eapply in_locks; [exact W1|lia].
Qed.

(** The number of elements as counted. *)
Definition count (t : table) : Z := sum_counters (counter t) (Z.to_nat (nlocks t)).
Lemma same_count (t t' : table) : same t t' -> count t' = count t.
Proof. intros S. unfold count. now rewrite (s_counter _ _ _ S), (s_locks _ _ _ S). Qed.

Lemma resize_ok n (t : table) : wf0 t -> settled t -> let t' := maybe_resize_locks n t in
  hp t' = hp t /\ cell t' = cell t /\ settled t' /\ count t' = count t /\ nlocks t <= nlocks t' <= 65536 /\ Z.min n 65536 <= nlocks t' /\ remaining t' = remaining t /\ old t' = old t.
Proof.
  intros [H L _] A. unfold maybe_resize_locks, kMaxNumLocks. destruct (Z.ltb_spec (nlocks t) 65536), (Z.ltb_spec (nlocks t) n); cbn [andb]; try (repeat split; auto; lia).
  assert (0 < 2 ^ hp t) by (apply Z.pow_pos_nonneg; lia).
  repeat split; cbn [hp cell nlocks remaining]; auto; try lia.
  - intros l R. cbn in *. destruct (Z.ltb_spec l (nlocks t)); [apply A; lia|reflexivity].
  - unfold count. cbn [counter nlocks]. rewrite (sum_more _ (Z.to_nat (nlocks t))) by first [lia|intros i I; destruct (Z.ltb_spec i (nlocks t)); [lia|reflexivity]].
    apply sum_ext. intros i I. destruct (Z.ltb_spec i (nlocks t)); [reflexivity|lia].
Qed.

Lemma move_all_ok h (src : cells) : 0 <= h -> (forall b, 0 <= b < 2 ^ h -> splits h src b) -> forall n b dst, 0 <= b -> b + Z.of_nat n = 2 ^ h ->
  (forall b' x, b <= b' < 2 ^ h -> dst b' x = None /\ dst (b' + 2 ^ h) x = None) ->
  exists c, move_all hash h (h + 1) src b n dst = Some c /\
    (forall b' x, b <= b' < 2 ^ h -> c b' x = split h src b' b' x /\ c (b' + 2 ^ h) x = split h src b' (b' + 2 ^ h) x) /\
    (forall i x, ~ (b <= i < 2 ^ h) -> ~ (b <= i - 2 ^ h < 2 ^ h) -> c i x = dst i x).
Proof.
  intros H SP. induction n as [|n IH]; intros b dst B N D; cbn [move_all].
  - exists dst. split; [reflexivity|]. split; [intros; lia|reflexivity].
  - destruct (move_bucket_frame hash h src b dst) as (d & E & R1 & R2 & R3).
    { intros; apply D; lia. } { intros; apply D; lia. } { apply SP; lia. }
    rewrite E. destruct (IH (b + 1) d) as (c & E2 & C1 & C2); try lia.
    { intros b' x B'. rewrite !R3 by lia. apply D. lia. }
    exists c. split; [exact E2|]. split.
    + intros b' x B'. destruct (Z.eq_dec b' b) as [->|]; [|apply C1; lia]. rewrite !C2, R1, R2 by lia. auto.
    + intros i x N1 N2. rewrite C2 by lia. apply R3; lia.
Qed.

Lemma fast_double_ok (t : table) : wf t -> shape (hp t) (view t) -> uniq (view t) -> load_too_low t = false ->
  exists t', fast_double hash t = Done t' tt /\ wf t' /\ hp t' = hp t + 1 /\ shape (hp t') (view t') /\ uniq (view t') /\ (forall x, holds (view t') x <-> holds (view t) x) /\ count t' = count t.
Proof.
  intros W S U LT. assert (H : 0 <= hp t) by apply W. assert (P2 : 0 < 2 ^ hp t) by (apply Z.pow_pos_nonneg; lia). assert (PS := pow_split (hp t) H).
  unfold fast_double. rewrite LT. destruct (rehash_all_ok t W) as (t1 & E1 & W1 & S1 & A1 & O1). rewrite E1. cbn [rbind].
  assert (HP1 : hp t1 = hp t) by apply S1.
  unfold hashsize, kMaxNumLocks. destruct (resize_ok (2 ^ (hp t + 1)) t1 W1 A1) as (R1 & R2 & R3 & R4 & R5 & R6 & _ & _). set (t2 := maybe_resize_locks (2 ^ (hp t + 1)) t1) in *.
  rewrite R2. set (c := cell t1).
  (* the settled table, cut to its range *)
  set (c0 := view t). assert (CV : forall i s, 0 <= i < 2 ^ hp t -> c i s = c0 i s).
  { intros i s R. unfold c, c0. rewrite <- (s_view _ _ _ S1). symmetry. apply view_settled; [apply W1|assumption|now rewrite HP1]. }
  assert (SEQ : forall b, 0 <= b < 2 ^ hp t -> move_bucket hash (hp t) (hp t + 1) c b no_cells = move_bucket hash (hp t) (hp t + 1) c0 b no_cells).
  { intros b R. unfold move_bucket. assert (X : forall n s ns dst, move_slots hash (hp t) (hp t + 1) b (c b) s n ns dst = move_slots hash (hp t) (hp t + 1) b (c0 b) s n ns dst).
    { induction n as [|n IH]; intros s ns dst; cbn [move_slots]; [reflexivity|]. rewrite <- CV by assumption. destruct (c b s); [|apply IH]. cbv zeta.
      repeat match goal with |- context [if ?q then _ else _] => destruct q end; try reflexivity; destruct setKV; try reflexivity; apply IH. }
    apply X. }
  assert (SPL : forall b, 0 <= b < 2 ^ hp t -> splits (hp t) c b).
  { intros b R. unfold CuckooProofs2.splits. rewrite SEQ by assumption. apply (split_bucket (hp t) c0 b H S R). }
  assert (SPE : forall b i x, 0 <= b < 2 ^ hp t -> split (hp t) c b i x = split (hp t) c0 b i x).
  { intros b i x R. unfold CuckooProofs2.split. now rewrite SEQ. }
  destruct (double_ok (hp t) c0 H S U) as (D1 & D2 & D3).
  assert (FIN : forall t', wf t' -> hp t' = hp t + 1 -> (forall i s, view t' i s = double (hp t) c0 i s) -> count t' = count t2 ->
     wf t' /\ hp t' = hp t + 1 /\ shape (hp t') (view t') /\ uniq (view t') /\ (forall x, holds (view t') x <-> holds (view t) x) /\ count t' = count t).
  { intros t' W' H' V' C'. split; [assumption|]. split; [assumption|]. rewrite H'. split; [eapply shape_ext; eassumption|]. split; [eapply uniq_ext; eassumption|].
    split; [intros x; rewrite (holds_ext _ _ x V'); apply D3|]. rewrite C', R4. now apply same_count. }
  destruct (Z.ltb_spec (2 ^ hp t) 65536) as [SM|BG].
  - destruct (move_all_ok (hp t) c H SPL (Z.to_nat (2 ^ hp t)) 0 no_cells ltac:(lia) ltac:(lia) ltac:(intros; split; reflexivity)) as (c' & E & C1 & C2).
    rewrite E. eexists. split; [reflexivity|]. apply FIN.
    + assert (W0 : wf0 (set_remaining 0 (mkT (hp t + 1) c' (hp t) (Some c) (nlocks t2) (counter t2) (migrated t2) (remaining t2)))).
      { apply settled_wf0; cbn [hp nlocks set_remaining]; [lia| |exact R3]. lia. }
      split; [exact W0|]. symmetry. apply settled_unmigrated; [cbn; destruct W1 as [[]]; lia|exact R3].
    + reflexivity.
    + intros i s. unfold double. unfold CuckooProofs2.view. cbn [set_remaining hp migrated cell]. destruct ((0 <=? i) && (i <? 2 ^ (hp t + 1))) eqn:R; [|reflexivity].
      rewrite R3. 2: { assert (LB := lock_mod i). rewrite LB. destruct W1 as [[WH WL _] _].
        assert (i < 65536 \/ 65536 <= i) as [Q|Q] by lia; [rewrite Z.mod_small by lia; lia|]. pose proof (Z.mod_pos_bound i 65536 ltac:(lia)). lia. }
      assert (M : i mod 2 ^ hp t = i /\ 0 <= i < 2 ^ hp t \/ i mod 2 ^ hp t = i - 2 ^ hp t /\ 2 ^ hp t <= i).
      { destruct (Z.ltb_spec i (2 ^ hp t)); [left; split; [apply Z.mod_small|]; lia|right]. split; [|lia]. replace i with ((i - 2 ^ hp t) + 1 * 2 ^ hp t) at 1 by lia. rewrite Z.mod_add by lia. apply Z.mod_small. lia. }
      destruct M as [[-> M]|[-> M]].
      * destruct (C1 i s ltac:(lia)) as [-> _]. apply SPE. lia.
      * destruct (C1 (i - 2 ^ hp t) s ltac:(lia)) as [_ X]. replace (i - 2 ^ hp t + 2 ^ hp t) with i in X by lia. rewrite X. apply SPE. lia.
    + reflexivity.
  - eexists. split; [reflexivity|]. assert (NL : nlocks t2 = 65536) by (destruct W1 as [[WH WL _] _]; lia).
    apply FIN.
    + rewrite NL. split.
      * split; cbn [set_remaining hp nlocks]; [lia|lia|]. right. cbn [set_remaining nlocks old_hp hp old migrated cell Z.eqb]. repeat split; try lia.
        exists c. repeat split; auto.
      * cbn [set_remaining remaining]. unfold unmigrated. cbn [set_remaining migrated nlocks].
        assert (ONE : forall n, sum_counters (fun _ : Z => 1) n = Z.of_nat n) by (clear; induction n; [reflexivity|cbn [sum_counters]; lia]).
        rewrite ONE. lia.
    + reflexivity.
    + intros i s. unfold double, CuckooProofs2.view. rewrite NL. cbn [set_remaining hp migrated old old_hp Z.eqb]. destruct ((0 <=? i) && (i <? 2 ^ (hp t + 1))); [|reflexivity].
      apply SPE. apply Z.mod_pos_bound. lia.
    + reflexivity.
Qed.
End Proofs.
