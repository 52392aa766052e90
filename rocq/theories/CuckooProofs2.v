(** Lazy migration: the locks change nothing that can be seen. *)

From Coq Require Import ZArith List Lia Bool.
From Verif Require Import Base Bits CuckooModel CuckooProofs1.
Import ListNotations.
Open Scope Z_scope.

(** *** Sums of counters *)
Lemma sum_ext f g n : (forall i, 0 <= i < Z.of_nat n -> f i = g i) -> sum_counters f n = sum_counters g n.
Proof. induction n as [|n IH]; intros E; [reflexivity|]. cbn. rewrite IH, (E (Z.of_nat n)) by (intros; try apply E; lia). reflexivity. Qed.
Lemma sum_fup f i x n : 0 <= i < Z.of_nat n -> sum_counters (fup f i x) n = sum_counters f n + (x - f i).
Proof.
  induction n as [|n IH]; intros I; [lia|]. cbn. unfold fup at 2. destruct (Z.eqb_spec (Z.of_nat n) i).
  - subst i. rewrite (sum_ext (fup f (Z.of_nat n) x) f); [lia|]. intros j J. unfold fup. destruct (Z.eqb_spec j (Z.of_nat n)); [lia|reflexivity].
  - rewrite IH by lia. lia.
Qed.
Lemma sum_nonneg f n : (forall i, 0 <= i < Z.of_nat n -> 0 <= f i) -> 0 <= sum_counters f n.
Proof. induction n as [|n IH]; intros E; [cbn; lia|]. cbn. specialize (E (Z.of_nat n) ltac:(lia)) as E'. enough (0 <= sum_counters f n) by lia. apply IH. intros. apply E. lia. Qed.
Lemma sum_ge f n i : (forall i, 0 <= i < Z.of_nat n -> 0 <= f i) -> 0 <= i < Z.of_nat n -> f i <= sum_counters f n.
Proof.
  induction n as [|n IH]; intros E I; [lia|]. cbn. destruct (Z.eqb_spec i (Z.of_nat n)).
  - subst i. enough (0 <= sum_counters f n) by lia. apply sum_nonneg. intros. apply E. lia.
  - specialize (E (Z.of_nat n) ltac:(lia)) as E'. enough (f i <= sum_counters f n) by lia. apply IH; [intros; apply E|]; lia.
Qed.
Lemma sum_zero n : sum_counters (fun _ => 0) n = 0.
Proof. induction n; cbn; lia. Qed.
Lemma sum_more f n m : (n <= m)%nat -> (forall i, Z.of_nat n <= i < Z.of_nat m -> f i = 0) -> sum_counters f m = sum_counters f n.
Proof.
  intros L. induction L as [|m L IH]; intros Z0; [reflexivity|]. cbn. rewrite IH by (intros; apply Z0; lia). rewrite (Z0 (Z.of_nat m)) by lia. lia.
Qed.

Section Proofs.
Context {K V : Type} (hash : K -> Z) (keq : K -> K -> bool) (simple nothrow : bool).
Notation entry := (@entry K V). Notation table := (@table K V). Notation cells := (@cells K V).
Notation move_slots := (@move_slots K V hash). Notation move_bucket := (@move_bucket K V hash).
Notation move_every := (@move_every K V hash). Notation rehash_lock := (@rehash_lock K V hash).

(** What bucket [b] of an old table becomes. *)
Definition split (h : Z) (src : cells) (b : Z) : cells :=
  match move_bucket h (h + 1) src b no_cells with Some c => c | None => no_cells end.
Definition splits (h : Z) (src : cells) (b : Z) : Prop := move_bucket h (h + 1) src b no_cells <> None.

Lemma move_bucket_frame h src b dst : (forall x, dst b x = None) -> (forall x, dst (b + 2 ^ h) x = None) -> splits h src b ->
  exists d, move_bucket h (h + 1) src b dst = Some d /\ (forall x, d b x = split h src b b x) /\
    (forall x, d (b + 2 ^ h) x = split h src b (b + 2 ^ h) x) /\ (forall i x, i <> b -> i <> b + 2 ^ h -> d i x = dst i x).
Proof.
  intros A B N. pose proof (move_slots_frame hash h (h + 1) b (src b) slots 0 0 dst no_cells) as F. unfold hashsize in F.
  unfold splits, split, CuckooModel.move_bucket in *. specialize (F A B).
  destruct (move_slots h (h + 1) b (src b) 0 slots 0 dst) as [d|], (move_slots h (h + 1) b (src b) 0 slots 0 no_cells) as [d'|]; try contradiction. exists d. intuition.
Qed.
Lemma split_other h src b i x : i <> b -> i <> b + 2 ^ h -> split h src b i x = None.
Proof.
  intros. unfold split, CuckooModel.move_bucket. pose proof (move_slots_frame hash h (h + 1) b (src b) slots 0 0 no_cells no_cells (fun _ => eq_refl) (fun _ => eq_refl)) as F.
  destruct move_slots; [|reflexivity]. destruct F as (_ & _ & F). now rewrite F.
Qed.

Lemma move_every_ok h src l : 0 <= h -> 65536 <= 2 ^ h ->
  (forall b, 0 <= b < 2 ^ h -> lock_ind b = l -> splits h src b) ->
  forall n b dst, 0 <= b -> lock_ind b = l -> 2 ^ h - b <= 65536 * Z.of_nat n ->
  (forall b' x, b <= b' < 2 ^ h -> lock_ind b' = l -> dst b' x = None /\ dst (b' + 2 ^ h) x = None) ->
  exists c, move_every h (h + 1) src b n dst = Some c /\
    (forall b' x, b <= b' < 2 ^ h -> lock_ind b' = l -> c b' x = split h src b' b' x /\ c (b' + 2 ^ h) x = split h src b' (b' + 2 ^ h) x) /\
    (forall i x, (forall b', b <= b' < 2 ^ h -> lock_ind b' = l -> i <> b' /\ i <> b' + 2 ^ h) -> c i x = dst i x).
Proof.
  intros H BIG SP. induction n as [|n IH]; intros b dst B L F D; cbn [CuckooModel.move_every].
  - exists dst. repeat split; intros; try lia; reflexivity.
  - unfold hashsize. destruct (Z.ltb_spec b (2 ^ h)); [|exists dst; repeat split; intros; try lia; reflexivity].
    destruct (move_bucket_frame h src b dst) as (d & M & R1 & R2 & R3).
    { intros x. apply (D b x); [lia|assumption]. } { intros x. apply (D b x); [lia|assumption]. } { apply SP; [lia|assumption]. }
    rewrite M. unfold kMaxNumLocks.
    assert (NEXT : forall b', b <= b' < 2 ^ h -> lock_ind b' = l -> b' = b \/ b + 65536 <= b').
    { intros b' X Y. destruct (Z.eqb_spec b' b); [auto|]. right. rewrite lock_mod in L, Y.
      pose proof (Z.div_mod b 65536 ltac:(lia)). pose proof (Z.div_mod b' 65536 ltac:(lia)). assert (b / 65536 < b' / 65536) by lia. lia. }
    destruct (IH (b + 65536) d) as (c & E & C1 & C2); try lia.
    { rewrite lock_mod in *. replace (b + 65536) with (b + 1 * 65536) by lia. rewrite Z.mod_add by lia. assumption. }
    { intros b' x X Y. rewrite !R3 by lia. apply D; [lia|assumption]. }
    exists c. split; [exact E|]. split.
    + intros b' x X Y. destruct (NEXT b' X Y) as [->|G]; [|apply C1; [lia|assumption]].
      rewrite !C2, R1, R2 by (intros b'' X'' Y''; lia). auto.
    + intros i x N. rewrite C2 by (intros b' X Y; apply N; [lia|assumption]).
      destruct (N b ltac:(lia) L). now apply R3.
Qed.

(** The table as if every lock were migrated. *)
Definition view (t : table) : cells := fun i s =>
  if (0 <=? i) && (i <? 2 ^ hp t) then
    if migrated t (lock_ind i) then cell t i s
    else match old t with Some oc => split (old_hp t) oc (i mod 2 ^ old_hp t) i s | None => None end
  else None.
(** What migration relies on. *)
Definition lazy_ok (t : table) : Prop :=
  (forall l, 0 <= l < nlocks t -> migrated t l = true) \/
  (nlocks t = 65536 /\ old_hp t + 1 = hp t /\ 0 <= old_hp t /\ 65536 <= 2 ^ old_hp t /\ exists oc, old t = Some oc /\
   (forall i s, 0 <= i < 2 ^ hp t -> migrated t (lock_ind i) = false -> cell t i s = None) /\
   (forall b, 0 <= b < 2 ^ old_hp t -> migrated t (lock_ind b) = false -> splits (old_hp t) oc b)).
Definition unmigrated (t : table) : Z := sum_counters (fun l => if migrated t l then 0 else 1) (Z.to_nat (nlocks t)).
Record wf0 (t : table) : Prop := {
  wf_hp : 0 <= hp t;
  wf_locks : Z.min (2 ^ hp t) 65536 <= nlocks t <= 65536;
  wf_lazy : lazy_ok t }.
Record wf (t : table) : Prop := { wf_0 :> wf0 t; wf_rem : remaining t = unmigrated t }.
(** Nothing visible has changed. *)
Record same (t t' : table) : Prop := {
  s_hp : hp t' = hp t; s_locks : nlocks t' = nlocks t; s_counter : counter t' = counter t;
  s_view : forall i s, view t' i s = view t i s;
  s_migrated : forall l, migrated t l = true -> migrated t' l = true }.
Lemma same_refl t : same t t.
Proof. split; auto. Qed.
Lemma same_trans a b c : same a b -> same b c -> same a c.
Proof. intros [A1 A2 A3 A4 A5] [B1 B2 B3 B4 B5]. split; try congruence; auto. Qed.

Lemma rehash_lock_core lz l t : wf0 t -> (lz = true -> remaining t = unmigrated t) -> 0 <= l < nlocks t ->
  exists t', rehash_lock lz l t = Done t' tt /\ wf0 t' /\ (lz = true -> remaining t' = unmigrated t') /\ same t t' /\ migrated t' l = true /\
    (lz = false -> old t' = old t /\ old_hp t' = old_hp t /\ (migrated t l = true -> t' = t)).
Proof.
  intros [HP LK LZ] RM L. unfold CuckooModel.rehash_lock. destruct (migrated t l) eqn:M.
  { exists t. split; [reflexivity|]. split; [split; assumption|]. split; [assumption|]. split; [apply same_refl|]. auto. }
  destruct LZ as [ALL|(N & OH & OP & BIG & oc & OLD & EMP & SP)]; [rewrite ALL in M by assumption; discriminate|].
  unfold kMaxNumLocks, hashsize. replace (nlocks t =? 65536) with true by lia. replace (old_hp t + 1 =? hp t) with true by lia. replace (65536 <=? 2 ^ old_hp t) with true by lia. cbn [andb negb]. rewrite OLD.
  assert (LL : lock_ind l = l) by (rewrite lock_mod; apply Z.mod_small; lia).
  destruct (move_every_ok (old_hp t) oc l OP BIG) with (n := Z.to_nat (2 ^ old_hp t / 65536 + 1)) (b := l) (dst := cell t) as (c & E & C1 & C2); try lia.
  { intros b B LB. apply SP; [assumption|]. now rewrite LB. }
  { pose proof (Z.div_mod (2 ^ old_hp t) 65536 ltac:(lia)). pose proof (Z.mod_pos_bound (2 ^ old_hp t) 65536 ltac:(lia)).
    assert (0 <= 2 ^ old_hp t / 65536) by (apply Z.div_pos; lia). lia. }
  { intros b' x B LB. split; apply EMP; rewrite <- ?OH, ?pow_split by lia; try lia.
    - now rewrite LB. - rewrite lock_up by lia. now rewrite LB. }
  rewrite OH in E. rewrite E. cbv zeta.
  set (t1 := mkT (hp t) c (old_hp t) (Some oc) (nlocks t) (counter t) (fup (migrated t) l true) (remaining t)).
  (* the rows of the lock are now what they were to be *)
  assert (ROW : forall i s, 0 <= i < 2 ^ hp t -> lock_ind i = l -> c i s = split (old_hp t) oc (i mod 2 ^ old_hp t) i s).
  { intros i s I LI. rewrite <- OH in I. set (b := i mod 2 ^ old_hp t).
    assert (B : 0 <= b < 2 ^ old_hp t) by (apply Z.mod_pos_bound; lia).
    assert (LB : lock_ind b = l) by (unfold b; now rewrite lock_big).
    assert (B' : l <= b < 2 ^ old_hp t) by (split; [rewrite <- LB, lock_mod; apply Z.mod_le; lia|lia]).
    destruct (C1 b s B' LB) as [Q1 Q2]. destruct (up_or_stay (old_hp t) i OP I) as [U|U]; fold b in U; clearbody b; rewrite U; assumption. }
  assert (REST : forall i s, lock_ind i <> l -> c i s = cell t i s).
  { intros i s LI. apply C2. intros b' B LB. split; intros ->; [contradiction|]. rewrite lock_up in LI by lia. contradiction. }
  assert (VIEW : forall o r, o = Some oc \/ (forall x, 0 <= x < nlocks t -> fup (migrated t) l true x = true) ->
     forall i s, view (mkT (hp t) c (old_hp t) o (nlocks t) (counter t) (fup (migrated t) l true) r) i s = view t i s).
  { intros o r O i s. unfold view. cbn [hp migrated cell old old_hp].
    destruct (Z.leb_spec 0 i); [|reflexivity]. destruct (Z.ltb_spec i (2 ^ hp t)); [|reflexivity]. cbn [andb].
    unfold fup at 1. destruct (Z.eqb_spec (lock_ind i) l).
    - rewrite e, M, OLD. apply ROW; lia.
    - rewrite REST by assumption. destruct (migrated t (lock_ind i)) eqn:MI; [reflexivity|]. rewrite OLD.
      destruct O as [->|O]; [reflexivity|]. specialize (O (lock_ind i)). unfold fup in O. pose proof (lock_range i).
      destruct (Z.eqb_spec (lock_ind i) l); [contradiction|]. rewrite O in MI by lia. discriminate. }
  assert (LZ1 : lazy_ok t1).
  { right. unfold t1. cbn. repeat split; try assumption; try lia. exists oc. repeat split.
    - intros i s I MI. unfold fup in MI. destruct (Z.eqb_spec (lock_ind i) l); [discriminate|]. rewrite REST by assumption. now apply EMP.
    - intros b B MB. unfold fup in MB. destruct (Z.eqb_spec (lock_ind b) l); [discriminate|]. now apply SP. }
  assert (CNT : unmigrated t1 = unmigrated t - 1).
  { unfold unmigrated, t1. cbn [migrated nlocks].
    rewrite (sum_ext _ (fup (fun l => if migrated t l then 0 else 1) l 0)) by (intros i _; unfold fup; destruct (i =? l); reflexivity).
    rewrite sum_fup by lia. rewrite M. lia. }
  assert (ONE : 1 <= unmigrated t).
  { pose proof (sum_ge (fun l => if migrated t l then 0 else 1) (Z.to_nat (nlocks t)) l) as G. cbv beta in G. rewrite M in G. apply G; [|lia].
    intros. destruct (migrated t i); lia. }
  assert (MG : forall x, migrated t x = true -> fup (migrated t) l true x = true) by (intros x X; unfold fup; destruct (x =? l); auto).
  assert (ML : fup (migrated t) l true l = true) by (unfold fup; now rewrite Z.eqb_refl).
  destruct lz.
  - specialize (RM eq_refl). unfold decrement_remaining. unfold t1 at 1. cbn [remaining]. destruct (Z.ltb_spec (remaining t) 1); [lia|].
    unfold t1. cbn [hp cell old_hp old nlocks counter migrated remaining]. fold t1.
    destruct (Z.eqb_spec (remaining t) 1) as [R|R].
    + assert (ALL : forall x, 0 <= x < nlocks t -> fup (migrated t) l true x = true).
      { intros x X. destruct (fup (migrated t) l true x) eqn:FX; [reflexivity|]. exfalso.
        assert (1 <= unmigrated t1); [|lia]. pose proof (sum_ge (fun l => if migrated t1 l then 0 else 1) (Z.to_nat (nlocks t1)) x) as G. cbv beta in G.
        change (migrated t1 x) with (fup (migrated t) l true x) in G. rewrite FX in G. apply G; [intros; destruct (migrated t1 i); lia|unfold t1; cbn; lia]. }
      eexists. split; [reflexivity|]. split; [split; cbn; try assumption; left; cbn; assumption|]. split; [intros _; cbn; rewrite RM; symmetry; exact CNT|].
      split; [split; cbn; auto|]. split; [exact ML|discriminate].
    + eexists. split; [reflexivity|]. split; [split; cbn; assumption|]. split; [intros _; cbn; rewrite RM; symmetry; exact CNT|].
      split; [split; cbn; auto|]. split; [exact ML|discriminate].
  - exists t1. split; [reflexivity|]. split; [split; cbn; assumption|]. split; [discriminate|]. split; [split; cbn; auto; intros; apply VIEW; auto|]. split; [exact ML|].
    intros _. split; [reflexivity|]. split; [reflexivity|]. congruence.
Qed.

Lemma rehash_lock_ok l t : wf t -> 0 <= l < nlocks t ->
  exists t', rehash_lock true l t = Done t' tt /\ wf t' /\ same t t' /\ migrated t' l = true.
Proof.
  intros [W R] L. destruct (rehash_lock_core true l t W (fun _ => R) L) as (t' & E & W' & R' & S & M & _).
  exists t'. split; [exact E|]. split; [split; auto|]. auto.
Qed.
Lemma in_locks t i : wf0 t -> 0 <= i < 2 ^ hp t -> 0 <= lock_ind i < nlocks t.
Proof. intros [H L _] I. pose proof (lock_range i). pose proof (lock_bound (hp t) i H I). lia. Qed.
Lemma lock_one_ok i t : wf t -> 0 <= i < 2 ^ hp t ->
  exists t', lock_one hash i t = Done t' tt /\ wf t' /\ same t t' /\ migrated t' (lock_ind i) = true.
Proof. intros W I. apply rehash_lock_ok; [assumption|]. apply in_locks; [apply W|assumption]. Qed.
Lemma lock_two_ok i j t : wf t -> 0 <= i < 2 ^ hp t -> 0 <= j < 2 ^ hp t ->
  exists t', lock_two hash i j t = Done t' tt /\ wf t' /\ same t t' /\ migrated t' (lock_ind i) = true /\ migrated t' (lock_ind j) = true.
Proof.
  intros W I J. pose proof (in_locks t i (wf_0 _ W) I) as LI. pose proof (in_locks t j (wf_0 _ W) J) as LJ. unfold lock_two.
  destruct (rehash_lock_ok (Z.min (lock_ind i) (lock_ind j)) t W) as (t1 & E1 & W1 & S1 & M1); [lia|].
  rewrite E1. cbn [rbind].
  destruct (rehash_lock_ok (Z.max (lock_ind i) (lock_ind j)) t1 W1) as (t2 & E2 & W2 & S2 & M2); [rewrite (s_locks _ _ S1); lia|].
  exists t2. split; [exact E2|]. split; [assumption|]. split; [eapply same_trans; eassumption|].
  apply (s_migrated _ _ S2) in M1. destruct (Z.leb_spec (lock_ind i) (lock_ind j)).
  - rewrite Z.min_l in M1 by lia. rewrite Z.max_r in M2 by lia. auto.
  - rewrite Z.min_r in M1 by lia. rewrite Z.max_l in M2 by lia. auto.
Qed.
Lemma sort3_ok a b c : let '(x, y, z) := sort3 a b c in
  x <= y <= z /\ (forall P : Z -> Prop, (P a /\ P b /\ P c) <-> (P x /\ P y /\ P z)).
Proof.
  unfold sort3. destruct (Z.ltb_spec c b); [destruct (Z.ltb_spec b a); [destruct (Z.ltb_spec c b)|destruct (Z.ltb_spec c a)]|destruct (Z.ltb_spec c a); [destruct (Z.ltb_spec b c)|destruct (Z.ltb_spec b a)]]; (split; [lia|intros; intuition]).
Qed.
Lemma lock_three_ok i j k t : wf t -> 0 <= i < 2 ^ hp t -> 0 <= j < 2 ^ hp t -> 0 <= k < 2 ^ hp t ->
  exists t', lock_three hash i j k t = Done t' tt /\ wf t' /\ same t t' /\
    migrated t' (lock_ind i) = true /\ migrated t' (lock_ind j) = true /\ migrated t' (lock_ind k) = true.
Proof.
  intros W I J Q. pose proof (in_locks t i (wf_0 _ W) I) as LI. pose proof (in_locks t j (wf_0 _ W) J) as LJ. pose proof (in_locks t k (wf_0 _ W) Q) as LK.
  unfold lock_three. pose proof (sort3_ok (lock_ind i) (lock_ind j) (lock_ind k)) as SO. destruct sort3 as [[x y] z]. destruct SO as [_ SO].
  destruct (proj1 (SO (fun l => 0 <= l < nlocks t))) as (X & Y & Zz); [auto|].
  destruct (rehash_lock_ok x t W X) as (t1 & E1 & W1 & S1 & M1). rewrite E1. cbn [rbind].
  destruct (rehash_lock_ok y t1 W1) as (t2 & E2 & W2 & S2 & M2); [rewrite (s_locks _ _ S1); lia|]. rewrite E2. cbn [rbind].
  destruct (rehash_lock_ok z t2 W2) as (t3 & E3 & W3 & S3 & M3); [rewrite (s_locks _ _ S2), (s_locks _ _ S1); lia|].
  exists t3. split; [exact E3|]. split; [assumption|]. split; [eapply same_trans; [eassumption|eapply same_trans; eassumption]|].
  apply (SO (fun l => migrated t3 l = true)). repeat split; [apply S3, S2, M1|apply S3, M2|exact M3].
Qed.
(** Under its lock a bucket is what it looks like. *)
Lemma view_cell t i s : 0 <= i < 2 ^ hp t -> migrated t (lock_ind i) = true -> view t i s = cell t i s.
Proof. intros I M. unfold view. replace ((0 <=? i) && (i <? 2 ^ hp t)) with true by lia. now rewrite M. Qed.
(** Writing a slot of a bucket whose lock is migrated. *)
Lemma wf_with_cell t i s x : wf t -> migrated t (lock_ind i) = true -> wf (with_cell t (set_cell (cell t) i s x)).
Proof.
  intros [[H L Z] R] M. split; [split|]; [exact H|exact L| |exact R].
  destruct Z as [A|(N & OH & OP & B & oc & O & E & SP)]; [left; exact A|]. right. cbn. repeat split; try assumption. exists oc. repeat split; try assumption.
  intros i' s' I M'. unfold set_cell. destruct (Z.eqb_spec i' i); [congruence|]. cbn. now apply E.
Qed.
Lemma view_with_cell t i s x : 0 <= i < 2 ^ hp t -> migrated t (lock_ind i) = true ->
  forall i' s', view (with_cell t (set_cell (cell t) i s x)) i' s' = set_cell (view t) i s x i' s'.
Proof.
  intros I M i' s'. unfold view, with_cell, set_cell. cbn [hp migrated cell old old_hp].
  destruct (Z.eqb_spec i' i).
  - subst i'. cbn [andb]. replace ((0 <=? i) && (i <? 2 ^ hp t)) with true by lia. rewrite M. reflexivity.
  - reflexivity.
Qed.
Lemma wf_with_counter t c : wf t -> wf (with_counter t c).
Proof. intros [[H L Z] R]. split; [split|]; [exact H|exact L|exact Z|exact R]. Qed.
Lemma view_with_counter t c i s : view (with_counter t c) i s = view t i s.
Proof. reflexivity. Qed.
End Proofs.
