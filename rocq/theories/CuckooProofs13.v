(** The locks of libcuckoo's table: exclusion, the hashpower, deadlock. *)

From Coq Require Import ZArith List Bool Lia Arith Sorted.
From Verif Require Import Base CuckooModel CuckooRunModel CuckooThreadsModel CuckooLocksModel.
From Verif Require CuckooSpec ConcMapSpec.
Import ListNotations.
Open Scope Z_scope.

Definition in_range (l : Z) : Prop := 0 <= l < kMaxNumLocks.
Lemma lock_ind_range i : in_range (lock_ind i).
Proof. unfold in_range, lock_ind, kMaxNumLocks. change (65536 - 1) with (Z.ones 16). rewrite Z.land_ones by lia. apply Z.mod_pos_bound. lia. Qed.
Lemma lock_every_in l : In l lock_every <-> in_range l.
Proof.
  unfold lock_every, in_range. rewrite in_map_iff. split.
  - intros (x & <- & I). apply in_seq in I. unfold kMaxNumLocks in *. lia.
  - intros R. exists (Z.to_nat l). split; [lia|]. apply in_seq. lia.
Qed.
Lemma seq_sorted n a : StronglySorted Z.lt (map Z.of_nat (seq a n)).
Proof.
  revert a. induction n as [|n IH]; intros a; cbn; constructor; auto.
  apply Forall_forall. intros x I. apply in_map_iff in I. destruct I as (y & <- & I). apply in_seq in I. lia.
Qed.
Lemma lock_every_nonempty : lock_every <> [].
Proof. intros E. assert (I : In 0 lock_every) by (apply lock_every_in; unfold in_range, kMaxNumLocks; lia). rewrite E in I. destruct I. Qed.
Definition orderly (ls : list Z) : Prop := StronglySorted Z.lt ls /\ (forall l, In l ls -> in_range l) /\ ls <> [].
Lemma lock_every_orderly : orderly lock_every.
Proof. split; [apply seq_sorted|]. split; [intros l; apply lock_every_in|apply lock_every_nonempty]. Qed.
Lemma lock_single_orderly i : orderly [lock_ind i].
Proof. split; [repeat constructor|]. split; [|discriminate]. intros l [<-|[]]. apply lock_ind_range. Qed.
Lemma lock_pair_in i1 i2 l : In l (lock_pair i1 i2) <-> l = lock_ind i1 \/ l = lock_ind i2.
Proof.
  unfold lock_pair. destruct (lock_ind i2 <? lock_ind i1) eqn:E1.
  - destruct (Z.eqb_spec (lock_ind i1) (lock_ind i2)); cbn; split; intros; intuition congruence.
  - destruct (Z.eqb_spec (lock_ind i2) (lock_ind i1)); cbn; split; intros; intuition congruence.
Qed.
Lemma lock_pair_orderly i1 i2 : orderly (lock_pair i1 i2).
Proof.
  split; [|split].
  - unfold lock_pair. destruct (Z.ltb_spec (lock_ind i2) (lock_ind i1)); match goal with |- context [if negb (?a =? ?b) then _ else _] => destruct (Z.eqb_spec a b) end; cbn; repeat constructor; lia.
  - intros l I. apply lock_pair_in in I. destruct I as [-> | ->]; apply lock_ind_range.
  - unfold lock_pair. destruct (lock_ind i2 <? lock_ind i1); match goal with |- context [if ?b then _ else _] => destruct b end; discriminate.
Qed.
Lemma sort3_spec a b c : let '(x, y, z) := sort3 a b c in x <= y <= z /\ (forall l, l = x \/ l = y \/ l = z <-> l = a \/ l = b \/ l = c).
Proof.
  unfold sort3. destruct (Z.ltb_spec c b).
  - destruct (Z.ltb_spec b a); [destruct (Z.ltb_spec c b)|destruct (Z.ltb_spec c a)]; (split; [lia|intros; lia]).
  - destruct (Z.ltb_spec c a); [destruct (Z.ltb_spec b c)|destruct (Z.ltb_spec b a)]; (split; [lia|intros; lia]).
Qed.
Lemma lock_triple_in i1 i2 i3 l : In l (lock_triple i1 i2 i3) <-> l = lock_ind i1 \/ l = lock_ind i2 \/ l = lock_ind i3.
Proof.
  unfold lock_triple. pose proof (sort3_spec (lock_ind i1) (lock_ind i2) (lock_ind i3)) as S3. destruct (sort3 _ _ _) as [[x y] z]. destruct S3 as [_ M]. rewrite <- M.
  destruct (Z.eqb_spec y x), (Z.eqb_spec z y); cbn; split; intros; intuition congruence.
Qed.
Lemma lock_triple_orderly i1 i2 i3 : orderly (lock_triple i1 i2 i3).
Proof.
  split; [|split].
  - unfold lock_triple. pose proof (sort3_spec (lock_ind i1) (lock_ind i2) (lock_ind i3)) as S3. destruct (sort3 _ _ _) as [[x y] z]. destruct S3 as [L _].
    destruct (Z.eqb_spec y x), (Z.eqb_spec z y); cbn; repeat constructor; lia.
  - intros l I. apply lock_triple_in in I. destruct I as [->|[->| ->]]; apply lock_ind_range.
  - unfold lock_triple. destruct (sort3 _ _ _) as [[x y] z]. discriminate.
Qed.

Opaque lock_every lock_pair lock_triple lock_ind.
Section Locks.
Context {K V : Type} (hash : K -> Z) (keq : K -> K -> bool) (simple nothrow : bool).
Notation pc := (@pc K V). Notation table := (@table K V). Notation config := (@config K V).
Notation op := (@CuckooSpec.op K V). Notation ans := (@CuckooSpec.ans K V).
Notation event := (@ConcMapSpec.event op ans).
Notation section := (section hash keq simple nothrow). Notation needs := (needs hash).
Notation fstep := (fstep hash keq simple nothrow). Notation frun := (frun hash keq simple nothrow).
Notation run := (run hash keq simple nothrow). Notation step := (step hash keq simple nothrow).

Lemma needs_orderly (p : pc) h ls : needs p = Some (h, ls) -> orderly ls.
Proof.
  destruct p as [|[]|[]| ? ? ? [] ?|? ? ? ? [] ?|? ? ? ? [|? []]| | | | |]; cbn; intros E; try discriminate; injection E as <- <-;
    first [exact lock_every_orderly|apply lock_pair_orderly|apply lock_triple_orderly|apply lock_single_orderly].
Qed.
Lemma needs_every (p : pc) ls : needs p = Some (None, ls) -> ls = lock_every.
Proof. destruct p as [|[]|[]| ? ? ? [] ?|? ? ? ? [] ?|? ? ? ? [|? []]| | | | |]; cbn; intros E; try discriminate; now injection E as <-. Qed.
Lemma needs_changed (p : pc) h ls (t : table) : needs p = Some (Some h, ls) -> hp t <> h -> section p t = Done t (restart p).
Proof.
  intros E N. apply Z.eqb_neq in N. destruct p as [|[]|[]| ? ? ? [] ?|? ? ? ? [] ?|? ? ? ? [|? []]| | | | |]; cbn in E; try discriminate; injection E as <- <-; cbn; now rewrite N.
Qed.

(** *** Only growing changes the hashpower *)
Lemma rehash_lock_hp b l (t t' : table) u : rehash_lock hash b l t = Done t' u -> hp t' = hp t.
Proof.
  unfold rehash_lock. destruct (migrated t l); [now intros [= <- _]|]. destruct (negb _); [discriminate|]. destruct (old t); [|discriminate].
  destruct (move_every _ _ _ _ _ _ _); [|discriminate]. destruct b; [|now intros [= <- _]].
  unfold decrement_remaining. cbn. destruct (remaining t <? 1); [discriminate|]. now intros [= <- _].
Qed.
Lemma rbind_done {A B} (x : res A) (k : table -> A -> res B) t b : rbind x k = Done t b -> exists t1 a, x = Done t1 a /\ k t1 a = Done t b.
Proof. destruct x; cbn; try discriminate. eauto. Qed.
Lemma lock_two_hp a b (t t' : table) u : lock_two hash a b t = Done t' u -> hp t' = hp t.
Proof. unfold lock_two. intros E. apply rbind_done in E. destruct E as (t1 & ? & E1 & E2). apply rehash_lock_hp in E1, E2. congruence. Qed.
Lemma lock_one_hp a (t t' : table) u : lock_one hash a t = Done t' u -> hp t' = hp t.
Proof. apply rehash_lock_hp. Qed.
Lemma lock_three_hp a b c (t t' : table) u : lock_three hash a b c t = Done t' u -> hp t' = hp t.
Proof.
  unfold lock_three. destruct (sort3 _ _ _) as [[x y] z]. intros E. apply rbind_done in E. destruct E as (t1 & ? & E1 & E). apply rbind_done in E. destruct E as (t2 & ? & E2 & E3).
  apply rehash_lock_hp in E1, E2, E3. congruence.
Qed.
Lemma rehash_locks_hp n l (t t' : table) u : rehash_locks hash l n t = Done t' u -> hp t' = hp t.
Proof.
  revert l t. induction n as [|n IH]; intros l t; cbn; [now intros [= <- _]|]. intros E. apply rbind_done in E. destruct E as (t1 & ? & E1 & E2).
  apply rehash_lock_hp in E1. apply IH in E2. congruence.
Qed.
Lemma walk_hp (t t' : table) l : walk hash t = Done t' l -> hp t' = hp t.
Proof.
  unfold walk, rehash_all. intros E. apply rbind_done in E. destruct E as (t1 & ? & E1 & E2). apply rbind_done in E1. destruct E1 as (t2 & ? & E1 & E3).
  apply rehash_locks_hp in E1. injection E3 as <-. cbn in E2. destruct (walk_from _ _ _ _ _); [|discriminate]. injection E2 as <- _. exact E1.
Qed.
Lemma add_hp i s p k v (t t' : table) u : add_to_bucket i s p k v t = Done t' u -> hp t' = hp t.
Proof. unfold add_to_bucket. destruct (setKV _ _ _ _); [|discriminate]. now intros [= <- _]. Qed.
Lemma del_hp i s (t t' : table) u : del_from_bucket i s t = Done t' u -> hp t' = hp t.
Proof. unfold del_from_bucket. destruct (cell t i s); [|discriminate]. now intros [= <- _]. Qed.
Lemma finish_hp k v st (t t' : table) p : finish hash k v st t = Done t' p -> hp t' = hp t.
Proof.
  unfold finish. destruct st; [|destruct (cell t i s); [|discriminate]; now intros [= <- _]|discriminate].
  intros E. apply rbind_done in E. destruct E as (t1 & ? & E1 & E2). apply add_hp in E1. now injection E2 as <- _.
Qed.
Lemma place_hp k v h b s (t t' : table) p : place hash keq simple k v h b s t = Done t' p -> hp t' = hp t.
Proof.
  unfold place. destruct (negb _); [discriminate|]. destruct (cell t b s); [discriminate|]. destruct (cuckoo_find _ _ _ _ _ _ _) as [[]|]; apply finish_hp.
Qed.
Lemma section_hp (p : pc) (t t' : table) p' : section p t = Done t' p' -> (forall k v h, p <> Grow k v h) -> hp t' = hp t.
Proof.
  intros E NG. destruct p as [|o|o h|k v h [|x q] last|k v h b [|s ss] acc|k v h to [|from before]|k v h|l s| | |a]; cbn [CuckooThreadsModel.section] in E.
  - now injection E as <- _.
  - destruct o; try (now injection E as <- _). apply rbind_done in E. destruct E as (t1 & l & E1 & E2). apply walk_hp in E1. now injection E2 as <- _.
  - destruct o; try discriminate; (destruct (hp t =? h); [|now injection E as <- _]); apply rbind_done in E; destruct E as (t1 & u & E1 & E2); apply lock_two_hp in E1; rewrite <- E1.
    + destruct (cuckoo_find _ _ _ _ _ _ _) as [[i s]|]; [destruct (cell t1 i s); [|discriminate]|]; now injection E2 as <- _.
    + destruct (try_both _ _ _ _ _ _ _); [now apply finish_hp in E2|now injection E2 as <- _].
    + destruct (cuckoo_find _ _ _ _ _ _ _) as [[i s]|]; [|now injection E2 as <- _]. apply rbind_done in E2. destruct E2 as (t2 & ? & E2 & E3). apply del_hp in E2. now injection E3 as <- _.
  - now injection E as <- _.
  - destruct (hp t =? h); [|now injection E as <- _]. apply rbind_done in E. destruct E as (t1 & u & E1 & E2). apply lock_one_hp in E1. rewrite <- E1.
    destruct (scan _ _ _ _ _ _ _); [unfold follow_start in E2; destruct (decode _ _ _) as [code ss]; destruct (code =? 0); [|destruct (code =? 1); [|discriminate]]| |discriminate]; now injection E2 as <- _.
  - discriminate.
  - destruct (hp t =? h); [|now injection E as <- _]. apply rbind_done in E. destruct E as (t1 & u & E1 & E2). apply lock_one_hp in E1. rewrite <- E1.
    destruct (cell t1 b s); [|now injection E2 as <- _]. destruct ss; [now injection E2 as <- _|]. destruct (_ || _); [|discriminate]. now injection E2 as <- _.
  - destruct (hp t =? h); [|now injection E as <- _]. apply rbind_done in E. destruct E as (t1 & u & E1 & E2). apply lock_two_hp in E1. rewrite <- E1.
    destruct (cell t1 _ _); [now injection E2 as <- _|]. now apply place_hp in E2.
  - destruct (hp t =? h); [|now injection E as <- _]. apply rbind_done in E. destruct E as (t1 & u & E1 & E2).
    assert (H1 : hp t1 = hp t) by (destruct before; [now apply lock_three_hp in E1|now apply lock_two_hp in E1]). rewrite <- H1.
    destruct (cell t1 (r_bucket to) _); [now injection E2 as <- _|]. destruct (cell t1 (r_bucket from) _); [|now injection E2 as <- _]. destruct (_ =? _); [|now injection E2 as <- _].
    destruct before; [now apply place_hp in E2|now injection E2 as <- _].
  - destruct (NG k v h). reflexivity.
  - destruct (l <? nlocks t); now injection E as <- _.
  - now injection E as <- _.
  - now injection E as <- _.
  - now injection E as <- _.
Qed.

(** *** The invariant *)
Record tight (c : @fine K V) : Prop := {
  t_own : forall i l, owner c l = Some i <-> In l (has_locks c i);
  t_take : forall i held todo, phases c i = Taking held todo ->
    exists h, needs (pcs (base c) i) = Some (h, held ++ todo) /\ (held <> [] -> forall x, h = Some x -> hp (tbl (base c)) = x);
  t_check : forall i l todo, phases c i = Checking l todo -> exists h, needs (pcs (base c) i) = Some (Some h, l :: todo) }.

Lemma set_phase_same f i x : set_phase f i x i = x.
Proof. unfold set_phase. now rewrite Nat.eqb_refl. Qed.
Lemma set_phase_other f i j x : j <> i -> set_phase f i x j = f j.
Proof. intros N. unfold set_phase. destruct (Nat.eqb_spec j i); [contradiction|reflexivity]. Qed.
Lemma set_pc_same (f : nat -> pc) i x : set_pc f i x i = x.
Proof. unfold set_pc. now rewrite Nat.eqb_refl. Qed.
Lemma set_pc_other (f : nat -> pc) i j x : j <> i -> set_pc f i x j = f j.
Proof. intros N. unfold set_pc. destruct (Nat.eqb_spec j i); [contradiction|reflexivity]. Qed.
Lemma drop_in l x held : In x (drop l held) <-> In x held /\ x <> l.
Proof. unfold drop. rewrite filter_In. destruct (Z.eqb_spec x l); cbn; intuition congruence. Qed.

(** what the other threads know about the hashpower survives a step *)
Definition keeps (c : @fine K V) (i : nat) (t : table) : Prop :=
  forall j held todo x, j <> i -> phases c j = Taking held todo -> held <> [] -> needs (pcs (base c) j) = Some (Some x, held ++ todo) -> hp (tbl (base c)) = x -> hp t = x.
Lemma keeps_hp c i t : hp t = hp (tbl (base c)) -> keeps c i t.
Proof. intros E j held todo x _ _ _ _ H. congruence. Qed.
Lemma keeps_body c i held t p : tight c -> phases c i = Taking held [] -> section (pcs (base c) i) (tbl (base c)) = Done t p -> keeps c i t.
Proof.
  intros T P E. destruct (pcs (base c) i) as [|o|o h|k v h q last|k v h b ss acc|k v h to before|k v h|l s| | |a] eqn:Q;
    try (apply keeps_hp; refine (section_hp _ _ _ _ E _); discriminate).
  intros j held' todo x N PJ NE NJ H. exfalso.
  destruct (t_take c T i _ _ P) as (h' & NI & _). rewrite Q in NI. cbn in NI. injection NI as _ EL. rewrite app_nil_r in EL.
  destruct held' as [|l0 held']; [now apply NE|].
  assert (R : in_range l0) by (apply (needs_orderly _ _ _ NJ); now left).
  assert (O1 : owner c l0 = Some i) by (apply (t_own c T); unfold has_locks; rewrite P, <- EL; now apply lock_every_in).
  assert (O2 : owner c l0 = Some j) by (apply (t_own c T); unfold has_locks; rewrite PJ; now left).
  congruence.
Qed.

Lemma tight_step i c e c' : tight c -> fstep i c e c' -> tight c'.
Proof.
  intros T ST. assert (T0 := T). destruct T as [TO TT TC].
  (* a step that keeps the locks and the phases *)
  assert (QUIET : forall t p, phases c i = Out -> keeps c i t -> tight (mkF (mkC t (set_pc (pcs (base c)) i p)) (phases c) (owner c))).
  { intros t p PO KP. split; cbn.
    - exact TO.
    - intros j held todo PJ. assert (N : j <> i) by (intros ->; congruence). rewrite set_pc_other by exact N. destruct (TT j held todo PJ) as (h & NJ & HJ).
      exists h. split; [exact NJ|]. intros NE x ->. exact (KP j held todo x N PJ NE NJ (HJ NE x eq_refl)).
    - intros j l todo PJ. assert (N : j <> i) by (intros ->; congruence). rewrite set_pc_other by exact N. eauto. }
  assert (OWN : forall ph (l : Z) (add : bool), (forall x, In x (match ph with Taking h _ => h | Checking y _ => [y] | Freeing h => h | Out => [] end) <-> (if add then x = l \/ In x (has_locks c i) else x <> l /\ In x (has_locks c i))) ->
    (if add then owner c l = None else owner c l = Some i) ->
    forall (b : config) j x, owner (mkF b (set_phase (phases c) i ph) (set_owner (owner c) l (if add then Some i else None))) x = Some j <-> In x (has_locks (mkF b (set_phase (phases c) i ph) (set_owner (owner c) l (if add then Some i else None))) j)).
  { intros ph l add HX HO b j x. cbn. unfold has_locks. cbn. unfold set_owner. destruct (Nat.eq_dec j i) as [->|N].
    - rewrite set_phase_same, (HX x). destruct (Z.eqb_spec x l) as [->|NX].
      + destruct add; split; intros; first [discriminate|tauto].
      + rewrite (TO i x). destruct add; tauto.
    - rewrite set_phase_other by exact N. fold (has_locks c j). rewrite <- (TO j x). destruct (Z.eqb_spec x l) as [->|NX]; [|tauto].
      destruct add; rewrite HO; split; intros; congruence. }
  inversion ST; subst; clear ST.
  - apply QUIET; [assumption|now apply keeps_hp].
  - apply QUIET; [assumption|now apply keeps_hp].
  - apply QUIET; [assumption|]. apply keeps_hp. refine (section_hp _ _ _ _ H3 _). intros k v h E. rewrite E in H2. discriminate.
  - (* begin *) split; cbn.
    + intros j x. unfold has_locks. cbn. destruct (Nat.eq_dec j i) as [->|N]; [rewrite set_phase_same|rewrite set_phase_other by exact N; apply TO].
      rewrite (TO i x). unfold has_locks. rewrite H. reflexivity.
    + intros j held todo. destruct (Nat.eq_dec j i) as [->|N]; [rewrite set_phase_same|rewrite set_phase_other by exact N; apply TT].
      intros [= <- <-]. exists h. split; [assumption|]. intros X. now destruct X.
    + intros j l todo. destruct (Nat.eq_dec j i) as [->|N]; [rewrite set_phase_same; discriminate|rewrite set_phase_other by exact N; apply TC].
  - (* first *) destruct (TT _ _ _ H) as (h' & NI & _). split.
    + apply (OWN (Checking l todo) l true); [|assumption]. intros x. unfold has_locks. rewrite H. cbn. intuition congruence.
    + cbn. intros j held todo'. destruct (Nat.eq_dec j i) as [->|N]; [rewrite set_phase_same; discriminate|rewrite set_phase_other by exact N; apply TT].
    + cbn. intros j l' todo'. destruct (Nat.eq_dec j i) as [->|N]; [rewrite set_phase_same|rewrite set_phase_other by exact N; apply TC].
      intros [= <- <-]. exists h. rewrite NI in H0. injection H0 as -> _. exact NI.
  - (* same *) destruct (TC _ _ _ H) as (h' & NI). split; cbn.
    + intros j x. unfold has_locks. cbn. destruct (Nat.eq_dec j i) as [->|N]; [rewrite set_phase_same|rewrite set_phase_other by exact N; apply TO].
      rewrite (TO i x). unfold has_locks. rewrite H. reflexivity.
    + intros j held todo'. destruct (Nat.eq_dec j i) as [->|N]; [rewrite set_phase_same|rewrite set_phase_other by exact N; apply TT].
      intros [= <- <-]. exists (Some h'). split; [exact NI|]. rewrite NI in H0. injection H0 as -> _. intros _ x [= <-]. reflexivity.
    + intros j l' todo'. destruct (Nat.eq_dec j i) as [->|N]; [rewrite set_phase_same; discriminate|rewrite set_phase_other by exact N; apply TC].
  - (* changed *) split; cbn.
    + intros j x. unfold has_locks. cbn. destruct (Nat.eq_dec j i) as [->|N]; [rewrite set_phase_same|rewrite set_phase_other by exact N; apply TO].
      rewrite (TO i x). unfold has_locks. rewrite H. reflexivity.
    + intros j held todo'. destruct (Nat.eq_dec j i) as [->|N]; [rewrite set_phase_same; discriminate|rewrite set_phase_other, set_pc_other by exact N; apply TT].
    + intros j l' todo'. destruct (Nat.eq_dec j i) as [->|N]; [rewrite set_phase_same; discriminate|rewrite set_phase_other, set_pc_other by exact N; apply TC].
  - (* next *) destruct (TT _ _ _ H) as (h' & NI & HI). split.
    + apply (OWN (Taking (held ++ [l]) todo) l true); [|assumption]. intros x. unfold has_locks. rewrite H. rewrite in_app_iff. cbn. intuition congruence.
    + cbn. intros j held' todo'. destruct (Nat.eq_dec j i) as [->|N]; [rewrite set_phase_same|rewrite set_phase_other by exact N; apply TT].
      intros [= <- <-]. exists h'. split; [now rewrite <- app_assoc|]. intros _ x ->. destruct H0 as [X|(ls & X)]; [exact (HI X x eq_refl)|]. rewrite NI in X. discriminate.
    + cbn. intros j l' todo'. destruct (Nat.eq_dec j i) as [->|N]; [rewrite set_phase_same; discriminate|rewrite set_phase_other by exact N; apply TC].
  - (* body *) pose proof (keeps_body c i held t p T0 H H0) as KP. split; cbn.
    + intros j x. unfold has_locks. cbn. destruct (Nat.eq_dec j i) as [->|N]; [rewrite set_phase_same|rewrite set_phase_other by exact N; apply TO].
      rewrite (TO i x). unfold has_locks. rewrite H. reflexivity.
    + intros j held' todo'. destruct (Nat.eq_dec j i) as [->|N]; [rewrite set_phase_same; discriminate|rewrite set_phase_other, set_pc_other by exact N].
      intros PJ. destruct (TT j _ _ PJ) as (h & NJ & HJ). exists h. split; [exact NJ|]. intros NE x ->. exact (KP j _ _ x N PJ NE NJ (HJ NE x eq_refl)).
    + intros j l' todo'. destruct (Nat.eq_dec j i) as [->|N]; [rewrite set_phase_same; discriminate|rewrite set_phase_other, set_pc_other by exact N; apply TC].
  - (* free *) split.
    + apply (OWN (Freeing (drop l held)) l false).
      * intros x. unfold has_locks. rewrite H, drop_in. tauto.
      * apply TO. unfold has_locks. now rewrite H.
    + cbn. intros j held' todo'. destruct (Nat.eq_dec j i) as [->|N]; [rewrite set_phase_same; discriminate|rewrite set_phase_other by exact N; apply TT].
    + cbn. intros j l' todo'. destruct (Nat.eq_dec j i) as [->|N]; [rewrite set_phase_same; discriminate|rewrite set_phase_other by exact N; apply TC].
  - (* out *) split; cbn.
    + intros j x. unfold has_locks. cbn. destruct (Nat.eq_dec j i) as [->|N]; [rewrite set_phase_same|rewrite set_phase_other by exact N; apply TO].
      rewrite (TO i x). unfold has_locks. rewrite H. reflexivity.
    + intros j held' todo'. destruct (Nat.eq_dec j i) as [->|N]; [rewrite set_phase_same; discriminate|rewrite set_phase_other by exact N; apply TT].
    + intros j l' todo'. destruct (Nat.eq_dec j i) as [->|N]; [rewrite set_phase_same; discriminate|rewrite set_phase_other by exact N; apply TC].
Qed.
Lemma tight_run n l c : frun (fstart n) l c -> tight c.
Proof.
  intros R. remember (fstart n) as c0 eqn:E0. induction R as [c|c l c1 i e c2 R IH ST]; [|exact (tight_step _ _ _ _ (IH E0) ST)].
  subst c. split; cbn; [|discriminate|discriminate]. intros i l. unfold has_locks. cbn. split; [discriminate|tauto].
Qed.

(** *** The steps on locks leave a run of the sections *)
Lemma refines n (l : list (option event)) c : frun (fstart n) l c ->
  exists l', run (start n) l' (base c) /\ history l' = history l /\ (length l' <= length l)%nat /\ forall P : op -> Prop, calls P l -> calls P l'.
Proof.
  intros R. remember (fstart n) as c0 eqn:E0. induction R as [c|c l c1 i e c2 R IH ST].
  - subst c. exists []. split; [apply run_none|]. split; [reflexivity|]. split; [reflexivity|auto].
  - destruct (IH E0) as (l' & R' & H' & L' & C').
    assert (STAY : base c2 = base c1 -> e = None -> exists l', run (start n) l' (base c2) /\ history l' = history (l ++ [e]) /\ (length l' <= length (l ++ [e]))%nat /\ forall P : op -> Prop, calls P (l ++ [e]) -> calls P l').
    { intros B ->. exists l'. rewrite B. split; [exact R'|]. unfold history, calls in *. rewrite flat_map_app, app_nil_r, app_length. split; [exact H'|]. split; [cbn; lia|].
      intros P X. apply Forall_app in X. now apply C'. }
    assert (MOVE : step (base c1) e (base c2) -> exists l', run (start n) l' (base c2) /\ history l' = history (l ++ [e]) /\ (length l' <= length (l ++ [e]))%nat /\ forall P : op -> Prop, calls P (l ++ [e]) -> calls P l').
    { intros S1. exists (l' ++ [e]). split; [exact (run_step _ _ _ _ _ _ _ _ _ R' S1)|]. unfold history, calls in *. rewrite !flat_map_app, !app_length, H'. split; [reflexivity|]. split; [lia|].
      intros P X. apply Forall_app in X. apply Forall_app. split; [now apply C'|tauto]. }
    inversion ST; subst; try (now apply STAY); apply MOVE; cbn.
    + now apply step_call.
    + now apply step_return.
    + now apply step_inside.
    + apply step_inside. eapply needs_changed; eassumption.
    + now apply step_inside.
Qed.

(** *** Waiting threads *)
Lemma sorted_before a b x y : StronglySorted Z.lt (a ++ y :: b) -> In x a -> x < y.
Proof.
  induction a as [|z a IH]; [intros _ []|]. cbn. intros SS. apply StronglySorted_inv in SS. destruct SS as [SS FA]. intros [<-|I]; [|now apply IH].
  rewrite Forall_forall in FA. apply FA. apply in_app_iff. right. now left.
Qed.
Lemma waits_dec (c : @fine K V) i : (exists l, waits c i l) \/ (forall l, ~ waits c i l).
Proof.
  destruct (phases c i) as [|held [|l todo]|l todo|held] eqn:P; try (right; intros ? [(? & ? & X) _]; congruence).
  destruct (owner c l) eqn:O; [left; exists l; split; [eauto|congruence]|]. right. intros l' [(held' & todo' & X) Y]. rewrite P in X. injection X as -> -> ->. congruence.
Qed.
Lemma unblock c : tight c -> forall n i l, waits c i l -> kMaxNumLocks - l <= Z.of_nat n ->
  exists j l', owner c l' = Some j /\ l <= l' /\ forall x, ~ waits c j x.
Proof.
  intros T. induction n as [|n IH]; intros i l W LN.
  - destruct W as [(held & todo & P) _]. destruct (t_take c T _ _ _ P) as (h & NI & _). apply needs_orderly in NI. destruct NI as (_ & R & _).
    assert (in_range l) by (apply R; apply in_app_iff; right; now left). unfold in_range in *. lia.
  - assert (W0 := W). destruct W as [(held & todo & P) O]. destruct (owner c l) as [j|] eqn:OL; [|now destruct O].
    destruct (waits_dec c j) as [(l2 & W2)|NW]; [|exists j, l; split; [exact OL|]; split; [lia|exact NW]].
    assert (W2' := W2). destruct W2 as [(held2 & todo2 & P2) _]. destruct (t_take c T _ _ _ P2) as (h2 & N2 & _). apply needs_orderly in N2. destruct N2 as (SS & _).
    assert (LT : l < l2) by (apply (sorted_before _ _ _ _ SS); apply (t_own c T) in OL; unfold has_locks in OL; now rewrite P2 in OL).
    destruct (IH j l2 W2') as (j' & l' & O' & L' & NW); [lia|]. exists j', l'. split; [exact O'|]. split; [lia|exact NW].
Qed.
Definition busy (c : @fine K V) (i : nat) : Prop := phases c i <> Out \/ pcs (base c) i <> Idle.
Lemma can_step c i : tight c -> busy c i -> (forall l, ~ waits c i l) -> (exists t p, section (pcs (base c) i) (tbl (base c)) = Done t p) -> exists e c', fstep i c e c'.
Proof.
  intros T B NW (t & p & E). destruct (phases c i) as [|held [|l todo]|l todo|[|l held]] eqn:P.
  - destruct (needs (pcs (base c) i)) as [[h ls]|] eqn:N; [eexists; eexists; eapply f_begin; eassumption|].
    destruct (pcs (base c) i) eqn:Q; try (eexists; eexists; eapply f_plain; rewrite ?Q; try eassumption; discriminate).
    + destruct B as [B|B]; [now rewrite P in B|now rewrite Q in B].
    + eexists. eexists. eapply f_return; eassumption.
  - eexists. eexists. eapply f_body; eassumption.
  - assert (O : owner c l = None) by (destruct (owner c l) eqn:O; [exfalso; apply (NW l); split; [eauto|congruence]|reflexivity]).
    destruct (t_take c T _ _ _ P) as (h & N & _). destruct held as [|l0 held]; [|eexists; eexists; eapply f_next; try eassumption; left; discriminate].
    destruct h as [h|]; [eexists; eexists; eapply f_first; eassumption|]. eexists. eexists. eapply f_next; try eassumption. right. eauto.
  - destruct (t_check c T _ _ _ P) as (h & N). destruct (Z.eq_dec (hp (tbl (base c))) h) as [H|H]; [eexists; eexists; eapply f_same; eassumption|eexists; eexists; eapply f_changed; eassumption].
  - eexists. eexists. eapply f_out; eassumption.
  - eexists. eexists. eapply f_free; [eassumption|]. now left.
Qed.
End Locks.
