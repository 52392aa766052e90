(** What the critical sections of libcuckoo's table touch. *)

From Coq Require Import ZArith List Bool Lia.
From Verif Require Import Base CuckooModel CuckooRunModel CuckooThreadsModel CuckooLocksModel CuckooLocksSpec CuckooProofs1 CuckooProofs10 CuckooProofs13.
From Verif Require CuckooSpec ConcMapSpec.
Import ListNotations.
Open Scope Z_scope.

Section Proofs.
Context {K V : Type} (hash : K -> Z) (keq : K -> K -> bool) (simple nothrow : bool).
Notation pc := (@pc K V). Notation table := (@table K V). Notation entry := (@entry K V). Notation cells := (@cells K V).
Notation section := (section hash keq simple nothrow). Notation needs := (needs hash).
Notation within := (@within K V _).

Lemma outside_refl w (t : table) : same_outside w t t.
Proof. split; auto. Qed.
Lemma outside_trans w (a b c : table) : same_outside w a b -> same_outside w b c -> same_outside w a c.
Proof.
  intros [A1 A2 A3 A4 A5 A6 A7] [B1 B2 B3 B4 B5 B6 B7]. split; try congruence.
  - intros i s N. now rewrite B4, A4.
  - destruct B5 as [->| ->]; auto.
  - intros l N. now rewrite B6, A6.
  - intros l N. now rewrite B7, A7.
Qed.
Lemma within_done {A} w (a : A) : within w (fun t : table => Done t a).
Proof. split; [intros t t' x [= <- _]; apply outside_refl|]. intros t1 t2 t1' t2' a1 a2 E [= <- <-] [= <- <-]. auto. Qed.
Lemma within_fails {A} w u : within w (fun t : table => @Fails K V A u).
Proof. split; discriminate. Qed.
Lemma within_bind {A B} w (f : table -> res A) (g : table -> A -> res B) : within w f -> (forall a, within w (fun t => g t a)) -> within w (fun t => rbind (f t) g).
Proof.
  intros [F1 F2] G. split.
  - intros t t' b E. apply rbind_done in E. destruct E as (t1 & a & E1 & E2). eapply outside_trans; [exact (F1 _ _ _ E1)|exact (proj1 (G a) _ _ _ E2)].
  - intros t1 t2 t1' t2' b1 b2 S E1 E2. apply rbind_done in E1, E2. destruct E1 as (u1 & a1 & E1 & X1), E2 as (u2 & a2 & E2 & X2).
    destruct (F2 _ _ _ _ _ _ S E1 E2) as [-> S']. exact (proj2 (G a2) _ _ _ _ _ _ S' X1 X2).
Qed.
Lemma within_read {A X} w (g : table -> X) (P : X -> Prop) (F : X -> table -> res A) :
  (forall t1 t2, same_under w t1 t2 -> g t1 = g t2) -> (forall t, P (g t)) -> (forall x, P x -> within w (F x)) -> within w (fun t => F (g t) t).
Proof.
  intros G PG W. split.
  - intros t t' a E. exact (proj1 (W _ (PG t)) _ _ _ E).
  - intros t1 t2 t1' t2' a1 a2 S E1 E2. rewrite <- (G _ _ S) in E2. exact (proj2 (W _ (PG t1)) _ _ _ _ _ _ S E1 E2).
Qed.
Lemma within_ext {A} w (f g : table -> res A) : (forall t, f t = g t) -> within w g -> within w f.
Proof. intros E [F1 F2]. split; intros *; rewrite !E; [apply F1|apply F2]. Qed.

(** *** Migration *)
Lemma move_slots_frame ohp nhp b src : forall n s ns (dst c : cells), move_slots hash ohp nhp b src s n ns dst = Some c -> forall i x, i <> b -> i <> b + hashsize ohp -> c i x = dst i x.
Proof.
  induction n as [|n IH]; intros s ns dst c; cbn; [now intros [= <-]|]. destruct (src s) as [e|]; [|now apply IH].
  destruct (_ || _); [|destruct (_ || _); [|discriminate]]; (destruct (setKV dst _ _ e) as [d|] eqn:D; [|discriminate]); intros E i x N1 N2; rewrite (IH _ _ _ _ E i x N1 N2);
    unfold setKV in D; (destruct (dst _ _); [discriminate|]); injection D as <-; unfold set_cell; match goal with |- context [i =? ?y] => destruct (Z.eqb_spec i y) end; try contradiction; reflexivity.
Qed.
Definition rows (P : Z -> Prop) (c1 c2 : cells) : Prop := forall i x, P i -> c1 i x = c2 i x.
Lemma setKV_rows P (d1 d2 c1 c2 : cells) i s e : rows P d1 d2 -> setKV d1 i s e = Some c1 -> setKV d2 i s e = Some c2 -> rows P c1 c2.
Proof.
  intros R. unfold setKV. destruct (d1 i s); [discriminate|]. destruct (d2 i s); [discriminate|]. intros [= <-] [= <-] j x J. unfold set_cell. destruct (_ && _); [reflexivity|]. now apply R.
Qed.
Lemma move_slots_local ohp nhp b src1 src2 P : (forall x, src1 x = src2 x) ->
  forall n s ns (d1 d2 c1 c2 : cells), rows P d1 d2 -> move_slots hash ohp nhp b src1 s n ns d1 = Some c1 -> move_slots hash ohp nhp b src2 s n ns d2 = Some c2 -> rows P c1 c2.
Proof.
  intros SRC. induction n as [|n IH]; intros s ns d1 d2 c1 c2 R; cbn; [now intros [= <-] [= <-]|]. rewrite <- (SRC s). destruct (src1 s) as [e|]; [|now apply IH].
  destruct (_ || _); [|destruct (_ || _); [|discriminate]];
    (destruct (setKV d1 _ _ e) as [e1|] eqn:D1; [|discriminate]); (destruct (setKV d2 _ _ e) as [e2|] eqn:D2; [|discriminate]); apply IH; exact (setKV_rows P _ _ _ _ _ _ _ R D1 D2).
Qed.
Lemma lock_next b : lock_ind (b + kMaxNumLocks) = lock_ind b.
Proof. rewrite !lock_mod. unfold kMaxNumLocks. replace (b + 65536) with (b + 1 * 65536) by lia. apply Z.mod_add. lia. Qed.
Lemma big_nonneg ohp : kMaxNumLocks <= hashsize ohp -> 0 <= ohp.
Proof. unfold kMaxNumLocks, hashsize. intros B. destruct (Z.ltb_spec ohp 0); [|lia]. rewrite Z.pow_neg_r in B by assumption. lia. Qed.
Lemma move_every_frame ohp nhp src : kMaxNumLocks <= hashsize ohp ->
  forall n b (dst c : cells), 0 <= b -> move_every hash ohp nhp src b n dst = Some c -> forall i x, lock_ind i <> lock_ind b -> c i x = dst i x.
Proof.
  intros B. induction n as [|n IH]; intros b dst c NB; cbn [move_every]; [now intros [= <-]|]. destruct (Z.ltb_spec b (hashsize ohp)) as [LT|]; [|now intros [= <-]].
  destruct (move_bucket _ _ _ _ _ _) as [d|] eqn:D; [|discriminate]. intros E i x N. assert (NB' : 0 <= b + kMaxNumLocks) by (unfold kMaxNumLocks; lia). rewrite (IH _ _ _ NB' E i x) by now rewrite lock_next.
  apply (move_slots_frame _ _ _ _ _ _ _ _ _ D); intros ->; apply N; [reflexivity|]. apply lock_up; [exact B|now apply big_nonneg|]. unfold hashsize in LT. lia.
Qed.
Lemma move_every_local ohp nhp src1 src2 P l : (forall i x, lock_ind i = l -> src1 i x = src2 i x) ->
  forall n b (d1 d2 c1 c2 : cells), lock_ind b = l -> rows P d1 d2 -> move_every hash ohp nhp src1 b n d1 = Some c1 -> move_every hash ohp nhp src2 b n d2 = Some c2 -> rows P c1 c2.
Proof.
  intros SRC. induction n as [|n IH]; intros b d1 d2 c1 c2 LB R; cbn [move_every]; [now intros [= <-] [= <-]|]. destruct (b <? hashsize ohp); [|now intros [= <-] [= <-]].
  destruct (move_bucket _ _ _ src1 _ _) as [e1|] eqn:D1; [|discriminate]. destruct (move_bucket _ _ _ src2 _ _) as [e2|] eqn:D2; [|discriminate].
  apply IH; [now rewrite lock_next|]. refine (move_slots_local _ _ _ _ _ P _ _ _ _ _ _ _ _ R D1 D2). intros x. now apply SRC.
Qed.
Lemma rehash_within w l : in_range l -> In l w -> within w (rehash_lock hash true l).
Proof.
  intros RL I. assert (LL : lock_ind l = l) by (rewrite lock_mod; apply Z.mod_small; exact RL). split.
  - intros t t' u. unfold rehash_lock. destruct (migrated t l); [intros [= <- _]; apply outside_refl|].
    destruct (negb _) eqn:G; [discriminate|]. apply negb_false_iff in G. apply andb_true_iff in G. destruct G as [_ B]. apply Z.leb_le in B.
    destruct (old t) as [oc|] eqn:O; [|discriminate]. destruct (move_every _ _ _ _ _ _ _) as [c|] eqn:M; [|discriminate].
    unfold decrement_remaining. cbn. destruct (remaining t <? 1); [discriminate|]. intros [= <- _]. split; cbn; auto.
    + intros i s N. apply (move_every_frame _ _ _ B _ _ _ _ (proj1 RL) M). rewrite LL. congruence.
    + destruct (remaining t =? 1); auto.
    + intros x N. unfold fup. destruct (Z.eqb_spec x l); [congruence|reflexivity].
  - intros t1 t2 t1' t2' [] [] S. assert (S0 := S). destruct S as [S1 S2 S3 S4 S5 S6 S7]. unfold rehash_lock. rewrite <- (S7 l I). destruct (migrated t1 l); [intros [= <-] [= <-]; auto|].
    rewrite <- S1, <- S2, <- S3. destruct (negb _); [discriminate|]. destruct (old t1) as [o1|] eqn:O1; [|discriminate]. destruct (old t2) as [o2|] eqn:O2; [|discriminate].
    destruct (move_every _ _ _ o1 _ _ _) as [c1|] eqn:M1; [|discriminate]. unfold decrement_remaining. cbn. destruct (remaining t1 <? 1); [discriminate|]. intros [= <-].
    destruct (move_every _ _ _ o2 _ _ _) as [c2|] eqn:M2; [|discriminate]. cbn. destruct (remaining t2 <? 1); [discriminate|]. intros [= <-]. split; [reflexivity|]. split; cbn; auto.
    + assert (R : rows (fun i => In (lock_ind i) w) c1 c2).
      { refine (move_every_local _ _ _ _ _ l _ _ _ _ _ _ _ LL _ M1 M2); [|exact S4]. intros i x LI. apply (S5 o1 o2); auto. now rewrite LI. }
      exact R.
    + intros a b i s A B J. destruct (remaining t1 =? 1), (remaining t2 =? 1); try discriminate. now apply S5.
    + intros x J. unfold fup. destruct (x =? l); auto.
Qed.
Lemma lock_one_within w i : In (lock_ind i) w -> within w (lock_one hash i).
Proof. apply rehash_within. apply lock_ind_range. Qed.
Lemma lock_two_within w i j : In (lock_ind i) w -> In (lock_ind j) w -> within w (lock_two hash i j).
Proof.
  intros I J. pose proof (lock_ind_range i). pose proof (lock_ind_range j). unfold lock_two. apply within_bind; [|intros _; apply within_ext with (rehash_lock hash true (Z.max (lock_ind i) (lock_ind j))); [reflexivity|]]; apply rehash_within.
  - destruct (Z.min_spec (lock_ind i) (lock_ind j)) as [[_ ->]|[_ ->]]; assumption.
  - destruct (Z.min_spec (lock_ind i) (lock_ind j)) as [[_ ->]|[_ ->]]; assumption.
  - destruct (Z.max_spec (lock_ind i) (lock_ind j)) as [[_ ->]|[_ ->]]; assumption.
  - destruct (Z.max_spec (lock_ind i) (lock_ind j)) as [[_ ->]|[_ ->]]; assumption.
Qed.
Lemma lock_three_within w i j k : In (lock_ind i) w -> In (lock_ind j) w -> In (lock_ind k) w -> within w (lock_three hash i j k).
Proof.
  intros I J L. pose proof (sort3_spec (lock_ind i) (lock_ind j) (lock_ind k)) as S3.
  apply within_ext with (fun t => let '(a, b, c) := sort3 (lock_ind i) (lock_ind j) (lock_ind k) in rbind (rehash_lock hash true a t) (fun t1 _ => rbind (rehash_lock hash true b t1) (fun t2 _ => rehash_lock hash true c t2))); [reflexivity|].
  destruct (sort3 _ _ _) as [[a b] c]. destruct S3 as [_ M].
  assert (IN : forall x, x = a \/ x = b \/ x = c -> in_range x /\ In x w).
  { intros x X. apply M in X. destruct X as [->|[->| ->]]; (split; [apply lock_ind_range|assumption]). }
  assert (R : forall x, x = a \/ x = b \/ x = c -> within w (rehash_lock hash true x)) by (intros x X; apply rehash_within; now apply IN).
  apply within_bind; [apply R; auto|]. intros _. apply within_bind; [apply R; auto|]. intros _. apply R. auto.
Qed.

(** *** Reading and writing slots *)
Lemma try_read_ext (b1 b2 : Z -> option entry) p k : (forall s, b1 s = b2 s) -> forall n s, try_read keq simple b1 p k s n = try_read keq simple b2 p k s n.
Proof. intros E. induction n as [|n IH]; intros s; cbn; [reflexivity|]. rewrite <- E. destruct (b1 s); [|apply IH]. now rewrite IH. Qed.
Lemma try_insert_ext (b1 b2 : Z -> option entry) p k : (forall s, b1 s = b2 s) -> forall n s x, try_insert keq simple b1 p k s n x = try_insert keq simple b2 p k s n x.
Proof. intros E. induction n as [|n IH]; intros s x; cbn; [reflexivity|]. rewrite <- E. destruct (b1 s); [|apply IH]. now rewrite IH. Qed.
Lemma scan_ext h (b1 b2 : Z -> option entry) x : (forall s, b1 s = b2 s) -> forall n i q last, scan h b1 x i n q last = scan h b2 x i n q last.
Proof. intros E. induction n as [|n IH]; intros i q last; cbn; [reflexivity|]. rewrite <- E. destruct (b1 _); [|reflexivity]. now rewrite !IH. Qed.
Lemma find_reads w k p i1 i2 (t1 t2 : table) : In (lock_ind i1) w -> In (lock_ind i2) w -> same_under w t1 t2 -> cuckoo_find keq simple t1 k p i1 i2 = cuckoo_find keq simple t2 k p i1 i2.
Proof.
  intros I1 I2 S. unfold cuckoo_find. rewrite (try_read_ext (cell t1 i1) (cell t2 i1)) by (intros; now apply (su_cell _ _ _ S)).
  rewrite (try_read_ext (cell t1 i2) (cell t2 i2)) by (intros; now apply (su_cell _ _ _ S)). reflexivity.
Qed.
Lemma find_where k p i1 i2 (t : table) : match cuckoo_find keq simple t k p i1 i2 with Some (i, _) => i = i1 \/ i = i2 | None => True end.
Proof. unfold cuckoo_find. destruct (negb _); [auto|]. destruct (negb _); auto. Qed.
Lemma both_reads w k i1 i2 (t1 t2 : table) : In (lock_ind i1) w -> In (lock_ind i2) w -> same_under w t1 t2 -> try_both hash keq simple k i1 i2 t1 = try_both hash keq simple k i1 i2 t2.
Proof.
  intros I1 I2 S. unfold try_both. rewrite (try_insert_ext (cell t1 i1) (cell t2 i1)) by (intros; now apply (su_cell _ _ _ S)).
  rewrite (try_insert_ext (cell t1 i2) (cell t2 i2)) by (intros; now apply (su_cell _ _ _ S)). reflexivity.
Qed.
Definition status_in (i1 i2 : Z) (st : status) : Prop := match st with SOk i _ | SDuplicated i _ => i = i1 \/ i = i2 | SFull => True end.
Lemma both_where k i1 i2 (t : table) : match try_both hash keq simple k i1 i2 t with Some st => status_in i1 i2 st | None => True end.
Proof.
  unfold try_both. destruct (try_insert _ _ _ _ _ _ _ _) as [n1 s1]. destruct (negb n1); [cbn; auto|]. destruct (try_insert _ _ _ _ _ _ _ _) as [n2 s2].
  destruct (negb n2); [cbn; auto|]. destruct (negb (s1 =? -1)); [cbn; auto|]. destruct (negb _); cbn; auto.
Qed.
Lemma write_within {A} w i s x (a : A) : In (lock_ind i) w -> within w (fun t : table => Done (with_cell t (set_cell (cell t) i s x)) a).
Proof.
  intros I. split.
  - intros t t' b [= <- _]. split; cbn; auto. intros j y N. unfold set_cell. destruct (Z.eqb_spec j i); [subst j; contradiction|reflexivity].
  - intros t1 t2 t1' t2' a1 a2 S [= <- <-] [= <- <-]. destruct S. split; [reflexivity|]. split; cbn; auto. intros j y J. unfold set_cell. destruct (_ && _); auto.
Qed.
Lemma bump_within {A} w i d (a : A) : In (lock_ind i) w -> within w (fun t : table => Done (with_counter t (fup (counter t) (lock_ind i) (counter t (lock_ind i) + d))) a).
Proof.
  intros I. split.
  - intros t t' b [= <- _]. split; cbn; auto. intros l N. unfold fup. destruct (Z.eqb_spec l (lock_ind i)); [subst l; contradiction|reflexivity].
  - intros t1 t2 t1' t2' a1 a2 S [= <- <-] [= <- <-]. destruct S as [S1 S2 S3 S4 S5 S6 S7]. split; [reflexivity|]. split; cbn; auto. intros l L. unfold fup. destruct (_ =? _); auto. now rewrite S6.
Qed.
Lemma cell_reads w i s (t1 t2 : table) : In (lock_ind i) w -> same_under w t1 t2 -> cell t1 i s = cell t2 i s.
Proof. intros I S. now apply (su_cell _ _ _ S). Qed.
Lemma add_within w i s p k v : In (lock_ind i) w -> within w (add_to_bucket (K:=K) (V:=V) i s p k v).
Proof.
  intros I. pose (F := fun (x : option entry) (t : table) => match x with Some _ => Fails Precondition
    | None => rbind (Done (with_cell t (set_cell (cell t) i s (Some (mkE p k v)))) tt) (fun t1 _ => Done (with_counter t1 (fup (counter t1) (lock_ind i) (counter t1 (lock_ind i) + 1))) tt) end).
  apply within_ext with (fun t => F (cell t i s) t).
  - intros t. unfold add_to_bucket, setKV. destruct (cell t i s); reflexivity.
  - apply (within_read w (fun t => cell t i s) (fun _ => True) F); [intros; now apply (cell_reads w)|trivial|]. intros [e|] _; [apply within_fails|]. apply (within_bind w (fun t => Done (with_cell t (set_cell (cell t) i s (Some (mkE p k v)))) tt)); [now apply write_within|]. intros _. now apply bump_within.
Qed.
Lemma del_within w i s : In (lock_ind i) w -> within w (del_from_bucket (K:=K) (V:=V) i s).
Proof.
  intros I. pose (F := fun (x : option entry) (t : table) => match x with None => Fails Precondition
    | Some _ => rbind (Done (with_cell t (set_cell (cell t) i s None)) tt) (fun t1 _ => Done (with_counter t1 (fup (counter t1) (lock_ind i) (counter t1 (lock_ind i) + -1))) tt) end).
  apply within_ext with (fun t => F (cell t i s) t).
  - intros t. unfold del_from_bucket. destruct (cell t i s); reflexivity.
  - apply (within_read w (fun t => cell t i s) (fun _ => True) F); [intros; now apply (cell_reads w)|trivial|]. intros [e|] _; [|apply within_fails]. apply (within_bind w (fun t => Done (with_cell t (set_cell (cell t) i s None)) tt)); [now apply write_within|]. intros _. now apply bump_within.
Qed.
Lemma finish_within w k v st i1 i2 : In (lock_ind i1) w -> In (lock_ind i2) w -> status_in i1 i2 st -> within w (finish hash k v st).
Proof.
  intros I1 I2 ST. assert (IN : forall i, i = i1 \/ i = i2 -> In (lock_ind i) w) by (intros i [->| ->]; assumption). destruct st as [i s|i s|]; cbn in ST.
  - apply (within_bind w (add_to_bucket i s (partial_key (hash k)) k v)); [apply add_within; auto|]. intros _. apply within_done.
  - apply (within_read w (fun t => cell t i s) (fun _ => True) (fun x t => match x with None => Fails Uninitialised | Some e => Done (with_cell t (set_cell (cell t) i s (Some (mkE (e_part e) (e_key e) v)))) (Reply (CuckooSpec.Stored false)) end)); [intros; apply (cell_reads w); auto|trivial|].
    intros [e|] _; [|apply within_fails]. apply write_within. auto.
  - apply within_fails.
Qed.
Lemma place_within w k v h b s : In (lock_ind (bucket1 hash h k)) w -> In (lock_ind (bucket2 hash h k)) w -> within w (place hash keq simple k v h b s).
Proof.
  intros I1 I2. destruct (negb ((b =? bucket1 hash h k) || (b =? bucket2 hash h k))) eqn:N.
  - apply within_ext with (fun _ => Fails Precondition); [|apply within_fails]. intros t. unfold place. now rewrite N.
  - assert (B : b = bucket1 hash h k \/ b = bucket2 hash h k) by (apply negb_false_iff, orb_true_iff in N; destruct N as [N|N]; apply Z.eqb_eq in N; auto).
    assert (IB : In (lock_ind b) w) by (destruct B as [->| ->]; assumption).
    pose (F := fun (x : option entry) (t : table) => match x with Some _ => Fails Precondition
      | None => (fun y t => match y with Some (i, s') => finish hash k v (SDuplicated i s') t | None => finish hash k v (SOk b s) t end) (cuckoo_find keq simple t k (partial_key (hash k)) (bucket1 hash h k) (bucket2 hash h k)) t end).
    apply within_ext with (fun t => F (cell t b s) t).
    { intros t. unfold place. rewrite N. reflexivity. }
    apply (within_read w (fun t => cell t b s) (fun _ => True) F); [intros; now apply (cell_reads w)|trivial|]. intros [e|] _; [apply within_fails|].
    apply (within_read w (fun t => cuckoo_find keq simple t k (partial_key (hash k)) (bucket1 hash h k) (bucket2 hash h k)) (fun y => match y with Some (i, _) => i = bucket1 hash h k \/ i = bucket2 hash h k | None => True end)
      (fun y t => match y with Some (i, s') => finish hash k v (SDuplicated i s') t | None => finish hash k v (SOk b s) t end)).
    + intros t1 t2. now apply find_reads.
    + intros t. apply find_where.
    + intros [[i s']|] Y; now apply (finish_within w k v _ (bucket1 hash h k) (bucket2 hash h k)).
Qed.

(** *** The sections *)
Definition restarts (w : list Z) (h : Z) (p : pc) (f : table -> res pc) (W : within w f) : within w (fun t => if hp t =? h then f t else Done t p).
Proof.
  apply (within_read w (fun t => hp t =? h) (fun _ => True) (fun (b : bool) t => if b then f t else Done t p)); [intros t1 t2 S; now rewrite (su_hp _ _ _ S)|trivial|]. intros [] _; [exact W|apply within_done].
Qed.
Lemma section_within (p : pc) h ls : needs p = Some (Some h, ls) -> ok_pc hash p -> within ls (section p).
Proof.
  destruct p as [|o|o h'|k v h' [|x q] last|k v h' b [|s ss] acc|k v h' to [|from before]|k v h'|l s| | |a]; intros N OK; try discriminate N.
  - destruct o; discriminate N.
  - destruct o; try discriminate N; cbn in N; injection N as -> <-; apply restarts; (apply (within_bind _ (lock_two hash (bucket1 hash h k) (bucket2 hash h k))); [apply lock_two_within; apply lock_pair_in; auto|]); intros _.
    + apply (within_read _ (fun t1 => cuckoo_find keq simple t1 k (partial_key (hash k)) (bucket1 hash h k) (bucket2 hash h k)) (fun y => match y with Some (i, _) => i = bucket1 hash h k \/ i = bucket2 hash h k | None => True end)
        (fun y t1 => match y with Some (i, s) => match cell t1 i s with Some e => Done t1 (Reply (CuckooSpec.Found (Some (e_val e)))) | None => Fails Uninitialised end | None => Done t1 (Reply (CuckooSpec.Found None)) end)).
      * intros t1 t2. apply find_reads; apply lock_pair_in; auto.
      * intros t. apply find_where.
      * intros [[i s]|] Y; [|apply within_done]. apply (within_read _ (fun t1 => cell t1 i s) (fun _ => True) (fun y t1 => match y with Some e => Done t1 (Reply (CuckooSpec.Found (Some (e_val e)))) | None => Fails Uninitialised end)).
        -- intros t1 t2. apply cell_reads. apply lock_pair_in. destruct Y as [->| ->]; auto.
        -- trivial.
        -- intros [e|] _; [apply within_done|apply within_fails].
    + apply (within_read _ (fun t1 => try_both hash keq simple k (bucket1 hash h k) (bucket2 hash h k) t1) (fun y => match y with Some st => status_in (bucket1 hash h k) (bucket2 hash h k) st | None => True end)
        (fun y t1 => match y with Some st => finish hash k v st t1 | None => Done t1 (search_start hash k v h) end)).
      * intros t1 t2. apply both_reads; apply lock_pair_in; auto.
      * intros t. apply both_where.
      * intros [st|] Y; [|apply within_done]. apply (finish_within _ k v st (bucket1 hash h k) (bucket2 hash h k)); [apply lock_pair_in; auto..|exact Y].
    + apply (within_read _ (fun t1 => cuckoo_find keq simple t1 k (partial_key (hash k)) (bucket1 hash h k) (bucket2 hash h k)) (fun y => match y with Some (i, _) => i = bucket1 hash h k \/ i = bucket2 hash h k | None => True end)
        (fun y t1 => match y with Some (i, s) => rbind (del_from_bucket i s t1) (fun t2 _ => Done t2 (Reply (CuckooSpec.Removed true))) | None => Done t1 (Reply (CuckooSpec.Removed false)) end)).
      * intros t1 t2. apply find_reads; apply lock_pair_in; auto.
      * intros t. apply find_where.
      * intros [[i s]|] Y; [|apply within_done]. apply within_bind; [|intros _; apply within_done]. apply del_within. apply lock_pair_in. destruct Y as [->| ->]; auto.
  - cbn in N. injection N as -> <-. apply restarts. apply (within_bind _ (lock_one hash (b_bucket x))); [apply lock_one_within; now left|]. intros _.
    apply (within_read _ (fun t1 => scan h (cell t1 (b_bucket x)) x 0 slots q last) (fun _ => True) (fun y t1 => match y with Found y => follow_start hash k v h y t1 | Queued q2 last2 => Done t1 (Search k v h q2 last2) | Overfull => Fails OutOfBounds end)).
    + intros t1 t2 S. apply scan_ext. intros s. refine (cell_reads _ _ _ _ _ _ S). now left.
    + trivial.
    + intros [y|q2 last2|] _; [|apply within_done|apply within_fails]. unfold follow_start. destruct (decode _ _ _) as [code ss]. destruct (code =? 0); [apply within_done|]. destruct (code =? 1); [apply within_done|apply within_fails].
  - cbn in N. injection N as -> <-. apply restarts. apply (within_bind _ (lock_one hash b)); [apply lock_one_within; now left|]. intros _.
    apply (within_read _ (fun t1 => cell t1 b s) (fun _ => True) (fun y t1 => match y with
          | None => Done t1 (Move k v h (mkR b s 0) acc)
          | Some e =>
              let hv := hash (e_key e) in
              match ss with
              | [] => Done t1 (Move k v h (mkR b s hv) acc)
              | _ =>
                  if (b =? index_hash h hv) || (b =? alt_index h (partial_key hv) (index_hash h hv))
                  then Done t1 (Follow k v h (alt_index h (partial_key hv) b) ss (mkR b s hv :: acc))
                  else Fails Precondition
              end
          end)).
    + intros t1 t2. apply cell_reads. now left.
    + trivial.
    + intros [e|] _; [|apply within_done]. cbv zeta. destruct ss; [apply within_done|]. destruct (_ || _); [apply within_done|apply within_fails].
  - cbn in N. injection N as -> <-. destruct OK as (_ & _ & B). cbn in B. apply restarts. apply (within_bind _ (lock_two hash (bucket1 hash h k) (bucket2 hash h k))); [apply lock_two_within; apply lock_pair_in; auto|]. intros _.
    apply (within_read _ (fun t1 => cell t1 (r_bucket to) (r_slot to)) (fun _ => True) (fun y t1 => match y with None => place hash keq simple k v h (r_bucket to) (r_slot to) t1 | Some _ => Done t1 (search_start hash k v h) end)).
    + intros t1 t2. apply cell_reads. apply lock_pair_in. destruct B as [->| ->]; auto.
    + trivial.
    + intros [e|] _; [apply within_done|]. apply place_within; apply lock_pair_in; auto.
  - assert (X : h' = h /\ In (lock_ind (r_bucket to)) ls /\ In (lock_ind (r_bucket from)) ls /\ within ls (match before with [] => lock_three hash (bucket1 hash h k) (bucket2 hash h k) (r_bucket to) | _ => lock_two hash (r_bucket from) (r_bucket to) end) /\
      (before = [] -> In (lock_ind (bucket1 hash h k)) ls /\ In (lock_ind (bucket2 hash h k)) ls)).
    { destruct OK as (_ & _ & OK). cbn in OK. destruct OK as (_ & _ & _ & OK). destruct before; cbn in N; injection N as -> <-.
      - cbn in OK. split; [reflexivity|]. split; [apply lock_triple_in; auto|]. split; [apply lock_triple_in; destruct OK as [->| ->]; auto|]. split; [apply lock_three_within; apply lock_triple_in; auto|]. intros _. split; apply lock_triple_in; auto.
      - split; [reflexivity|]. split; [apply lock_pair_in; auto|]. split; [apply lock_pair_in; auto|]. split; [apply lock_two_within; apply lock_pair_in; auto|]. discriminate. }
    destruct X as (-> & IT & IF & WL & W12). apply restarts.
    apply (within_ext _ _ (fun t => rbind ((match before with [] => lock_three hash (bucket1 hash h k) (bucket2 hash h k) (r_bucket to) | _ => lock_two hash (r_bucket from) (r_bucket to) end) t)
       (fun t1 _ => (fun y t1 => match y with
          | (None, Some e) =>
              if hash (e_key e) =? r_hash from then
                rbind (rbind (Done (with_cell t1 (set_cell (cell t1) (r_bucket to) (r_slot to) (Some e))) tt) (fun t2 _ => Done (with_cell t2 (set_cell (cell t2) (r_bucket from) (r_slot from) None)) tt)) (fun t2 _ =>
                match before with
                | [] => place hash keq simple k v h (r_bucket from) (r_slot from) t2
                | _ => Done t2 (Move k v h from before)
                end)
              else Done t1 (search_start hash k v h)
          | _ => Done t1 (search_start hash k v h)
          end) (cell t1 (r_bucket to) (r_slot to), cell t1 (r_bucket from) (r_slot from)) t1))).
    { intros t. destruct before; cbn [rbind]; (match goal with |- rbind ?a _ = rbind ?a _ => destruct a as [t1 u| | |] end); try reflexivity; cbn [rbind];
        destruct (cell t1 (r_bucket to) (r_slot to)), (cell t1 (r_bucket from) (r_slot from)); try reflexivity. }
    apply within_bind; [exact WL|]. intros _.
    apply (within_read _ (fun t1 => (cell t1 (r_bucket to) (r_slot to), cell t1 (r_bucket from) (r_slot from))) (fun _ => True)
      (fun y t1 => match y with
          | (None, Some e) =>
              if hash (e_key e) =? r_hash from then
                rbind (rbind (Done (with_cell t1 (set_cell (cell t1) (r_bucket to) (r_slot to) (Some e))) tt) (fun t2 _ => Done (with_cell t2 (set_cell (cell t2) (r_bucket from) (r_slot from) None)) tt)) (fun t2 _ =>
                match before with
                | [] => place hash keq simple k v h (r_bucket from) (r_slot from) t2
                | _ => Done t2 (Move k v h from before)
                end)
              else Done t1 (search_start hash k v h)
          | _ => Done t1 (search_start hash k v h)
          end)).
    + intros t1 t2 S. now rewrite (cell_reads _ _ _ _ _ IT S), (cell_reads _ _ _ _ _ IF S).
    + trivial.
    + intros [[e1|] [e2|]] _; try apply within_done. destruct (_ =? _); [|apply within_done].
      apply within_bind; [apply within_bind; [now apply write_within|intros _; now apply write_within]|]. intros _. destruct before; [|apply within_done]. destruct (W12 eq_refl) as [I1 I2]. now apply place_within.
Qed.
End Proofs.
