(** Hashing, the split of a bucket, and the table as if wholly migrated. *)

From Coq Require Import ZArith List Lia Bool.
From Verif Require Import Base Bits CuckooModel.
Import ListNotations.
Open Scope Z_scope.

(** *** Indices *)
Lemma hashmask_ones h : hashmask h = Z.ones h.
Proof. unfold hashmask, hashsize, Z.ones. rewrite Z.shiftl_1_l. lia. Qed.
Lemma index_mod h x : 0 <= h -> index_hash h x = x mod 2 ^ h.
Proof. intros. unfold index_hash. rewrite hashmask_ones. now apply Z.land_ones. Qed.
Lemma lxor_mod a b n : 0 <= n -> Z.lxor a b mod 2 ^ n = Z.lxor (a mod 2 ^ n) (b mod 2 ^ n).
Proof.
  intros N. rewrite <- !Z.land_ones by assumption. apply Z.bits_inj'. intros i I.
  rewrite Z.land_spec, !Z.lxor_spec, !Z.land_spec. destruct (Z.testbit (Z.ones n) i); rewrite ?andb_true_r, ?andb_false_r; reflexivity.
Qed.
Definition tag (p : Z) : Z := uwrap 64 ((p + 1) * 14313749767032793493).
Lemma alt_mod h p i : 0 <= h -> alt_index h p i = Z.lxor i (tag p) mod 2 ^ h.
Proof. intros. unfold alt_index. rewrite hashmask_ones. now apply Z.land_ones. Qed.
Lemma index_range h x : 0 <= h -> 0 <= index_hash h x < 2 ^ h.
Proof. intros. rewrite index_mod by assumption. apply Z.mod_pos_bound. apply Z.pow_pos_nonneg; lia. Qed.
Lemma alt_range h p i : 0 <= h -> 0 <= alt_index h p i < 2 ^ h.
Proof. intros. rewrite alt_mod by assumption. apply Z.mod_pos_bound. apply Z.pow_pos_nonneg; lia. Qed.
Lemma alt_alt h p i : 0 <= h -> 0 <= i < 2 ^ h -> alt_index h p (alt_index h p i) = i.
Proof.
  intros H I. rewrite !alt_mod by assumption. rewrite (lxor_mod (Z.lxor i (tag p) mod 2 ^ h)) by assumption.
  rewrite Z.mod_mod by (apply Z.pow_nonzero; lia). rewrite (lxor_mod i) by assumption.
  rewrite (Z.mod_small i) by assumption. rewrite Z.lxor_assoc, Z.lxor_nilpotent, Z.lxor_0_r. reflexivity.
Qed.
Lemma pow_split h : 0 <= h -> 2 ^ (h + 1) = 2 * 2 ^ h.
Proof. intros. rewrite Z.pow_add_r by lia. lia. Qed.
Lemma mod_down x h : 0 <= h -> (x mod 2 ^ (h + 1)) mod 2 ^ h = x mod 2 ^ h.
Proof.
  intros H. rewrite pow_split by assumption. assert (0 < 2 ^ h) by (apply Z.pow_pos_nonneg; lia).
  rewrite (Z.mul_comm 2), Z.rem_mul_r by lia. rewrite Z.mul_comm, Z.mod_add by lia. apply Z.mod_mod. lia.
Qed.
Lemma index_down h x : 0 <= h -> index_hash (h + 1) x mod 2 ^ h = index_hash h x.
Proof. intros. rewrite !index_mod by lia. now apply mod_down. Qed.
Lemma alt_down h p x : 0 <= h -> alt_index (h + 1) p (index_hash (h + 1) x) mod 2 ^ h = alt_index h p (index_hash h x).
Proof.
  intros. rewrite !alt_mod by lia. rewrite mod_down by assumption. rewrite !(lxor_mod _ (tag p)) by assumption.
  rewrite index_down by assumption. f_equal. rewrite index_mod by assumption. symmetry. apply Z.mod_mod. apply Z.pow_nonzero; lia.
Qed.
(** An index of the doubled table is an old one or an old one plus the old size. *)
Lemma up_or_stay h x : 0 <= h -> 0 <= x < 2 ^ (h + 1) -> x = x mod 2 ^ h \/ x = x mod 2 ^ h + 2 ^ h.
Proof.
  intros H X. rewrite pow_split in X by assumption. assert (0 < 2 ^ h) by (apply Z.pow_pos_nonneg; lia).
  destruct (Z.ltb_spec x (2 ^ h)); [left; symmetry; apply Z.mod_small; lia|].
  right. replace x with (x - 2 ^ h + 1 * 2 ^ h) at 2 by lia. rewrite Z.mod_add by lia. rewrite Z.mod_small; lia.
Qed.
Lemma lock_mod i : lock_ind i = i mod 65536.
Proof. unfold lock_ind, kMaxNumLocks. change (65536 - 1) with (Z.ones 16). rewrite Z.land_ones by lia. reflexivity. Qed.
Lemma lock_range i : 0 <= lock_ind i < 65536.
Proof. rewrite lock_mod. apply Z.mod_pos_bound. lia. Qed.
Lemma lock_bound h i : 0 <= h -> 0 <= i < 2 ^ h -> lock_ind i < Z.min (2 ^ h) 65536.
Proof. intros H I. pose proof (lock_range i). rewrite lock_mod in *. apply Z.min_glb_lt; [|lia]. eapply Z.le_lt_trans; [apply Z.mod_le|]; lia. Qed.
Lemma lock_big h i : 65536 <= 2 ^ h -> 0 <= h -> lock_ind (i mod 2 ^ h) = lock_ind i.
Proof.
  intros B H. rewrite !lock_mod. assert (16 <= h).
  { destruct (Z.ltb_spec h 16); [|lia]. assert (2 ^ h < 2 ^ 16) by (apply Z.pow_lt_mono_r; lia). change (2 ^ 16) with 65536 in *. lia. }
  change 65536 with (2 ^ 16). rewrite <- !Z.land_ones by lia. rewrite <- Z.land_assoc. f_equal.
  apply Z.bits_inj'. intros j J. rewrite Z.land_spec, !Z.testbit_ones_nonneg by lia.
  destruct (Z.ltb_spec j h), (Z.ltb_spec j 16); cbn; lia.
Qed.
Lemma lock_up h b : 65536 <= 2 ^ h -> 0 <= h -> 0 <= b < 2 ^ h -> lock_ind (b + 2 ^ h) = lock_ind b.
Proof.
  intros B H I. rewrite <- (lock_big h (b + 2 ^ h)) by assumption. f_equal.
  replace (b + 2 ^ h) with (b + 1 * 2 ^ h) by lia. rewrite Z.mod_add by lia. apply Z.mod_small. assumption.
Qed.

Section Proofs.
Context {K V : Type} (hash : K -> Z) (keq : K -> K -> bool) (simple nothrow : bool).
Notation entry := (@entry K V). Notation table := (@table K V). Notation cells := (@cells K V).
Notation move_slots := (@move_slots K V hash). Notation move_bucket := (@move_bucket K V hash).
Notation move_every := (@move_every K V hash). Notation rehash_lock := (@rehash_lock K V hash).

(** The two buckets of a key. *)
Definition I1 (h : Z) (k : K) : Z := index_hash h (hash k).
Definition I2 (h : Z) (k : K) : Z := alt_index h (partial_key (hash k)) (I1 h k).
Lemma I1_range h k : 0 <= h -> 0 <= I1 h k < 2 ^ h.
Proof. apply index_range. Qed.
Lemma I2_range h k : 0 <= h -> 0 <= I2 h k < 2 ^ h.
Proof. apply alt_range. Qed.

(** Whether an entry of bucket [b] moves up when the table is doubled (1765-1766). *)
Definition goes (h b : Z) (e : entry) : bool :=
  ((b =? I1 h (e_key e)) && (I1 (h + 1) (e_key e) =? b + 2 ^ h)) || ((b =? I2 h (e_key e)) && (I2 (h + 1) (e_key e) =? b + 2 ^ h)).
Lemma goes_up h b e : 0 <= h -> goes h b e = true -> b + 2 ^ h = I1 (h + 1) (e_key e) \/ b + 2 ^ h = I2 (h + 1) (e_key e).
Proof. intros H. unfold goes. intros G. apply orb_prop in G. destruct G as [G|G]; apply andb_prop in G; lia. Qed.
Lemma stays_down h b e : 0 <= h -> b = I1 h (e_key e) \/ b = I2 h (e_key e) -> goes h b e = false ->
  (b = I1 h (e_key e) /\ I1 (h + 1) (e_key e) = b) \/ (b = I2 h (e_key e) /\ I2 (h + 1) (e_key e) = b).
Proof.
  intros H P G. unfold goes in G. apply orb_false_elim in G. destruct G as [G1 G2].
  assert (H1 : I1 (h + 1) (e_key e) mod 2 ^ h = I1 h (e_key e)) by now apply index_down.
  assert (H2 : I2 (h + 1) (e_key e) mod 2 ^ h = I2 h (e_key e)) by now apply alt_down.
  assert (R1 : 0 <= I1 (h + 1) (e_key e) < 2 ^ (h + 1)) by (apply I1_range; lia).
  assert (R2 : 0 <= I2 (h + 1) (e_key e) < 2 ^ (h + 1)) by (apply I2_range; lia).
  apply up_or_stay in R1; [|lia]. apply up_or_stay in R2; [|lia]. rewrite H1 in R1. rewrite H2 in R2.
  clear H1 H2. destruct P as [P|P]; [left|right]; rewrite P in *; rewrite Z.eqb_refl in *; cbn [andb] in *.
  - apply Z.eqb_neq in G1. lia.
  - apply Z.eqb_neq in G2. lia.
Qed.

(** *** Splitting one bucket *)
Lemma move_slots_ok h b (src : Z -> option entry) : 0 <= h -> 0 <= b < 2 ^ h ->
  forall n s ns dst, 0 <= ns <= s -> s + Z.of_nat n <= 4 ->
  (forall x e, s <= x < s + Z.of_nat n -> src x = Some e -> b = I1 h (e_key e) \/ b = I2 h (e_key e)) ->
  (forall x, s <= x -> dst b x = None) -> (forall x, ns <= x -> dst (b + 2 ^ h) x = None) ->
  exists d g, move_slots h (h + 1) b src s n ns dst = Some d /\
    (forall i x, i <> b -> i <> b + 2 ^ h -> d i x = dst i x) /\
    (forall x, x < s -> d b x = dst b x) /\ (forall x, x < ns -> d (b + 2 ^ h) x = dst (b + 2 ^ h) x) /\
    (forall x e, s <= x < s + Z.of_nat n -> src x = Some e -> if goes h b e then d (b + 2 ^ h) (g x) = Some e /\ ns <= g x < s + Z.of_nat n else d b x = Some e) /\
    (forall x e, s <= x -> d b x = Some e -> x < s + Z.of_nat n /\ src x = Some e /\ goes h b e = false) /\
    (forall x e, ns <= x -> d (b + 2 ^ h) x = Some e -> exists y, s <= y < s + Z.of_nat n /\ src y = Some e /\ goes h b e = true /\ x = g y).
Proof.
  intros H B. assert (P2 : 0 < 2 ^ h) by (apply Z.pow_pos_nonneg; lia).
  induction n as [|n IH]; intros s ns dst NS L SP D1 D2.
  - exists dst, (fun _ => 0). cbn [CuckooModel.move_slots]. repeat split; auto; intros; try lia; try (rewrite D1 in *; [discriminate|lia]). rewrite D2 in *; [discriminate|lia].
  - cbn [CuckooModel.move_slots]. destruct (src s) as [e|] eqn:E.
    + cbv zeta. fold (I1 h (e_key e)). fold (I1 (h + 1) (e_key e)). fold (I2 h (e_key e)). fold (I2 (h + 1) (e_key e)). unfold hashsize. fold (goes h b e).
      assert (PE : b = I1 h (e_key e) \/ b = I2 h (e_key e)) by (apply (SP s); [lia|assumption]).
      destruct (goes h b e) eqn:G.
      * unfold setKV. rewrite D2 by lia.
        destruct (IH (s + 1) (ns + 1) (set_cell dst (b + 2 ^ h) ns (Some e))) as (d & g & R & O1 & O2 & O3 & C1 & C2 & C3); try lia.
        { intros x e' X. apply SP. lia. }
        { intros x X. unfold set_cell. destruct (Z.eqb_spec b (b + 2 ^ h)); [lia|]. cbn. apply D1. lia. }
        { intros x X. unfold set_cell. destruct (Z.eqb_spec x ns); [lia|]. rewrite andb_false_r. apply D2. lia. }
        exists d, (fun y => if y =? s then ns else g y). split; [exact R|].
        assert (W : d (b + 2 ^ h) ns = Some e).
        { rewrite O3 by lia. unfold set_cell. now rewrite !Z.eqb_refl. }
        repeat split.
        -- intros i x N1 N2. rewrite O1 by assumption. unfold set_cell. destruct (Z.eqb_spec i (b + 2 ^ h)); [lia|reflexivity].
        -- intros x X. rewrite O2 by lia. unfold set_cell. destruct (Z.eqb_spec b (b + 2 ^ h)); [lia|reflexivity].
        -- intros x X. rewrite O3 by lia. unfold set_cell. destruct (Z.eqb_spec x ns); [lia|]. now rewrite andb_false_r.
        -- intros x e' X E'. destruct (Z.eqb_spec x s).
           ++ subst x. assert (e' = e) by congruence. subst e'. rewrite G. split; [exact W|lia].
           ++ specialize (C1 x e' ltac:(lia) E'). destruct (goes h b e'); [|exact C1]. destruct C1; split; [assumption|lia].
        -- intros. destruct (Z.eqb_spec x s); [|destruct (C2 x e0); [lia|assumption|lia]]. subst x.
           rewrite O2 in H1 by lia. unfold set_cell in H1. destruct (Z.eqb_spec b (b + 2 ^ h)); [lia|]. cbn in H1. rewrite D1 in H1 by lia. discriminate.
        -- destruct (Z.eqb_spec x s); [|destruct (C2 x e0) as (_ & ? & _); [lia|assumption|assumption]]. subst x.
           rewrite O2 in H1 by lia. unfold set_cell in H1. destruct (Z.eqb_spec b (b + 2 ^ h)); [lia|]. cbn in H1. rewrite D1 in H1 by lia. discriminate.
        -- destruct (Z.eqb_spec x s); [|destruct (C2 x e0) as (_ & _ & ?); [lia|assumption|assumption]]. subst x.
           rewrite O2 in H1 by lia. unfold set_cell in H1. destruct (Z.eqb_spec b (b + 2 ^ h)); [lia|]. cbn in H1. rewrite D1 in H1 by lia. discriminate.
        -- intros x e' X E'. destruct (Z.eqb_spec x ns).
           ++ subst x. assert (e' = e) by congruence. subst e'. exists s. rewrite Z.eqb_refl. repeat split; try assumption; lia.
           ++ destruct (C3 x e') as (y & Y1 & Y2 & Y3 & Y4); [lia|assumption|]. exists y. destruct (Z.eqb_spec y s); [lia|]. repeat split; try assumption; lia.
      * destruct (stays_down h b e H PE G) as [[Q1 Q2]|[Q1 Q2]].
        all: match goal with |- context [if ?c then _ else None] => replace c with true by (symmetry; apply orb_true_intro; rewrite <- Q1, Q2, !Z.eqb_refl; cbn; auto) end.
        all: unfold setKV; rewrite D1 by lia.
        all: destruct (IH (s + 1) ns (set_cell dst b s (Some e))) as (d & g & R & O1 & O2 & O3 & C1 & C2 & C3); try lia;
          [intros x e' X; apply SP; lia
          |intros x X; unfold set_cell; destruct (Z.eqb_spec x s); [lia|]; rewrite andb_false_r; apply D1; lia
          |intros x X; unfold set_cell; destruct (Z.eqb_spec (b + 2 ^ h) b); [lia|]; cbn; apply D2; lia|].
        all: exists d, g; split; [exact R|].
        all: assert (W : d b s = Some e) by (rewrite O2 by lia; unfold set_cell; now rewrite !Z.eqb_refl).
        all: repeat split.
        all: try (intros i x N1 N2; rewrite O1 by assumption; unfold set_cell; destruct (Z.eqb_spec i b); [lia|reflexivity]).
        all: try (intros x X; rewrite O2 by lia; unfold set_cell; destruct (Z.eqb_spec x s); [lia|]; now rewrite andb_false_r).
        all: try (intros x X; rewrite O3 by lia; unfold set_cell; destruct (Z.eqb_spec (b + 2 ^ h) b); [lia|reflexivity]).
        all: try (intros x e' X E'; destruct (Z.eqb_spec x s);
          [subst x; assert (e' = e) by congruence; subst e'; rewrite G; exact W
          |specialize (C1 x e' ltac:(lia) E'); destruct (goes h b e'); [|exact C1]; destruct C1; split; [assumption|lia]]).
        all: try (destruct (Z.eqb_spec x s); [subst x; assert (e0 = e) by congruence; subst e0; first [assumption|lia]|
           destruct (C2 x e0) as (? & ? & ?); [lia|assumption|first [assumption|lia]]]).
        all: intros x e' X E'; destruct (C3 x e') as (y & Y1 & Y2 & Y3 & Y4); [lia|assumption|]; exists y; repeat split; try assumption; lia.
    + destruct (IH (s + 1) ns dst) as (d & g & R & O1 & O2 & O3 & C1 & C2 & C3); try lia.
      { intros x e X. apply SP. lia. }
      { intros x X. apply D1. lia. }
      { assumption. }
      exists d, g. split; [exact R|]. repeat split; try assumption.
      * intros x X. apply O2. lia.
      * intros x e X E'. destruct (Z.eqb_spec x s); [subst; congruence|]. specialize (C1 x e ltac:(lia) E'). destruct (goes h b e); [|exact C1]. destruct C1; split; [assumption|lia].
      * destruct (Z.eqb_spec x s); [subst x; rewrite O2, D1 in H1 by lia; discriminate|]. destruct (C2 x e) as (? & ? & ?); [lia|assumption|lia].
      * destruct (Z.eqb_spec x s); [subst x; rewrite O2, D1 in H1 by lia; discriminate|]. destruct (C2 x e) as (? & ? & ?); [lia|assumption|assumption].
      * destruct (Z.eqb_spec x s); [subst x; rewrite O2, D1 in H1 by lia; discriminate|]. destruct (C2 x e) as (? & ? & ?); [lia|assumption|assumption].
      * intros x e X E'. destruct (C3 x e) as (y & Y1 & Y2 & Y3 & Y4); [lia|assumption|]. exists y. repeat split; try assumption; lia.
Qed.
(** Only the two rows matter, and only they change. *)
Lemma move_slots_frame h h' b (src : Z -> option entry) : forall n s ns dst dst',
  (forall x, dst b x = dst' b x) -> (forall x, dst (b + hashsize h) x = dst' (b + hashsize h) x) ->
  match move_slots h h' b src s n ns dst, move_slots h h' b src s n ns dst' with
  | Some d, Some d' => (forall x, d b x = d' b x) /\ (forall x, d (b + hashsize h) x = d' (b + hashsize h) x) /\
      (forall i x, i <> b -> i <> b + hashsize h -> d i x = dst i x)
  | None, None => True
  | _, _ => False
  end.
Proof.
  induction n as [|n IH]; intros s ns dst dst' A B; cbn [CuckooModel.move_slots]; [auto|].
  destruct (src s) as [e|]; [|exact (IH _ _ _ _ A B)]. cbv zeta.
  assert (ST : forall i j, i = b \/ i = b + hashsize h -> match setKV dst i j e, setKV dst' i j e with
     | Some d, Some d' => (forall x, d b x = d' b x) /\ (forall x, d (b + hashsize h) x = d' (b + hashsize h) x) /\ (forall i x, i <> b -> i <> b + hashsize h -> d i x = dst i x)
     | None, None => True | _, _ => False end).
  { intros i j I. unfold setKV. replace (dst' i j) with (dst i j) by (destruct I; subst i; auto). destruct (dst i j); [exact Logic.I|].
    unfold set_cell. repeat split.
    - intros x. now rewrite A. - intros x. now rewrite B. - intros i' x N1 N2. destruct (Z.eqb_spec i' i); [lia|reflexivity]. }
  match goal with |- context [if ?c then _ else _] => destruct c end.
  - specialize (ST (b + hashsize h) ns (or_intror eq_refl)). destruct (setKV dst _ ns e), (setKV dst' _ ns e); try contradiction; [|exact Logic.I].
    destruct ST as (S1 & S2 & S3). specialize (IH (s + 1) (ns + 1) c c0 S1 S2). destruct move_slots, move_slots; try contradiction; auto.
    destruct IH as (? & ? & F). repeat split; auto. intros. rewrite F by assumption. now apply S3.
  - match goal with |- context [if ?c then _ else None] => destruct c end; [|exact Logic.I].
    specialize (ST b s (or_introl eq_refl)). destruct (setKV dst b s e), (setKV dst' b s e); try contradiction; [|exact Logic.I].
    destruct ST as (S1 & S2 & S3). specialize (IH (s + 1) ns c c0 S1 S2). destruct move_slots, move_slots; try contradiction; auto.
    destruct IH as (? & ? & F). repeat split; auto. intros. rewrite F by assumption. now apply S3.
Qed.
End Proofs.
