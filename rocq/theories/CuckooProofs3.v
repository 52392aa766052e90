(** Looking into buckets, and what one displacement preserves. *)

From Coq Require Import ZArith List Lia Bool.
From Verif Require Import Base Bits CuckooModel CuckooProofs1 CuckooProofs2.
Import ListNotations.
Open Scope Z_scope.

Section Proofs.
Context {K V : Type} (hash : K -> Z) (keq : K -> K -> bool) (simple : bool).
Context (keq_spec : forall a b, keq a b = true <-> a = b).
Notation entry := (@entry K V). Notation table := (@table K V). Notation cells := (@cells K V).
Notation I1 := (I1 hash). Notation I2 := (I2 hash). Notation view := (view hash).
Notation pk k := (partial_key (hash k)).

(** Every entry is in one of the two buckets of its key, with the partial key
    of its key; a key is in one slot only. *)
Definition shape (h : Z) (c : cells) : Prop := forall i s e, c i s = Some e ->
  0 <= i < 2 ^ h /\ 0 <= s < 4 /\ e_part e = pk (e_key e) /\ (i = I1 h (e_key e) \/ i = I2 h (e_key e)).
Definition uniq (c : cells) : Prop := forall i s e i' s' e', c i s = Some e -> c i' s' = Some e' -> e_key e = e_key e' -> i = i' /\ s = s'.
Definition holds (c : cells) (e : entry) : Prop := exists i s, c i s = Some e.
Definition has (c : cells) (k : K) (v : V) : Prop := exists e, holds c e /\ e_key e = k /\ e_val e = v.

Lemma keq_false a b : keq a b = false <-> a <> b.
Proof. destruct (keq a b) eqn:E; [apply keq_spec in E|]; split; try congruence; intros _ X; apply keq_spec in X; congruence. Qed.
Lemma keq_refl a : keq a a = true.
Proof. now apply keq_spec. Qed.
(** Comparing partial keys first never hides a key. *)
Lemma partial_test (b : Z -> option entry) k s e : (forall x e, b x = Some e -> e_part e = pk (e_key e)) -> b s = Some e ->
  (if negb simple && negb (pk k =? e_part e) then true else negb (keq (e_key e) k)) = negb (keq (e_key e) k).
Proof.
  intros P E. destruct (negb simple && negb (pk k =? e_part e)) eqn:B; [|reflexivity]. symmetry. apply negb_true_iff, keq_false. intros Q.
  rewrite (P _ _ E), Q, Z.eqb_refl in B. rewrite andb_false_r in B. discriminate.
Qed.

Lemma try_read_spec (b : Z -> option entry) k : (forall x e, b x = Some e -> e_part e = pk (e_key e)) -> forall n s, 0 <= s ->
  (try_read keq simple b (pk k) k s n = -1 /\ forall x e, s <= x < s + Z.of_nat n -> b x = Some e -> e_key e <> k) \/
  (exists r e, try_read keq simple b (pk k) k s n = r /\ s <= r < s + Z.of_nat n /\ b r = Some e /\ e_key e = k).
Proof.
  intros P. induction n as [|n IH]; intros s S; cbn [try_read]; [left; split; [reflexivity|intros; lia]|].
  destruct (IH (s + 1) ltac:(lia)) as [[R N]|(r & e' & R & L & B & Q)].
  - rewrite R. destruct (b s) as [e|] eqn:E.
    + pose proof (partial_test b k s e P E) as T. destruct (negb simple && negb (pk k =? e_part e)).
      * left. split; [reflexivity|]. intros x e0 X B. destruct (Z.eqb_spec x s); [|apply (N x); [lia|assumption]]. subst x.
        assert (e0 = e) by congruence. subst. apply keq_false. symmetry in T. now apply negb_true_iff in T.
      * destruct (keq (e_key e) k) eqn:KE.
        -- right. exists s, e. repeat split; try lia; try assumption. now apply keq_spec.
        -- left. split; [reflexivity|]. intros x e0 X B. destruct (Z.eqb_spec x s); [|apply (N x); [lia|assumption]]. subst x.
           assert (e0 = e) by congruence. subst. now apply keq_false.
    + left. split; [reflexivity|]. intros x e0 X B. destruct (Z.eqb_spec x s); [subst; congruence|]. apply (N x); [lia|assumption].
  - right. rewrite R. destruct (b s) as [e|] eqn:E.
    + destruct (negb simple && negb (pk k =? e_part e)); [exists r, e'; repeat split; try assumption; lia|].
      destruct (keq (e_key e) k) eqn:KE; [exists s, e; repeat split; try lia; try assumption; now apply keq_spec|exists r, e'; repeat split; try assumption; lia].
    + exists r, e'. repeat split; try assumption; lia.
Qed.
Lemma try_insert_spec (b : Z -> option entry) k : (forall x e, b x = Some e -> e_part e = pk (e_key e)) -> forall n s slot,
  (exists r e, try_insert keq simple b (pk k) k s n slot = (false, r) /\ s <= r < s + Z.of_nat n /\ b r = Some e /\ e_key e = k) \/
  (exists r, try_insert keq simple b (pk k) k s n slot = (true, r) /\ (forall x e, s <= x < s + Z.of_nat n -> b x = Some e -> e_key e <> k) /\
    ((r = slot /\ forall x, s <= x < s + Z.of_nat n -> b x <> None) \/ (s <= r < s + Z.of_nat n /\ b r = None))).
Proof.
  intros P. induction n as [|n IH]; intros s slot; cbn [try_insert].
  { right. exists slot. repeat split; try (intros; lia). left. split; [reflexivity|intros; lia]. }
  destruct (b s) as [e|] eqn:E.
  - pose proof (partial_test b k s e P E) as T.
    destruct (negb simple && negb (pk k =? e_part e)) eqn:PT; [|destruct (keq (e_key e) k) eqn:KE].
    2: { left. exists s, e. repeat split; try lia; try assumption. now apply keq_spec. }
    all: assert (NK : e_key e <> k) by (apply keq_false; first [symmetry in T; now apply negb_true_iff in T|assumption]).
    all: destruct (IH (s + 1) slot) as [(r & e' & R & L & B & Q)|(r & R & N & F)];
      [left; exists r, e'; repeat split; try assumption; lia|].
    all: right; exists r; split; [exact R|]; split;
      [intros x e0 X B; destruct (Z.eqb_spec x s); [subst x; congruence|apply (N x); [lia|assumption]]|].
    all: destruct F as [[F1 F2]|[F1 F2]]; [left; split; [assumption|intros x X; destruct (Z.eqb_spec x s); [subst; congruence|apply F2; lia]]|right; split; [lia|assumption]].
  - destruct (IH (s + 1) s) as [(r & e' & R & L & B & Q)|(r & R & N & F)]; [left; exists r, e'; repeat split; try assumption; lia|].
    right. exists r. split; [exact R|]. split; [intros x e0 X B; destruct (Z.eqb_spec x s); [subst; congruence|apply (N x); [lia|assumption]]|].
    right. destruct F as [[F1 _]|[F1 F2]]; [subst r; split; [lia|assumption]|split; [lia|assumption]].
Qed.

Lemma shape_part h c i : shape h c -> forall x e, c i x = Some e -> e_part e = pk (e_key e).
Proof. intros S x e E. apply (S i x e E). Qed.

(** Looking a key up under the locks of its two buckets. *)
Lemma cuckoo_find_spec t k : 0 <= hp t -> shape (hp t) (view t) ->
  migrated t (lock_ind (I1 (hp t) k)) = true -> migrated t (lock_ind (I2 (hp t) k)) = true ->
  match cuckoo_find keq simple t k (pk k) (I1 (hp t) k) (I2 (hp t) k) with
  | Some (i, s) => exists e, (i = I1 (hp t) k \/ i = I2 (hp t) k) /\ 0 <= s < 4 /\ cell t i s = Some e /\ view t i s = Some e /\ e_key e = k
  | None => forall i s e, view t i s = Some e -> e_key e <> k
  end.
Proof.
  intros H S M1 M2. unfold cuckoo_find. set (i1 := I1 (hp t) k) in *. set (i2 := I2 (hp t) k) in *.
  assert (R1 : 0 <= i1 < 2 ^ hp t) by now apply I1_range. assert (R2 : 0 <= i2 < 2 ^ hp t) by now apply I2_range.
  assert (VC1 : forall s, view t i1 s = cell t i1 s) by (intros; now apply view_cell).
  assert (VC2 : forall s, view t i2 s = cell t i2 s) by (intros; now apply view_cell).
  assert (P1 : forall x e, cell t i1 x = Some e -> e_part e = pk (e_key e)) by (intros x e E; rewrite <- VC1 in E; exact (shape_part _ _ _ S _ _ E)).
  assert (P2 : forall x e, cell t i2 x = Some e -> e_part e = pk (e_key e)) by (intros x e E; rewrite <- VC2 in E; exact (shape_part _ _ _ S _ _ E)).
  destruct (try_read_spec (cell t i1) k P1 slots 0 ltac:(lia)) as [[E N]|(r & e & E & L & B & Q)]; rewrite E.
  - change (negb (-1 =? -1)) with false. cbv iota.
    destruct (try_read_spec (cell t i2) k P2 slots 0 ltac:(lia)) as [[E' N']|(r & e & E' & L & B & Q)]; rewrite E'.
    + change (negb (-1 =? -1)) with false. cbv iota. intros i s e W QK. destruct (S _ _ _ W) as (RI & RS & _ & [->| ->]); rewrite QK in W.
      * fold i1 in W. rewrite VC1 in W. exact (N s e ltac:(unfold slots; lia) W QK).
      * fold i2 in W. rewrite VC2 in W. exact (N' s e ltac:(unfold slots; lia) W QK).
    + replace (negb (r =? -1)) with true by (unfold slots in L; lia). exists e. rewrite VC2. unfold slots in L. repeat split; auto; lia.
  - replace (negb (r =? -1)) with true by (unfold slots in L; lia). exists e. rewrite VC1. unfold slots in L. repeat split; auto; lia.
Qed.

(** *** Changing one slot *)
Lemma set_same c i s x : @set_cell K V c i s x i s = x.
Proof. unfold set_cell. now rewrite !Z.eqb_refl. Qed.
Lemma set_other c i s x i' s' : i' <> i \/ s' <> s -> @set_cell K V c i s x i' s' = c i' s'.
Proof. intros N. unfold set_cell. destruct (Z.eqb_spec i' i), (Z.eqb_spec s' s); cbn; try reflexivity. lia. Qed.
Lemma set_cases c i s x i' s' : (i' = i /\ s' = s /\ @set_cell K V c i s x i' s' = x) \/ ((i' <> i \/ s' <> s) /\ @set_cell K V c i s x i' s' = c i' s').
Proof.
  destruct (Z.eq_dec i' i), (Z.eq_dec s' s); try (right; split; [lia|apply set_other; lia]).
  left. subst. repeat split. apply set_same.
Qed.
(** Pointwise equal tables. *)
Lemma shape_ext h c c' : (forall i s, c' i s = c i s) -> shape h c -> shape h c'.
Proof. intros E S i s e H. rewrite E in H. exact (S _ _ _ H). Qed.
Lemma uniq_ext c c' : (forall i s, c' i s = c i s) -> uniq c -> uniq c'.
Proof. intros E U i s e i' s' e' H H'. rewrite E in H, H'. exact (U _ _ _ _ _ _ H H'). Qed.
Lemma holds_ext c c' e : (forall i s, c' i s = c i s) -> holds c' e <-> holds c e.
Proof. intros E. split; intros (i & s & H); exists i, s; [rewrite <- E|rewrite E]; assumption. Qed.
Lemma has_ext c c' k v : (forall i s, c' i s = c i s) -> has c' k v <-> has c k v.
Proof. intros E. split; intros (e & H & X); exists e; (split; [|exact X]); [apply (holds_ext c c' e E)|apply (holds_ext c c' e E)]; assumption. Qed.

(** A displacement. *)
Definition displace (c : cells) (fb fs tb ts : Z) (e : entry) : cells := set_cell (set_cell c tb ts (Some e)) fb fs None.
Lemma displace_ok h c fb fs tb ts e : 0 <= h -> shape h c -> uniq c -> c fb fs = Some e -> c tb ts = None -> 0 <= ts < 4 ->
  tb = alt_index h (e_part e) fb ->
  shape h (displace c fb fs tb ts e) /\ uniq (displace c fb fs tb ts e) /\ (forall x, holds (displace c fb fs tb ts e) x <-> holds c x) /\
  displace c fb fs tb ts e fb fs = None.
Proof.
  intros H S U F T R A. unfold displace. assert (NE : fb <> tb \/ fs <> ts) by (destruct (Z.eq_dec fb tb), (Z.eq_dec fs ts); subst; try congruence; lia).
  destruct (S _ _ _ F) as (RI & RS & P & Q).
  assert (Q' : tb = I1 h (e_key e) \/ tb = I2 h (e_key e)).
  { rewrite A, P. destruct Q as [->| ->]; [right; reflexivity|left]. unfold CuckooProofs1.I2. apply alt_alt; [assumption|]. now apply I1_range. }
  assert (D : forall i s x, set_cell (set_cell c tb ts (Some e)) fb fs None i s = Some x ->
     (i = tb /\ s = ts /\ x = e) \/ (c i s = Some x /\ (i <> fb \/ s <> fs) /\ (i <> tb \/ s <> ts))).
  { intros i s x. destruct (set_cases (set_cell c tb ts (Some e)) fb fs None i s) as [(-> & -> & ->)|(N & ->)]; [discriminate|].
    destruct (set_cases c tb ts (Some e) i s) as [(-> & -> & ->)|(N' & ->)]; [intros X; left; repeat split; congruence|intros X; right; auto]. }
  repeat split.
  all: try (match goal with H0 : set_cell _ _ _ _ _ _ = Some _ |- _ => idtac end).
  - apply D in H0. destruct H0 as [(-> & -> & ->)|(C & _)]; [rewrite A; now apply alt_range|now destruct (S _ _ _ C)].
  - apply D in H0. destruct H0 as [(-> & -> & ->)|(C & _)]; [rewrite A; now apply alt_range|now destruct (S _ _ _ C)].
  - apply D in H0. destruct H0 as [(-> & -> & ->)|(C & _)]; [lia|destruct (S _ _ _ C) as (_ & ? & _); lia].
  - apply D in H0. destruct H0 as [(-> & -> & ->)|(C & _)]; [lia|destruct (S _ _ _ C) as (_ & ? & _); lia].
  - apply D in H0. destruct H0 as [(-> & -> & ->)|(C & _)]; [assumption|now destruct (S _ _ _ C) as (_ & _ & ? & _)].
  - apply D in H0. destruct H0 as [(-> & -> & ->)|(C & _)]; [assumption|now destruct (S _ _ _ C) as (_ & _ & _ & ?)].
  - apply D in H0, H1. destruct H0 as [(-> & -> & ->)|(C & N & _)], H1 as [(-> & -> & ->)|(C' & N' & _)]; try reflexivity.
    + destruct (U _ _ _ _ _ _ F C' H2). lia. + destruct (U _ _ _ _ _ _ C F H2). lia. + apply (U _ _ _ _ _ _ C C' H2).
  - apply D in H0, H1. destruct H0 as [(-> & -> & ->)|(C & N & _)], H1 as [(-> & -> & ->)|(C' & N' & _)]; try reflexivity.
    + destruct (U _ _ _ _ _ _ F C' H2). lia. + destruct (U _ _ _ _ _ _ C F H2). lia. + apply (U _ _ _ _ _ _ C C' H2).
  - intros (i & s & X). apply D in X. destruct X as [(-> & -> & ->)|(C & _)]; [exists fb, fs|exists i, s]; assumption.
  - intros (i & s & X). destruct (Z.eq_dec i fb), (Z.eq_dec s fs).
    + subst i s. exists tb, ts. rewrite set_other by lia. rewrite set_same. congruence.
    + exists i, s. rewrite set_other by lia. rewrite set_other; [assumption|]. destruct (Z.eq_dec i tb), (Z.eq_dec s ts); subst; try congruence; lia.
    + exists i, s. rewrite set_other by lia. rewrite set_other; [assumption|]. destruct (Z.eq_dec i tb), (Z.eq_dec s ts); subst; try congruence; lia.
    + exists i, s. rewrite set_other by lia. rewrite set_other; [assumption|]. destruct (Z.eq_dec i tb), (Z.eq_dec s ts); subst; try congruence; lia.
  - apply set_same.
Qed.
(** A new entry. *)
Lemma add_ok h c i s k v : 0 <= h -> shape h c -> uniq c -> c i s = None -> 0 <= s < 4 -> i = I1 h k \/ i = I2 h k ->
  (forall i s e, c i s = Some e -> e_key e <> k) ->
  let c' := set_cell c i s (Some (mkE (pk k) k v)) in
  shape h c' /\ uniq c' /\ forall x, holds c' x <-> (x = mkE (pk k) k v \/ holds c x).
Proof.
  intros H S U N R Q A c'. subst c'.
  assert (D : forall i' s' x, set_cell c i s (Some (mkE (pk k) k v)) i' s' = Some x -> (i' = i /\ s' = s /\ x = mkE (pk k) k v) \/ (c i' s' = Some x /\ (i' <> i \/ s' <> s))).
  { intros i' s' x. destruct (set_cases c i s (Some (mkE (pk k) k v)) i' s') as [(-> & -> & ->)|(N' & ->)]; [intros X; left; repeat split; congruence|auto]. }
  split; [|split].
  - intros i' s' x X. apply D in X. destruct X as [(-> & -> & ->)|(C & _)]; [|exact (S _ _ _ C)]. cbn. repeat split; try lia; auto.
    + destruct Q as [->| ->]; [now apply I1_range|now apply I2_range]. + destruct Q as [->| ->]; [now apply I1_range|now apply I2_range].
  - intros i1 s1 e1 i2 s2 e2 X Y E. apply D in X, Y. destruct X as [(-> & -> & ->)|(C & _)], Y as [(-> & -> & ->)|(C' & _)]; auto.
    + exfalso. exact (A _ _ _ C' (eq_sym E)). + exfalso. exact (A _ _ _ C E). + exact (U _ _ _ _ _ _ C C' E).
  - intros x. split.
    + intros (i' & s' & X). apply D in X. destruct X as [(_ & _ & ->)|(C & _)]; [auto|right; exists i', s'; exact C].
    + intros [->|(i' & s' & C)]; [exists i, s; apply set_same|]. exists i', s'. rewrite set_other; [exact C|]. destruct (Z.eq_dec i' i), (Z.eq_dec s' s); subst; try congruence; lia.
Qed.
(** An entry erased. *)
Lemma del_ok h c i s e : shape h c -> uniq c -> c i s = Some e ->
  let c' := set_cell c i s None in
  shape h c' /\ uniq c' /\ forall x, holds c' x <-> (holds c x /\ e_key x <> e_key e).
Proof.
  intros S U E c'. subst c'.
  assert (D : forall i' s' x, set_cell c i s None i' s' = Some x -> c i' s' = Some x /\ (i' <> i \/ s' <> s)).
  { intros i' s' x. destruct (set_cases c i s None i' s') as [(-> & -> & ->)|(N' & ->)]; [discriminate|auto]. }
  split; [|split].
  - intros i' s' x X. apply D in X. apply (S _ _ _ (proj1 X)).
  - intros i1 s1 e1 i2 s2 e2 X Y Q. apply D in X, Y. exact (U _ _ _ _ _ _ (proj1 X) (proj1 Y) Q).
  - intros x. split.
    + intros (i' & s' & X). apply D in X. destruct X as [C N]. split; [exists i', s'; exact C|]. intros Q. destruct (U _ _ _ _ _ _ C E Q). lia.
    + intros [(i' & s' & C) N]. exists i', s'. rewrite set_other; [exact C|]. destruct (Z.eq_dec i' i), (Z.eq_dec s' s); subst; try lia. assert (x = e) by congruence. subst. contradiction.
Qed.
(** A value replaced. *)
Lemma put_ok h c i s e v : shape h c -> uniq c -> c i s = Some e ->
  let c' := set_cell c i s (Some (mkE (e_part e) (e_key e) v)) in
  shape h c' /\ uniq c' /\ forall x, holds c' x <-> (x = mkE (e_part e) (e_key e) v \/ (holds c x /\ e_key x <> e_key e)).
Proof.
  intros S U E c'. subst c'. set (n := mkE (e_part e) (e_key e) v).
  assert (D : forall i' s' x, set_cell c i s (Some n) i' s' = Some x -> (i' = i /\ s' = s /\ x = n) \/ (c i' s' = Some x /\ (i' <> i \/ s' <> s))).
  { intros i' s' x. destruct (set_cases c i s (Some n) i' s') as [(-> & -> & ->)|(N' & ->)]; [intros X; left; repeat split; congruence|auto]. }
  split; [|split].
  - intros i' s' x X. apply D in X. destruct X as [(-> & -> & ->)|(C & _)]; [|exact (S _ _ _ C)]. exact (S _ _ _ E).
  - intros i1 s1 e1 i2 s2 e2 X Y Q. apply D in X, Y. destruct X as [(-> & -> & ->)|(C & _)], Y as [(-> & -> & ->)|(C' & _)]; auto.
    + exact (U _ _ _ _ _ _ E C' Q). + exact (U _ _ _ _ _ _ C E Q). + exact (U _ _ _ _ _ _ C C' Q).
  - intros x. split.
    + intros (i' & s' & X). apply D in X. destruct X as [(_ & _ & ->)|(C & N)]; [auto|right]. split; [exists i', s'; exact C|]. intros Q. destruct (U _ _ _ _ _ _ C E Q). lia.
    + intros [->|[(i' & s' & C) N]]; [exists i, s; apply set_same|]. exists i', s'. rewrite set_other; [exact C|]. destruct (Z.eq_dec i' i), (Z.eq_dec s' s); subst; try lia. assert (x = e) by congruence. subst. contradiction.
Qed.
End Proofs.
