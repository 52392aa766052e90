(** Calls that put no new key into the table move nothing. *)
From Coq Require Import ZArith List Lia Bool.
From Verif Require Import Base Bits CuckooModel CuckooRunModel CuckooProofs1 CuckooProofs2 CuckooProofs3 CuckooProofs4 CuckooProofs5 CuckooProofs6 CuckooProofs7 CuckooProofs8 CuckooProofs9.
From Verif Require ConcMapModel.
From Verif Require Import CuckooSpec CuckooIterModel CuckooIterSpec.
Import ListNotations.
Open Scope Z_scope.

Section Iter.
Context {K V : Type} (hash : K -> Z) (keq : K -> K -> bool) (simple nothrow : bool).
Context (keq_spec : forall a b, keq a b = true <-> a = b).
Notation table := (@table K V).
Notation perform := (perform hash keq simple nothrow). Notation perform_all := (perform_all hash keq simple nothrow).
Notation rep := (rep hash). Notation dict_of := (dict_of keq). Notation view := (view hash).

(** Every slot keeps its key or becomes free *)
Definition stays (t t' : table) : Prop :=
  hp t' = hp t /\ settled t' /\
  forall i s e', 0 <= i < 2 ^ hp t -> cell t' i s = Some e' -> exists e, cell t i s = Some e /\ e_key e = e_key e'.
Lemma stays_refl t : settled t -> stays t t.
Proof. intros S. split; [reflexivity|]. split; [exact S|]. eauto. Qed.
Lemma stays_trans a b c : stays a b -> stays b c -> stays a c.
Proof.
  intros (A1 & A2 & A3) (B1 & B2 & B3). split; [congruence|]. split; [exact B2|].
  intros i s e R E. destruct (B3 i s e ltac:(rewrite A1; exact R) E) as (e1 & E1 & Q1). destruct (A3 i s e1 R E1) as (e2 & E2 & Q2).
  exists e2. split; [exact E2|congruence].
Qed.

Notation wf0 := (wf0 hash).
Lemma lock_two_settled i j (t : table) : wf0 t -> settled t -> 0 <= i < 2 ^ hp t -> 0 <= j < 2 ^ hp t -> lock_two hash i j t = Done t tt.
Proof.
  intros W S I J. pose proof (S _ (in_locks hash t i W I)) as M1. pose proof (S _ (in_locks hash t j W J)) as M2.
  unfold lock_two. cbv zeta. unfold rehash_lock.
  replace (migrated t (Z.min (lock_ind i) (lock_ind j))) with true by (destruct (Z.min_spec (lock_ind i) (lock_ind j)) as [[_ ->]|[_ ->]]; symmetry; assumption).
  cbn [rbind].
  replace (migrated t (Z.max (lock_ind i) (lock_ind j))) with true by (destruct (Z.max_spec (lock_ind i) (lock_ind j)) as [[_ ->]|[_ ->]]; symmetry; assumption).
  reflexivity.
Qed.

Lemma set_stays t i s x c : settled t -> (forall e', x = Some e' -> exists e, cell t i s = Some e /\ e_key e = e_key e') ->
  stays t (with_counter (with_cell t (set_cell (cell t) i s x)) c).
Proof.
  intros S Q. split; [reflexivity|]. split; [exact S|]. cbn [with_counter with_cell cell]. intros i' s' e' R E. unfold set_cell in E.
  destruct ((i' =? i) && (s' =? s)) eqn:Z; [|eauto]. apply andb_prop in Z as [Z1 Z2]. apply Z.eqb_eq in Z1, Z2. subst i' s'. exact (Q e' E).
Qed.

Lemma insert_loop_present f k (t : table) i s e : wf0 t -> shape hash (hp t) (view t) -> settled t -> view t i s = Some e -> e_key e = k ->
  exists i s, insert_loop hash keq simple nothrow (S f) k t = Done t (SDuplicated i s).
Proof.
  intros W SH S P Q. assert (HP : 0 <= hp t) by apply W. cbn [insert_loop]. cbv zeta. fold (I1 hash (hp t) k). fold (I2 hash (hp t) k).
  assert (R1 := I1_range hash _ k HP). assert (R2 := I2_range hash _ k HP).
  rewrite lock_two_settled by assumption. cbn [rbind]. unfold cuckoo_insert.
  assert (VC : forall i s, 0 <= i < 2 ^ hp t -> view t i s = cell t i s) by (intros; apply view_settled; assumption).
  assert (P1 : forall x e, cell t (I1 hash (hp t) k) x = Some e -> e_part e = partial_key (hash (e_key e))) by (intros x e0 E0; rewrite <- VC in E0 by assumption; exact (shape_part hash _ _ _ SH _ _ E0)).
  assert (P2 : forall x e, cell t (I2 hash (hp t) k) x = Some e -> e_part e = partial_key (hash (e_key e))) by (intros x e0 E0; rewrite <- VC in E0 by assumption; exact (shape_part hash _ _ _ SH _ _ E0)).
  destruct (SH i s e P) as (RI & RS & _ & WH). rewrite VC in P by assumption. rewrite Q in WH.
  destruct (try_insert_spec hash keq simple keq_spec (cell t (I1 hash (hp t) k)) k P1 slots 0 (-1)) as [(r & e1 & T1 & _)|(r & T1 & F1 & _)]; rewrite T1; cbn [negb rbind].
  { eauto. }
  destruct (try_insert_spec hash keq simple keq_spec (cell t (I2 hash (hp t) k)) k P2 slots 0 (-1)) as [(r2 & e1 & T2 & _)|(r2 & T2 & F2 & _)]; rewrite T2; cbn [negb rbind].
  { eauto. }
  exfalso. change (0 + Z.of_nat slots) with 4 in F1, F2. destruct WH as [WH|WH]; rewrite WH in P; [exact (F1 s e RS P Q)|exact (F2 s e RS P Q)].
Qed.

Lemma assign_present f k v (t : table) i s e : wf0 t -> shape hash (hp t) (view t) -> settled t -> view t i s = Some e -> e_key e = k ->
  exists t', stays t t' /\ forall t1 b, insert_or_assign hash keq simple nothrow (S f) k v t = Done t1 b -> t1 = t'.
Proof.
  intros W SH S P Q. destruct (insert_loop_present f k t i s e W SH S P Q) as (i1 & s1 & D). unfold insert_or_assign, uprase_fn. rewrite D. cbn [rbind].
  destruct (cell t i1 s1) as [e1|] eqn:C1.
  - exists (with_counter (with_cell t (set_cell (cell t) i1 s1 (Some (mkE (e_part e1) (e_key e1) v)))) (counter t)). split.
    + apply set_stays; [assumption|]. intros e' X. injection X as <-. exists e1. auto.
    + intros t1 b X. injection X as <- _. reflexivity.
  - exists t. split; [now apply stays_refl|]. discriminate.
Qed.

Lemma present_of k v (t : table) m a (d' : dict) : rep t m -> legal (Put k v) (dict_of m) a d' -> a <> Refused -> a <> Stored true ->
  exists i s e, view t i s = Some e /\ e_key e = k.
Proof.
  intros R L N1 N2. destruct a as [| [] | | | | |]; try contradiction; try congruence. destruct L as (_ & _ & L).
  destruct (dict_of m k) as [w|] eqn:D; [|exfalso; destruct L as [_ L]; discriminate (L eq_refl)].
  unfold CuckooProofs9.dict_of in D. apply (t_find_in keq keq_spec) in D; [|apply (r_nodup _ _ _ R)]. apply (r_in _ _ _ R) in D. destruct D as (e & (i & s & D) & Q & _). eauto.
Qed.

Lemma perform_stays o (t t' : table) m a : rep t m -> zlen m < 2 ^ 63 -> settled t -> perform o t = Some (t', a) ->
  a <> Refused -> a <> Stored true -> stays t t'.
Proof.
  intros R B S E N1 N2. assert (W := r_wf _ _ _ R). assert (HP : 0 <= hp t) by apply W.
  assert (B2 : zlen m < 2 ^ 64) by (assert (2 ^ 63 < 2 ^ 64) by reflexivity; lia).
  destruct (perform_ok hash keq simple nothrow keq_spec o t m R B) as (t9 & a9 & m9 & E9 & R9 & L9 & _).
  rewrite E in E9. injection E9 as <- <-.
  revert E. destruct o as [k|k v|k| | |]; cbn [CuckooRunModel.perform]; intros E.
  - unfold find in E. cbv zeta in E. fold (I1 hash (hp t) k) in E. fold (I2 hash (hp t) k) in E.
    rewrite lock_two_settled in E; try assumption; try apply W; try (now apply I1_range); try (now apply I2_range). cbn [rbind] in E.
    destruct (cuckoo_find keq simple t k _ _ _) as [[i s]|]; [destruct (cell t i s)|]; try discriminate; injection E as <- _; now apply stays_refl.
  - assert (P : exists i s e, view t i s = Some e /\ e_key e = k) by (clear E; exact (present_of k v t m a _ R L9 N1 N2)).
    clear L9. destruct P as (i & s & e & P & Q).
    assert (RO : exists n, rounds = Datatypes.S n) by (exists 69%nat; reflexivity). destruct RO as (n & RO). rewrite RO in E.
    destruct (assign_present n k v t i s e (wf_0 _ _ W) (r_shape _ _ _ R) S P Q) as (t1 & ST & D).
    destruct (insert_or_assign hash keq simple nothrow (Datatypes.S n) k v t) as [t2 b2| | |] eqn:X; try discriminate.
    + injection E as <- _. rewrite (D _ _ eq_refl). exact ST.
    + injection E as _ <-. now destruct N1.
  - unfold erase in E. cbv zeta in E. fold (I1 hash (hp t) k) in E. fold (I2 hash (hp t) k) in E.
    rewrite lock_two_settled in E; try assumption; try apply W; try (now apply I1_range); try (now apply I2_range). cbn [rbind] in E.
    destruct (cuckoo_find keq simple t k _ _ _) as [[i s]|]; [|injection E as <- _; now apply stays_refl].
    unfold del_from_bucket in E. destruct (cell t i s); [|discriminate]. cbn [rbind] in E. injection E as <- _. apply set_stays; [assumption|]. discriminate.
  - injection E as <- _. split; [reflexivity|]. split; [intros l _; reflexivity|]. discriminate.
  - injection E as <- _. now apply stays_refl.
  - destruct (walk_ok hash t m R B2) as (t1 & l & E1 & R1 & S1 & _). rewrite E1 in E. injection E as <- _.
    assert (S' : settled t1) by (intros x X; apply (s_migrated _ _ _ S1); apply S; rewrite <- (s_locks _ _ _ S1); exact X).
    split; [apply S1|]. split; [exact S'|]. intros i s e I C. exists e. split; [|reflexivity].
    rewrite <- (view_settled hash) by (try apply W; assumption). rewrite <- (s_view _ _ _ S1). rewrite view_settled; [exact C|apply (r_wf _ _ _ R1)|exact S'|rewrite (s_hp _ _ _ S1); exact I].
Qed.

(** nothing is added *)
Lemma legal_less o (m m' : list (K * V)) a : NoDup (map fst m') -> legal o (dict_of m) a (dict_of m') -> a <> Stored true -> zlen m' <= zlen m.
Proof.
  intros N L A.
  assert (SUB : forall k, In k (map fst m') -> In k (map fst m)).
  { intros k I. assert (D : dict_of m' k <> None) by (unfold CuckooProofs9.dict_of; intros X; apply (t_find_none hash keq keq_spec) in X; contradiction).
    assert (D' : dict_of m k <> None).
    { destruct o as [k0|k0 v|k0| | |], a as [| [] | | | | |]; cbn [legal] in L; try contradiction; try congruence.
      - destruct L as (_ & L). now rewrite <- L.
      - destruct L as (L1 & L2 & L3). destruct (keq k k0) eqn:Q.
        + apply keq_spec in Q. subst k0. intros X. apply L3 in X. discriminate.
        + rewrite <- L2; [assumption|]. intros X. apply keq_spec in X. congruence.
      - destruct L as (_ & L). now rewrite <- L.
      - destruct L as (L1 & L2 & _). destruct (keq k k0) eqn:Q.
        + apply keq_spec in Q. subst k0. contradiction.
        + rewrite <- L2; [assumption|]. intros X. apply keq_spec in X. congruence.
      - destruct L as (L & _). now rewrite <- L.
      - destruct L as (L & _). now rewrite <- L. }
    destruct (in_dec (fun a b => match Bool.bool_dec (keq a b) true with left e => left (proj1 (keq_spec a b) e) | right n => right (fun q => n (proj2 (keq_spec a b) q)) end) k (map fst m)) as [I'|I']; [exact I'|].
    exfalso. apply D'. unfold CuckooProofs9.dict_of. apply (t_find_none hash keq keq_spec); assumption. }
  unfold zlen. apply inj_le. rewrite <- (map_length fst m), <- (map_length fst m'). apply NoDup_incl_length; [exact N|]. exact SUB.
Qed.

Lemma perform_all_stays : forall os (t t' : table) m l, rep t m -> zlen m < 2 ^ 63 -> settled t -> perform_all os t = Some (t', l) -> nothing_new l ->
  exists m', rep t' m' /\ zlen m' <= zlen m /\ stays t t' /\ leads os (dict_of m) l (dict_of m').
Proof.
  induction os as [|o os IH]; intros t t' m l R B S E N; cbn [CuckooRunModel.perform_all] in E.
  - injection E as <- <-. exists m. split; [assumption|]. split; [lia|]. split; [now apply stays_refl|]. cbn. auto.
  - destruct (perform_ok hash keq simple nothrow keq_spec o t m R B) as (t1 & a & m1 & E1 & R1 & L1 & _). rewrite E1 in E.
    destruct (perform_all os t1) as [[t2 l2]|] eqn:E2; [|discriminate]. injection E as <- <-.
    assert (NA : a <> Refused /\ a <> Stored true /\ nothing_new l2).
    { destruct N as [NA NB]. cbn [In] in NA, NB. repeat split; intros X; try (apply NA; auto; fail); try (apply NB; auto; fail). }
    destruct NA as (NR & NS & N2).
    assert (LE := legal_less o m m1 a (r_nodup _ _ _ R1) L1 NS).
    assert (ST := perform_stays o t t1 m a R B S E1 NR NS).
    destruct (IH t1 t2 m1 l2 R1 ltac:(lia) (proj1 (proj2 ST)) E2 N2) as (m2 & R2 & LE2 & ST2 & LD).
    exists m2. split; [assumption|]. split; [lia|]. split; [now apply (stays_trans _ t1)|]. cbn [leads]. exists (dict_of m1). auto.
Qed.
End Iter.
