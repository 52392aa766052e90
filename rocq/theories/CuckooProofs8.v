(** The members of the table act as those of a map. *)

From Coq Require Import ZArith List Lia Bool.
From Verif Require Import Base Bits CuckooModel CuckooProofs1 CuckooProofs2 CuckooProofs3 CuckooProofs4 CuckooProofs5 CuckooProofs6 CuckooProofs7.
From Verif Require ConcMapModel.
Import ListNotations.
Open Scope Z_scope.

Section Proofs.
Context {K V : Type} (hash : K -> Z) (keq : K -> K -> bool) (simple nothrow : bool).
Context (keq_spec : forall a b, keq a b = true <-> a = b).
Notation entry := (@entry K V). Notation table := (@table K V). Notation cells := (@cells K V).
Notation I1 := (I1 hash). Notation I2 := (I2 hash). Notation view := (view hash).
Notation wf0 := (wf0 hash). Notation wf := (wf hash). Notation same := (same hash). Notation shape := (shape hash).
Notation pk k := (partial_key (hash k)). Notation rep := (rep hash).
Notation t_find := (ConcMapModel.t_find keq). Notation t_assign := (ConcMapModel.t_assign keq). Notation t_erase := (ConcMapModel.t_erase keq).

Lemma t_find_in k v (m : list (K * V)) : NoDup (map fst m) -> t_find k m = Some v <-> In (k, v) m.
Proof.
  induction m as [|[k' v'] m IH]; cbn; [intros; split; [discriminate|contradiction]|]. intros N. inversion N; subst.
  destruct (keq k' k) eqn:E.
  - apply keq_spec in E. subst k'. split; [intros Q; left; congruence|]. intros [Q|Q]; [congruence|]. exfalso. apply H1. apply in_map_iff. exists (k, v). auto.
  - rewrite IH by assumption. split; [auto|]. intros [Q|Q]; [|exact Q]. injection Q as <- <-. rewrite (proj2 (keq_spec k' k')) in E by reflexivity. discriminate.
Qed.
Lemma t_find_none k (m : list (K * V)) : t_find k m = None <-> ~ In k (map fst m).
Proof.
  induction m as [|[k' v'] m IH]; cbn; [tauto|]. destruct (keq k' k) eqn:E.
  - apply keq_spec in E. split; [discriminate|]. intros N. exfalso. auto.
  - rewrite IH. split; [|tauto]. intros N [Q|Q]; [|contradiction]. apply keq_spec in Q. congruence.
Qed.

Lemma find_ok k (t : table) m : rep t m -> exists t', find hash keq simple k t = Done t' (t_find k m) /\ rep t' m /\ same t t'.
Proof.
  intros R. assert (H : 0 <= hp t) by apply R. unfold find. cbv zeta. fold (I1 (hp t) k). fold (I2 (hp t) k).
  destruct (lock_two_ok hash (I1 (hp t) k) (I2 (hp t) k) t (r_wf _ _ _ R) (I1_range hash _ k H) (I2_range hash _ k H)) as (t1 & E1 & W1 & S1 & M1 & M2). rewrite E1. cbn [rbind].
  assert (R1 := rep_same _ _ _ _ R W1 S1). assert (HP1 : hp t1 = hp t) by apply S1.
  pose proof (cuckoo_find_spec hash keq simple keq_spec t1 k) as CF. rewrite HP1 in CF. specialize (CF H). rewrite <- HP1 in CF at 1. specialize (CF (r_shape _ _ _ R1) M1 M2).
  destruct (cuckoo_find keq simple t1 k (pk k) (I1 (hp t) k) (I2 (hp t) k)) as [[i s]|].
  - destruct CF as (e & _ & _ & C & VE & Q). rewrite C. exists t1. split; [|auto]. f_equal. symmetry. apply t_find_in; [apply R|]. apply (r_in _ _ _ R1). exists e. split; [exists i, s; exact VE|auto].
  - exists t1. split; [|auto]. f_equal. symmetry. apply t_find_none. apply (rep_absent hash t1 m k R1). exact CF.
Qed.

Lemma rep_put (t : table) m i s e v : rep t m -> 0 <= i < 2 ^ hp t -> view t i s = Some e -> migrated t (lock_ind i) = true ->
  rep (with_cell t (set_cell (cell t) i s (Some (mkE (e_part e) (e_key e) v)))) (t_assign (e_key e) v m).
Proof.
  intros R RI X M. set (t' := with_cell t _). assert (V2 : forall i' s', view t' i' s' = set_cell (view t) i s (Some (mkE (e_part e) (e_key e) v)) i' s') by (now apply view_with_cell).
  destruct (put_ok hash (hp t) (view t) i s e v (r_shape _ _ _ R) (r_uniq _ _ _ R) X) as (A1 & A2 & A3).
  assert (IN : In (e_key e, e_val e) m) by (apply (r_in _ _ _ R); exists e; split; [exists i, s; exact X|auto]).
  assert (F : t_find (e_key e) m = Some (e_val e)) by (apply t_find_in; [apply R|exact IN]).
  unfold ConcMapModel.t_assign. rewrite F.
  assert (KS : map fst (map (fun p : K * V => if keq (fst p) (e_key e) then (fst p, v) else p) m) = map fst m) by (rewrite map_map; apply map_ext; intros [a b]; cbn; destruct (keq a (e_key e)); reflexivity).
  split.
  - apply wf_with_cell; [apply R|assumption].
  - eapply shape_ext; [exact V2|exact A1].
  - eapply uniq_ext; [exact V2|exact A2].
  - rewrite KS. apply R.
  - intros k' v'. rewrite (has_ext _ _ k' v' V2). rewrite in_map_iff. split.
    + intros ([a b] & E & I). cbn in E. destruct (keq a (e_key e)) eqn:Q.
      * apply keq_spec in Q. injection E as <- <-. subst a. eexists. split; [apply A3; left; reflexivity|]. cbn. auto.
      * injection E as <- <-. apply (r_in _ _ _ R) in I. destruct I as (x & HX & Q1 & Q2). exists x. split; [|auto]. apply A3. right. split; [assumption|]. subst a. intros Y. apply keq_spec in Y. congruence.
    + intros (x & HX & Q1 & Q2). apply A3 in HX. destruct HX as [->|[HX NE]].
      * cbn in Q1, Q2. subst k' v'. exists (e_key e, e_val e). cbn. rewrite (proj2 (keq_spec _ _) eq_refl). auto.
      * exists (k', v'). cbn. subst k'. destruct (keq (e_key x) (e_key e)) eqn:Q; [apply keq_spec in Q; contradiction|]. split; [reflexivity|]. apply (r_in _ _ _ R). exists x. auto.
  - change (count t') with (count t). rewrite (r_count _ _ _ R). unfold zlen. now rewrite map_length.
Qed.

Lemma insert_or_assign_ok f k v (t : table) m : rep t m -> zlen m < 2 ^ 63 -> enough f (hp t) (zlen m) ->
  (exists t', insert_or_assign hash keq simple nothrow f k v t = Done t' (match t_find k m with None => true | Some _ => false end) /\ rep t' (t_assign k v m) /\ hp t <= hp t') \/
  (exists t', insert_or_assign hash keq simple nothrow f k v t = TooLow t' /\ rep t' m /\ hp t <= hp t' /\ t_find k m = None /\ packed hash (hp t) m k /\ (nothrow = true -> stuck hash t' k)).
Proof.
  intros R B EN. unfold insert_or_assign, uprase_fn.
  destruct (insert_loop_ok hash keq simple nothrow keq_spec f k t m R B EN) as [(t1 & st & E & R1 & H1 & F)|(t1 & E & R1 & H1 & A & PK & ST)]; rewrite E; cbn [rbind].
  - left. destruct st as [i s|i s|]; [| |contradiction].
    + destruct (add_to_bucket_ok hash t1 m i s k v R1 F) as (t2 & E2 & R2 & H2). rewrite E2. cbn [rbind].
      assert (N : t_find k m = None) by (apply t_find_none, (rep_absent hash t1 m k R1); apply F).
      unfold ConcMapModel.t_assign. rewrite N. exists t2. split; [reflexivity|]. split; [assumption|]. lia.
    + destruct F as (e & RI & C & VE & Q & M). rewrite C. rewrite <- Q.
      assert (N : t_find (e_key e) m = Some (e_val e)) by (apply t_find_in; [apply R|]; apply (r_in _ _ _ R1); exists e; split; [exists i, s; exact VE|auto]).
      rewrite N. eexists. split; [reflexivity|]. split; [now apply rep_put|]. cbn. lia.
  - right. exists t1. split; [reflexivity|]. split; [assumption|]. split; [lia|]. split; [|auto]. apply t_find_none. now apply (rep_absent hash t1 m k R1).
Qed.

Lemma filter_key_length k (m : list (K * V)) v : NoDup (map fst m) -> In (k, v) m -> S (length (t_erase k m)) = length m.
Proof.
  induction m as [|[k' v'] m IH]; [intros _ []|]. cbn [map fst]. intros N I. inversion N; subst. unfold ConcMapModel.t_erase. cbn [filter fst].
  destruct (keq k' k) eqn:E; cbn [negb].
  - apply keq_spec in E. subst k'. cbn [length]. f_equal.
    clear - H1 keq_spec. induction m as [|[a b] m IHm]; [reflexivity|]. cbn [filter fst map length In] in *. destruct (keq a k) eqn:E; [apply keq_spec in E; subst; tauto|]. cbn [negb length]. f_equal. apply IHm. tauto.
  - cbn [length]. f_equal. apply IH; [assumption|]. destruct I as [Q|I]; [|exact I]. injection Q as <- <-. rewrite (proj2 (keq_spec k' k') eq_refl) in E. discriminate.
Qed.
Lemma nodup_filter_map {A B} (g : A -> B) (p : A -> bool) l : NoDup (map g l) -> NoDup (map g (filter p l)).
Proof.
  induction l as [|a l IH]; cbn; [auto|]. intros N. inversion N; subst. destruct (p a); [|auto]. cbn. constructor; [|auto].
  intros I. apply H1. apply in_map_iff in I. destruct I as (x & E & I). apply filter_In in I. apply in_map_iff. exists x. tauto.
Qed.

Lemma erase_ok k (t : table) m : rep t m ->
  exists t', erase hash keq simple k t = Done t' (match t_find k m with None => false | Some _ => true end) /\ rep t' (t_erase k m) /\ hp t' = hp t.
Proof.
  intros R. assert (H : 0 <= hp t) by apply R. unfold erase. cbv zeta. fold (I1 (hp t) k). fold (I2 (hp t) k).
  destruct (lock_two_ok hash (I1 (hp t) k) (I2 (hp t) k) t (r_wf _ _ _ R) (I1_range hash _ k H) (I2_range hash _ k H)) as (t1 & E1 & W1 & S1 & M1 & M2). rewrite E1. cbn [rbind].
  assert (R1 := rep_same _ _ _ _ R W1 S1). assert (HP1 : hp t1 = hp t) by apply S1.
  pose proof (cuckoo_find_spec hash keq simple keq_spec t1 k) as CF. rewrite HP1 in CF. specialize (CF H). rewrite <- HP1 in CF at 1. specialize (CF (r_shape _ _ _ R1) M1 M2).
  destruct (cuckoo_find keq simple t1 k (pk k) (I1 (hp t) k) (I2 (hp t) k)) as [[i s]|].
  - destruct CF as (e & Q & RS & C & VE & KE).
    assert (MI : migrated t1 (lock_ind i) = true) by (destruct Q; subst i; assumption).
    assert (RI : 0 <= i < 2 ^ hp t1) by (rewrite HP1; eapply I_range; eassumption).
    assert (IN : In (k, e_val e) m) by (apply (r_in _ _ _ R1); exists e; split; [exists i, s; exact VE|auto]).
    rewrite (proj2 (t_find_in k (e_val e) m (r_nodup _ _ _ R)) IN).
    unfold del_from_bucket. rewrite C. cbv zeta. cbn [rbind]. eexists. split; [reflexivity|]. split; [|exact HP1].
    set (ta := with_cell t1 (set_cell (cell t1) i s None)).
    assert (WA : wf ta) by (apply wf_with_cell; [apply R1|assumption]).
    destruct (del_ok hash (hp t1) (view t1) i s e (r_shape _ _ _ R1) (r_uniq _ _ _ R1) VE) as (A1 & A2 & A3).
    assert (V2 : forall i' s', view (with_counter ta (fup (counter ta) (lock_ind i) (counter ta (lock_ind i) - 1))) i' s' = set_cell (view t1) i s None i' s') by (intros; rewrite view_with_counter; now apply view_with_cell).
    split.
    + now apply wf_with_counter.
    + eapply shape_ext; [exact V2|exact A1].
    + eapply uniq_ext; [exact V2|exact A2].
    + apply nodup_filter_map. apply R.
    + intros k' v'. rewrite (has_ext _ _ k' v' V2). unfold ConcMapModel.t_erase. rewrite filter_In. cbn [fst]. rewrite (r_in _ _ _ R1). split.
      * intros [(x & HX & Q1 & Q2) NE]. exists x. split; [|auto]. apply A3. split; [assumption|]. rewrite Q1, KE. intros Y. subst k'. apply negb_true_iff in NE. apply keq_spec in Y. congruence.
      * intros (x & HX & Q1 & Q2). apply A3 in HX. destruct HX as [HX NE]. split; [exists x; auto|]. apply negb_true_iff. destruct (keq k' k) eqn:Y; [|reflexivity]. apply keq_spec in Y. congruence.
    + rewrite (count_fup hash ta i _ (wf_0 _ _ WA) RI). change (count ta) with (count t1). rewrite (r_count _ _ _ R1).
      pose proof (filter_key_length k m (e_val e) (r_nodup _ _ _ R) IN). unfold zlen. lia.
  - assert (A : ~ In k (map fst m)) by (apply (rep_absent hash t1 m k R1); exact CF).
    rewrite (proj2 (t_find_none k m) A). exists t1. split; [reflexivity|]. split; [|exact HP1].
    replace (t_erase k m) with m; [assumption|]. clear - A keq_spec. symmetry. unfold ConcMapModel.t_erase. induction m as [|[a b] m IH]; [reflexivity|]. cbn [filter fst]. cbn in A.
    destruct (keq a k) eqn:E; [apply keq_spec in E; tauto|]. cbn. f_equal. apply IH. tauto.
Qed.

Lemma clear_ok (t : table) m : rep t m -> rep (clear t) [].
Proof.
  intros R. assert (H : 0 <= hp t) by apply R. assert (0 < 2 ^ hp t) by (apply Z.pow_pos_nonneg; lia).
  assert (A : settled (clear t)) by (intros l L; reflexivity).
  assert (L := wf_locks _ _ (wf_0 _ _ (r_wf _ _ _ R))).
  assert (VN : forall i s, view (clear t) i s = None) by (intros i s; unfold CuckooProofs2.view; cbn; destruct ((0 <=? i) && _); reflexivity).
  assert (W0 : wf0 (clear t)) by (apply settled_wf0; [exact H|exact L|exact A]).
  split.
  - split; [exact W0|]. symmetry. apply settled_unmigrated; [cbn; lia|exact A].
  - intros i s e X. rewrite VN in X. discriminate.
  - intros i s e i' s' e' X. rewrite VN in X. discriminate.
  - constructor.
  - intros k v. split; [intros []|]. intros (e & (i & s & X) & _). rewrite VN in X. discriminate.
  - unfold count. change (counter (clear t)) with (fun _ : Z => 0). rewrite sum_zero. reflexivity.
Qed.
Lemma size_ok (t : table) m : rep t m -> zlen m < 2 ^ 64 -> size t = zlen m.
Proof. intros R B. unfold size. fold (count t). rewrite (r_count _ _ _ R). unfold uwrap. apply Z.mod_small. unfold zlen in *. lia. Qed.

(** *** The walk *)
Fixpoint tail (c : cells) (i s : Z) (n : nat) : list entry :=
  match n with O => [] | S n' => olist (c i s) ++ (if s + 1 <? 4 then tail c i (s + 1) n' else tail c (i + 1) 0 n') end.
Lemma tail_rows c : forall n b, tail c b 0 (4 * n) = rows c b n.
Proof.
  induction n as [|n IH]; intros b; [reflexivity|]. replace (4 * S n)%nat with (S (S (S (S (4 * n))))) by lia. cbn [tail rows]. rewrite <- IH.
  change (0 + 1 <? 4) with true. change (0 + 1 + 1 <? 4) with true. change (0 + 1 + 1 + 1 <? 4) with true. change (0 + 1 + 1 + 1 + 1 <? 4) with false. cbv iota.
  change (0 + 1 + 1 + 1) with 3. change (0 + 1 + 1) with 2. change (0 + 1) with 1. unfold row. now rewrite <- !app_assoc.
Qed.
Lemma next_tail c : forall n i s, 0 <= s < 4 ->
  match next_occupied c i s n with
  | None => tail c i s n = []
  | Some (i', s', e) => 0 <= s' < 4 /\ 4 * i + s <= 4 * i' + s' < 4 * i + s + Z.of_nat n /\
      tail c i s n = e :: (let n' := Z.to_nat (4 * i + s + Z.of_nat n - (4 * i' + s' + 1)) in if s' + 1 <? 4 then tail c i' (s' + 1) n' else tail c (i' + 1) 0 n')
  end.
Proof.
  induction n as [|n IH]; intros i s S; cbn [next_occupied tail]; [reflexivity|]. destruct (c i s) as [e|]; cbn [olist app].
  - split; [assumption|]. split; [lia|]. replace (Z.to_nat (4 * i + s + Z.of_nat (Datatypes.S n) - (4 * i + s + 1))) with n by lia. reflexivity.
  - destruct (Z.ltb_spec (s + 1) 4).
    + specialize (IH i (s + 1) ltac:(lia)). destruct (next_occupied c i (s + 1) n) as [[[i' s'] e]|]; [|exact IH]. destruct IH as (A & B & C). split; [assumption|]. split; [lia|]. rewrite C.
      replace (4 * i + s + Z.of_nat (Datatypes.S n) - (4 * i' + s' + 1)) with (4 * i + (s + 1) + Z.of_nat n - (4 * i' + s' + 1)) by lia. reflexivity.
    + specialize (IH (i + 1) 0 ltac:(lia)). destruct (next_occupied c (i + 1) 0 n) as [[[i' s'] e]|]; [|exact IH]. destruct IH as (A & B & C). split; [assumption|]. split; [lia|]. rewrite C.
      replace (4 * i + s + Z.of_nat (Datatypes.S n) - (4 * i' + s' + 1)) with (4 * (i + 1) + 0 + Z.of_nat n - (4 * i' + s' + 1)) by lia. reflexivity.
Qed.
Lemma walk_from_ok c h : forall n i s, 0 <= s < 4 -> 4 * i + s <= 4 * 2 ^ h -> length (tail c i s (Z.to_nat (4 * (2 ^ h - i) - s))) = n ->
  walk_from c h i s n = Some (map kv (tail c i s (Z.to_nat (4 * (2 ^ h - i) - s)))).
Proof.
  induction n as [|n IH]; intros i s S B L; cbn [walk_from].
  - destruct (tail c i s (Z.to_nat (4 * (2 ^ h - i) - s))); [reflexivity|discriminate].
  - unfold hashsize. pose proof (next_tail c (Z.to_nat (4 * (2 ^ h - i) - s)) i s S) as N. destruct (next_occupied c i s _) as [[[i' s'] e]|]; [|rewrite N in L; discriminate].
    destruct N as (S' & P & T). cbv zeta in T. rewrite T in L |- *. cbn [map length] in L |- *. apply Nat.succ_inj in L.
    replace (4 * i + s + Z.of_nat (Z.to_nat (4 * (2 ^ h - i) - s)) - (4 * i' + s' + 1)) with (4 * (2 ^ h - i') - (s' + 1)) in * by lia.
    destruct (Z.ltb_spec (s' + 1) 4).
    + rewrite IH; [reflexivity|lia|lia|exact L].
    + replace (4 * (2 ^ h - i') - (s' + 1)) with (4 * (2 ^ h - (i' + 1)) - 0) in * by lia. rewrite IH; [reflexivity|lia|lia|exact L].
Qed.
Lemma walk_ok (t : table) m : rep t m -> zlen m < 2 ^ 64 ->
  exists t' l, walk hash t = Done t' l /\ rep t' m /\ same t t' /\ old t' = None /\ NoDup (map fst l) /\ (forall k v, In (k, v) l <-> In (k, v) m) /\ zlen l = zlen m.
Proof.
  intros R B. unfold walk. destruct (rehash_all_ok hash t (wf_0 _ _ (r_wf _ _ _ R))) as (t1 & E1 & W1 & S1 & A1 & O1). rewrite E1. cbn [rbind].
  assert (R1 := rep_same _ _ _ _ R W1 S1). destruct (rows_rep hash t1 m R1 A1) as (ND & IN & LN). rewrite (size_ok t1 m R1 B).
  assert (H : 0 <= hp t1) by apply R1. assert (0 < 2 ^ hp t1) by (apply Z.pow_pos_nonneg; lia).
  assert (TR : tail (cell t1) 0 0 (Z.to_nat (4 * (2 ^ hp t1 - 0) - 0)) = rows (cell t1) 0 (Z.to_nat (2 ^ hp t1))).
  { replace (Z.to_nat (4 * (2 ^ hp t1 - 0) - 0)) with (4 * Z.to_nat (2 ^ hp t1))%nat by lia. apply tail_rows. }
  rewrite walk_from_ok; [|lia|lia|rewrite TR; unfold zlen in *; rewrite map_length in LN; lia].
  rewrite TR. eexists _, _. split; [reflexivity|]. auto 10.
Qed.

(** *** Many keys with one hash value *)
Lemma choose {A B} (P : A -> B -> Prop) (l : list A) : (forall a, In a l -> exists b, P a b) -> exists bs, Forall2 P l bs.
Proof.
  induction l as [|a l IH]; intros F; [exists []; constructor|]. destruct (F a (or_introl eq_refl)) as (b & Q). destruct IH as (bs & Qs); [intros; apply F; now right|].
  exists (b :: bs). now constructor.
Qed.
Lemma crowded_full (t : table) m ks k i s : rep t m -> NoDup ks -> length ks = 8%nat -> (forall k', In k' ks -> hash k' = hash k /\ In k' (map fst m)) -> (i = I1 (hp t) k \/ i = I2 (hp t) k) -> 0 <= s < 4 -> view t i s <> None.
Proof.
  intros R N L KS Q S F.
  destruct (choose (fun k' p => exists e, view t (fst p) (snd p) = Some e /\ e_key e = k') ks) as (ps & FP).
  { intros k' I. destruct (KS k' I) as [_ J]. apply in_map_iff in J. destruct J as ((k0 & v0) & E & J). cbn in E. subst k0. apply (r_in _ _ _ R) in J. destruct J as (e & (i' & s' & X) & Y & _).
    exists (i', s'). exists e. auto. }
  set (all := list_prod [I1 (hp t) k; I2 (hp t) k] [0; 1; 2; 3]).
  assert (LEN : length ps = 8%nat) by (rewrite <- L; clear - FP; induction FP; cbn; congruence).
  assert (INC : incl ((i, s) :: ps) all).
  { assert (SL : forall x, 0 <= x < 4 -> In x [0; 1; 2; 3]) by (intros x X; cbn; lia).
    intros [i' s'] [E|I].
    - injection E as <- <-. apply in_prod; [cbn; destruct Q; subst; auto|auto].
    - assert (X : exists k' e, In k' ks /\ view t i' s' = Some e /\ e_key e = k').
      { clear - FP I. induction FP as [|a b l l' H F IH]; [destruct I|]. destruct I as [->|I]; [destruct H as (e & X & Y); exists a, e; cbn in *; auto|]. destruct (IH I) as (k' & e & A & B). exists k', e. cbn. auto. }
      destruct X as (k' & e & I' & X & Y). destruct (r_shape _ _ _ R _ _ _ X) as (_ & SR & _ & IQ). destruct (KS k' I') as [HK _].
      unfold CuckooProofs1.I1, CuckooProofs1.I2, CuckooProofs1.I1 in *. rewrite Y, HK in IQ. apply in_prod; [cbn; destruct IQ; auto|auto]. }
  assert (ND : NoDup ((i, s) :: ps)).
  { constructor.
    - intros I. clear - FP I F. induction FP as [|a b l l' H FF IH]; [destruct I|]. destruct I as [->|I]; [|auto]. destruct H as (e & X & _). cbn in X. congruence.
    - clear - FP N. induction FP as [|a b l l' H FF IH]; [constructor|]. inversion N; subst. constructor; [|auto].
      intros I. apply H2. destruct H as (e & X & Y). clear - FF I X Y. induction FF as [|a' b' l l' H FF IH]; [destruct I|]. destruct I as [->|I]; [|right; auto]. destruct H as (e' & X' & Y'). left. congruence. }
  pose proof (NoDup_incl_length ND INC) as LE. cbn in LE. lia.
Qed.
Lemma partial_range x : 0 <= partial_key x < 256.
Proof.
  unfold partial_key. cbv zeta. generalize (Z.lxor (uwrap 16 (Z.lxor (uwrap 32 x) (uwrap 32 (Z.shiftr x 32)))) (uwrap 16 (Z.shiftr (Z.lxor (uwrap 32 x) (uwrap 32 (Z.shiftr x 32))) 16))). intros y.
  unfold uwrap. rewrite <- (lxor_mod y (Z.shiftr y 8) 8) by lia. apply Z.mod_pos_bound. reflexivity.
Qed.
Lemma alt_differs h p i : 9 <= h -> 0 <= p < 256 -> 0 <= i < 2 ^ h -> alt_index h p i <> i.
Proof.
  intros H P R E. rewrite alt_mod, lxor_mod in E by lia. rewrite (Z.mod_small i) in E by assumption.
  assert (T : tag p mod 2 ^ h = 0). { apply (f_equal (fun x => Z.lxor i x)) in E. rewrite <- Z.lxor_assoc, Z.lxor_nilpotent, Z.lxor_0_l in E. exact E. }
  assert (T9 : tag p mod 512 = 0).
  { assert (0 < 2 ^ (h - 9)) by (apply Z.pow_pos_nonneg; lia). assert (X : 2 ^ h = 512 * 2 ^ (h - 9)) by (change 512 with (2 ^ 9); rewrite <- Z.pow_add_r by lia; f_equal; lia).
    pose proof (Z.div_mod (tag p) (2 ^ h) ltac:(lia)) as D. rewrite T, X in D. rewrite D. rewrite Z.add_0_r, <- Z.mul_assoc, Z.mul_comm. apply Z.mod_mul. lia. }
  assert (C : forallb (fun n => negb (tag (Z.of_nat n) mod 512 =? 0)) (seq 0 256) = true) by (vm_compute; reflexivity).
  rewrite forallb_forall in C. specialize (C (Z.to_nat p) ltac:(apply in_seq; lia)). rewrite Z2Nat.id, T9 in C by lia. discriminate.
Qed.
(** Full buckets hold eight mappings. *)
Lemma packed_size h (m : list (K * V)) k : 9 <= h -> packed hash h m k -> 8 <= zlen m.
Proof.
  intros H (t & R & HT & F1 & F2). assert (HP : 0 <= hp t) by apply R.
  assert (D : I1 (hp t) k <> I2 (hp t) k).
  { intros E. apply (alt_differs (hp t) (pk k) (I1 (hp t) k)); [lia|apply partial_range|now apply I1_range|symmetry; exact E]. }
  set (all := list_prod [I1 (hp t) k; I2 (hp t) k] [0; 1; 2; 3]).
  destruct (choose (fun p x => exists e, view t (fst p) (snd p) = Some e /\ x = kv e /\ In x m) all) as (xs & FX).
  { intros [i s] I. apply in_prod_iff in I. destruct I as [I J]. assert (SR : 0 <= s < 4) by (cbn in J; lia).
    assert (X : view t i s <> None) by (cbn in I; destruct I as [<-|[<-|[]]]; [apply F1|apply F2]; exact SR).
    destruct (view t i s) as [e|] eqn:E; [|congruence]. exists (kv e), e. cbn. split; [exact E|]. split; [reflexivity|]. apply (r_in _ _ _ R). exists e. split; [exists i, s; exact E|auto]. }
  assert (ND : NoDup all).
  { unfold all. cbn. repeat constructor; cbn; intros X; repeat (destruct X as [X|X]; [injection X; intros; try lia; congruence|]); exact X. }
  assert (LEN : length xs = 8%nat) by (change 8%nat with (length all); clear - FX; induction FX; cbn; congruence).
  assert (NX : NoDup (map fst xs)).
  { clear - FX ND R. induction FX as [|p x l l' H F IH]; [constructor|]. inversion ND; subst. cbn. constructor; [|auto].
    intros I. apply H2. destruct H as (e & V1 & -> & _). clear - F I V1 R. induction F as [|p' x' l l' H F IH]; [destruct I|]. destruct I as [I|I]; [|right; auto].
    left. destruct H as (e' & V2 & -> & _). cbn in I. destruct p, p'. destruct (r_uniq _ _ _ R _ _ _ _ _ _ V1 V2 (eq_sym I)). cbn in *. congruence. }
  assert (INC : incl xs m). { clear - FX. intros x I. induction FX as [|p x' l l' H F IH]; [destruct I|]. destruct I as [->|I]; [destruct H as (_ & _ & _ & ?); assumption|auto]. }
  pose proof (NoDup_incl_length (NoDup_map_inv _ _ NX) INC). unfold zlen. lia.
Qed.
Lemma crowded_throws f (t : table) m ks k v : rep t m -> zlen m < 2 ^ 63 -> enough f (hp t) (zlen m) ->
  NoDup ks -> length ks = 8%nat -> (forall k', In k' ks -> hash k' = hash k /\ In k' (map fst m)) -> ~ In k (map fst m) ->
  exists t', insert_or_assign hash keq simple nothrow f k v t = TooLow t' /\ rep t' m.
Proof.
  intros R B EN N L KS A. unfold insert_or_assign, uprase_fn.
  destruct (insert_loop_ok hash keq simple nothrow keq_spec f k t m R B EN) as [(t1 & st & E & R1 & H1 & F)|(t1 & E & R1 & _)]; rewrite E; cbn [rbind].
  - exfalso. destruct st as [i s|i s|]; [| |contradiction].
    + destruct F as (Q & S & _ & FV & _). exact (crowded_full t1 m ks k i s R1 N L KS Q S FV).
    + destruct F as (e & _ & _ & X & Q & _). apply (rep_absent hash t1 m k R1) in A. exact (A _ _ _ X Q).
  - exists t1. auto.
Qed.
End Proofs.
