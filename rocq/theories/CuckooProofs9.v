(** Sequences of calls on the table. *)

From Coq Require Import ZArith List Lia Bool.
From Verif Require Import Base Bits CuckooModel CuckooRunModel CuckooProofs1 CuckooProofs2 CuckooProofs3 CuckooProofs4 CuckooProofs5 CuckooProofs6 CuckooProofs7 CuckooProofs8.
From Verif Require ConcMapModel.
From Verif Require Import CuckooSpec.
Import ListNotations.
Open Scope Z_scope.

Section Proofs.
Context {K V : Type} (hash : K -> Z) (keq : K -> K -> bool) (simple nothrow : bool).
Context (keq_spec : forall a b, keq a b = true <-> a = b).
Notation table := (@table K V). Notation rep := (rep hash).
Notation t_find := (ConcMapModel.t_find keq). Notation t_assign := (ConcMapModel.t_assign keq). Notation t_erase := (ConcMapModel.t_erase keq).
Notation perform := (perform hash keq simple nothrow). Notation perform_all := (perform_all hash keq simple nothrow).

Lemma rounds_enough h n : 0 <= h -> n < 2 ^ 63 -> enough rounds h n.
Proof.
  intros H N. split; [unfold rounds; lia|]. assert (2 ^ 69 <= 2 ^ (h + Z.of_nat rounds - 1)) by (apply Z.pow_le_mono_r; unfold rounds; lia).
  change (2 ^ 69) with 590295810358705651712 in *. change (2 ^ 63) with 9223372036854775808 in *. lia.
Qed.
Lemma find_assign k v (m : list (K * V)) k' : t_find k' (t_assign k v m) = if keq k k' then Some v else t_find k' m.
Proof.
  unfold ConcMapModel.t_assign. destruct (t_find k m) as [v0|] eqn:F.
  - revert F. induction m as [|[a b] m IH]; [discriminate|]. cbn [ConcMapModel.t_find map fst]. destruct (keq a k) eqn:E.
    + intros _. apply keq_spec in E. subst a. cbn. destruct (keq k k') eqn:E'; [reflexivity|].
      clear - E' keq_spec. induction m as [|[a b] m IH]; [reflexivity|]. cbn [map ConcMapModel.t_find fst]. destruct (keq a k) eqn:E; cbn [ConcMapModel.t_find]; [apply keq_spec in E; subst a; rewrite E'; exact IH|destruct (keq a k'); [reflexivity|exact IH]].
    + intros F. cbn. destruct (keq a k') eqn:E'; [|exact (IH F)]. destruct (keq k k') eqn:Q; [|reflexivity]. apply keq_spec in E', Q. subst. rewrite (proj2 (keq_spec k' k') eq_refl) in E. discriminate.
  - reflexivity.
Qed.
Lemma find_erase k (m : list (K * V)) k' : t_find k' (t_erase k m) = if keq k k' then None else t_find k' m.
Proof.
  unfold ConcMapModel.t_erase. induction m as [|[a b] m IH]; cbn [filter fst ConcMapModel.t_find]; [now destruct (keq k k')|].
  destruct (keq a k) eqn:E; cbn [negb].
  - rewrite IH. apply keq_spec in E. subst a. now destruct (keq k k').
  - cbn. destruct (keq a k') eqn:E'; [|exact IH]. destruct (keq k k') eqn:Q; [|reflexivity]. apply keq_spec in E', Q. subst. rewrite (proj2 (keq_spec k' k') eq_refl) in E. discriminate.
Qed.
Lemma zlen_assign k v (m : list (K * V)) : zlen (t_assign k v m) <= zlen m + 1.
Proof. unfold ConcMapModel.t_assign, zlen. destruct (t_find k m); [rewrite map_length|cbn [length]]; lia. Qed.
Lemma zlen_erase k (m : list (K * V)) : zlen (t_erase k m) <= zlen m.
Proof. unfold ConcMapModel.t_erase, zlen. induction m as [|a m IH]; cbn [filter length]; [lia|]. destruct (negb _); cbn [length]; lia. Qed.

(** The map a list of mappings stands for. *)
Definition dict_of (m : list (K * V)) : @dict K V := fun k => t_find k m.

Lemma perform_ok o t m : rep t m -> zlen m < 2 ^ 63 ->
  exists t' a m', perform o t = Some (t', a) /\ rep t' m' /\ legal o (dict_of m) a (dict_of m') /\ zlen m' <= zlen m + 1.
Proof.
  intros R B. assert (0 <= zlen m) by (unfold zlen; lia). assert (HP : 0 <= hp t) by apply R. assert (B2 : zlen m < 2 ^ 64) by (assert (2 ^ 63 < 2 ^ 64) by reflexivity; lia).
  assert (KD : forall a b, keq a b = false <-> a <> b). { intros a b. split; [intros E Q; apply keq_spec in Q; congruence|]. intros N. destruct (keq a b) eqn:E; [apply keq_spec in E; contradiction|reflexivity]. }
  destruct o as [k|k v|k| | |]; cbn [CuckooRunModel.perform].
  - destruct (find_ok hash keq simple keq_spec k t m R) as (t' & E & R' & _). rewrite E. exists t', (Found (t_find k m)), m. cbn. unfold dict_of. split; [reflexivity|]. split; [exact R'|]. split; [auto|lia].
  - destruct (insert_or_assign_ok hash keq simple nothrow keq_spec rounds k v t m R B (rounds_enough _ _ HP B)) as [(t' & E & R' & _)|(t' & E & R' & _ & F & _ & _)]; rewrite E.
    + exists t', (Stored (match t_find k m with None => true | Some _ => false end)), (t_assign k v m). split; [reflexivity|]. split; [exact R'|]. split; [|apply zlen_assign].
      cbn. unfold dict_of, agree_but. rewrite find_assign, (proj2 (keq_spec k k) eq_refl). split; [reflexivity|]. split.
      * intros k' N. rewrite find_assign, (proj2 (KD k k')) by auto. reflexivity.
      * destruct (t_find k m); split; congruence.
    + exists t', Refused, m. split; [reflexivity|]. split; [exact R'|]. split; [|lia]. cbn. unfold dict_of. auto.
  - destruct (erase_ok hash keq simple keq_spec k t m R) as (t' & E & R' & _). rewrite E.
    exists t', (Removed (match t_find k m with None => false | Some _ => true end)), (t_erase k m). split; [reflexivity|]. split; [exact R'|]. split; [|pose proof (zlen_erase k m); lia].
    cbn. unfold dict_of, agree_but. rewrite find_erase, (proj2 (keq_spec k k) eq_refl). split; [reflexivity|]. split.
    + intros k' N. rewrite find_erase, (proj2 (KD k k')) by auto. reflexivity.
    + destruct (t_find k m); split; congruence.
  - exists (clear t), Cleared, []. split; [reflexivity|]. split; [eapply clear_ok; exact R|]. split; [|unfold zlen; cbn; lia]. cbn. reflexivity.
  - exists t, (Count (size t)), m. split; [reflexivity|]. split; [exact R|]. split; [|lia]. cbn. split; [reflexivity|]. exists (map fst m). split; [apply R|]. split.
    + intros k. unfold dict_of. destruct (t_find k m) eqn:F.
      * split; [discriminate|]. intros _. apply (t_find_in keq keq_spec) in F; [|apply R]. apply in_map_iff. exists (k, v). auto.
      * split; [|congruence]. apply (t_find_none hash keq keq_spec) in F. contradiction.
    + rewrite (size_ok hash t m R B2), map_length. reflexivity.
  - destruct (walk_ok hash t m R B2) as (t' & l & E & R' & _ & _ & N & IN & _). rewrite E. exists t', (Mappings l), m. split; [reflexivity|]. split; [exact R'|]. split; [|lia].
    cbn. split; [reflexivity|]. split; [exact N|]. intros k v. rewrite IN. symmetry. apply t_find_in; [assumption|apply R].
Qed.
Lemma perform_all_ok : forall os t m, rep t m -> zlen m + Z.of_nat (length os) < 2 ^ 63 ->
  exists t' l m', perform_all os t = Some (t', l) /\ rep t' m' /\ legal_all os (dict_of m) l /\ zlen m' <= zlen m + Z.of_nat (length os).
Proof.
  induction os as [|o os IH]; intros t m R B; cbn [CuckooRunModel.perform_all].
  - exists t, [], m. cbn. split; [reflexivity|]. split; [assumption|]. split; [exact I|]. lia.
  - cbn [length] in B. destruct (perform_ok o t m R ltac:(lia)) as (t1 & a & m1 & E & R1 & L & LN). rewrite E.
    destruct (IH t1 m1 R1 ltac:(lia)) as (t2 & l & m2 & E2 & R2 & L2 & LN2). rewrite E2. exists t2, (a :: l), m2. split; [reflexivity|]. split; [exact R2|]. split; [exists (dict_of m1); auto|]. cbn [length]. lia.
Qed.
Lemma perform_all_app : forall os os' (t : table), perform_all (os ++ os') t =
  match perform_all os t with
  | None => None
  | Some (t1, l1) => match perform_all os' t1 with None => None | Some (t2, l2) => Some (t2, l1 ++ l2) end
  end.
Proof.
  induction os as [|o os IH]; intros os' t; cbn [CuckooRunModel.perform_all app].
  - destruct (perform_all os' t) as [[t2 l2]|]; reflexivity.
  - destruct (perform o t) as [[t1 a]|]; [|reflexivity]. rewrite IH. destruct (perform_all os t1) as [[t2 l2]|]; [|reflexivity]. destruct (perform_all os' t2) as [[t3 l3]|]; reflexivity.
Qed.

(** What a history leaves. *)
Lemma reached_rep n os (t : table) l : Z.of_nat (length os) < 2 ^ 63 -> perform_all os (fresh n) = Some (t, l) -> exists m, rep t m /\ zlen m <= Z.of_nat (length os).
Proof.
  intros B E. destruct (perform_all_ok os (fresh n) [] (rep_fresh hash n) ltac:(unfold zlen; cbn; lia)) as (t' & l' & m & E' & R & _ & LN). rewrite E in E'. injection E' as <- <-. exists m. split; [exact R|]. unfold zlen in *. cbn in LN. lia.
Qed.
Lemma same_answers (t t' : table) m : rep t m -> rep t' m -> forall k, exists t1 t2 x, find hash keq simple k t = Done t1 x /\ find hash keq simple k t' = Done t2 x.
Proof.
  intros R R' k. destruct (find_ok hash keq simple keq_spec k t m R) as (t1 & E1 & _). destruct (find_ok hash keq simple keq_spec k t' m R') as (t2 & E2 & _). eauto.
Qed.
Lemma reserve_at_least N : forall f b, 0 <= b -> let r := reserve_from f b N in r = b + Z.of_nat f \/ (b <= r /\ N <= 2 ^ r).
Proof.
  induction f as [|f IH]; intros b B; cbn [reserve_from]; [left; lia|]. destruct (Z.ltb_spec (2 ^ b) N); [|right; split; [lia|assumption]].
  destruct (IH (b + 1) ltac:(lia)) as [E|E]; [left; lia|right; lia].
Qed.
Lemma reserve_nine n : 2048 <= n -> 9 <= reserve_calc n.
Proof.
  intros N. unfold reserve_calc. destruct (reserve_at_least ((n + 4 - 1) / 4) 128 0 ltac:(lia)) as [E|[E1 E2]]; [rewrite E; lia|].
  assert (512 <= (n + 4 - 1) / 4) by (apply Z.div_le_lower_bound; lia). set (r := reserve_from 128 0 ((n + 4 - 1) / 4)) in *.
  destruct (Z.leb_spec 9 r); [assumption|]. assert (2 ^ r <= 2 ^ 8) by (apply Z.pow_le_mono_r; lia). change (2 ^ 8) with 256 in *. lia.
Qed.

(** *** Tables that have not grown keep their first old array *)
Definition calm (t : table) : Prop := forall l, migrated t l = true.
Definition kept (t t' : table) : Prop := calm t' /\ old t' = old t /\ hp t' = hp t.
Lemma kept_refl t : calm t -> kept t t.
Proof. intros C. split; auto. Qed.
Lemma kept_trans a b c : kept a b -> kept b c -> kept a c.
Proof. intros (A1 & A2 & A3) (B1 & B2 & B3). split; [assumption|]. split; congruence. Qed.
Lemma rehash_calm lz l t : calm t -> rehash_lock hash lz l t = Done t tt.
Proof. intros C. unfold rehash_lock. now rewrite C. Qed.
Lemma lock_one_calm i t : calm t -> lock_one hash i t = Done t tt.
Proof. apply rehash_calm. Qed.
Lemma lock_two_calm i j t : calm t -> lock_two hash i j t = Done t tt.
Proof. intros C. unfold lock_two. cbv zeta. rewrite rehash_calm by assumption. now apply rehash_calm. Qed.
Lemma lock_three_calm i j k t : calm t -> lock_three hash i j k t = Done t tt.
Proof. intros C. unfold lock_three. destruct (sort3 _ _ _) as [[a b] c]. rewrite rehash_calm by assumption. cbn [rbind]. rewrite rehash_calm by assumption. now apply rehash_calm. Qed.
Lemma search_calm : forall f q last t t' y, calm t -> search hash f q last t = Done t' y -> t' = t.
Proof.
  induction f as [|f IH]; intros q last t t' y C; cbn [search]; [discriminate|]. destruct q as [|x q]; [congruence|]. rewrite lock_one_calm by assumption. cbn [rbind].
  destruct (scan _ _ _ _ _ _ _); [congruence| |discriminate]. now apply IH.
Qed.
Lemma follow_calm : forall ss b t t' r, calm t -> follow hash b ss t = Done t' r -> t' = t.
Proof.
  induction ss as [|s ss IH]; intros b t t' r C; cbn [follow]; [congruence|]. rewrite lock_one_calm by assumption. cbn [rbind]. destruct (cell t b s) as [e|]; [|congruence]. cbv zeta.
  destruct (follow hash _ ss t) as [t2 r2| | |] eqn:E; cbn [rbind]; try discriminate. apply IH in E; [|assumption]. congruence.
Qed.
Lemma path_calm i1 i2 t t' p : calm t -> cuckoopath_search hash i1 i2 t = Done t' p -> t' = t.
Proof.
  intros C. unfold cuckoopath_search, slot_search. destruct (search hash _ _ _ t) as [t1 x| | |] eqn:E; cbn [rbind]; try discriminate. apply search_calm in E; [|assumption]. subst t1.
  destruct (b_depth x =? -1); [congruence|]. destruct (decode _ _ _) as [code ss]. destruct (if code =? 0 then _ else _); [|discriminate].
  destruct (follow hash z ss t) as [t2 r| | |] eqn:E; cbn [rbind]; try discriminate. apply follow_calm in E; [|assumption]. congruence.
Qed.
Lemma move_calm i1 i2 : forall before to t t' b, calm t -> move_back hash i1 i2 to before t = Done t' b -> kept t t'.
Proof.
  induction before as [|from before IH]; intros to t t' b C; cbn [move_back]; [intros E; injection E as <- _; now apply kept_refl|].
  assert (L : match before with [] => lock_three hash i1 i2 (r_bucket to) t | _ => lock_two hash (r_bucket from) (r_bucket to) t end = Done t tt) by (destruct before; [now apply lock_three_calm|now apply lock_two_calm]).
  rewrite L. cbn [rbind]. destruct (cell t (r_bucket to) (r_slot to)); [intros E; injection E as <- _; now apply kept_refl|].
  destruct (cell t (r_bucket from) (r_slot from)) as [e|]; [|intros E; injection E as <- _; now apply kept_refl].
  destruct (hash (e_key e) =? r_hash from); [|intros E; injection E as <- _; now apply kept_refl].
  cbv zeta. intros E. apply IH in E; [|exact C]. eapply kept_trans; [|exact E]. split; [exact C|]. split; reflexivity.
Qed.
Lemma cuckoo_calm : forall f i1 i2 t t' r, calm t -> run_cuckoo hash f i1 i2 t = Done t' r -> kept t t'.
Proof.
  induction f as [|f IH]; intros i1 i2 t t' r C; cbn [run_cuckoo]; [discriminate|]. destruct (cuckoopath_search hash i1 i2 t) as [t1 p| | |] eqn:E; cbn [rbind]; try discriminate.
  apply path_calm in E; [|assumption]. subst t1. destruct p as [path|]; [|intros E; injection E as <- _; now apply kept_refl].
  destruct (cuckoopath_move hash i1 i2 path t) as [t2 ok| | |] eqn:E; cbn [rbind]; try discriminate.
  assert (KM : kept t t2).
  { revert E. unfold cuckoopath_move. destruct path as [|r0 [|r1 path]]; [discriminate| |].
    - rewrite lock_two_calm by assumption. cbn [rbind]. destruct (cell t _ _); intros E; injection E as <- _; now apply kept_refl.
    - destruct (rev (r0 :: r1 :: path)); [discriminate|]. apply move_calm. assumption. }
  destruct ok; [destruct path; [discriminate|intros Q; injection Q as <- _; exact KM]|]. intros Q. apply IH in Q; [|apply KM]. eapply kept_trans; eassumption.
Qed.
Lemma cuckoo_insert_calm f k p i1 i2 t t' st : calm t -> cuckoo_insert hash keq simple f k p i1 i2 t = Done t' st -> kept t t'.
Proof.
  intros C. unfold cuckoo_insert. destruct (try_insert _ _ _ _ _ _ _ _) as [n1 s1]. destruct (negb n1); [intros E; injection E as <- _; now apply kept_refl|].
  destruct (try_insert _ _ _ _ _ _ _ _) as [n2 s2]. destruct (negb n2); [intros E; injection E as <- _; now apply kept_refl|].
  destruct (negb (s1 =? -1)); [intros E; injection E as <- _; now apply kept_refl|]. destruct (negb (s2 =? -1)); [intros E; injection E as <- _; now apply kept_refl|].
  destruct (run_cuckoo hash f i1 i2 t) as [t1 r| | |] eqn:E; cbn [rbind]; try discriminate. apply cuckoo_calm in E; [|assumption].
  destruct r as [[b s]|]; [|intros Q; injection Q as <- _; assumption]. destruct (cell t1 b s); [discriminate|]. destruct (cuckoo_find _ _ _ _ _ _ _) as [[i s']|]; intros Q; injection Q as <- _; assumption.
Qed.
Lemma insert_calm f k t m t' st : rep t m -> zlen m < 2 ^ 63 -> enough f (hp t) (zlen m) -> calm t ->
  insert_loop hash keq simple nothrow f k t = Done t' st -> kept t t' \/ hp t < hp t'.
Proof.
  intros R B EN C. destruct f as [|f]; [discriminate|]. assert (H : 0 <= hp t) by apply R. cbn [insert_loop]. cbv zeta. rewrite lock_two_calm by assumption. cbn [rbind].
  fold (I1 hash (hp t) k). fold (I2 hash (hp t) k).
  destruct (cuckoo_insert_ok hash keq simple keq_spec f k t (r_wf _ _ _ R) (r_shape _ _ _ R) (r_uniq _ _ _ R) (C _) (C _)) as (t1 & st1 & E1 & W1 & SH & PL).
  assert (KP := cuckoo_insert_calm _ _ _ _ _ _ _ _ C E1). rewrite E1. cbn [rbind]. assert (R1 := rep_shuffled _ _ _ _ R W1 SH).
  assert (HP1 : hp t1 = hp t) by apply KP.
  destruct st1; try (intros E; injection E as <- _; left; exact KP).
  destruct (load_too_low t1) eqn:LL; [destruct nothrow; [unfold fast_double|unfold expand_simple]; rewrite LL; discriminate|].
  assert (EN1 : enough (S f) (hp t1) (zlen m)) by (rewrite HP1; exact EN). destruct (enough_next hash f t1 m R1 B LL EN1) as [EF HB].
  intros E. right.
  assert (NEXT : forall t2, rep t2 m -> hp t + 1 <= hp t2 -> insert_loop hash keq simple nothrow f k t2 = Done t' st -> hp t < hp t').
  { intros t2 R2 H2 E2. destruct (insert_loop_ok hash keq simple nothrow keq_spec f k t2 m R2 B) as [(t3 & st3 & E3 & _ & H3 & _)|(t3 & E3 & _)]; [eapply enough_mono; [exact EF|lia|lia]| |congruence].
    rewrite E3 in E2. injection E2 as <- _. lia. }
  destruct nothrow eqn:NT.
  - destruct (fast_double_ok hash t1 W1 (r_shape _ _ _ R1) (r_uniq _ _ _ R1) LL) as (t2 & E2 & W2 & H2 & S2 & U2 & HO & CO). rewrite E2 in E. cbn [rbind] in E.
    apply (NEXT t2); [|lia|exact E]. split; auto. + apply R1. + intros k' v'. rewrite (r_in _ _ _ R1). symmetry. now apply has_of_holds. + rewrite CO. apply R1.
  - revert E. rewrite <- HP1. match goal with |- context [expand_simple hash ?g (hp t1 + 1) t1] => set (ins := g) end.
    destruct (expand_ok hash ins t1 m R1 HB LL) as [(t2 & E2 & R2 & H2)|(t2 & E2 & R2 & H2)].
    { intros e n m' RN HN LN NI. unfold ins. destruct (insert_loop_ok hash keq simple false keq_spec f (e_key e) n m' RN ltac:(lia)) as [(n1 & st' & E & R' & HP' & F)|(n1 & E & _)].
      - eapply enough_mono; [exact EF|lia|lia].
      - rewrite E. cbn [rbind]. destruct st' as [i s|i s|]; [|exfalso|contradiction].
        + left. destruct (add_to_bucket_ok hash n1 m' i s (e_key e) (e_val e) R' F) as (n2 & E2 & R2 & H2). exists n2. split; [exact E2|]. split; [exact R2|]. lia.
        + destruct F as (e' & _ & _ & X & Q & _). apply NI. apply in_map_iff. exists (e_key e, e_val e'). split; [reflexivity|]. apply (r_in _ _ _ R'). exists e'. split; [exists i, s; exact X|auto].
      - right. exists n1. now rewrite E. }
    + rewrite E2. cbn [rbind]. rewrite HP1. intros E. apply (NEXT t2 R2); [lia|exact E].
    + rewrite E2. discriminate.
Qed.
(** A call that neither empties, walks nor grows the table, and is not refused. *)
Definition quiet (o : @op K V) : Prop := match o with Clear | All => False | _ => True end.
Lemma perform_calm o t m t' a : rep t m -> zlen m < 2 ^ 63 -> calm t -> quiet o -> perform o t = Some (t', a) -> a <> Refused -> kept t t' \/ hp t < hp t'.
Proof.
  intros R B C Q. assert (HP : 0 <= hp t) by apply R. destruct o as [k|k v|k| | |]; cbn [quiet CuckooRunModel.perform] in *; try contradiction.
  - unfold find. cbv zeta. rewrite lock_two_calm by assumption. cbn [rbind]. destruct (cuckoo_find _ _ _ _ _ _ _) as [[i s]|]; [destruct (cell t i s)|]; try discriminate; intros E _; injection E as <- _; left; now apply kept_refl.
  - unfold insert_or_assign, uprase_fn. destruct (insert_loop hash keq simple nothrow rounds k t) as [t1 st| | |] eqn:E; cbn [rbind]; try discriminate; [|intros X N; congruence].
    destruct (insert_calm rounds k t m t1 st R B (rounds_enough _ _ HP B) C E) as [KP|G].
    all: assert (X : forall t2, hp t2 = hp t1 -> old t2 = old t1 -> migrated t2 = migrated t1 -> kept t t2 \/ hp t < hp t2) by
      (intros t2 X1 X2 X3; first [left; destruct KP as (K1 & K2 & K3); split; [unfold calm in *; now rewrite X3|split; congruence]|right; now rewrite X1]).
    all: destruct st as [i s|i s|]; [unfold add_to_bucket; destruct (setKV _ _ _ _); cbn [rbind]; [|discriminate]; intros Y _; injection Y as <- _; now apply X|
         destruct (cell t1 i s); [|discriminate]; intros Y _; injection Y as <- _; now apply X|discriminate].
  - unfold erase. cbv zeta. rewrite lock_two_calm by assumption. cbn [rbind]. destruct (cuckoo_find _ _ _ _ _ _ _) as [[i s]|].
    + unfold del_from_bucket. destruct (cell t i s); cbn [rbind]; [|discriminate]. intros E _. injection E as <- _. left. split; [exact C|]. split; reflexivity.
    + intros E _. injection E as <- _. left. now apply kept_refl.
  - intros E _. injection E as <- _. left. now apply kept_refl.
Qed.
Lemma perform_hp o (t : table) m t' a : rep t m -> zlen m < 2 ^ 63 -> perform o t = Some (t', a) -> hp t <= hp t'.
Proof.
  intros R B. assert (HP : 0 <= hp t) by apply R. assert (B2 : zlen m < 2 ^ 64) by (assert (2 ^ 63 < 2 ^ 64) by reflexivity; lia). destruct o as [k|k v|k| | |]; cbn [CuckooRunModel.perform].
  - destruct (find_ok hash keq simple keq_spec k t m R) as (t1 & E & R1 & S1). rewrite E. intros X. injection X as <- _. rewrite (s_hp _ _ _ S1). lia.
  - destruct (insert_or_assign_ok hash keq simple nothrow keq_spec rounds k v t m R B (rounds_enough _ _ HP B)) as [(t1 & E & R1 & H1)|(t1 & E & R1 & H1 & _)]; rewrite E; intros X; injection X as <- _; exact H1.
  - destruct (erase_ok hash keq simple keq_spec k t m R) as (t1 & E & R1 & H1). rewrite E. intros X. injection X as <- _. lia.
  - intros X. injection X as <- _. cbn. lia.
  - intros X. injection X as <- _. lia.
  - destruct (walk_ok hash t m R B2) as (t1 & l & E & R1 & S1 & _). rewrite E. intros X. injection X as <- _. rewrite (s_hp _ _ _ S1). lia.
Qed.
Lemma perform_all_hp : forall os (t : table) m t' l, rep t m -> zlen m + Z.of_nat (length os) < 2 ^ 63 -> perform_all os t = Some (t', l) -> hp t <= hp t'.
Proof.
  induction os as [|o os IH]; intros t m t' l R B; cbn [CuckooRunModel.perform_all]; [intros E; injection E as <- _; lia|]. cbn [length] in B.
  destruct (perform_ok o t m R ltac:(lia)) as (t1 & a & m1 & E & R1 & L & LN). rewrite E. destruct (perform_all os t1) as [[t2 l2]|] eqn:E2; [|discriminate]. intros X. injection X as <- _.
  apply perform_hp with (m := m) in E; [|assumption|lia]. apply IH with (m := m1) in E2; [|assumption|lia]. lia.
Qed.
Lemma perform_all_calm : forall os (t : table) m t' l, rep t m -> zlen m + Z.of_nat (length os) < 2 ^ 63 -> calm t -> Forall quiet os -> perform_all os t = Some (t', l) -> ~ In Refused l -> hp t' = hp t -> old t' = old t.
Proof.
  induction os as [|o os IH]; intros t m t' l R B C Q; cbn [CuckooRunModel.perform_all]; [intros E; injection E as <- _; reflexivity|]. cbn [length] in B. inversion Q; subst.
  destruct (perform_ok o t m R ltac:(lia)) as (t1 & a & m1 & E & R1 & L & LN). rewrite E. destruct (perform_all os t1) as [[t2 l2]|] eqn:E2; [|discriminate]. intros X N HH. injection X as <- <-.
  assert (G : hp t1 <= hp t2) by (apply (perform_all_hp os t1 m1 t2 l2 R1); [lia|exact E2]).
  assert (BM : zlen m < 2 ^ 63) by lia. assert (BM1 : zlen m1 + Z.of_nat (length os) < 2 ^ 63) by lia.
  destruct (perform_calm o t m t1 a R BM C H1 E) as [(K1 & K2 & K3)|G2]; [intros Y; apply N; now left| |lia].
  rewrite <- K2. apply (IH t1 m1 t2 l2 R1 BM1 K1 H2 E2); [intros Y; apply N; now right|congruence].
Qed.
End Proofs.
