(** C102-C105: the table under ConcurrentHashMap, used by one thread. *)

From Coq Require Import ZArith List Lia Bool.
From Verif Require Import Base Bits CuckooModel CuckooRunModel CuckooProofs1 CuckooProofs2 CuckooProofs3 CuckooProofs4 CuckooProofs5 CuckooProofs6 CuckooProofs7 CuckooProofs8 CuckooProofs9.
From Verif Require ConcMapModel CppText TextLemmas.
From Verif Require Import CuckooSpec.
Import ListNotations.
Open Scope Z_scope.

Lemma reach_0 {K V} (c : @cells K V) h i1 i2 b : b = i1 \/ b = i2 -> reach c h i1 i2 0 b.
Proof.
  intros [->| ->]; [exists 0, []|exists 1, []]; (split; [auto|]; split; [reflexivity|]; split; [constructor|]); constructor.
Qed.
Section Props.
(** Keys, values, the hash of a key, its equality test, and the two traits of
    the types that choose between the variants of the code: all arbitrary. *)
Context {K V : Type} (hash : K -> Z) (keq : K -> K -> bool) (simple nothrow : bool).
Context (keq_spec : forall a b, keq a b = true <-> a = b).
Notation table := (@table K V).
Notation perform := (perform hash keq simple nothrow). Notation perform_all := (perform_all hash keq simple nothrow).
Notation find := (find hash keq simple).
(** [t] is a table after the calls [os] on a new table for [n] elements. *)
Definition reached (n : Z) (os : list (@op K V)) (t : table) : Prop := Z.of_nat (length os) < 2 ^ 63 - 1 /\ exists l, perform_all os (@fresh K V n) = Some (t, l).
Definition same_content (t t' : table) : Prop := forall k, exists t1 t2 x, find k t = Done t1 x /\ find k t' = Done t2 x.

Lemma put_refused k v (t t' : table) : perform (Put k v) t = Some (t', Refused) -> insert_or_assign hash keq simple nothrow rounds k v t = TooLow t'.
Proof. unfold CuckooRunModel.perform. destruct (insert_or_assign _ _ _ _ _ _ _ _); intros P; try discriminate; injection P as <-; reflexivity. Qed.
Lemma put_done k v (t t' : table) b : insert_or_assign hash keq simple nothrow rounds k v t = Done t' b -> perform (Put k v) t = Some (t', Stored b).
Proof. intros E. unfold CuckooRunModel.perform. rewrite E. reflexivity. Qed.
Lemma put_low k v (t t' : table) : insert_or_assign hash keq simple nothrow rounds k v t = TooLow t' -> perform (Put k v) t = Some (t', Refused).
Proof. intros E. unfold CuckooRunModel.perform. rewrite E. reflexivity. Qed.
Lemma perform_one o (t t1 : table) a : perform o t = Some (t1, a) -> perform_all [o] t = Some (t1, [a]).
Proof. intros E. unfold CuckooRunModel.perform_all. rewrite E. reflexivity. Qed.
Lemma refused_sparse f k v (t t' : table) m : nothrow = true -> rep hash t m -> zlen m < 2 ^ 63 -> enough f (hp t) (zlen m) -> insert_or_assign hash keq simple nothrow f k v t = TooLow t' ->
  size t' * 2 ^ 56 < 3602879701896397 * (4 * 2 ^ hp t') /\ same_content t t' /\
  forall b, b = index_hash (hp t') (hash k) \/ b = alt_index (hp t') (partial_key (hash k)) (index_hash (hp t') (hash k)) -> forall s, 0 <= s < 4 -> view hash t' b s <> None.
Proof.
  intros NT R BM EN P. destruct (insert_or_assign_ok hash keq simple nothrow keq_spec f k v t m R BM EN) as [(t1 & E' & _)|(t1 & E' & R' & _ & _ & _ & ST)]; rewrite E' in P; [discriminate|].
  injection P as <-. destruct (ST NT) as [LL FU]. split; [unfold load_too_low in LL; apply Z.ltb_lt in LL; rewrite (Z.mul_comm (hashsize (hp t1)) 4) in LL; exact LL|]. split; [exact (same_answers hash keq simple keq_spec t t1 m R R')|].
  intros b Q s S. apply (FU 0%nat b ltac:(lia)); [|exact S]. apply reach_0. exact Q.
Qed.

(** Whatever the hash function, every history of calls on a new table runs
    without undefined behaviour, ends, and answers as a map does. *)
Theorem C102_map n (os : list (@op K V)) : Z.of_nat (length os) < 2 ^ 63 -> exists t l, perform_all os (@fresh K V n) = Some (t, l) /\ legal_all os nothing l.
Proof.
  intros B. destruct (perform_all_ok hash keq simple nothrow keq_spec os (fresh n) [] (rep_fresh hash n) ltac:(unfold zlen; cbn; lia)) as (t & l & m & E & _ & L & _). exists t, l. auto.
Qed.
(** The contract C57 assumes of the table, for calls that do not overlap. *)
Theorem C102_contract : exists represents : table -> list (K * V) -> Prop,
  (forall n, represents (fresh n) []) /\
  forall t m, represents t m -> zlen m < 2 ^ 63 ->
    (forall k, exists t', find k t = Done t' (ConcMapModel.t_find keq k m) /\ represents t' m) /\
    (forall k v, (exists t' b, insert_or_assign hash keq simple nothrow rounds k v t = Done t' b /\ represents t' (ConcMapModel.t_assign keq k v m)) \/
                 (exists t', insert_or_assign hash keq simple nothrow rounds k v t = TooLow t' /\ represents t' m /\ ConcMapModel.t_find keq k m = None)) /\
    (forall k, exists t' b, erase hash keq simple k t = Done t' b /\ represents t' (ConcMapModel.t_erase keq k m)) /\
    represents (clear t) [] /\ size t = zlen m /\
    exists t' l, walk hash t = Done t' l /\ represents t' m /\ NoDup (map fst l) /\ forall x, In x l <-> In x m.
Proof.
  exists (rep hash). split; [apply rep_fresh|]. intros t m R B. assert (B2 : zlen m < 2 ^ 64) by (assert (2 ^ 63 < 2 ^ 64) by reflexivity; lia).
  assert (HP : 0 <= hp t) by apply R.
  split; [|split; [|split; [|split; [|split]]]].
  - intros k. destruct (find_ok hash keq simple keq_spec k t m R) as (t' & E & R' & _). eauto.
  - intros k v. destruct (insert_or_assign_ok hash keq simple nothrow keq_spec rounds k v t m R B (rounds_enough _ _ HP B)) as [(t' & E & R' & _)|(t' & E & R' & _ & F & _)]; [left; eauto|right; eauto].
  - intros k. destruct (erase_ok hash keq simple keq_spec k t m R) as (t' & E & R' & _). eauto.
  - apply (clear_ok hash t m R).
  - now apply (size_ok hash).
  - destruct (walk_ok hash t m R B2) as (t' & l & E & R' & _ & _ & N & IN & _). exists t', l. split; [exact E|]. split; [exact R'|]. split; [exact N|]. intros [k v]. apply IN.
Qed.

(** A table made for at least 2048 elements (the default is 262144) refuses no
    mapping while it holds fewer than eight. *)
Theorem C103_first_eight_partial n os (t : table) k v : 2048 <= n -> reached n os t -> size t < 8 -> exists t' b, perform (Put k v) t = Some (t', Stored b).
Proof.
  intros N [B (l & E)] S. destruct (reached_rep hash keq simple nothrow keq_spec n os t l ltac:(lia) E) as (m & R & LN).
  assert (BM : zlen m < 2 ^ 63) by lia. assert (B2 : zlen m < 2 ^ 64) by (assert (2 ^ 63 < 2 ^ 64) by reflexivity; lia).
  assert (HP : 9 <= hp t).
  { apply Z.le_trans with (hp (@fresh K V n)); [cbn; now apply reserve_nine|]. apply (perform_all_hp hash keq simple nothrow keq_spec os (fresh n) [] t l (rep_fresh hash n)); [unfold zlen; cbn; lia|exact E]. }
  assert (HP0 : 0 <= hp t) by lia. rewrite (size_ok hash t m R B2) in S. cbn [CuckooRunModel.perform].
  destruct (insert_or_assign_ok hash keq simple nothrow keq_spec rounds k v t m R BM (rounds_enough _ _ HP0 BM)) as [(t' & E' & _)|(t' & _ & _ & _ & _ & PK & _)]; [rewrite E'; eauto|].
  apply packed_size in PK; [lia|assumption].
Qed.
(** Types that move without exceptions: a refused mapping finds the load factor
    below 0.05 and both buckets of its key full ([view] is what a bucket holds,
    counting the entries not yet moved into it from the old array). *)
Theorem C103_refused_sparse_partial n os (t : table) k v t' : nothrow = true -> reached n os t -> perform (Put k v) t = Some (t', Refused) ->
  size t' * 2 ^ 56 < 3602879701896397 * (4 * 2 ^ hp t') /\ same_content t t' /\
  forall b, b = index_hash (hp t') (hash k) \/ b = alt_index (hp t') (partial_key (hash k)) (index_hash (hp t') (hash k)) -> forall s, 0 <= s < 4 -> view hash t' b s <> None.
Proof.
  intros NT [B (l & E)] P. destruct (reached_rep hash keq simple nothrow keq_spec n os t l ltac:(lia) E) as (m & R & LN).
  assert (BM : zlen m < 2 ^ 63) by lia. assert (HP : 0 <= hp t) by apply R. apply (refused_sparse rounds k v t t' m NT R BM (rounds_enough _ _ HP BM)). now apply put_refused.
Qed.
(** Refuted: a ninth key with the hash value of eight others is refused,
    however large the table is. *)
Theorem C103_ninth_refuted n os (t : table) ks k v : reached n os t -> NoDup ks -> length ks = 8%nat ->
  (forall k', In k' ks -> hash k' = hash k /\ exists t' v', find k' t = Done t' (Some v')) -> (exists t', find k t = Done t' None) ->
  exists t', perform (Put k v) t = Some (t', Refused).
Proof.
  intros [B (l & E)] N L KS (tk & A). destruct (reached_rep hash keq simple nothrow keq_spec n os t l ltac:(lia) E) as (m & R & LN).
  assert (BM : zlen m < 2 ^ 63) by lia. assert (HP : 0 <= hp t) by apply R.
  destruct (crowded_throws hash keq simple nothrow keq_spec rounds t m ks k v R BM (rounds_enough _ _ HP BM) N L) as (t' & E' & _).
  - intros k' I. destruct (KS k' I) as (H & t1 & v' & F). split; [exact H|]. destruct (find_ok hash keq simple keq_spec k' t m R) as (t2 & F2 & _). rewrite F in F2. injection F2 as _ F2.
    symmetry in F2. apply (t_find_in keq keq_spec) in F2; [|apply R]. apply in_map_iff. exists (k', v'). auto.
  - destruct (find_ok hash keq simple keq_spec k t m R) as (t2 & F2 & _). rewrite A in F2. injection F2 as _ F2. symmetry in F2. now apply (t_find_none hash keq keq_spec) in F2.
  - exists t'. now apply put_low.
Qed.
Lemma puts_keys (v : K -> V) : forall ks (t : table) m t' l, rep hash t m -> zlen m + Z.of_nat (length ks) < 2 ^ 63 -> perform_all (map (fun k => Put k (v k)) ks) t = Some (t', l) ->
  In Refused l \/ exists m', rep hash t' m' /\ zlen m' <= zlen m + Z.of_nat (length ks) /\ forall k, ConcMapModel.t_find keq k m' <> None <-> In k ks \/ ConcMapModel.t_find keq k m <> None.
Proof.
  induction ks as [|k ks IH]; intros t m t' l R B; cbn [map CuckooRunModel.perform_all].
  - intros E. injection E as <- <-. right. exists m. split; [exact R|]. split; [cbn; lia|]. intros k. cbn. tauto.
  - cbn [length] in B. assert (BM : zlen m < 2 ^ 63) by lia. assert (HP : 0 <= hp t) by apply R.
    destruct (insert_or_assign_ok hash keq simple nothrow keq_spec rounds k (v k) t m R BM (rounds_enough _ _ HP BM)) as [(t1 & E' & R1 & _)|(t1 & E' & _)]; [apply put_done in E'|apply put_low in E']; rewrite E'.
    + destruct (perform_all _ t1) as [[t2 l2]|] eqn:E2; [|discriminate]. intros X. injection X as <- <-.
      assert (LA : zlen (ConcMapModel.t_assign keq k (v k) m) <= zlen m + 1) by apply zlen_assign.
      destruct (IH t1 _ t2 l2 R1 ltac:(lia) E2) as [I|(m' & R' & LN & M)]; [left; now right|]. right. exists m'. split; [exact R'|]. split; [cbn [length]; lia|].
      intros k'. rewrite M, (find_assign keq keq_spec). cbn [In]. destruct (keq k k') eqn:Q; [apply keq_spec in Q; split; [intros _; left; now left|intros _; right; discriminate]|].
      assert (k <> k') by (intros C; apply keq_spec in C; congruence). tauto.
    + destruct (perform_all _ t1) as [[t2 l2]|]; [|discriminate]. intros X. injection X as <- <-. left. now left.
Qed.
(** Nine keys of one hash value, put one after the other in a new map. *)
Theorem C103_nine_refuted n ks (v : K -> V) : length ks = 9%nat -> NoDup ks -> (forall k k', In k ks -> In k' ks -> hash k = hash k') ->
  exists t l, perform_all (map (fun k => Put k (v k)) ks) (@fresh K V n) = Some (t, l) /\ In Refused l.
Proof.
  intros L N H. destruct (C102_map n (map (fun k => Put k (v k)) ks)) as (t & l & E & _); [rewrite map_length, L; reflexivity|]. exists t, l. split; [exact E|].
  destruct (exists_last (l := ks)) as (ks' & k & ->); [intros ->; discriminate|]. rewrite app_length in L. cbn in L.
  rewrite map_app in E. rewrite perform_all_app in E. destruct (perform_all (map _ ks') (fresh n)) as [[t1 l1]|] eqn:E1; [|discriminate].
  assert (Z0 : @zlen (K * V) [] = 0) by reflexivity.
  destruct (puts_keys v ks' (fresh n) [] t1 l1 (rep_fresh hash n) ltac:(lia) E1) as [I|(m & R & LN & M)].
  { destruct (perform_all _ t1) as [[t2 l2]|] in E; [|discriminate]. injection E as _ <-. apply in_or_app. now left. }
  assert (BM : zlen m < 2 ^ 63) by lia. assert (HP : 0 <= hp t1) by apply R. apply NoDup_remove in N. rewrite app_nil_r in N. destruct N as [N NI].
  destruct (crowded_throws hash keq simple nothrow keq_spec rounds t1 m ks' k (v k) R BM (rounds_enough _ _ HP BM) N ltac:(lia)) as (t3 & E3 & _).
  - intros k' I. split; [apply H; apply in_or_app; [now left|right; now left]|]. assert (F : ConcMapModel.t_find keq k' m <> None) by (apply M; now left).
    destruct (ConcMapModel.t_find keq k' m) as [v'|] eqn:F'; [|congruence]. apply (t_find_in keq keq_spec) in F'; [|apply R]. apply in_map_iff. exists (k', v'). auto.
  - apply (t_find_none hash keq keq_spec). destruct (ConcMapModel.t_find keq k m) eqn:F; [|reflexivity]. exfalso. assert (Q : ConcMapModel.t_find keq k m <> None) by congruence. apply M in Q. cbn in Q. intuition congruence.
  - apply put_low, perform_one in E3. change (map _ [k]) with [Put k (v k)] in E. rewrite E3 in E. injection E as _ <-. apply in_or_app. right. now left.
Qed.

(** Growing the table to twice its size keeps every mapping, whether the
    entries are moved at once or on later calls. *)
Theorem C104_growth n os (t : table) : reached n os t -> load_too_low t = false ->
  exists t', fast_double hash t = Done t' tt /\ hp t' = hp t + 1 /\ size t' = size t /\ same_content t t'.
Proof.
  intros [B (l & E)] LL. destruct (reached_rep hash keq simple nothrow keq_spec n os t l ltac:(lia) E) as (m & R & LN).
  destruct (fast_double_ok hash t (r_wf _ _ _ R) (r_shape _ _ _ R) (r_uniq _ _ _ R) LL) as (t2 & E2 & W2 & H2 & S2 & U2 & HO & CO).
  exists t2. split; [exact E2|]. split; [exact H2|]. split; [unfold size; fold (count t2) (count t); now rewrite CO|]. refine (same_answers hash keq simple keq_spec t t2 m R _).
  split; auto. - apply R. - intros k' v'. rewrite (r_in _ _ _ R). symmetry. now apply has_of_holds. - rewrite CO. apply R.
Qed.
(** Moving the entries of one lock's buckets out of the old array. *)
Theorem C104_migration n os (t : table) b : reached n os t -> 0 <= b < 2 ^ hp t -> exists t', lock_one hash b t = Done t' tt /\ hp t' = hp t /\ size t' = size t /\ same_content t t'.
Proof.
  intros [B (l & E)] RB. destruct (reached_rep hash keq simple nothrow keq_spec n os t l ltac:(lia) E) as (m & R & LN).
  destruct (lock_one_ok hash b t (r_wf _ _ _ R) RB) as (t' & E' & W' & S' & _). exists t'. split; [exact E'|]. split; [apply S'|]. split; [unfold size; now rewrite (s_counter _ _ _ S'), (s_locks _ _ _ S')|].
  refine (same_answers hash keq simple keq_spec t t' m R _). eapply rep_same; eassumption.
Qed.
(** Making room for a key by moving others: every mapping stays, and the slot
    returned is empty and in one of the two buckets. *)
Theorem C104_displacement n os (t : table) b1 b2 : reached n os t -> 0 <= b1 < 2 ^ hp t -> 0 <= b2 < 2 ^ hp t ->
  exists t' r, run_cuckoo hash 1 b1 b2 t = Done t' r /\ hp t' = hp t /\ size t' = size t /\ same_content t t' /\
    match r with Some (b, s) => (b = b1 \/ b = b2) /\ 0 <= s < 4 /\ cell t' b s = None | None => forall b s, b = b1 \/ b = b2 -> 0 <= s < 4 -> view hash t b s <> None end.
Proof.
  intros [B (l & E)] R1 R2. destruct (reached_rep hash keq simple nothrow keq_spec n os t l ltac:(lia) E) as (m & R & LN).
  destruct (run_cuckoo_ok hash 0 b1 b2 t (r_wf _ _ _ R) (r_shape _ _ _ R) (r_uniq _ _ _ R) R1 R2) as [(t' & E' & W' & S' & FU)|(t' & b & s & E' & W' & SH & BI & SR & FR & M1 & M2)].
  - exists t', None. split; [exact E'|]. split; [apply S'|]. split; [unfold size; now rewrite (s_counter _ _ _ S'), (s_locks _ _ _ S')|]. split; [refine (same_answers hash keq simple keq_spec t t' m R _); eapply rep_same; eassumption|].
    intros b s Q S. apply (FU 0%nat b ltac:(lia)); [|exact S]. apply reach_0. exact Q.
  - exists t', (Some (b, s)). split; [exact E'|]. split; [apply SH|]. split; [unfold size; now rewrite (h_counter _ _ _ SH), (h_locks _ _ _ SH)|]. split; [refine (same_answers hash keq simple keq_spec t t' m R _); eapply rep_shuffled; eassumption|].
    split; [assumption|]. split; [assumption|]. rewrite <- (view_cell hash); [assumption| |destruct BI; subst; assumption]. rewrite (h_hp _ _ _ SH). destruct BI; subst; assumption.
Qed.

(** Refuted: a map that has been cleared, walked, or grown while small cannot
    be copied: the copy reads through a null pointer. *)
Theorem C105_copy_refuted n os (t t' : table) a : reached n os t -> perform Clear t = Some (t', a) \/ perform All t = Some (t', a) \/ (2 ^ hp t < 65536 /\ fast_double hash t = Done t' tt) ->
  copy t' = Fails NullDeref.
Proof.
  intros [B (l & E)] Q. destruct (reached_rep hash keq simple nothrow keq_spec n os t l ltac:(lia) E) as (m & R & LN). unfold copy.
  destruct Q as [Q|[Q|[S Q]]].
  - cbn in Q. injection Q as <- _. reflexivity.
  - cbn [CuckooRunModel.perform] in Q. destruct (walk_ok hash t m R) as (t1 & l1 & E1 & _ & _ & O & _); [assert (2 ^ 63 < 2 ^ 64) by reflexivity; lia|]. rewrite E1 in Q. injection Q as <- _. now rewrite O.
  - unfold fast_double in Q. destruct (load_too_low t); [discriminate|]. destruct (rehash_all hash t) as [t1 []| | |]; try discriminate. cbn [rbind] in Q. unfold hashsize, kMaxNumLocks in Q. replace (2 ^ hp t <? 65536) with true in Q by lia.
    destruct (move_all _ _ _ _ _ _ _); [|discriminate]. injection Q as <-. reflexivity.
Qed.
(** Before that, a copy holds the same mappings. *)
Theorem C105_copy_partial n os (t : table) l : Z.of_nat (length os) < 2 ^ 63 -> perform_all os (@fresh K V n) = Some (t, l) -> ~ In Clear os -> ~ In All os -> ~ In Refused l -> hp t = hp (@fresh K V n) ->
  exists c, copy t = Done t c /\ same_content t c.
Proof.
  intros B E N1 N2 N3 H. destruct (reached_rep hash keq simple nothrow keq_spec n os t l B E) as (m & R & LN).
  assert (Q : Forall quiet os) by (apply Forall_forall; intros o I; destruct o; cbn; auto; contradiction).
  assert (O : old t = old (@fresh K V n)).
  { refine (perform_all_calm hash keq simple nothrow keq_spec os (fresh n) [] t l (rep_fresh hash n) _ _ Q E N3 H); [unfold zlen; cbn; lia|]. intros x. reflexivity. }
  exists t. unfold copy. rewrite O. split; [reflexivity|]. exact (same_answers hash keq simple keq_spec t t m R R).
Qed.
End Props.
Print Assumptions C102_map.
Print Assumptions C102_contract.
Print Assumptions C103_first_eight_partial.
Print Assumptions C103_refused_sparse_partial.
Print Assumptions C103_ninth_refuted.
Print Assumptions C103_nine_refuted.
Print Assumptions C104_growth.
Print Assumptions C104_migration.
Print Assumptions C104_displacement.
Print Assumptions C105_copy_refuted.
Print Assumptions C105_copy_partial.

(** The hash of a String key (String.hpp:1141-1143, 1316-1320) is that of its
    characters before the first NUL; its equality (String.hpp:1066-1068) sees
    all of them. So nine Strings that start with NUL cannot be put in one map,
    whatever std::hash is. *)
Theorem C103_strings_refuted {V} (std_hash : list Z -> Z) simple nothrow n (v : list Z -> V) : let ks := map (fun c => [0; c]) [65; 66; 67; 68; 69; 70; 71; 72; 73] in
  exists t l, CuckooRunModel.perform_all (fun s => std_hash (CppText.cstr s)) CppText.str_eqb simple nothrow (map (fun k => Put k (v k)) ks) (fresh n) = Some (t, l) /\ In Refused l.
Proof.
  intros ks. apply C103_nine_refuted; [apply TextLemmas.str_eqb_eq|reflexivity| |].
  - repeat (constructor; [cbn; intuition discriminate|]). constructor.
  - intros k k' A B. apply in_map_iff in A, B. destruct A as (c & <- & _), B as (c' & <- & _). reflexivity.
Qed.
Print Assumptions C103_strings_refuted.

(** Integer keys hashed to themselves; a small table that grows. *)
Definition ident (k : Z) : Z := uwrap 64 k.
Example C102_ex : match CuckooRunModel.perform_all ident Z.eqb true true [Put 5 50; Put 7 70; Get 5; Put 5 51; Del 7; Get 7; Get 5; Size; All] (fresh 4) with
  | Some (_, l) => l | None => [] end = [Stored true; Stored true; CuckooSpec.Found (Some 50); Stored false; Removed true; CuckooSpec.Found None; CuckooSpec.Found (Some 51); Count 1; Mappings [(5, 51)]].
Proof. vm_compute. reflexivity. Qed.
Example C102_ex_grows : match CuckooRunModel.perform_all ident Z.eqb true false (map (fun k => Put k (2 * k)) [1; 2; 3; 4; 5; 6; 7; 8; 9; 10; 11; 12] ++ [Get 3; Get 12; Get 13; Size]) (fresh 4) with
  | Some (t, l) => (hp t, skipn 12 l) | None => (0, []) end = (2, [CuckooSpec.Found (Some 6); CuckooSpec.Found (Some 24); CuckooSpec.Found None; Count 12]).
Proof. vm_compute. reflexivity. Qed.
(** Nine keys of one hash value. *)
Example C103_ex : match CuckooRunModel.perform_all (fun _ : Z => 77) Z.eqb true true (map (fun k => Put k k) [1; 2; 3; 4; 5; 6; 7; 8; 9]) (fresh 2048) with
  | Some (t, l) => l | None => [] end = repeat (Stored true) 8 ++ [Refused].
Proof. vm_compute. reflexivity. Qed.
Example C105_ex : match CuckooRunModel.perform_all ident Z.eqb true true [Put 1 1; Clear] (fresh 262144) with Some (t, _) => copy t = Fails NullDeref | None => False end.
Proof. vm_compute. reflexivity. Qed.
