(** One critical section of one thread (CuckooThreadsModel.v). *)

From Coq Require Import ZArith List Lia Bool.
From Verif Require Import Base Bits CuckooModel CuckooRunModel CuckooThreadsModel CuckooProofs1 CuckooProofs2 CuckooProofs3 CuckooProofs4 CuckooProofs5 CuckooProofs6 CuckooProofs7 CuckooProofs8 CuckooProofs9.
From Verif Require ConcMapModel.
From Verif Require Import CuckooSpec.
Import ListNotations.
Open Scope Z_scope.

Section Proofs.
Context {K V : Type} (hash : K -> Z) (keq : K -> K -> bool) (simple nothrow : bool).
Context (keq_spec : forall a b, keq a b = true <-> a = b).
Notation entry := (@entry K V). Notation table := (@table K V). Notation cells := (@cells K V).
Notation op := (@CuckooSpec.op K V). Notation ans := (@CuckooSpec.ans K V).
Notation I1 := (I1 hash). Notation I2 := (I2 hash). Notation view := (view hash).
Notation wf0 := (wf0 hash). Notation wf := (wf hash). Notation same := (same hash). Notation shape := (shape hash).
Notation pk k := (partial_key (hash k)). Notation rep := (rep hash).
Notation t_find := (ConcMapModel.t_find keq). Notation t_assign := (ConcMapModel.t_assign keq). Notation t_erase := (ConcMapModel.t_erase keq).
Notation section := (section hash keq simple nothrow). Notation pc := (@pc K V). Notation dict_of := (dict_of keq).

(** *** Rebuilding the table for any hashpower *)
Lemma expand_any_ok ins nh (t : table) m : rep t m ->
  (forall e n m', rep n m' -> zlen m' < zlen m -> ~ In (e_key e) (map fst m') ->
     (exists t', ins e n = Done t' tt /\ rep t' (kv e :: m')) \/ (exists t', ins e n = TooLow t')) ->
  (exists t', expand_simple hash ins nh t = Done t' tt /\ rep t' m) \/ (exists t', expand_simple hash ins nh t = TooLow t' /\ rep t' m).
Proof.
  intros R INS. unfold expand_simple. destruct (load_too_low t); [right; exists t; auto|]. assert (H : 0 <= hp t) by apply R. assert (P2 : 0 < 2 ^ hp t) by (apply Z.pow_pos_nonneg; lia).
  destruct (rehash_all_ok hash t (wf_0 _ _ (r_wf _ _ _ R))) as (t1 & E1 & W1 & S1 & A1 & O1). rewrite E1. cbn [rbind].
  assert (R1 := rep_same _ _ _ _ R W1 S1). assert (HP1 : hp t1 = hp t) by apply S1.
  destruct (rows_rep hash t1 m R1 A1) as (ND & IN & LN). rewrite HP1 in *. unfold hashsize. rewrite reinsert_list.
  assert (F : rep (@fresh K V (2 ^ nh * 4)) []) by apply rep_fresh.
  assert (INS' : forall e n m', rep n m' -> 0 <= hp n -> zlen m' < zlen m -> ~ In (e_key e) (map fst m') ->
     (exists t', ins e n = Done t' tt /\ rep t' (kv e :: m') /\ 0 <= hp t') \/ (exists t', ins e n = TooLow t')).
  { intros e n m' A B C D. destruct (INS e n m' A C D) as [(t' & E & R')|X]; [left; exists t'; split; [exact E|]; split; [exact R'|apply R']|right; exact X]. }
  destruct (put_list_ok hash ins 0 (zlen m) INS' (all_slots (cell t1) 0 (Z.to_nat (2 ^ hp t))) (fresh (2 ^ nh * 4)) [] F) as [(n1 & E & RN & HN)|(n1 & E)].
  - apply F.
  - rewrite slots_rows. unfold zlen in *. rewrite map_length in LN. cbn. lia.
  - rewrite slots_rows. rewrite map_map in ND. exact ND.
  - intros e _ [].
  - rewrite E. cbn [rbind]. rewrite slots_rows, app_nil_r in RN.
    destruct (rehash_all_ok hash n1 (wf_0 _ _ (r_wf _ _ _ RN))) as (n2 & E2 & W2 & S2 & A2 & O2). rewrite E2. cbn [rbind].
    assert (R2 := rep_same _ _ _ _ RN W2 S2). assert (HP2 : hp n2 = hp n1) by apply S2.
    left. eexists. split; [reflexivity|].
    destruct (resize_ok hash (hashsize (hp n2)) t1 W1 A1) as (Q1 & Q2 & Q3 & Q4 & Q5 & Q6 & Q7 & Q8). unfold hashsize in *. set (t2 := maybe_resize_locks (2 ^ hp n2) t1) in *.
    set (f := mkT _ _ _ _ _ _ _ _).
    assert (0 < nlocks t2). { destruct W1 as [[WH WL _] _]. rewrite HP1 in WL. lia. }
    assert (AF : settled f) by exact Q3.
    assert (WF0 : wf0 f) by (apply settled_wf0; cbn; [apply R2|lia|exact AF]).
    assert (VF : forall i s, view f i s = view n2 i s).
    { intros i s. destruct (Z.ltb_spec i 0); [|destruct (Z.ltb_spec i (2 ^ hp n2))].
      1,3: unfold CuckooProofs2.view; cbn [hp f]; replace ((0 <=? i) && (i <? 2 ^ hp n2)) with false by lia; reflexivity.
      rewrite !view_settled; auto. apply W2. }
    assert (WF : wf f). { split; [exact WF0|]. cbn. rewrite Q7. destruct W1 as [_ ->]. rewrite !settled_unmigrated; auto; [cbn; lia|]. destruct R1 as [[[]]]; lia. }
    split; auto.
    + eapply shape_ext; [exact VF|]. cbn. apply R2. + eapply uniq_ext; [exact VF|]. apply R2. + apply R.
    + intros k v. rewrite (has_ext _ _ k v VF), <- (r_in _ _ _ R2), <- in_rev. symmetry. apply IN.
    + change (count f) with (count t2). rewrite Q4. apply R1.
  - right. rewrite E. cbn [rbind]. exists t1. auto.
Qed.

(** *** The queue of a search *)
Definition qnode (h : Z) (x : b_slot) : Prop := exists r ss, (r = 0 \/ r = 1) /\ b_depth x = Z.of_nat (length ss) /\ ok_slots ss /\ b_code x = code r ss /\ 0 <= b_bucket x < 2 ^ h.
Record queued (h : Z) (qa qb : list b_slot) (k : nat) (last : Z) : Prop := {
  u_node : Forall (qnode h) (qa ++ qb);
  u_a : Forall (fun x => b_depth x = Z.of_nat k) qa;
  u_b : Forall (fun x => b_depth x = Z.of_nat k + 1) qb;
  u_k : (k <= 4)%nat; u_4 : k = 4%nat -> qb = [];
  u_last : (k < 4)%nat -> last = total (S k) - 4 * zlen qa;
  u_len : zlen qb = last - total k }.
Definition ok_queue (h : Z) (q : list b_slot) (last : Z) : Prop := exists qa qb k, q = qa ++ qb /\ queued h qa qb k last.
Lemma queued_shift h qb k last : queued h [] qb k last -> qb <> [] -> queued h qb [] (S k) last.
Proof.
  intros [N A B KK K4 LA LE] NE. assert (k < 4)%nat by (destruct (Nat.eq_dec k 4); [exfalso; auto|lia]). specialize (LA ltac:(assumption)). cbn [zlen length] in LA.
  split.
  - now rewrite app_nil_r.
  - eapply Forall_impl; [|exact B]. intros; cbv beta in *. lia.
  - constructor.
  - lia.
  - reflexivity.
  - intros _. rewrite LA in LE. unfold zlen in *. cbn [length] in *. rewrite LE, LA. cbn [total]. rewrite (Nat2Z.inj_succ (S k)), Z.pow_succ_r by lia. lia.
  - unfold zlen in *. cbn [length] in *. lia.
Qed.
Lemma qnode_code h x : qnode h x -> b_depth x <= 4 -> forall s, 0 <= s < 4 -> uwrap 16 (b_code x * 4 + s) = b_code x * 4 + s.
Proof.
  intros (r & ss & R & D & F & E & _) L s S. pose proof (code_bound ss F r ltac:(lia)) as B. rewrite <- E in B.
  assert (4 ^ Z.of_nat (length ss) <= 4 ^ 4) by (apply Z.pow_le_mono_r; lia). change (4 ^ 4) with 256 in *.
  unfold uwrap. change (2 ^ 16) with 65536. apply Z.mod_small. lia.
Qed.
Lemma qnode_child h x s (e : entry) : 0 <= h -> qnode h x -> b_depth x < 4 -> 0 <= s < 4 -> qnode h (child h x s e).
Proof.
  intros H N L S. pose proof (qnode_code h x N ltac:(lia) s S) as W. destruct N as (r & ss & R & D & F & Cd & Wk).
  exists r, (ss ++ [s]). unfold child. cbn [b_depth b_code b_bucket]. rewrite W, app_length, code_snoc, <- Cd. split; [assumption|]. split; [cbn; lia|]. split; [apply Forall_app; split; [assumption|constructor; auto]|].
  split; [reflexivity|]. now apply alt_range.
Qed.
Lemma queue_start h k : 0 <= h -> ok_queue h [mkB (I1 h k) 0 0; mkB (I2 h k) 1 0] 2.
Proof.
  intros H. exists [mkB (I1 h k) 0 0; mkB (I2 h k) 1 0], [], 0%nat. split; [reflexivity|].
  assert (N1 : qnode h (mkB (I1 h k) 0 0)) by (exists 0, []; split; [auto|]; split; [reflexivity|]; split; [constructor|]; split; [reflexivity|]; now apply I1_range).
  assert (N2 : qnode h (mkB (I2 h k) 1 0)) by (exists 1, []; split; [auto|]; split; [reflexivity|]; split; [constructor|]; split; [reflexivity|]; now apply I2_range).
  split; cbn [app]; auto; lia.
Qed.
(** One bucket scanned, whatever is in it. *)
Lemma scan_queue h x q last (row : Z -> option entry) : 0 <= h -> ok_queue h (x :: q) last ->
  match scan h row x 0 slots q last with
  | CuckooModel.Found y => exists r ss s, (r = 0 \/ r = 1) /\ ok_slots (ss ++ [s]) /\ b_depth y = Z.of_nat (length ss) /\ b_code y = code r (ss ++ [s])
  | Queued q2 last2 => ok_queue h q2 last2
  | Overfull => False
  end.
Proof.
  intros H OK. assert (FRONT : exists qa qb k, x :: q = (x :: qa) ++ qb /\ queued h (x :: qa) qb k last).
  { destruct OK as (qa & qb & k & E & Q). destruct qa as [|x' qa]; [|cbn [app] in E; injection E as <- E; exists qa, qb, k; cbn; rewrite E; auto].
    cbn [app] in E. subst qb. exists q, [], (S k). rewrite app_nil_r. split; [reflexivity|]. apply queued_shift; [assumption|discriminate]. }
  clear OK. destruct FRONT as (qa & qb & k & E & Q). cbn [app] in E. injection E as ->.
  destruct Q as [N A B KK K4 LA LE]. cbn [app] in N. inversion N as [|? ? NX N']; subst. inversion A as [|? ? DX A']; subst.
  pose proof (scan_spec h row x slots 0 (qa ++ qb) last) as SC. destruct (scan h row x 0 slots (qa ++ qb) last) as [y|q2 last2|].
  - destruct SC as (s & S & RN & ->). pose proof (qnode_code h x NX ltac:(lia) s S) as WC. destruct NX as (r & ss & R & D & F & Cd & Wk).
    exists r, ss, s. cbn. rewrite WC, code_snoc, <- Cd. split; [assumption|]. split; [apply Forall_app; split; [assumption|constructor; auto]|]. auto.
  - destruct SC as (F & ch & -> & -> & C1 & C2 & C3). exists qa, (qb ++ ch), k. split; [symmetry; apply app_assoc|]. assert (CASES : (k < 4)%nat \/ k = 4%nat) by lia. split.
    + rewrite app_assoc. apply Forall_app. split; [assumption|]. apply Forall_forall. intros y Y. destruct (C3 y Y) as (s & e & S & RS & ->).
      apply qnode_child; try assumption. destruct CASES; [lia|]. exfalso. rewrite C2 in Y by lia. destruct Y.
    + assumption.
    + apply Forall_app. split; [assumption|]. apply Forall_forall. intros y Y. destruct (C3 y Y) as (s & e & S & RS & ->). cbn. lia.
    + assumption.
    + intros ->. rewrite K4 by reflexivity. rewrite C2 by lia. reflexivity.
    + intros KL. specialize (LA KL). destruct (C1 ltac:(lia)) as [LC _]. unfold slots in LC. unfold zlen in *. rewrite LC. cbn [length] in LA. lia.
    + rewrite zlen_app. lia.
  - destruct SC as [SD SC]. unfold slots, MAX_CUCKOO_COUNT in SC. assert (KL : (k < 4)%nat) by lia. specialize (LA KL).
    assert (total (S k) <= 682) by (destruct k as [|[|[|[|k]]]]; [| | | |lia]; vm_compute; discriminate). unfold zlen in *. cbn [length] in LA. lia.
Qed.

(** *** What a thread remembers between sections *)
(** The records of a path lead back to a bucket of the key. *)
Fixpoint back (h : Z) (k : K) (b : Z) (acc : list crecord) : Prop :=
  match acc with
  | [] => b = I1 h k \/ b = I2 h k
  | r :: acc' => b = alt_index h (partial_key (r_hash r)) (r_bucket r) /\ 0 <= r_slot r < 4 /\ 0 <= r_bucket r < 2 ^ h /\ back h k (r_bucket r) acc'
  end.
Lemma back_range h k b acc : 0 <= h -> back h k b acc -> 0 <= b < 2 ^ h.
Proof. intros H. destruct acc as [|r acc]; cbn; [apply I_range; assumption|]. intros (-> & _). now apply alt_range. Qed.
(** The calls that are made under locks. *)
Definition locked_op (o : op) : Prop := match o with Get _ | Put _ _ | Del _ | All => True | _ => False end.
Definition ok_pc (p : pc) : Prop :=
  match p with
  | Idle | Reply _ => True
  | Start o => locked_op o
  | Try o h => 0 <= h /\ match o with Get _ | Put _ _ | Del _ => True | _ => False end
  | Search k v h q last => 0 <= h /\ ok_queue h q last
  | Follow k v h b ss acc => 0 <= h /\ ok_slots ss /\ ss <> [] /\ back h k b acc
  | Move k v h to before => 0 <= h /\ 0 <= r_slot to < 4 /\ back h k (r_bucket to) before
  | Grow k v h => True
  | Sum _ _ | Wipe | Zero => False
  end.
(** The call a thread is in. *)
Definition doing (p : pc) : option op :=
  match p with
  | Start o | Try o _ => Some o
  | Search k v _ _ _ | Follow k v _ _ _ _ | Move k v _ _ _ | Grow k v _ => Some (Put k v)
  | _ => None
  end.
(** It has seen that the key is absent. *)
Definition seen (p : pc) : bool := match p with Search _ _ _ _ _ | Follow _ _ _ _ _ _ | Move _ _ _ _ _ | Grow _ _ _ => true | _ => false end.

Definition outcome (o : op) (p : pc) (m : list (K * V)) (p' : pc) (m' : list (K * V)) : Prop :=
  (doing p' = Some o /\ m' = m /\ (seen p' = true -> seen p = true \/ exists k v, o = Put k v /\ t_find k m = None)) \/
  (exists a, p' = Reply a /\ legal o (dict_of m) a (dict_of m')) \/
  (seen p = true /\ p' = Reply Refused /\ m' = m).
Definition goes (o : op) (p : pc) (t : table) (m : list (K * V)) : Prop :=
  exists t' p' m', section p t = Done t' p' /\ rep t' m' /\ zlen m' <= zlen m + 1 /\ ok_pc p' /\ outcome o p m p' m'.

Lemma keq_neq a b : keq a b = false <-> a <> b.
Proof. split; [intros E Q; apply keq_spec in Q; congruence|]. intros N. destruct (keq a b) eqn:E; [apply keq_spec in E; contradiction|reflexivity]. Qed.
Lemma legal_put k v (m : list (K * V)) : legal (Put k v) (dict_of m) (Stored (match t_find k m with None => true | Some _ => false end)) (dict_of (t_assign k v m)).
Proof.
  cbn. unfold CuckooProofs9.dict_of, agree_but. rewrite (find_assign keq keq_spec), (proj2 (keq_spec k k) eq_refl). split; [reflexivity|]. split.
  - intros k' N. rewrite (find_assign keq keq_spec), (proj2 (keq_neq k k')) by auto. reflexivity.
  - destruct (t_find k m); split; congruence.
Qed.
Lemma legal_del k (m : list (K * V)) : legal (Del k) (dict_of m) (Removed (match t_find k m with None => false | Some _ => true end)) (dict_of (t_erase k m)).
Proof.
  cbn. unfold CuckooProofs9.dict_of, agree_but. rewrite (find_erase keq keq_spec), (proj2 (keq_spec k k) eq_refl). split; [reflexivity|]. split.
  - intros k' N. rewrite (find_erase keq keq_spec), (proj2 (keq_neq k k')) by auto. reflexivity.
  - destruct (t_find k m); split; congruence.
Qed.
Lemma finish_ok k v st (t : table) m : rep t m -> final hash t k st ->
  exists t', finish hash k v st t = Done t' (Reply (Stored (match t_find k m with None => true | Some _ => false end))) /\ rep t' (t_assign k v m).
Proof.
  intros R F. destruct st as [i s|i s|]; [| |contradiction]; cbn [finish].
  - destruct (add_to_bucket_ok hash t m i s k v R F) as (t2 & E2 & R2 & H2). rewrite E2. cbn [rbind].
    assert (N : t_find k m = None) by (apply (t_find_none hash keq keq_spec), (rep_absent hash t m k R); apply F).
    unfold ConcMapModel.t_assign. rewrite N. exists t2. auto.
  - destruct F as (e & RI & C & VE & Q & M). rewrite C. rewrite <- Q.
    assert (N : t_find (e_key e) m = Some (e_val e)) by (apply (t_find_in keq keq_spec); [apply R|]; apply (r_in _ _ _ R); exists e; split; [exists i, s; exact VE|auto]).
    rewrite N. eexists. split; [reflexivity|]. now apply (rep_put hash keq keq_spec).
Qed.
(** Both buckets of the key tried. *)
Lemma try_both_ok k (t : table) m : rep t m -> migrated t (lock_ind (I1 (hp t) k)) = true -> migrated t (lock_ind (I2 (hp t) k)) = true ->
  match try_both hash keq simple k (I1 (hp t) k) (I2 (hp t) k) t with
  | Some st => final hash t k st
  | None => t_find k m = None
  end.
Proof.
  intros R M1 M2. assert (H : 0 <= hp t) by apply R. unfold try_both. cbv zeta. set (i1 := I1 (hp t) k) in *. set (i2 := I2 (hp t) k) in *.
  assert (R1 : 0 <= i1 < 2 ^ hp t) by now apply I1_range. assert (R2 : 0 <= i2 < 2 ^ hp t) by now apply I2_range. assert (S := r_shape _ _ _ R).
  assert (VC1 : forall s, view t i1 s = cell t i1 s) by (intros; now apply view_cell).
  assert (VC2 : forall s, view t i2 s = cell t i2 s) by (intros; now apply view_cell).
  assert (P1 : forall x e, cell t i1 x = Some e -> e_part e = pk (e_key e)) by (intros x e E; rewrite <- VC1 in E; exact (shape_part hash _ _ _ S _ _ E)).
  assert (P2 : forall x e, cell t i2 x = Some e -> e_part e = pk (e_key e)) by (intros x e E; rewrite <- VC2 in E; exact (shape_part hash _ _ _ S _ _ E)).
  destruct (try_insert_spec hash keq simple keq_spec (cell t i1) k P1 slots 0 (-1)) as [(r & e & E & L & B & Q)|(s1 & E & N1 & F1)]; rewrite E; cbn [negb].
  { cbn. exists e. rewrite VC1. auto. }
  destruct (try_insert_spec hash keq simple keq_spec (cell t i2) k P2 slots 0 (-1)) as [(r & e & E' & L & B & Q)|(s2 & E' & N2 & F2)]; rewrite E'; cbn [negb].
  { cbn. exists e. rewrite VC2. auto. }
  assert (AB : absent (view t) k).
  { intros i s e X Q. destruct (S _ _ _ X) as (_ & RS & _ & [->| ->]); rewrite Q in X.
    - fold i1 in X. rewrite VC1 in X. exact (N1 s e ltac:(unfold slots; lia) X Q). - fold i2 in X. rewrite VC2 in X. exact (N2 s e ltac:(unfold slots; lia) X Q). }
  unfold slots in *. destruct (Z.eqb_spec s1 (-1)); cbn [negb].
  2: { destruct F1 as [[? _]|[F1 FN]]; [lia|]. cbn. rewrite VC1. fold i1. repeat split; auto; lia. }
  destruct (Z.eqb_spec s2 (-1)); cbn [negb].
  2: { destruct F2 as [[? _]|[F2 FN]]; [lia|]. cbn. rewrite VC2. fold i1 i2. repeat split; auto; lia. }
  apply (t_find_none hash keq keq_spec), (rep_absent hash t m k R), AB.
Qed.
(** The free slot found for the key. *)
Lemma place_ok k v b s (t : table) m : rep t m -> migrated t (lock_ind (I1 (hp t) k)) = true -> migrated t (lock_ind (I2 (hp t) k)) = true ->
  b = I1 (hp t) k \/ b = I2 (hp t) k -> 0 <= s < 4 -> cell t b s = None ->
  exists t', CuckooThreadsModel.place hash keq simple k v (hp t) b s t = Done t' (Reply (Stored (match t_find k m with None => true | Some _ => false end))) /\ rep t' (t_assign k v m).
Proof.
  intros R M1 M2 B S C. assert (H : 0 <= hp t) by apply R. unfold CuckooThreadsModel.place. fold (I1 (hp t) k). change (bucket2 hash (hp t) k) with (I2 (hp t) k). change (bucket1 hash (hp t) k) with (I1 (hp t) k).
  replace (negb ((b =? I1 (hp t) k) || (b =? I2 (hp t) k))) with false by (destruct B; subst b; rewrite Z.eqb_refl, ?orb_true_r; reflexivity). rewrite C.
  pose proof (cuckoo_find_spec hash keq simple keq_spec t k H (r_shape _ _ _ R) M1 M2) as CF.
  destruct (cuckoo_find keq simple t k (pk k) (I1 (hp t) k) (I2 (hp t) k)) as [[i s']|].
  - destruct CF as (e & Q & RS & C' & VE & KE). apply finish_ok; [assumption|]. cbn. exists e. split; [eapply I_range; eassumption|]. split; [assumption|]. split; [assumption|]. split; [assumption|].
    destruct Q; subst i; assumption.
  - apply finish_ok; [assumption|]. cbn. split; [assumption|]. split; [assumption|]. split; [assumption|]. split; [rewrite view_cell; [assumption|eapply I_range; eassumption|destruct B; subst b; assumption]|].
    split; [destruct B; subst b; assumption|]. exact CF.
Qed.
End Proofs.
