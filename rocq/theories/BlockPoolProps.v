(** C115: the pool of blocks of a concurrent queue. *)
From Coq Require Import ZArith List Bool Lia Permutation.
From Verif Require Import Base BlockPoolModel BlockPoolSpec BlockPoolProofs BlockPoolProofs2.
Import ListNotations.
Open Scope Z_scope.

Lemma access_events size threads s c s' e : access size threads s c = Some (s', e) -> e = [] \/ exists x, e = [x].
Proof.
  intros E. destruct c; cbn [access] in E;
    repeat match type of E with
           | match ?x with _ => _ end = _ => destruct x; try discriminate
           | (if ?x then _ else _) = _ => destruct x; try discriminate
           | (let _ := _ in _) = _ => cbv zeta in E
           end; injection E as <- <-; eauto.
Qed.

(** The moment of an event *)
Lemma moment size threads s h : run size threads s h -> forall h1 x h2, h = h1 ++ x :: h2 ->
  exists s1 c s2, run size threads s1 h1 /\ step size threads s1 c = Some (s2, [x]) /\ run size threads s2 (h1 ++ [x]).
Proof.
  induction 1 as [|s h c s' e R IH E]; intros h1 x h2 Q; [destruct h1; discriminate|].
  pose proof E as E0. unfold step in E. destruct (access size threads s c) as [[s1 e1]|] eqn:A; [|discriminate]. injection E as <- <-.
  destruct (access_events _ _ _ _ _ _ A) as [->|(y & ->)].
  - rewrite app_nil_r in Q. apply (IH h1 x h2 Q).
  - destruct h2 as [|z h2 _] using rev_ind.
    + apply app_inj_tail in Q as [-> ->]. exists s, c, (notice s1).
      split; [exact R|]. split; [exact E0|]. exact (run_step _ _ _ _ _ _ _ R E0).
    + rewrite app_comm_cons, app_assoc in Q. apply app_inj_tail in Q as [-> ->]. apply (IH h1 x h2 eq_refl).
Qed.

Section Props.
Variables (size : Z) (threads : nat).
Hypothesis sizes : 0 <= size.
Hypothesis fits : size + Z.of_nat threads < 2 ^ 64.
Notation run := (run size threads).
Notation step := (step size threads).
Notation RI := (run_inv size threads sizes fits).

Lemma use_01 s h b : run s h -> in_use h b = 0 \/ in_use h b = 1.
Proof.
  intros R. destruct (RI _ _ R) as [IB _ _]. destruct (i_use _ _ _ _ _ _ IB b) as [U1 U2].
  destruct (in_dec Z.eq_dec b (out s)); [right|left]; auto.
Qed.

Theorem C115_exclusive s h1 t b h2 : run s (h1 ++ Took t b :: h2) -> in_use h1 b = 0.
Proof.
  intros R. destruct (moment _ _ _ _ R h1 (Took t b) h2 eq_refl) as (s1 & c & s2 & R1 & _ & R2).
  destruct (use_01 _ _ b R1) as [U|U]; [exact U|].
  destruct (use_01 _ _ b R2) as [V|V]; rewrite in_use_app, U in V; cbn [in_use] in V; rewrite Z.eqb_refl in V; lia.
Qed.

Theorem C115_array_first s h1 t b h2 b' : run s (h1 ++ Took t b :: h2) -> size <= b -> 0 <= b' < size ->
  exists t', In (Took t' b') h1.
Proof.
  intros R B B'. destruct (moment _ _ _ _ R h1 (Took t b) h2 eq_refl) as (s1 & c & s2 & R1 & _ & R2).
  destruct (RI _ _ R2) as [IB _ _].
  assert (I : In b (spare s2 ++ out s2)).
  { apply (i_took _ _ _ _ _ _ IB). exists t. apply in_or_app. right. left. reflexivity. }
  apply (i_all _ _ _ _ _ _ IB) in I.
  destruct (i_made _ _ _ _ _ _ IB) as [M1 M2].
  assert (I' : In b' (spare s2 ++ out s2)) by (apply (i_all _ _ _ _ _ _ IB); lia).
  apply (i_took _ _ _ _ _ _ IB) in I' as (t' & I'). exists t'.
  apply in_app_or in I' as [I'|[Q|[]]]; [exact I'|]. exfalso. injection Q as _ Q. lia.
Qed.

Theorem C115_valid_block s h t b : run s h -> In (Took t b) h ->
  0 <= b < size \/ size <= b < size + made s.
Proof.
  intros R I. destruct (RI _ _ R) as [IB _ _].
  assert (J : In b (spare s ++ out s)) by (apply (i_took _ _ _ _ _ _ IB); exists t; exact I).
  apply (i_all _ _ _ _ _ _ IB) in J. lia.
Qed.

Theorem C115_economical s h d l : run s h -> demand_within h d ->
  NoDup l -> (forall b, In b l -> exists t, In (Took t b) h) -> Z.of_nat (length l) <= Z.max size d.
Proof.
  intros R W N T. destruct (RI _ _ R) as [IB _ IC]. pose proof (i_peak _ _ _ _ _ IC d W) as P.
  destruct (i_made _ _ _ _ _ _ IB) as [M1 M2].
  assert (L : (length l <= length (map Z.of_nat (seq 0 (Z.to_nat (size + made s)))))%nat).
  { apply NoDup_incl_length; [exact N|]. intros b I. apply zseq_in. destruct (T b I) as (t & J).
    pose proof (C115_valid_block _ _ _ _ R J). lia. }
  rewrite map_length, seq_length in L. unfold zl in P. lia.
Qed.

Lemma step_since s h c s' t b : run s h -> step s c = Some (s', [Took t b]) -> size <= b ->
  ~ (exists t', In (Took t' b) h) -> none_free_during_call size t h.
Proof.
  intros R E B F. destruct (RI _ _ R) as [IB IN IC]. unfold BlockPoolModel.step in E.
  destruct (access size threads s c) as [[s1 e1]|] eqn:A; [|discriminate]. injection E as <- ->.
  destruct c as [t0 m|t0 v|t0|t0 b0|t0|t0 ok|b0]; cbn [access] in A;
    repeat match type of A with
           | (match call_of ?t ?l with _ => _ end) = _ => destruct (call_of t l) as [[w m []]|] eqn:C; try discriminate
           | (match take ?t ?l with _ => _ end) = _ => destruct (take t l) eqn:K; try discriminate
           | (if ?x then _ else _) = _ => destruct x eqn:?; try discriminate
           | (let _ := _ in _) = _ => cbv zeta in A
           end; injection A as Q1 Q2; try discriminate.
  - subst. apply Z.ltb_lt in Heqb0. lia.
  - subst. exfalso. apply F. apply (i_took _ _ _ _ _ _ IB). apply in_or_app. left. rewrite (take_perm _ _ _ K). left. reflexivity.
  - subst. destruct (call_of_in _ _ _ C) as [I1 I2]. cbn [who] in I2. subst w.
    exact (i_since _ _ _ _ _ IC _ I1 eq_refl).
Qed.

Theorem C115_new_only_if_none_free s h1 t b h2 : run s (h1 ++ Took t b :: h2) -> size <= b ->
  ~ (exists t', In (Took t' b) h1) -> none_free_during_call size t h1.
Proof.
  intros R B F. destruct (moment _ _ _ _ R h1 (Took t b) h2 eq_refl) as (s1 & c & s2 & R1 & E & _).
  exact (step_since _ _ _ _ _ _ R1 E B F).
Qed.

Theorem C115_refused_only_if_none_free s h1 t h2 : run s (h1 ++ Refused t :: h2) -> none_free_during_call size t h1.
Proof.
  intros R. destruct (moment _ _ _ _ R h1 (Refused t) h2 eq_refl) as (s1 & c & s2 & R1 & E & _).
  destruct (RI _ _ R1) as [IB IN IC]. unfold BlockPoolModel.step in E.
  destruct (access size threads s1 c) as [[s3 e1]|] eqn:A; [|discriminate]. injection E as <- ->.
  destruct c as [t0 m|t0 v|t0|t0 b0|t0|t0 ok|b0]; cbn [access] in A;
    repeat match type of A with
           | (match call_of ?t ?l with _ => _ end) = _ => destruct (call_of t l) as [[w m [| |[]|]]|] eqn:C; try discriminate
           | (match take ?t ?l with _ => _ end) = _ => destruct (take t l) eqn:K; try discriminate
           | (if ?x then _ else _) = _ => destruct x eqn:?; try discriminate
           | (let _ := _ in _) = _ => cbv zeta in A
           end; injection A as Q1 Q2; try discriminate; subst;
    destruct (call_of_in _ _ _ C) as [I1 I2]; cbn [who] in I2; subst w;
    exact (i_since _ _ _ _ _ IC _ I1 eq_refl).
Qed.

(** A caller that may allocate is refused only when malloc fails *)
Theorem C115_refused_only_by_failure s h c s' t : run s h -> step s c = Some (s', [Refused t]) ->
  c = Make t false \/ exists p, In (mkCall t false p) (calls s).
Proof.
  intros R E. unfold BlockPoolModel.step in E.
  destruct (access size threads s c) as [[s3 e1]|] eqn:A; [|discriminate]. injection E as <- ->.
  destruct c as [t0 m|t0 v|t0|t0 b0|t0|t0 ok|b0]; cbn [access] in A;
    repeat match type of A with
           | (match call_of ?t ?l with _ => _ end) = _ => destruct (call_of t l) as [[w m [| |[]|]]|] eqn:C; try discriminate
           | (match take ?t ?l with _ => _ end) = _ => destruct (take t l) eqn:K; try discriminate
           | (if ?x then _ else _) = _ => destruct x eqn:?; try discriminate
           | (let _ := _ in _) = _ => cbv zeta in A
           end; injection A as Q1 Q2; try discriminate; subst;
    destruct (call_of_in _ _ _ C) as [I1 I2]; cbn [who] in I2; subst w.
  - right. eexists. exact I1.
  - left. reflexivity.
Qed.

(** The counter of the array never wraps around *)
Theorem C115_counter s h : run s h -> 0 <= next s <= size + Z.of_nat threads /\ stored (next s) = next s.
Proof.
  intros R. destruct (RI _ _ R) as [_ IN _]. destruct (i_next _ _ _ _ _ IN) as [A B].
  pose proof (beyond_le size threads (seen s)). split; [lia|].
  exact (stored_id size threads fits _ _ _ (next s) IN ltac:(lia)).
Qed.

(** ** Progress *)
Definition of_call (c : choice) : option nat :=
  match c with
  | Load t _ => Some t | Advance t => Some t | Pop t _ => Some t | Miss t => Some t | Make t _ => Some t
  | Begin _ _ => None | Give _ => None
  end.
(** The accesses a call still has to make, at most *)
Definition rank (s : pool) (t : nat) : nat :=
  match call_of t (calls s) with
  | Some c => match place_of c with AtLoad => 4 | AtAdd => 3 | AtList _ => 2 | AtNew => 1 end
  | None => 0
  end.

Lemma call_of_drop t l : call_of t (drop_call t l) = None.
Proof.
  destruct (call_of t (drop_call t l)) as [c|] eqn:C; [|reflexivity].
  destruct (call_of_in _ _ _ C) as [I J]. apply drop_in in I. tauto.
Qed.
Lemma call_of_drop' t t' l : t <> t' -> call_of t (drop_call t' l) = call_of t l.
Proof.
  intros D. induction l as [|c l IH]; [reflexivity|]. unfold drop_call in *. cbn [filter call_of].
  destruct (Nat.eqb_spec (who c) t') as [->|E]; cbn [negb].
  - destruct (Nat.eqb_spec t' t); [congruence|exact IH].
  - cbn [call_of]. destruct (Nat.eqb (who c) t); [reflexivity|exact IH].
Qed.
Lemma rank_notice s t : rank (notice s) t = rank s t.
Proof.
  unfold rank, notice. destruct (none_left (spare s)); [|reflexivity]. cbn [calls].
  induction (calls s) as [|c l IH]; [reflexivity|]. cbn [map call_of who].
  destruct (Nat.eqb (who c) t); [|exact IH]. cbn [place_of]. destruct (place_of c); reflexivity.
Qed.

Theorem C115_call_bounded s c s' e t : step s c = Some (s', e) ->
  (of_call c = Some t -> (rank s' t < rank s t)%nat) /\
  (of_call c <> Some t -> call_of t (calls s) <> None -> rank s' t = rank s t).
Proof.
  intros E. unfold BlockPoolModel.step in E.
  destruct (access size threads s c) as [[s3 e1]|] eqn:A; [|discriminate]. injection E as <- _.
  rewrite rank_notice.
  destruct c as [t0 m|t0 v|t0|t0 b0|t0|t0 ok|b0]; cbn [access] in A;
    repeat match type of A with
           | (match call_of ?t ?l with _ => _ end) = _ => destruct (call_of t l) as [[w m' [| |[]|]]|] eqn:C; try discriminate
           | (match take ?t ?l with _ => _ end) = _ => destruct (take t l) eqn:K; try discriminate
           | (if ?x then _ else _) = _ => destruct x eqn:?; try discriminate
           | (let _ := _ in _) = _ => cbv zeta in A
           end; injection A as <- <-; cbn [of_call];
    (split; [intros Q; first [discriminate|injection Q as <-]|intros Q NN]);
    unfold rank, move; cbn [calls call_of who];
    try (destruct (call_of_in _ _ _ C) as [_ I2]; cbn [who] in I2; subst w; try rewrite Nat.eqb_refl; rewrite ?call_of_drop, ?C; cbn [place_of];
         try match goal with |- context [if ?x then AtList false else AtAdd] => destruct x end; lia).
  all: try reflexivity.
  all: try (destruct (call_of_in _ _ _ C) as [_ I2]; cbn [who] in I2; subst w).
  all: try (destruct (Nat.eqb_spec t0 t) as [->|D]; [congruence|]).
  all: try (rewrite call_of_drop' by congruence; reflexivity).
  all: reflexivity.
Qed.

Lemma marked s h : run s h -> spare s = [] -> forall c, In c (calls s) -> place_of c <> AtList false.
Proof.
  intros R. destruct R as [|s h c s' e R E]; [intros _ c []|].
  unfold BlockPoolModel.step in E. destruct (access size threads s c) as [[s3 e1]|] eqn:A; [|discriminate]. injection E as <- _.
  unfold notice. destruct (spare s3) as [|x l] eqn:S; cbn [none_left spare calls].
  - intros _ d I. apply in_map_iff in I as (f & <- & _). cbn [place_of]. destruct (place_of f); discriminate.
  - rewrite S. discriminate.
Qed.

Theorem C115_never_blocks s h t : run s h -> call_of t (calls s) <> None ->
  exists c s' e, of_call c = Some t /\ step s c = Some (s', e).
Proof.
  intros R C. destruct (call_of t (calls s)) as [[w m p]|] eqn:CO; [|congruence]. clear C.
  destruct (call_of_in _ _ _ CO) as [I1 I2]. cbn [who] in I2. subst w.
  destruct (RI _ _ R) as [_ IN _].
  unfold BlockPoolModel.step. destruct p as [| |em|].
  - exists (Load t (next s)). cbn [access]. rewrite CO.
    destruct (i_seen _ _ _ _ _ IN t) as [_ S]. rewrite (proj2 (Z.leb_le _ _) S), Z.leb_refl. cbn [andb]. eauto.
  - exists (Advance t). cbn [access]. rewrite CO. cbv zeta. destruct (stored (next s) <? size); eauto.
  - destruct (spare s) as [|b l] eqn:SP.
    + pose proof (marked _ _ R SP _ I1) as M. cbn [place_of] in M. destruct em; [|congruence].
      exists (Miss t). cbn [access]. rewrite CO. destruct m; eauto.
    + exists (Pop t b). cbn [access]. rewrite CO, SP. cbn [take]. rewrite Z.eqb_refl. eauto.
  - exists (Make t true). cbn [access]. rewrite CO. eauto.
Qed.

(** ** The end *)
Lemma end_list_in l b : In b (end_list size l) <-> In b l /\ size <= b.
Proof.
  induction l as [|x l IH]; [cbn; tauto|]. cbn [end_list In]. unfold dynamic.
  destruct (Z.leb_spec size x) as [L|L]; cbn [In]; rewrite IH; intuition (subst; lia || auto).
Qed.
Lemma end_list_nodup l : NoDup l -> NoDup (end_list size l).
Proof.
  induction 1 as [|x l N D IH]; [constructor|]. cbn [end_list]. destruct (dynamic size x); [|exact IH].
  constructor; [|exact IH]. intros I. apply end_list_in in I. tauto.
Qed.
Lemma end_array_in k b : In b (end_array k) <-> 0 <= b < Z.of_nat k.
Proof. induction k as [|k IH]; [cbn; lia|]. cbn [end_array In]. rewrite IH. lia. Qed.
Lemma end_array_nodup k : NoDup (end_array k).
Proof. induction k as [|k IH]; [constructor|]. cbn [end_array]. constructor; [rewrite end_array_in; lia|exact IH]. Qed.

Theorem C115_ended_once s h : run s h ->
  NoDup (end_pool size s) /\
  forall b, In b (end_pool size s) <-> 0 <= b < size \/ (exists t, In (Took t b) h) /\ in_use h b = 0.
Proof.
  intros R. destruct (RI _ _ R) as [IB _ _]. pose proof (i_nodup _ _ _ _ _ _ IB) as N.
  pose proof (i_all _ _ _ _ _ _ IB) as AL.
  assert (ND : NoDup (spare s) /\ forall b, In b (spare s) -> ~ In b (out s)).
  { clear - N. induction (spare s) as [|x l IH]; [split; [constructor|intros ? []]|].
    cbn [app] in N. inversion N as [|? ? N1 N2]; subst. destruct (IH N2) as [A B]. rewrite in_app_iff in N1. split.
    - constructor; tauto.
    - intros b [<-|I]; [tauto|apply B; exact I]. }
  destruct ND as [ND DJ]. split.
  - unfold end_pool. pose proof (end_list_nodup _ ND) as N1.
    assert (DI : forall b, In b (end_list size (spare s)) -> ~ In b (end_array (Z.to_nat size))).
    { intros b I J. apply end_list_in in I. apply end_array_in in J. lia. }
    revert N1 DI. generalize (end_list size (spare s)). intros l N1 DI. induction N1 as [|x l NI N1 IH]; [apply end_array_nodup|].
    cbn [app]. constructor.
    + rewrite in_app_iff. intros [I|I]; [contradiction|]. exact (DI x (or_introl eq_refl) I).
    + apply IH. intros b I. apply DI. right. exact I.
  - intros b. unfold end_pool. rewrite in_app_iff, end_list_in, end_array_in, Z2Nat.id by lia.
    destruct (i_use _ _ _ _ _ _ IB b) as [U1 U2]. split.
    + intros [[I L]|I]; [right|left; lia]. split.
      * apply (i_took _ _ _ _ _ _ IB). apply in_or_app. left. exact I.
      * apply U2. apply DJ. exact I.
    + intros [I|[T U]]; [right; lia|]. apply (i_took _ _ _ _ _ _ IB) in T. pose proof T as T'. apply AL in T'.
      destruct (Z.leb_spec size b) as [L|L]; [left|right; lia]. split; [|exact L].
      apply in_app_or in T as [T|T]; [exact T|]. rewrite (U1 T) in U. discriminate.
Qed.
End Props.

(** The array made in advance is just large enough *)
Theorem C115_capacity k capacity : 0 <= k -> 0 <= capacity ->
  let n := blocks_for (2 ^ k) capacity in
  capacity <= n * 2 ^ k /\ (0 < n -> (n - 1) * 2 ^ k < capacity).
Proof.
  intros K C n. unfold n, blocks_for.
  assert (P : 0 < 2 ^ k) by (apply Z.pow_pos_nonneg; lia).
  replace (2 ^ k - 1) with (Z.ones k) by (rewrite Z.ones_equiv; lia).
  rewrite Z.land_ones by exact K.
  pose proof (Z.div_mod capacity (2 ^ k) ltac:(lia)) as D.
  pose proof (Z.mod_pos_bound capacity (2 ^ k) P) as M.
  destruct (Z.eqb_spec (capacity mod 2 ^ k) 0) as [E|E]; split; try intros; nia.
Qed.
Theorem C115_populate count ok : 0 <= count ->
  populate count true = count /\ populate count false = 0 /\ 0 <= populate count ok <= count.
Proof. intros C. unfold populate. destruct (Z.eqb_spec count 0), ok; lia. Qed.

(** Two threads share an array of one block: both read the counter, the second
    goes beyond it, finds the list empty, and makes a block; both come back; a
    third call gets one of them *)
Fixpoint play (size : Z) (threads : nat) (s : pool) (h : list event) (l : list choice) : option (pool * list event) :=
  match l with
  | [] => Some (s, h)
  | c :: l => match step size threads s c with
              | Some (s', e) => play size threads s' (h ++ e) l
              | None => None
              end
  end.
Lemma play_run size threads l : forall s h s' h', run size threads s h ->
  play size threads s h l = Some (s', h') -> run size threads s' h'.
Proof.
  induction l as [|c l IH]; intros s h s' h' R E; cbn [play] in E; [injection E as <- <-; exact R|].
  destruct (step size threads s c) as [[s1 e]|] eqn:Q; [|discriminate].
  exact (IH _ _ _ _ (run_step _ _ _ _ _ _ _ R Q) E).
Qed.
Example C115_ex_run : exists s,
  run 1 2 s [Called 0; Called 1; Took 1 0; Took 0 1; Gave 0; Called 1; Took 1 0; Gave 1; Gave 0] /\
  end_pool 1 s = [1; 0] /\ next s = 2.
Proof.
  eexists. split.
  - apply (play_run 1 2 [Begin 0 true; Begin 1 true; Load 0 0; Load 1 0; Advance 1; Advance 0; Miss 0; Make 0 true;
                         Give 0; Begin 1 false; Load 1 2; Pop 1 0; Give 1; Give 0] start [] _ _ (run_start _ _)).
    vm_compute. reflexivity.
  - split; vm_compute; reflexivity.
Qed.
(** The second block was needed: at that moment the first was in use *)
Example C115_ex_none_free : none_free_during_call 1 0 [Called 0; Called 1; Took 1 0].
Proof.
  exists [Called 0%nat; Called 1%nat; Took 1 0], []. split; [reflexivity|]. split.
  - exists [], [Called 1%nat; Took 1 0]. split; reflexivity.
  - split; [|reflexivity]. split.
    + intros b B. replace b with 0 by lia. reflexivity.
    + intros t b [Q|[Q|[Q|[]]]]; try discriminate. injection Q as <- <-. reflexivity.
Qed.
(** The demand never was above 2 *)
Example C115_ex_demand : demand_within [Called 0; Called 1; Took 1 0; Took 0 1; Gave 0; Called 1] 2.
Proof.
  intros h1 h2 E. do 6 (destruct h1 as [|? h1]; [cbn; lia|cbn [app] in E; injection E as <- E]).
  destruct h1; [cbn; lia|discriminate].
Qed.

Print Assumptions C115_exclusive.
Print Assumptions C115_array_first.
Print Assumptions C115_valid_block.
Print Assumptions C115_economical.
Print Assumptions C115_new_only_if_none_free.
Print Assumptions C115_refused_only_if_none_free.
Print Assumptions C115_refused_only_by_failure.
Print Assumptions C115_counter.
Print Assumptions C115_call_bounded.
Print Assumptions C115_never_blocks.
Print Assumptions C115_ended_once.
Print Assumptions C115_capacity.
Print Assumptions C115_populate.
