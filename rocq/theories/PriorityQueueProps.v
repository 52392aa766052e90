(** Property theorems C35: java.util.PriorityQueue. *)

From Coq Require Import ZArith List Lia Bool Permutation.
From Verif Require Import Base Bits TextLemmas PriorityQueueSpec PriorityQueueModel.
Import ListNotations.
Open Scope Z_scope.

Lemma w32 x : 0 <= x <= 2147483647 -> wrap 32 x = x.
Proof. intros H. apply wrap_id; [lia|]. unfold in_s, smin, smax. change (2 ^ (32 - 1)) with 2147483648. lia. Qed.

(** Has an element been removed by value since the heap was last rebuilt? *)
Fixpoint removed_since {E} (acc : bool) (ops : list (qop E)) : bool :=
  match ops with
  | [] => acc
  | QRemove _ :: r => removed_since true r
  | QOffer _ :: r | QClear :: r => removed_since false r
  | _ :: r => removed_since acc r
  end.
(** The calls that behave: poll and peek on a non-empty queue whose heap was
    rebuilt since the last remove(x), or that has a single element. *)
Definition queue_conforming {E} (pre : list (qop E)) (b : list E) (o : qop E) : Prop :=
  match o with QPoll | QPeek => b <> [] /\ (removed_since false pre = false \/ zlen b = 1) | _ => True end.

Section PQ.
Context {E : Type}.
Variables (E_dec : forall a b : E, {a = b} + {a <> b}) (lt : E -> E -> bool) (mk pop : list E -> list E) (dflt : option E).

Lemma heap_b_ok v : heap_b lt v = true <-> is_heap lt v.
Proof using.
  unfold heap_b, is_heap. rewrite forallb_forall. split.
  - intros H i p c I P C. specialize (H (Z.to_nat i)). cbn zeta in H. rewrite Z2Nat.id, P, C in H by lia. apply negb_true_iff. apply H. apply in_seq. apply znth_Some_lt in C. unfold zlen in C. lia.
  - intros H n I. cbn zeta. destruct (znth v ((Z.of_nat n - 1) / 2)) as [p|] eqn:P; auto. destruct (znth v (Z.of_nat n)) as [c|] eqn:C; auto. apply negb_true_iff. apply in_seq in I. apply (H (Z.of_nat n) p c); auto. lia.
Qed.
Lemma heap_top : strict_weak lt -> forall x v, is_heap lt (x :: v) -> head_of lt (x :: v) x.
Proof using.
  intros (I & T & N) x v H. split; [left; auto|].
  assert (Q : forall n i y, 0 <= i -> (Z.to_nat i <= n)%nat -> znth (x :: v) i = Some y -> lt x y = false).
  { induction n as [|n IH]; intros i y Hi Hn Y.
    - replace i with 0 in Y by lia. cbn in Y. injection Y as <-. apply I.
    - destruct (Z.eq_dec i 0) as [->|Z0]; [cbn in Y; injection Y as <-; apply I|].
      assert (K : 0 <= (i - 1) / 2 < i) by (clear - Hi Z0; split; [apply Z.div_pos; lia|apply Z.div_lt_upper_bound; lia]).
      apply znth_Some_lt in Y as L. destruct (znth_ex (x :: v) ((i - 1) / 2)) as (p & P); [lia|]. apply (N x p y); [apply (IH ((i - 1) / 2)); auto; lia|]. eapply H; eauto. lia. }
  intros y Y. apply In_nth_error in Y as (n & Y). apply (Q n (Z.of_nat n) y); try lia. rewrite znth_nth by lia. now rewrite Nat2Z.id.
Qed.
Lemma heap_one x : is_heap lt [x].
Proof using. intros i p c I P C. apply znth_Some_lt in C. change (zlen [x]) with 1 in C. lia. Qed.
Lemma heap_nil : is_heap lt [].
Proof using. intros i p c I P C. apply znth_Some_lt in C. cbn in C. lia. Qed.

Lemma fold_snoc (l : list E) : forall r, fold_left (fun r x => r ++ [x]) l r = r ++ l.
Proof using. induction l as [|x l IH]; intros r; cbn; [now rewrite app_nil_r|]. rewrite IH, <- app_assoc. auto. Qed.

Lemma std_find_ok x (v : list E) : match std_find E_dec x v with
  | Some n => exists v1 v2, v = v1 ++ x :: v2 /\ length v1 = n | None => ~ In x v end.
Proof using.
  induction v as [|y v IH]; cbn; [auto|]. destruct (E_dec y x) as [->|N]; [exists [], v; auto|]. destruct (std_find E_dec x v) as [n|]; cbn.
  - destruct IH as (v1 & v2 & -> & L). exists (y :: v1), v2. cbn. auto.
  - intros [H|H]; auto.
Qed.

Section Run.
Hypothesis (SW : strict_weak lt) (MK : make_heap_contract lt mk) (POP : pop_heap_contract lt pop).

(** The vector is a permutation of the bag, and a heap unless [dirty]. *)
Definition qinv (v b : list E) (dirty : bool) : Prop := Permutation b v /\ (dirty = false -> is_heap lt v).
Definition next_dirty (d : bool) (o : qop E) : bool := match o with QRemove _ => true | QOffer _ | QClear => false | _ => d end.

Lemma q_step_ok v b d o : qinv v b d -> zlen b < int_max -> match o with QPoll | QPeek => b <> [] /\ (d = false \/ zlen b = 1) | _ => True end ->
  exists v' a b', q_step E_dec lt mk pop dflt v o = Ok (v', a) /\ qstep lt b o b' a /\ qinv v' b' (next_dirty d o).
Proof using SW MK POP.
  intros (P & H) B C. assert (LZ : zlen v = zlen b) by (unfold zlen; now rewrite (Permutation_length P)). pose proof (zlen_nonneg b) as B0. unfold int_max in B.
  assert (W : wrap 32 (zlen v) = zlen b) by (rewrite LZ; apply w32; lia).
  assert (HH : b <> [] -> (d = false \/ zlen b = 1) -> exists x r, v = x :: r /\ is_heap lt v).
  { intros N D. destruct v as [|x r]; [apply Permutation_sym, Permutation_nil in P; congruence|]. exists x, r. split; auto. destruct D as [D|D]; auto. rewrite <- LZ, zlen_cons in D. destruct r; [apply heap_one|]. rewrite zlen_cons in D. pose proof (zlen_nonneg r). lia. }
  destruct o as [x| | |x|x| | |]; cbn [q_step next_dirty].
  - destruct (MK (v ++ [x])) as (M1 & M2). unfold pq_offer. eexists _, _, (x :: b). split; [reflexivity|]. split.
    + split; auto. f_equal. rewrite W. assert (zlen (mk (v ++ [x])) = zlen b + 1) as ->. { unfold zlen in *. rewrite <- (Permutation_length M1), app_length. cbn. lia. }
      rewrite w32 by lia. apply negb_true_iff. lia.
    + split; auto. rewrite <- M1. rewrite Permutation_app_comm. cbn. auto.
  - destruct C as (N & C). destruct (HH N C) as (x & r & -> & Hv). destruct (POP x r Hv) as (r' & E1 & P1 & Hr). unfold pq_poll. cbn [pq_peek bind]. rewrite (proj2 (heap_b_ok _) Hv), E1, removelast_last. cbn [bind]. eexists _, _, r'. split; [reflexivity|]. split.
    + right. exists x. split; [|split; auto]. * destruct (heap_top SW x r Hv) as (T1 & T2). split; [now rewrite P|]. intros y Y. apply T2. now rewrite <- P. * now rewrite P, P1.
    + split; auto.
  - destruct C as (N & C). destruct (HH N C) as (x & r & -> & Hv). cbn [pq_peek bind]. eexists _, _, b. split; [reflexivity|]. split; [|split; auto]. split; auto. right. exists x. split; auto.
    destruct (heap_top SW x r Hv) as (T1 & T2). split; [now rewrite P|]. intros y Y. apply T2. now rewrite <- P.
  - unfold pq_remove. pose proof (std_find_ok x v) as F. destruct (std_find E_dec x v) as [n|].
    + destruct F as (v1 & v2 & -> & L). eexists _, _, (v1 ++ v2). split; [reflexivity|]. split; [|split; [|discriminate]].
      * left. split; [rewrite P; apply in_app_iff; right; left; auto|]. split; auto. rewrite P. symmetry. apply Permutation_middle.
      * rewrite <- L, firstn_app, Nat.sub_diag, firstn_all, firstn_O, app_nil_r, skipn_app, skipn_all2 by lia. replace (S (length v1) - length v1)%nat with 1%nat by lia. auto.
    + eexists _, _, b. split; [reflexivity|]. split; [|split; [auto|discriminate]]. right. split; auto. now rewrite P.
  - unfold pq_contains. pose proof (std_find_ok x v) as F. destruct (std_find E_dec x v) as [n|].
    + destruct F as (v1 & v2 & -> & L). eexists _, _, b. split; [reflexivity|]. split; [|split; auto]. split; auto. left. split; auto. rewrite P. apply in_app_iff. right. left. auto.
    + eexists _, _, b. split; [reflexivity|]. split; [|split; auto]. split; auto. right. split; auto. now rewrite P.
  - eexists _, _, b. split; [reflexivity|]. split; [|split; auto]. split; auto. unfold pq_size. now rewrite W.
  - eexists _, _, []. split; [reflexivity|]. split; [|split; auto]. + split; auto. + intros _. apply heap_nil.
  - eexists _, _, b. split; [reflexivity|]. split; [|split; auto]. split; auto. eexists. split; [reflexivity|]. unfold pq_toArray. now rewrite fold_snoc.
Qed.
Lemma removed_snoc ops : forall d o, removed_since d (ops ++ [o]) = next_dirty (removed_since d ops) o.
Proof using. induction ops as [|a r IH]; intros d o; cbn; [destruct o; auto|]. destruct a; auto. Qed.
Lemma qstep_len b o b' a : qstep lt b o b' a -> zlen b' <= zlen b + 1.
Proof using.
  unfold zlen. destruct o; cbn; intros H.
  - destruct H as (H & _). rewrite (Permutation_length H). cbn [length]. lia.
  - destruct H as [(-> & -> & _)|(y & _ & P & _)]; [lia|]. rewrite (Permutation_length P). cbn [length]. lia.
  - destruct H as (-> & _). lia.
  - destruct H as [(_ & P & _)|(_ & -> & _)]; [rewrite (Permutation_length P); cbn [length]|]; lia.
  - destruct H as (-> & _). lia.
  - destruct H as (-> & _). lia.
  - destruct H as (-> & _). cbn [length]. lia.
  - destruct H as (-> & _). lia.
Qed.
Lemma q_run_ok : forall ops pre v b0 b, qinv v b (removed_since false pre) -> zlen b + zlen ops <= int_max ->
  (exists as0, qrun lt b0 pre b as0) ->
  (forall pre' o post b' as_, pre ++ ops = pre' ++ o :: post -> qrun lt b0 pre' b' as_ -> queue_conforming pre' b' o) ->
  exists v' as_ b', q_run E_dec lt mk pop dflt v ops = Ok (v', as_) /\ qrun lt b ops b' as_ /\ Permutation b' v'.
Proof using SW MK POP.
  induction ops as [|o ops IH]; intros pre v b0 b I L (as0 & R) C; cbn [q_run]; [exists v, [], b; split; auto; split; [constructor|apply I]|]. rewrite zlen_cons in L. pose proof (zlen_nonneg ops).
  destruct (q_step_ok v b (removed_since false pre) o I) as (v1 & a & b1 & -> & S1 & I1); [lia|apply (C pre o ops b as0); auto|]. cbn [bind].
  apply qstep_len in S1 as SL. destruct (IH (pre ++ [o]) v1 b0 b1) as (v2 & as_ & b2 & -> & R2 & P2).
  - now rewrite removed_snoc.
  - lia.
  - exists (as0 ++ [a]). clear - R S1. induction R; cbn; [econstructor; eauto; constructor|]. econstructor; eauto.
  - rewrite <- app_assoc. exact C.
  - cbn [bind]. exists v2, (a :: as_), b2. split; auto. split; auto. econstructor; eauto.
Qed.
End Run.
End PQ.

(** For every strict weak ordering and all conforming library algorithms, every
    conforming history from a queue built from any list answers like a bag
    whose head is a greatest element. *)
Theorem C35_history_partial : forall (E : Type) (E_dec : forall a b : E, {a = b} + {a <> b}) (lt : E -> E -> bool) (mk pop : list E -> list E) (dflt : option E),
  strict_weak lt -> make_heap_contract lt mk -> pop_heap_contract lt pop ->
  forall (init : list E) (ops : list (qop E)), zlen init + zlen ops <= int_max ->
  (forall pre o post b as_, ops = pre ++ o :: post -> qrun lt init pre b as_ -> queue_conforming pre b o) ->
  exists v as_ b, q_run E_dec lt mk pop dflt (pq_init mk init) ops = Ok (v, as_) /\ qrun lt init ops b as_ /\ Permutation b v.
Proof.
  intros E E_dec lt mk pop dflt SW MK POP init ops L C. unfold pq_init. rewrite fold_snoc. cbn [app]. destruct (MK init) as (M1 & M2).
  apply (q_run_ok E_dec lt mk pop dflt SW MK POP ops [] (mk init) init init); auto.
  - split; auto.
  - exists []. constructor.
Qed.
Print Assumptions C35_history_partial.

(** Offering any elements and polling them all delivers a permutation in
    descending order. *)
Theorem C35_drain_partial : forall (E : Type) (E_dec : forall a b : E, {a = b} + {a <> b}) (lt : E -> E -> bool) (mk pop : list E -> list E) (dflt : option E),
  strict_weak lt -> make_heap_contract lt mk -> pop_heap_contract lt pop ->
  forall (init : list E), zlen init < int_max ->
  exists l, q_run E_dec lt mk pop dflt (pq_init mk init) (repeat QPoll (length init)) = Ok ([], map QElem l) /\ Permutation init l /\
    forall i j a b, i < j -> znth l i = Some a -> znth l j = Some b -> lt a b = false.
Proof.
  intros E E_dec lt mk pop dflt SW MK POP init L. unfold pq_init. rewrite fold_snoc. cbn [app]. destruct (MK init) as (M1 & M2). rewrite (Permutation_length M1). assert (L1 : zlen (mk init) < int_max) by (unfold zlen in *; rewrite <- (Permutation_length M1); auto).
  enough (Q : forall v, is_heap lt v -> exists l, q_run E_dec lt mk pop dflt v (repeat QPoll (length v)) = Ok ([], map QElem l) /\ Permutation v l /\ forall i j a b, i < j -> znth l i = Some a -> znth l j = Some b -> lt a b = false).
  { destruct (Q (mk init) M2) as (l & Q1 & Q2 & Q3). exists l. split; auto. split; auto. now rewrite M1. }
  clear - SW POP. intros v. remember (length v) as n eqn:N. revert v N. induction n as [|n IH]; intros v N H; destruct v as [|x r]; try discriminate; cbn [repeat q_run].
  - exists []. split; auto. split; auto. intros i j a b _ A. destruct i; try discriminate. destruct (Pos.to_nat p) eqn:Q; cbn in A; unfold znth in A; cbn in A; [|rewrite Q in A; discriminate]. rewrite Q in A. discriminate.
  - destruct (POP x r H) as (r' & E1 & P1 & Hr). cbn [q_step]. unfold pq_poll. cbn [pq_peek bind]. rewrite (proj2 (heap_b_ok lt _) H), E1, removelast_last. cbn [bind].
    destruct (IH r') as (l & -> & P2 & S2); auto. { cbn in N. rewrite <- (Permutation_length P1). lia. } cbn [bind]. exists (x :: l). split; auto. split; [now rewrite P1, P2|].
    destruct (heap_top lt SW x r H) as (_ & T). intros i j a b IJ A B. apply znth_Some_lt in A as LA. apply znth_Some_lt in B as LB. rewrite znth_nth in A, B by lia. destruct (Z.eq_dec i 0) as [->|I0].
    + cbn in A. injection A as <-. apply T. rewrite P1, P2. replace (Z.to_nat j) with (S (Z.to_nat (j - 1))) in B by lia. cbn in B. apply nth_error_In in B. right; auto.
    + apply (S2 (i - 1) (j - 1)); [lia| |]; rewrite znth_nth by lia; [replace (Z.to_nat i) with (S (Z.to_nat (i - 1))) in A by lia|replace (Z.to_nat j) with (S (Z.to_nat (j - 1))) in B by lia]; auto.
Qed.
Print Assumptions C35_drain_partial.

(** On the empty queue: peek gives the default value for class types and an
    indeterminate value for scalars; poll is undefined. *)
Theorem C35_empty_refuted : forall (E : Type) (lt : E -> E -> bool) (pop : list E -> list E) (d : E),
  pq_peek (Some d) [] = Ok d /\ pq_peek (E := E) None [] = UB Uninitialised /\ pq_poll lt pop (Some d) [] = UB OutOfBounds /\ pq_poll lt pop None [] = UB Uninitialised.
Proof. intros. repeat split. Qed.
Print Assumptions C35_empty_refuted.

(** toArray(array) fills a large enough array and puts a default after. *)
Theorem C35_toArray_into : forall (E : Type) (d : E) (v a : list E), zlen v <= int_max -> zlen a <= int_max ->
  pq_toArray_into (Some d) v a = if zlen a <? zlen v then Ok (a, v) else
    let r := v ++ (if zlen v <? zlen a then d :: skipn (S (length v)) a else []) in Ok (r, r).
Proof.
  intros E d v a L1 L2. unfold pq_toArray_into, pq_toArray. rewrite fold_snoc. cbn [app]. pose proof (zlen_nonneg v) as V0. unfold int_max in *. rewrite w32 by lia. destruct (Z.ltb_spec (zlen a) (zlen v)) as [C|C]; auto.
  assert (Q : forall (v p s : list E), (length v <= length s)%nat -> fill (p ++ s) v (zlen p) = Ok (p ++ v ++ skipn (length v) s, zlen p + zlen v)).
  { clear. induction v as [|x v IH]; intros p s L; cbn [fill length]. - cbn. rewrite Z.add_0_r. auto.
    - destruct s as [|y s]; cbn in L; [lia|]. rewrite at_set_ok by (rewrite zlen_app, zlen_cons; pose proof (zlen_nonneg p); pose proof (zlen_nonneg s); lia). cbn [bind].
      assert (E1 : zupd (p ++ y :: s) (zlen p) x = (p ++ [x]) ++ s). { unfold zupd, zlen. replace (Z.of_nat (length p) <? 0) with false by lia. rewrite Nat2Z.id. clear. induction p; cbn; auto. now rewrite IHp. }
      rewrite E1. replace (zlen p + 1) with (zlen (p ++ [x])) by (rewrite zlen_app; auto). rewrite IH by lia. f_equal. f_equal; [cbn [skipn]; now rewrite <- app_assoc|]. rewrite zlen_app, (zlen_cons x v). change (zlen [x]) with 1. lia. }
  specialize (Q v [] a). cbn [app] in Q. change (zlen []) with 0 in Q. rewrite Q by (unfold zlen in C; lia). cbn [bind]. rewrite Z.add_0_l.
  assert (LS : zlen (v ++ skipn (length v) a) = zlen a) by (unfold zlen in *; rewrite app_length, skipn_length; lia). rewrite LS. rewrite Z.gtb_ltb. destruct (Z.ltb_spec (zlen v) (zlen a)) as [C2|C2].
  - rewrite at_set_ok by lia. cbn [bind]. assert (LL : (length v < length a)%nat) by (unfold zlen in C2; lia). destruct (skipn (length v) a) as [|y s] eqn:SK; [apply (f_equal (@length E)) in SK; rewrite skipn_length in SK; cbn in SK; lia|].
    assert (E2 : skipn (S (length v)) a = s). { revert SK. generalize (length v). clear. intros n. revert n. induction a as [|z a IH]; intros [|n] SK; cbn in *; try discriminate; [congruence|auto]. }
    rewrite E2. assert (E1 : zupd (v ++ y :: s) (zlen v) d = v ++ d :: s). { unfold zupd, zlen. replace (Z.of_nat (length v) <? 0) with false by lia. rewrite Nat2Z.id. clear. induction v; cbn; auto. now rewrite IHv. }
    rewrite E1. auto.
  - assert (skipn (length v) a = []) as -> by (apply skipn_all2; unfold zlen in C2; lia). auto.
Qed.
Print Assumptions C35_toArray_into.

(** ** remove(x) breaks the queue.  The witness uses the heap algorithms of
    libstdc++ (bits/stl_heap.h), falling back to a sorted arrangement should
    they not meet their contract, so that the contracts hold by construction. *)
Fixpoint sift_up (fuel : nat) (v : list Z) (hole top x : Z) : list Z :=
  match fuel with
  | O => v
  | S f => let parent := (hole - 1) / 2 in
           match znth v parent with
           | Some p => if (top <? hole) && (p <? x) then sift_up f (zupd v hole p) parent top x else zupd v hole x
           | None => zupd v hole x
           end
  end.
Fixpoint sift_down (fuel : nat) (v : list Z) (top hole second len x : Z) : list Z :=
  match fuel with
  | O => v
  | S f =>
    if second <? (len - 1) / 2 then
      let s2 := 2 * (second + 1) in
      let s := if nth (Z.to_nat s2) v 0 <? nth (Z.to_nat (s2 - 1)) v 0 then s2 - 1 else s2 in
      sift_down f (zupd v hole (nth (Z.to_nat s) v 0)) top s s len x
    else if Z.even len && (second =? (len - 2) / 2) then
      let s := 2 * (second + 1) - 1 in sift_up (length v) (zupd v hole (nth (Z.to_nat s) v 0)) s top x
    else sift_up (length v) v hole top x
  end.
Fixpoint gnu_loop (n : nat) (v : list Z) : list Z :=
  match n with O => v | S k => gnu_loop k (sift_down (length v) v (Z.of_nat k) (Z.of_nat k) (Z.of_nat k) (zlen v) (nth k v 0)) end.
Definition gnu_make_heap (v : list Z) : list Z := gnu_loop (length v / 2) v.
Definition gnu_pop_heap (v : list Z) : list Z :=
  match v with [] => [] | [x] => [x] | x :: _ => sift_down (length v) (removelast v) 0 0 0 (zlen v - 1) (last v 0) ++ [x] end.

Fixpoint ins (x : Z) (l : list Z) : list Z := match l with [] => [x] | y :: r => if y <? x then x :: l else y :: ins x r end.
Definition sort_down (l : list Z) : list Z := fold_right ins [] l.
Definition mk_w (v : list Z) : list Z :=
  let g := gnu_make_heap v in if heap_b Z.ltb g && (if list_eq_dec Z.eq_dec (sort_down g) (sort_down v) then true else false) then g else sort_down v.
Definition pop_w (v : list Z) : list Z :=
  match v with
  | [] => []
  | x :: r => let g := removelast (gnu_pop_heap v) in
    (if heap_b Z.ltb g && (if list_eq_dec Z.eq_dec (sort_down g) (sort_down r) then true else false) then g else sort_down r) ++ [x]
  end.
Lemma ins_perm x l : Permutation (x :: l) (ins x l).
Proof. induction l as [|y l IH]; cbn; auto. destruct (y <? x); auto. rewrite perm_swap. now constructor. Qed.
Lemma sort_perm l : Permutation l (sort_down l).
Proof. induction l as [|x l IH]; cbn; auto. rewrite <- ins_perm. now constructor. Qed.
Fixpoint desc (l : list Z) : Prop := match l with [] => True | x :: r => (forall y, In y r -> y <= x) /\ desc r end.
Lemma sort_desc l : desc (sort_down l).
Proof.
  unfold sort_down. induction l as [|x l IH]; cbn [fold_right]; [exact I|]. revert IH. generalize (fold_right ins [] l). clear. induction l as [|y l IH]; cbn; [intros _; split; [intros y [] |auto]|]. intros (A & D). destruct (Z.ltb_spec y x) as [C|C].
  - cbn. split; [|auto]. intros z [<-|Z0]; [lia|]. apply A in Z0. lia.
  - cbn. split; [|auto]. intros z Z0. apply (Permutation_in z (Permutation_sym (ins_perm x l))) in Z0. destruct Z0 as [<-|Z0]; auto.
Qed.
Lemma desc_heap l : desc l -> is_heap Z.ltb l.
Proof.
  intros D i p c I P C. assert (K : 0 <= (i - 1) / 2 < i) by (split; [apply Z.div_pos; lia|apply Z.div_lt_upper_bound; lia]). revert P C K. generalize ((i - 1) / 2). intros j P C K. rewrite znth_nth in P, C by lia. apply Z.ltb_ge.
  assert (Q : (Z.to_nat j < Z.to_nat i)%nat) by lia. revert P C Q. generalize (Z.to_nat i) (Z.to_nat j). clear I K i j. induction l as [|x l IH]; intros n m P C Q; [destruct m; discriminate|]. destruct n as [|n]; [lia|]. destruct D as (D1 & D2). cbn in C. destruct m as [|m]; cbn in P.
  - injection P as <-. apply D1. eapply nth_error_In; eauto.
  - apply (IH D2 n m); auto. lia.
Qed.
Lemma mk_w_ok : make_heap_contract Z.ltb mk_w.
Proof.
  intros v. unfold mk_w. destruct (heap_b Z.ltb (gnu_make_heap v)) eqn:H; cbn [andb]; [destruct (list_eq_dec Z.eq_dec (sort_down (gnu_make_heap v)) (sort_down v)) as [E|_]|].
  - split; [|now apply heap_b_ok]. eapply perm_trans; [apply sort_perm|]. rewrite <- E. apply Permutation_sym, sort_perm.
  - split; [apply sort_perm|apply desc_heap, sort_desc].
  - split; [apply sort_perm|apply desc_heap, sort_desc].
Qed.
Lemma pop_w_ok : pop_heap_contract Z.ltb pop_w.
Proof.
  intros x v _. unfold pop_w. eexists. split; [reflexivity|]. set (g := removelast _). destruct (heap_b Z.ltb g) eqn:H; cbn [andb]; [destruct (list_eq_dec Z.eq_dec (sort_down g) (sort_down v)) as [E|_]|].
  - split; [|now apply heap_b_ok]. eapply perm_trans; [apply sort_perm|]. rewrite <- E. apply Permutation_sym, sort_perm.
  - split; [apply sort_perm|apply desc_heap, sort_desc].
  - split; [apply sort_perm|apply desc_heap, sort_desc].
Qed.
Lemma ltb_strict_weak : strict_weak Z.ltb.
Proof. unfold strict_weak. repeat split; intros; lia. Qed.

(** From {10, 4, 9, 1, 2, 8} remove(10): the head is now 4 although 9 is in
    the queue, and poll violates the precondition of std::pop_heap. *)
Theorem C35_remove_refuted : exists (mk pop : list Z -> list Z) (init : list Z), strict_weak Z.ltb /\ make_heap_contract Z.ltb mk /\ pop_heap_contract Z.ltb pop /\
  gnu_make_heap init = mk init /\
  (exists v, q_run Z.eq_dec Z.ltb mk pop None (pq_init mk init) [QRemove 10; QPeek; QContains 9] = Ok (v, [QBool true; QElem 4; QBool true])) /\
  q_run Z.eq_dec Z.ltb mk pop None (pq_init mk init) [QRemove 10; QPoll] = UB Precondition.
Proof.
  exists mk_w, pop_w, [10; 4; 9; 1; 2; 8]. split; [apply ltb_strict_weak|]. split; [apply mk_w_ok|]. split; [apply pop_w_ok|]. split; [reflexivity|]. split; [eexists; vm_compute; reflexivity|vm_compute; reflexivity].
Qed.
Print Assumptions C35_remove_refuted.

Example C35_example : q_run Z.eq_dec Z.ltb mk_w pop_w None (pq_init mk_w [3; 1; 2]) [QOffer 7; QPoll; QPoll; QRemove 9; QOffer 0; QPeek; QSize; QToArray] =
  Ok ([2; 1; 0], [QBool true; QElem 7; QElem 3; QBool false; QBool true; QElem 2; QInt 3; QArr [2; 1; 0]]).
Proof. vm_compute. auto. Qed.
Example C35_gnu : gnu_make_heap [1; 2; 3; 4; 5; 6; 7] = mk_w [1; 2; 3; 4; 5; 6; 7] /\ gnu_pop_heap (mk_w [1; 2; 3; 4; 5; 6; 7]) = pop_w (mk_w [1; 2; 3; 4; 5; 6; 7]).
Proof. vm_compute. auto. Qed.
