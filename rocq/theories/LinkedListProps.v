(** Property theorems C34: java.util.LinkedList. *)

From Coq Require Import ZArith List Lia Bool.
From Verif Require Import Base Bits TextLemmas ListSpec LinkedListSpec LinkedListModel ListProofs.
Import ListNotations.
Open Scope Z_scope.

(** The object holds exactly [l]: its pointers are pairwise different, lead to
    live nodes with the elements of [l] in order, and no other node is alive. *)
Definition holds {E} (s : state E) (l : list E) : Prop :=
  Forall2 (fun a x => znth (fst s) a = Some (Some x)) (snd s) l /\ NoDup (snd s) /\ forall a x, znth (fst s) a = Some (Some x) -> In a (snd s).

(** The calls whose behaviour is Java's. *)
Definition deque_conforming {E} (l : list E) (o : dop E) : Prop :=
  match o with
  | DPollFirst | DPollLast | DGetFirst | DGetLast => l <> []
  | DGet i => int_min <= i <= int_max /\ l <> []
  | DRemoveAt i => 0 <= i < zlen l
  | _ => True
  end.

Lemma alive_app {E} (h : heap E) e a x : znth (h ++ [Some e]) a = Some (Some x) <-> znth h a = Some (Some x) \/ (a = zlen h /\ x = e).
Proof.
  destruct (Z.ltb_spec a 0) as [N|N].
  - rewrite (proj2 (znth_None (h ++ [Some e]) a)) by lia. rewrite (proj2 (znth_None h a)) by lia. pose proof (zlen_nonneg h). split; [discriminate|intros [X|X]; [discriminate|lia]].
  - rewrite !znth_nth by lia. destruct (lt_dec (Z.to_nat a) (length h)) as [L|L].
    + rewrite nth_error_app1 by auto. unfold zlen. split; [auto|intros [H|H]; [auto|lia]].
    + rewrite nth_error_app2 by lia. assert (nth_error h (Z.to_nat a) = None) as -> by (apply nth_error_None; lia). destruct (Z.to_nat a - length h)%nat as [|k] eqn:K; cbn.
      * split; [intros H; injection H as ->; right; unfold zlen; split; auto; lia|]. intros [H|(H & ->)]; [discriminate|auto].
      * destruct k; cbn; (split; [discriminate|intros [H|(H & _)]; [discriminate|unfold zlen in H; lia]]).
Qed.
Lemma alive_del {E} (h : heap E) a b x y : znth h a = Some (Some y) -> (znth (zupd h a None) b = Some (Some x) <-> b <> a /\ znth h b = Some (Some x)).
Proof.
  intros A. apply znth_Some_lt in A as L. destruct (Z.eq_dec b a) as [->|N].
  - rewrite znth_zupd by lia. rewrite Z.eqb_refl. split; [discriminate|tauto].
  - rewrite znth_zupd by lia. replace (a =? b) with false by lia. replace (b =? a) with false by lia. tauto.
Qed.
Lemma F2_app_heap {E} (h : heap E) e o l : Forall2 (fun a x => znth h a = Some (Some x)) o l -> Forall2 (fun a x => znth (h ++ [Some e]) a = Some (Some x)) o l.
Proof. intros F. induction F; constructor; auto. apply alive_app. auto. Qed.
Lemma F2_del_heap {E} (h : heap E) c y o l : znth h c = Some (Some y) -> ~ In c o -> Forall2 (fun a x => znth h a = Some (Some x)) o l -> Forall2 (fun a x => znth (zupd h c None) a = Some (Some x)) o l.
Proof. intros A N F. induction F; constructor; cbn in N. - apply (alive_del h c x y0 y A). split; [intros ->; tauto|auto]. - apply IHF. tauto. Qed.
Lemma fresh_addr {E} (h : heap E) o l : Forall2 (fun a x => znth h a = Some (Some x)) o l -> ~ In (zlen h) o.
Proof. intros F I. induction F; [destruct I|]. destruct I as [->|I]; auto. apply znth_Some_lt in H. lia. Qed.

Lemma holds_addFirst {E} (s : state E) l x : holds s l -> holds (l_addFirst s x) (x :: l).
Proof.
  destruct s as (h, o). unfold holds. cbn. intros (F & N & A). split; [|split].
  - constructor; [apply alive_app; auto|now apply F2_app_heap].
  - constructor; auto. eapply fresh_addr; eauto.
  - intros a y H. apply alive_app in H. destruct H as [H|(-> & _)]; auto. right. eauto.
Qed.
Lemma holds_addLast {E} (s : state E) l x : holds s l -> holds (l_addLast s x) (l ++ [x]).
Proof.
  destruct s as (h, o). unfold holds. cbn. intros (F & N & A). split; [|split].
  - apply Forall2_app; [now apply F2_app_heap|]. constructor; [apply alive_app; auto|constructor].
  - apply NoDup_rev in N. rewrite <- (rev_involutive (o ++ [zlen h])), rev_app_distr. apply NoDup_rev. cbn. constructor; auto. rewrite <- in_rev. eapply fresh_addr; eauto.
  - intros a y H. apply alive_app in H. apply in_app_iff. destruct H as [H|(-> & _)]; [left; eauto|right; cbn; auto].
Qed.
(** Deleting one node from the middle. *)
Lemma holds_delete {E} (h : heap E) p a r l1 x l2 : holds (h, p ++ a :: r) (l1 ++ x :: l2) -> length p = length l1 ->
  delete_node h a = Ok (zupd h a None) /\ read_node h a = Ok x /\ holds (zupd h a None, p ++ r) (l1 ++ l2).
Proof.
  unfold holds. cbn [fst snd]. intros (F & N & A) L. assert (F' : Forall2 (fun a x => znth h a = Some (Some x)) p l1 /\ Forall2 (fun a x => znth h a = Some (Some x)) (a :: r) (x :: l2)).
  { revert l1 F L. clear N A. induction p as [|b p IH]; intros [|y l1] F L; cbn in L; try lia; [split; [constructor|auto]|]. inversion F; subst. destruct (IH l1) as (I1 & I2); auto. }
  destruct F' as (F1 & F2). inversion F2 as [|? ? ? ? X F3]; subst. apply NoDup_remove in N as (N1 & N2).
  unfold delete_node, read_node. rewrite X. split; auto. split; auto. split; [|split; auto].
  - apply Forall2_app; eapply F2_del_heap; eauto; intros I; apply N2; apply in_app_iff; auto.
  - intros b y H. apply (alive_del h a b y x X) in H. destruct H as (H1 & H2). apply A in H2. apply in_app_iff in H2. apply in_app_iff. destruct H2 as [H2|[H2|H2]]; auto. congruence.
Qed.
Lemma holds_len {E} (s : state E) l : holds s l -> zlen (snd s) = zlen l.
Proof. intros (F & _). unfold zlen. f_equal. clear -F. induction F; cbn; auto. Qed.

Lemma snoc_cases {A} (l : list A) : l = [] \/ exists r x, l = r ++ [x].
Proof. induction l using rev_ind; eauto. Qed.

Lemma holds_get {E} (s : state E) l i : holds s l -> 0 <= i < zlen l -> exists a x, znth (snd s) i = Some a /\ znth l i = Some x /\ read_node (fst s) a = Ok x.
Proof.
  intros H Hi. pose proof (holds_len s l H) as L. destruct H as (F & _). destruct (znth_ex (snd s) i) as (a & A); [lia|]. destruct (znth_ex l i Hi) as (x & X). exists a, x. split; auto. split; auto.
  rewrite znth_nth in A by lia. rewrite znth_nth in X by lia. clear L Hi. revert A X. generalize (Z.to_nat i). induction F; intros n; destruct n; cbn; try discriminate; eauto. intros A X. injection A as ->. injection X as ->. unfold read_node. rewrite H. auto.
Qed.
Lemma holds_last {E} (s : state E) l x : holds s (l ++ [x]) -> exists o a, snd s = o ++ [a] /\ length o = length l.
Proof.
  intros H. pose proof (holds_len s _ H) as L. unfold zlen in L. rewrite app_length in L. cbn in L. destruct (snoc_cases (snd s)) as [E0|(o & a & E0)]; rewrite E0 in L; [cbn in L; lia|]. rewrite app_length in L. cbn in L. exists o, a. split; auto. lia.
Qed.
Lemma delete_all_ok {E} o : forall (h : heap E) l, holds (h, o) l -> exists h', delete_all h o = Ok h' /\ holds (h', []) [].
Proof.
  induction o as [|a o IH]; intros h l H; cbn [delete_all].
  - exists h. split; auto. pose proof (holds_len _ _ H) as L. cbn in L. destruct l; auto. rewrite zlen_cons in L. pose proof (zlen_nonneg l). lia.
  - pose proof (holds_len _ _ H) as L. cbn [snd] in L. rewrite zlen_cons in L. destruct l as [|x l]; [pose proof (zlen_nonneg o); cbn in L; lia|]. destruct (holds_delete h [] a o [] x l H eq_refl) as (-> & _ & H'). cbn [bind]. apply (IH _ _ H').
Qed.
Lemma remove_loop_ok {E} : forall o (h : heap E) p l pos i, holds (h, rev p ++ o) l -> zlen p = pos -> pos <= i < zlen l ->
  exists h' o', remove_loop h p o pos i = Ok (h', o') /\ holds (h', o') (delete_at i l).
Proof.
  induction o as [|a r IH]; intros h p l pos i H P I.
  - pose proof (holds_len _ _ H) as L. cbn [snd] in L. rewrite app_nil_r, zlen_rev in L. lia.
  - cbn [remove_loop]. destruct (Z.eqb_spec pos i) as [->|N].
    + pose proof (zlen_nonneg p). destruct (znth_ex l i) as (x & X); [lia|]. rewrite znth_nth in X by lia. destruct (nth_error_split _ _ X) as (l1 & l2 & -> & Q).
      destruct (holds_delete h (rev p) a r l1 x l2 H) as (-> & _ & H'); [rewrite rev_length, Q; unfold zlen in P; lia|]. cbn [bind]. eexists _, _. split; [reflexivity|].
      unfold delete_at, cut. replace (Z.to_nat (i + 1)) with (length l1 + 1)%nat by lia. rewrite <- Q. rewrite firstn_app, Nat.sub_diag, firstn_all, firstn_O, app_nil_r, skipn_app, skipn_all2 by lia. replace (length l1 + 1 - length l1)%nat with 1%nat by lia. exact H'.
    + apply IH; [cbn [rev]; rewrite <- app_assoc; auto|rewrite zlen_cons; lia|lia].
Qed.

Lemma d_step_ok {E} (s : state E) l o : holds s l -> zlen l <= int_max -> deque_conforming l o ->
  exists s' a l', d_step s o = Ok (s', a) /\ dstep l o l' a /\ holds s' l'.
Proof.
  intros H B C. pose proof (holds_len s l H) as L. pose proof (zlen_nonneg l) as L0. unfold int_max in B. destruct o as [x|x| | |i| | |i| |]; cbn [deque_conforming] in C; unfold d_step.
  - exists (l_addFirst s x), DUnit, (x :: l). split; auto. split; [cbn; auto|]. now apply holds_addFirst.
  - exists (l_addLast s x), DUnit, (l ++ [x]). split; auto. split; [cbn; auto|]. now apply holds_addLast.
  - destruct l as [|x r]; [congruence|]. destruct s as (h, o). cbn [snd] in L. destruct o as [|a o]; [rewrite zlen_cons in L; pose proof (zlen_nonneg r); cbn in L; lia|].
    destruct (holds_delete h [] a o [] x r H eq_refl) as (E1 & E2 & H'). unfold l_pollFirst. cbn [fst snd]. rewrite E1, E2. cbn [bind]. eexists _, _, r. split; [reflexivity|]. split; [cbn; auto|exact H'].
  - destruct (snoc_cases l) as [E0|(r & x & ->)]; [congruence|]. destruct (holds_last s r x H) as (o & a & Q & QL). destruct s as (h, o'). cbn [snd] in Q. subst o'.
    destruct (holds_delete h o a [] r x [] H QL) as (E1 & E2 & H'). unfold l_pollLast. cbn [fst snd]. rewrite rev_app_distr. cbn [rev app]. rewrite E1, E2. cbn [bind]. eexists _, _, r. split; [reflexivity|]. split; [right; exists r, x; auto|].
    rewrite rev_involutive. rewrite !app_nil_r in H'. exact H'.
  - destruct C as (C & NE). assert (0 < zlen l) by (destruct l; [congruence|rewrite zlen_cons; pose proof (zlen_nonneg l); lia]). unfold int_min, int_max in C. unfold l_get. destruct s as (h, o). cbn [snd] in L. destruct (Z.ltb_spec i 0).
    + cbn. exists (h, o), DBad, l. split; auto. split; auto. cbn. split; auto. right. split; auto. lia.
    + unfold uwrap. rewrite L, !Z.mod_small by (change (2 ^ 64) with 18446744073709551616; lia). cbn [orb]. destruct (i >? zlen l - 1) eqn:Q.
      * exists (h, o), DBad, l. split; auto. split; auto. cbn. split; auto. right. split; auto. lia.
      * destruct (holds_get (h, o) l i H) as (a & x & A & X & R); [lia|]. cbn [fst snd] in *. rewrite A, R. cbn [bind]. eexists _, _, l. split; [reflexivity|]. split; auto. cbn. split; auto. left. split; [lia|]. exists x. auto.
  - destruct l as [|x r]; [congruence|]. destruct s as (h, o). cbn [snd] in L. destruct o as [|a o]; [rewrite zlen_cons in L; pose proof (zlen_nonneg r); cbn in L; lia|].
    destruct (holds_delete h [] a o [] x r H eq_refl) as (E1 & E2 & H'). unfold l_getFirst. cbn [fst snd]. rewrite E2. cbn [bind]. eexists _, _, (x :: r). split; [reflexivity|]. split; [cbn; auto|exact H].
  - destruct (snoc_cases l) as [E0|(r & x & ->)]; [congruence|]. destruct (holds_last s r x H) as (o & a & Q & QL). destruct s as (h, o'). cbn [snd] in Q. subst o'.
    destruct (holds_delete h o a [] r x [] H QL) as (E1 & E2 & H'). unfold l_getLast. cbn [fst snd]. rewrite rev_app_distr. cbn [rev app]. rewrite E2. cbn [bind]. eexists _, _, (r ++ [x]). split; [reflexivity|]. split; [cbn; split; auto; right; exists r, x; auto|exact H].
  - unfold l_removeAt. destruct s as (h, o). cbn [fst snd]. destruct (remove_loop_ok o h [] l 0 i H eq_refl C) as (h' & o' & -> & H'). cbn [bind]. eexists _, _, (delete_at i l). split; [reflexivity|]. split; [left; auto|exact H'].
  - exists s. eexists. exists l. split; [reflexivity|]. split; auto. cbn. unfold l_size. rewrite L. auto.
  - unfold l_clear. destruct s as (h, o). destruct (delete_all_ok o h l H) as (h' & -> & H'). cbn [bind]. eexists _, _, []. split; [reflexivity|]. split; [cbn; auto|exact H'].
Qed.

Theorem C34_history_partial : forall (E : Type) (ops : list (dop E)), zlen ops <= int_max ->
  (forall pre o post l as_, ops = pre ++ o :: post -> drun [] pre l as_ -> deque_conforming l o) ->
  exists s as_ l, d_run ([], []) ops = Ok (s, as_) /\ drun [] ops l as_ /\ holds s l /\
  (* the destructor frees every node *)
  exists h, l_clear s = Ok (h, []) /\ forall a x, znth h a <> Some (Some x).
Proof.
  intros E ops B H.
  assert (Q : forall ops (s : state E) l0, holds s l0 -> zlen l0 + zlen ops <= int_max -> (forall pre o post l as_, ops = pre ++ o :: post -> drun l0 pre l as_ -> deque_conforming l o) ->
    exists s' as_ l, d_run s ops = Ok (s', as_) /\ drun l0 ops l as_ /\ holds s' l).
  { clear. induction ops as [|o ops IH]; intros s l0 H B C; cbn [d_run]; [exists s, [], l0; split; auto; split; auto; constructor|]. rewrite zlen_cons in B. pose proof (zlen_nonneg ops).
    destruct (d_step_ok s l0 o H) as (s1 & a & l1 & -> & D1 & H1); [lia|apply (C [] o ops l0 []); auto; constructor|]. cbn [bind].
    assert (zlen l1 <= zlen l0 + 1).
    { pose proof (zlen_nonneg l0). destruct o; cbn in D1; repeat match goal with X : _ /\ _ |- _ => destruct X end; subst; rewrite ?zlen_app, ?zlen_cons, ?zlen_nil; try lia.
      - destruct l0; destruct D1 as (-> & _); rewrite ?zlen_cons, ?zlen_nil; lia.
      - destruct D1 as [(-> & -> & _)|(r & x & -> & -> & _)]; rewrite ?zlen_app, ?zlen_nil; [lia|]. pose proof (zlen_nonneg [x]). lia.
      - destruct D1 as [(V & -> & _)|(_ & -> & _)]; [|lia]. unfold delete_at, cut, zlen in *. rewrite app_length, firstn_length, skipn_length. lia. }
    destruct (IH s1 l1 H1) as (s2 & as_ & l & -> & D2 & H3); [lia|intros pre o' post l as_ -> D; apply (C (o :: pre) o' post l (a :: as_)); auto; econstructor; eauto|].
    cbn [bind]. exists s2, (a :: as_), l. split; auto. split; auto. econstructor; eauto. }
  destruct (Q ops ([], []) []) as (s & as_ & l & R & D & Hs); auto.
  - split; [constructor|]. split; [constructor|]. intros a x A. cbn in A. unfold znth in A. destruct (a <? 0); [discriminate|]. destruct (Z.to_nat a); discriminate.
  - exists s, as_, l. split; auto. split; auto. split; auto. destruct s as (h, o). destruct (delete_all_ok o h l Hs) as (h' & E1 & (_ & _ & A)). exists h'. unfold l_clear. rewrite E1. cbn [bind]. split; [auto|]. intros a x X. apply A in X. destruct X.
Qed.
Print Assumptions C34_history_partial.

(** On the empty list the accessors and the polls are undefined instead of
    raising NoSuchElementException or returning null. *)
Theorem C34_empty_refuted : forall (E : Type) (h : heap E) i, 0 <= i <= int_max ->
  l_getFirst (h, []) = UB OutOfBounds /\ l_getLast (h, []) = UB OutOfBounds /\ l_pollFirst (h, []) = UB OutOfBounds /\ l_pollLast (h, []) = UB OutOfBounds /\ l_get (h, []) i = UB OutOfBounds.
Proof.
  intros E h i H. repeat split. unfold l_get, uwrap. change (zlen (@nil Z) - 1) with (-1). change (-1 mod 2 ^ 64) with 18446744073709551615. unfold int_max in H. rewrite Z.mod_small by (change (2 ^ 64) with 18446744073709551616; lia).
  replace ((i <? 0) || (i >? 18446744073709551615)) with false by lia. assert (znth (@nil Z) i = None) as -> by (apply znth_None; cbn; lia). auto.
Qed.
Print Assumptions C34_empty_refuted.

(** element() never returns a value. *)
Theorem C34_element_refuted : forall (E : Type) (s : state E), ~ is_ok (l_element s).
Proof. intros E s (e & H). unfold l_element in H. destruct (l_getFirst s); discriminate. Qed.
Print Assumptions C34_element_refuted.

(** remove(index) out of range changes nothing and still answers true. *)
Theorem C34_remove_out_of_range_refuted : forall (E : Type) (s : state E) i, ~ 0 <= i < l_size s -> l_removeAt s i = Ok (s, true).
Proof.
  intros E (h, o) i H. unfold l_removeAt, l_size in *. cbn [fst snd] in *.
  assert (Q : forall o p pos, i < pos \/ pos + zlen o <= i -> remove_loop h p o pos i = Ok (h, rev p ++ o)).
  { clear. induction o as [|a o IH]; intros p pos H; cbn [remove_loop]; [now rewrite app_nil_r|]. rewrite zlen_cons in H. pose proof (zlen_nonneg o). replace (pos =? i) with false by lia. rewrite IH by lia. cbn [rev]. rewrite <- app_assoc. auto. }
  rewrite Q by lia. auto.
Qed.
Print Assumptions C34_remove_out_of_range_refuted.

(** A copied list shares its nodes: destroying both frees them twice. *)
Theorem C34_copy_refuted : forall (E : Type) (s : state E) l, holds s l -> l <> [] ->
  exists h, l_clear s = Ok (h, []) /\ l_clear (h, l_copy (snd s)) = UB DoubleFree.
Proof.
  intros E (h, o) l H N. pose proof (holds_len _ _ H) as L. cbn [snd] in *. destruct l as [|x l]; [congruence|]. rewrite zlen_cons in L. destruct o as [|a o]; [pose proof (zlen_nonneg l); cbn in L; lia|].
  destruct (delete_all_ok _ h _ H) as (h' & E1 & (_ & _ & A)). exists h'. unfold l_clear, l_copy. rewrite E1. cbn [bind]. split; auto.
  cbn [delete_all] in *. destruct (holds_delete h [] a o [] x l H eq_refl) as (D & _ & H'). rewrite D in E1. cbn [bind] in E1.
  assert (K : forall o (h1 h2 : heap E), delete_all h1 o = Ok h2 -> zlen h2 = zlen h1).
  { clear. induction o as [|b o IH]; intros h1 h2 E1; cbn in E1; [congruence|]. unfold delete_node in E1. destruct (znth h1 b) as [[e|]|]; try discriminate. cbn [bind] in E1. apply IH in E1. now rewrite zupd_len in E1. }
  apply K in E1. rewrite zupd_len in E1. destruct H as (F & _). inversion F as [|? ? ? ? X _]; subst. cbn [fst] in X. apply znth_Some_lt in X. destruct (znth_ex h' a) as (c & C); [lia|]. unfold delete_node. rewrite C. destruct c; auto. exfalso. apply A in C. destruct C.
Qed.
Print Assumptions C34_copy_refuted.

(** remove(node) removes exactly the node with that id when it is in the list. *)
Theorem C34_remove_node_partial : forall (E : Type) (h : heap E) p a r l1 x l2, holds (h, p ++ a :: r) (l1 ++ x :: l2) -> length p = length l1 ->
  exists h', l_removeNode (h, p ++ a :: r) a = Ok ((h', p ++ r), true) /\ holds (h', p ++ r) (l1 ++ l2).
Proof.
  intros E h p a r l1 x l2 H L. destruct (holds_delete h p a r l1 x l2 H L) as (D & R & H'). exists (zupd h a None). split; auto. unfold l_removeNode. cbn [fst snd].
  assert (Q : forall p0 b, (forall c, In c p0 -> c <> a /\ exists e, read_node h c = Ok e) -> remove_id_loop h b (p0 ++ a :: r) a = Ok (zupd h a None, rev b ++ p0 ++ r)).
  { induction p0 as [|c p0 IH]; intros b Hc; cbn [app remove_id_loop].
    - rewrite R. cbn [bind]. rewrite Z.eqb_refl, D. auto.
    - destruct (Hc c) as (N & e & Re); [left; auto|]. rewrite Re. cbn [bind]. replace (c =? a) with false by lia. rewrite IH; [cbn [rev]; rewrite <- app_assoc; auto|]. intros; apply Hc; right; auto. }
  rewrite Q; auto. intros c Ic. destruct H as (F & N & _). cbn [fst snd] in *. split.
  - intros ->. apply NoDup_remove_2 in N. apply N. apply in_app_iff. auto.
  - assert (Ic' : In c (p ++ a :: r)) by (apply in_app_iff; auto). clear - F Ic'. unfold read_node. induction F; [destruct Ic'|]. destruct Ic' as [->|I]; eauto. exists y. rewrite H. auto.
Qed.
Print Assumptions C34_remove_node_partial.

Example C34_example : d_run ([], []) [DAddLast 5; DAddFirst 4; DAddLast 6; DGet 1; DGet 7; DRemoveAt 1; DPollLast; DSize; DPollFirst] =
  Ok (([None; None; None], []), [DUnit; DUnit; DUnit; DElem 5; DBad; DBool true; DElem 6; DInt 1; DElem 4]).
Proof. vm_compute. auto. Qed.
