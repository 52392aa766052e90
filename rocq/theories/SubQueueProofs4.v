(** Proofs about the sub-queues: progress. *)

From Coq Require Import ZArith List Lia Bool.
From Verif Require Import Base Bits TextLemmas SubQueueModel SubQueueSpec SubQueueProofs SubQueueProofs2 SubQueueProofs3.
Import ListNotations.
Open Scope Z_scope.

Section Queue.
Context {T : Type}.
Variables (B : Z) (nothrow : bool).
Hypothesis HB : 0 < B.
Notation state := (@state T).
Notation pc := (@pc T).
Notation event := (@event T).
Notation step := (@step T B nothrow).
Notation reachable := (@reachable T B nothrow).
Notation inv := (@inv T B nothrow).
Notation alone := (@alone T B nothrow).

Lemma not_bad (s : state) t u : inv s -> pcs s t <> Bad u.
Proof. intros [_ (g & G) _] E. pose proof (b_ok _ _ _ _ G t) as K. rewrite E in K. exact K. Qed.
Lemma alone_app n : forall s s1 s2 t m, alone n s t = Some s1 -> alone m s1 t = Some s2 -> alone (n + m) s t = Some s2.
Proof. induction n as [|n IH]; intros s s1 s2 t m A C; cbn in *; [injection A as <-; exact C|]. destruct (step s t (latest s t)) as [s'|]; [|discriminate]. eapply IH; eauto. Qed.
Lemma alone_one s s' t : step s t (latest s t) = Some s' -> alone 1 s t = Some s'.
Proof. intros E. cbn. rewrite E. reflexivity. Qed.

(** a thread that has claimed an element gets it *)
Definition done (s s' : state) (t : nat) (e : event) : Prop := inv s' /\ pcs s' t = Idle /\ (forall u, u <> t -> pcs s' u = pcs s u) /\ hist s' = e :: hist s.
Lemma d10 s t q i b r : inv s -> pcs s t = D10 q i b r -> exists n s', alone n s t = Some s' /\ (n <= 3)%nat /\ done s s' t (Got t q i r).
Proof.
  intros I0 P. set (s1 := set_block s b (mkBlock (cell (blocks s b)) (emptied (blocks s b) + 1))).
  assert (E : step s t (latest s t) = Some (if emptied (blocks s b) <? B then (if emptied (blocks s b) =? B - 1 then at_pc s1 t (D11 q i b r) else ret s1 t (Got t q i r)) else at_pc s t (Bad Precondition))) by (unfold latest, SubQueueModel.step; rewrite P; reflexivity).
  pose proof (inv_step B nothrow HB _ _ _ _ I0 E) as I1. destruct (emptied (blocks s b) <? B); [|exfalso; eapply (not_bad _ t); [exact I1|cbn; apply fupd_same]].
  destruct (emptied (blocks s b) =? B - 1).
  - set (s2 := at_pc s1 t (D11 q i b r)) in *. assert (P2 : pcs s2 t = D11 q i b r) by apply fupd_same.
    set (s3 := at_pc (set_sub s2 q (mkSub (tail (subs s2 q)) (head (subs s2 q)) (opt (subs s2 q)) (over (subs s2 q)) (zfupd (entry (subs s2 q)) (bnum B i) None) (tailBlock (subs s2 q)) (sent (subs s2 q)))) t (D12 q i b r)).
    assert (E2 : step s2 t (latest s2 t) = Some s3) by (unfold latest, SubQueueModel.step; rewrite P2; reflexivity). pose proof (inv_step B nothrow HB _ _ _ _ I1 E2) as I2. assert (P3 : pcs s3 t = D12 q i b r) by apply fupd_same.
    assert (E3 : step s3 t (latest s3 t) = Some (free_block s3 b t (fun s => ret s t (Got t q i r)))) by (unfold latest, SubQueueModel.step; rewrite P3; reflexivity). pose proof (inv_step B nothrow HB _ _ _ _ I2 E3) as I3. unfold free_block in *.
    destruct (avail s3 b); [exfalso; eapply (not_bad _ t); [exact I3|cbn; apply fupd_same]|].
    eexists 3%nat, _. split; [|split; [lia|]].
    + apply (alone_app 1 s s2 _ t 2); [apply alone_one; exact E|]. apply (alone_app 1 s2 s3 _ t 1); apply alone_one; [exact E2|exact E3].
    + split; [exact I3|]. cbn. split; [apply fupd_same|]. split; [|reflexivity]. intros u U. rewrite !fupd_other by exact U. reflexivity.
  - eexists 1%nat, _. split; [apply alone_one; exact E|]. split; [lia|]. split; [exact I1|]. cbn. split; [apply fupd_same|]. split; [|reflexivity]. intros u U. apply fupd_other. exact U.
Qed.
Lemma d7 s t q i : inv s -> pcs s t = D7 q i -> exists n s', alone n s t = Some s' /\ (n <= 6)%nat /\ done s s' t (Got t q i (znth (sent (subs s q)) i)).
Proof.
  intros I0 P.
  assert (E : step s t (latest s t) = Some (at_pc s t (match entry (subs s q) (bnum B i) with Some b => D8 q i b | None => Bad NullDeref end))) by (unfold latest, SubQueueModel.step; rewrite P; reflexivity).
  pose proof (inv_step B nothrow HB _ _ _ _ I0 E) as I1. destruct (entry (subs s q) (bnum B i)) as [b|]; [|exfalso; eapply (not_bad _ t); [exact I1|cbn; apply fupd_same]].
  set (s1 := at_pc s t (D8 q i b)) in *. assert (P1 : pcs s1 t = D8 q i b) by apply fupd_same.
  assert (E1 : step s1 t (latest s1 t) = Some (at_pc s1 t (match cell (blocks s1 b) (slot B i) with Some v => D9 q i b (Some v) | None => Bad Uninitialised end))) by (unfold latest, SubQueueModel.step; rewrite P1; reflexivity).
  pose proof (inv_step B nothrow HB _ _ _ _ I1 E1) as I2. destruct (cell (blocks s1 b) (slot B i)) as [v|]; [|exfalso; eapply (not_bad _ t); [exact I2|cbn; apply fupd_same]].
  set (s2 := at_pc s1 t (D9 q i b (Some v))) in *. assert (P2 : pcs s2 t = D9 q i b (Some v)) by apply fupd_same.
  assert (E2 : step s2 t (latest s2 t) = Some (at_pc (set_cell s2 b (slot B i) None) t (D10 q i b (Some v)))) by (unfold latest, SubQueueModel.step; rewrite P2; reflexivity).
  pose proof (inv_step B nothrow HB _ _ _ _ I2 E2) as I3. set (s3 := at_pc (set_cell s2 b (slot B i) None) t (D10 q i b (Some v))) in *.
  destruct (d10 s3 t q i b (Some v) I3) as (n & s4 & A & N & D1 & D2 & D3 & D4); [apply fupd_same|].
  assert (V : znth (sent (subs s q)) i = Some v).
  { destruct I3 as [_ (g & G) _]. pose proof (b_ok _ _ _ _ G t) as K. unfold s3 in K. cbn in K. rewrite !fupd_same in K. cbn in K. destruct K as (_ & _ & _ & [K|(w & K & W)]); [discriminate|]. injection K as <-. exact W. }
  exists (3 + n)%nat, s4. split; [|split; [lia|]].
  - apply (alone_app 3 s s3 s4 t n); [|exact A]. apply (alone_app 1 s s1 s3 t 2); [apply alone_one; exact E|]. apply (alone_app 1 s1 s2 s3 t 1); apply alone_one; assumption.
  - split; [exact D1|]. split; [exact D2|]. split; [|rewrite D4, V; reflexivity]. intros u U. rewrite D3 by exact U. cbn. rewrite !fupd_other by exact U. reflexivity.
Qed.
Lemma older_refl z : 0 <= z -> older z z = true.
Proof. intros H. unfold older. apply andb_true_iff. split; apply Z.leb_le; lia. Qed.
Lemma sub_nonneg s q : inv s -> 0 <= opt (subs s q) /\ 0 <= over (subs s q) /\ 0 <= tail (subs s q).
Proof. intros [(g & G) _ _]. destruct (i_sub _ _ G q) as [A1 A2 A3 A4 A5 A6 A7 A8]. rewrite A1, A4. repeat split; try apply zlen_nonneg. apply (i_opt _ _ G). Qed.

Lemma dequeue_alone s t q : inv s -> quiet s -> exists s0 n s', step s t (CDeq q (tail (subs s q))) = Some s0 /\ alone n s0 t = Some s' /\ (n <= 11)%nat /\ quiet s' /\
  hist s' = (if head (subs s q) <? tail (subs s q) then Got t q (head (subs s q)) (znth (sent (subs s q)) (head (subs s q))) else Nothing t q) :: hist s.
Proof.
  intros I0 Q. destruct (sub_nonneg s q I0) as (N1 & N2 & N3). pose proof (quiet_counters B nothrow s q I0 Q) as QC.
  set (tl := tail (subs s q)) in *. set (hd := head (subs s q)) in *. set (op := opt (subs s q)) in *. set (ov := over (subs s q)) in *.
  set (s0 := at_pc s t (D1 q tl)). assert (E0 : step s t (CDeq q tl) = Some s0) by (unfold SubQueueModel.step; rewrite Q; fold tl; rewrite older_refl by exact N3; reflexivity).
  pose proof (inv_step B nothrow HB _ _ _ _ I0 E0) as I1. assert (P0 : pcs s0 t = D1 q tl) by apply fupd_same.
  set (s1 := at_pc s0 t (D2 q tl ov)). assert (E1 : step s0 t (latest s0 t) = Some s1).
  { unfold latest, SubQueueModel.step. rewrite P0. change (over (subs s0 q)) with ov. rewrite older_refl by exact N2. reflexivity. }
  pose proof (inv_step B nothrow HB _ _ _ _ I1 E1) as I2. assert (P1 : pcs s1 t = D2 q tl ov) by apply fupd_same.
  assert (E2 : step s1 t (latest s1 t) = Some (if op - ov <? tl then at_pc s1 t (D3 q ov) else ret s1 t (Nothing t q))).
  { unfold latest, SubQueueModel.step. rewrite P1. change (opt (subs s1 q)) with op. rewrite older_refl by exact N1. reflexivity. }
  rewrite QC in E2. pose proof (inv_step B nothrow HB _ _ _ _ I2 E2) as I3. exists s0. destruct (Z.ltb_spec hd tl) as [L|L].
  - set (s2 := at_pc s1 t (D3 q ov)) in *. assert (P2 : pcs s2 t = D3 q ov) by apply fupd_same.
    set (s3 := at_pc (set_sub s2 q (mkSub (tail (subs s2 q)) (head (subs s2 q)) (opt (subs s2 q) + 1) (over (subs s2 q)) (entry (subs s2 q)) (tailBlock (subs s2 q)) (sent (subs s2 q)))) t (D4 q op ov)).
    assert (E3 : step s2 t (latest s2 t) = Some s3) by (unfold latest, SubQueueModel.step; rewrite P2; reflexivity). pose proof (inv_step B nothrow HB _ _ _ _ I3 E3) as I4. assert (P3 : pcs s3 t = D4 q op ov) by apply fupd_same.
    assert (T3 : tail (subs s3 q) = tl /\ head (subs s3 q) = hd /\ sent (subs s3 q) = sent (subs s q)) by (unfold s3; cbn; rewrite !fupd_same; auto). destruct T3 as (T3 & H3 & S3).
    set (s4 := at_pc s3 t (D5 q op)). assert (E4 : step s3 t (latest s3 t) = Some s4).
    { unfold latest, SubQueueModel.step. rewrite P3, T3. rewrite older_refl by exact N3. destruct (Z.ltb_spec (op - ov) tl); [reflexivity|lia]. }
    pose proof (inv_step B nothrow HB _ _ _ _ I4 E4) as I5. assert (P4 : pcs s4 t = D5 q op) by apply fupd_same.
    set (s5 := at_pc (set_sub s4 q (mkSub (tail (subs s4 q)) (head (subs s4 q) + 1) (opt (subs s4 q)) (over (subs s4 q)) (entry (subs s4 q)) (tailBlock (subs s4 q)) (sent (subs s4 q)))) t (D7 q (head (subs s4 q)))).
    assert (E5 : step s4 t (latest s4 t) = Some s5) by (unfold latest, SubQueueModel.step; rewrite P4; reflexivity). pose proof (inv_step B nothrow HB _ _ _ _ I5 E5) as I6.
    assert (P5 : pcs s5 t = D7 q hd) by (rewrite <- H3; apply fupd_same). assert (S5 : sent (subs s5 q) = sent (subs s q)) by (rewrite <- S3; unfold s5; cbn; rewrite fupd_same; reflexivity).
    destruct (d7 s5 t q hd I6 P5) as (n & s6 & A & N & D1 & D2 & D3 & D4). rewrite S5 in D4. exists (5 + n)%nat, s6. split; [exact E0|]. split; [|split; [lia|split]].
    + apply (alone_app 5 s0 s5 s6 t n); [|exact A]. apply (alone_app 1 s0 s1 s5 t 4); [apply alone_one; exact E1|]. apply (alone_app 1 s1 s2 s5 t 3); [apply alone_one; exact E2|]. apply (alone_app 1 s2 s3 s5 t 2); [apply alone_one; exact E3|]. apply (alone_app 1 s3 s4 s5 t 1); apply alone_one; assumption.
    + intros u. destruct (Nat.eq_dec u t) as [->|U]; [exact D2|]. rewrite D3 by exact U. cbn. rewrite !fupd_other by exact U. apply Q.
    + exact D4.
  - exists 2%nat, (ret s1 t (Nothing t q)). split; [exact E0|]. split; [|split; [lia|split; [|reflexivity]]].
    + apply (alone_app 1 s0 s1 _ t 1); apply alone_one; assumption.
    + intros u. destruct (Nat.eq_dec u t) as [->|U]; [apply fupd_same|]. cbn. rewrite !fupd_other by exact U. apply Q.
Qed.

(** ** Every operation ends after a bounded number of the thread's own steps *)
Definition rank (p : pc) : nat :=
  match p with
  | Idle | Bad _ => 0
  | E0 _ => 8 | E1 _ => 7 | E2 _ => 6 | E3 _ _ => 5 | E4 _ _ => 4 | E4x _ => 1 | E5 _ _ => 3 | E6 _ => 2 | E7 _ => 1
  | D1 _ _ => 11 | D2 _ _ _ => 10 | D3 _ _ => 9 | D4 _ _ _ => 8 | D5 _ _ => 7 | D6 _ _ => 1
  | D7 _ _ => 6 | D8 _ _ _ => 5 | D9 _ _ _ _ => 4 | D10 _ _ _ _ => 3 | D11 _ _ _ _ => 2 | D12 _ _ _ _ => 1
  end.
Lemma rank_step s t c s' : inv s -> step s t c = Some s' -> (forall u, u <> t -> pcs s' u = pcs s u) /\
  ((pcs s' t <> Idle /\ hist s' = hist s /\ (pcs s t <> Idle -> rank (pcs s' t) < rank (pcs s t))%nat) \/ (exists e, hist s' = e :: hist s /\ by_thread e = t /\ pcs s' t = Idle)).
Proof.
  intros I0 E. pose proof (inv_step B nothrow HB _ _ _ _ I0 E) as I1. assert (NB : forall u, pcs s' t <> Bad u) by (intros u; apply not_bad; exact I1).
  unfold SubQueueModel.step, free_block in E. destruct (pcs s t) eqn:P; destruct c; try discriminate E.
  all: repeat match type of E with context [match ?x with _ => _ end] => destruct x eqn:? end; try discriminate E; injection E as <-; cbn in *; rewrite ?fupd_same in *.
  all: try (exfalso; eapply NB; reflexivity).
  all: split; [intros u U; rewrite ?fupd_other by exact U; reflexivity|].
  all: first [left; split; [discriminate|split; [reflexivity|cbn; intros; first [lia|congruence]]]|right; eexists; split; [reflexivity|split; reflexivity]].
Qed.
Lemma wait_free_run t p : forall s s', inv s -> run B nothrow s p = Some s' ->
  inv s' /\ exists new, hist s' = new ++ hist s /\ ((exists e, In e new /\ by_thread e = t) \/ (pcs s t = Idle) \/ (rank (pcs s' t) + steps_of t p <= rank (pcs s t) /\ pcs s' t <> Idle)%nat).
Proof.
  induction p as [|(u, c) p IH]; intros s s' I0 R; cbn [run] in R.
  - injection R as <-. split; [exact I0|]. exists []. split; [reflexivity|]. right. destruct (pcs s t); [left; reflexivity|right; split; [cbn; lia|discriminate]..].
  - destruct (step s u c) as [s1|] eqn:E; [|discriminate]. pose proof (inv_step B nothrow HB _ _ _ _ I0 E) as I1. destruct (IH s1 s' I1 R) as (I2 & new & HN & H). split; [exact I2|]. destruct (rank_step s u c s1 I0 E) as (O & D).
    unfold steps_of in *. cbn [filter fst]. destruct (Nat.eqb_spec u t) as [->|N].
    + destruct D as [(D1 & D2 & D3)|(e & D1 & D2 & D3)].
      * exists new. split; [congruence|]. destruct H as [H|[H|(H1 & H2)]]; [left; exact H|contradiction|]. destruct (pcs s t) eqn:P; [right; left; reflexivity|right; right; split; [specialize (D3 ltac:(discriminate)); cbn [List.length]; lia|exact H2]..].
      * exists (new ++ [e]). split; [rewrite HN, D1, <- app_assoc; reflexivity|]. left. exists e. split; [apply in_app_iff; right; left; reflexivity|exact D2].
    + rewrite (O t) in H by congruence. destruct D as [(D1 & D2 & D3)|(e & D1 & D2 & D3)].
      * exists new. split; [congruence|exact H].
      * exists (new ++ [e]). split; [rewrite HN, D1, <- app_assoc; reflexivity|]. destruct H as [(e' & X & Y)|H]; [left; exists e'; split; [apply in_app_iff; left; exact X|exact Y]|right; exact H].
Qed.
(** a thread in an operation can always go on *)
Lemma enabled s t : inv s -> pcs s t <> Idle -> exists c s', step s t c = Some s'.
Proof.
  intros I0 N. pose proof (not_bad s t) as NB. unfold SubQueueModel.step.
  assert (HD : forall q, 0 <= head (subs s q)) by (intros q; apply (head_le_tail B nothrow s q I0)).
  destruct (pcs s t) eqn:P; try (eexists CGo, _; reflexivity); try (exfalso; eapply NB; [exact I0|reflexivity]); [congruence|..].
  - exists (CLoad (head (subs s t))). rewrite older_refl by apply HD. eexists; reflexivity.
  - eexists CFail, _; reflexivity.
  - exists (CLoad (over (subs s q))). rewrite older_refl by apply (sub_nonneg s q I0). eexists; reflexivity.
  - exists (CLoad (opt (subs s q))). rewrite older_refl by apply (sub_nonneg s q I0). eexists; reflexivity.
  - exists (CLoad (tail (subs s q))). rewrite older_refl by apply (sub_nonneg s q I0). eexists; reflexivity.
Qed.
(** nothing is refused without a failure *)
Lemma refused_step s t c s' : inv s -> is_failure c = false -> (forall u b, pcs s u <> E4x b) -> step s t c = Some s' ->
  (hist s' = hist s \/ exists e, hist s' = e :: hist s /\ is_refused e = false) /\ (forall u b, pcs s' u <> E4x b).
Proof.
  intros I0 F X E. pose proof (head_le_tail B nothrow s t I0) as HT. destruct (rank_step s t c s' I0 E) as (O & _).
  cut ((hist s' = hist s \/ exists e, hist s' = e :: hist s /\ is_refused e = false) /\ forall b, pcs s' t <> E4x b).
  { intros (C1 & C2). split; [exact C1|]. intros u b. destruct (Nat.eq_dec u t) as [->|N]; [apply C2|rewrite O by exact N; apply X]. }
  specialize (X t). unfold SubQueueModel.step, free_block in E. destruct (pcs s t) eqn:P; destruct c; try discriminate E; try discriminate F; try (exfalso; eapply X; reflexivity).
  3: { destruct (older z (head (subs s t))) eqn:OL; [|discriminate]. injection E as <-. unfold older in OL. destruct (Z.ltb_spec (tail (subs s t)) z); [lia|]. destruct (Z.ltb_spec z (tail (subs s t) + B)); [|lia]. cbn. rewrite fupd_same. split; [left; reflexivity|discriminate]. }
  all: repeat match type of E with context [match ?x with _ => _ end] => destruct x eqn:? end; try discriminate E; injection E as <-; cbn; rewrite ?fupd_same; (split; [|discriminate]); try (left; reflexivity); right; eexists; split; reflexivity.
Qed.
Lemma refused_run p : forall s s', inv s -> (forall u b, pcs s u <> E4x b) -> run B nothrow s p = Some s' -> forallb (fun d => negb (is_failure (snd d))) p = true ->
  exists new, hist s' = new ++ hist s /\ forallb (fun e => negb (is_refused e)) new = true.
Proof.
  induction p as [|(u, c) p IH]; intros s s' I0 X R F; cbn [run forallb snd] in *; [injection R as <-; exists []; auto|]. destruct (step s u c) as [s1|] eqn:E; [|discriminate]. apply andb_true_iff in F as (F1 & F2). apply negb_true_iff in F1.
  destruct (refused_step s u c s1 I0 F1 X E) as (D & X1). destruct (IH s1 s' (inv_step B nothrow HB _ _ _ _ I0 E) X1 R F2) as (new & HN & FN). destruct D as [D|(e & D & De)].
  - exists new. split; [congruence|exact FN].
  - exists (new ++ [e]). split; [rewrite HN, D, <- app_assoc; reflexivity|]. rewrite forallb_app, FN. cbn. rewrite De. reflexivity.
Qed.
(** the blocks of the pool *)
Lemma pool_block s b : inv s -> avail s b = true -> (forall r, 0 <= r < B -> cell (blocks s b) r = None) /\ (forall t, uses (pcs s t) <> Some b) /\
  (forall q, slot B (tail (subs s q)) <> 0 -> tailBlock (subs s q) <> Some b).
Proof.
  intros [_ (g & G) _] A. pose proof (b_block _ _ _ _ G b) as K. unfold blockB in K. destruct (own g b) eqn:O; try (exfalso; first [congruence|destruct K as (K & _); congruence]). destruct K as (_ & K).
  split; [exact K|]. split.
  - intros t X. pose proof (b_ok _ _ _ _ G t) as V. destruct (pcs s t); cbn in X; try discriminate X; injection X as ->; cbn in V; intuition congruence.
  - intros q S0 X. destruct (b_tail _ _ _ _ G q (or_introl S0)) as (b' & B1 & B2). congruence.
Qed.
Lemma kept s q i : inv s -> head (subs s q) <= i < tail (subs s q) -> exists b, entry (subs s q) (bnum B i) = Some b /\ avail s b = false /\ cell (blocks s b) (slot B i) = znth (sent (subs s q)) i.
Proof.
  intros I0 R. pose proof (head_le_tail B nothrow s q I0) as HT. destruct I0 as [_ (g & G) _]. pose proof (b_fresh _ _ _ _ G q i ltac:(lia)) as F. destruct (b_live _ _ _ _ G q i ltac:(lia) ltac:(congruence)) as (b & O). exists b.
  pose proof (b_block _ _ _ _ G b) as K. unfold blockB in K. rewrite O in K. destruct K as (K1 & K2 & K3 & K4 & _). split; [exact K2|]. split; [exact K1|]. rewrite K4 by (apply slot_range; exact HB). rewrite split_index by exact HB. rewrite content_e7, F. destruct (Z.ltb_spec i (tail (subs s q))); [reflexivity|lia].
Qed.
End Queue.
