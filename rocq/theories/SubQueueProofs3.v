(** Proofs about the sub-queues: the history of the operations. *)

From Coq Require Import ZArith List Lia Bool.
From Verif Require Import Base Bits TextLemmas SubQueueModel SubQueueSpec SubQueueProofs SubQueueProofs2.
Import ListNotations.
Open Scope Z_scope.

Section Queue.
Context {T : Type}.
Variables (B : Z) (nothrow : bool).
Hypothesis HB : 0 < B.
Notation state := (@state T).
Notation pc := (@pc T).
Notation event := (@event T).
Notation step := (@step T B nothrow).
Notation reachable := (@reachable T B nothrow).

Record invC (s : state) : Prop := mkInvC {
  c_sent : forall t, enqueued t (hist s) = sent (subs s t);
  c_got : forall t q i r, In (Got t q i r) (hist s) -> right_value s q i r;
  c_range : forall q i, In (q, i) (handed_out (hist s)) -> 0 <= i < head (subs s q);
  c_once : NoDup (handed_out (hist s));
  c_free : forall t q i, claims (pcs s t) = Some (q, i) -> ~ In (q, i) (handed_out (hist s));
  c_all : forall q i, 0 <= i < head (subs s q) -> In (q, i) (handed_out (hist s)) \/ exists t, claims (pcs s t) = Some (q, i) }.

Lemma got_handed t q i r (h : list event) : In (Got t q i r) h -> In (q, i) (handed_out h).
Proof. induction h as [|e h IH]; intros []; [subst e; left; reflexivity|]. destruct e; cbn [handed_out]; auto. right. auto. Qed.
Lemma handed_got q i (h : list event) : In (q, i) (handed_out h) -> exists t r, In (Got t q i r) h.
Proof.
  induction h as [|e h IH]; [intros []|]. destruct e; cbn [handed_out]; intros X; try (destruct (IH X) as (t' & r' & Y); exists t', r'; right; exact Y).
  destruct X as [X|X]; [injection X as <- <-; exists t, r; left; reflexivity|destruct (IH X) as (t' & r' & Y); exists t', r'; right; exact Y].
Qed.
Lemma invC_init : invC init.
Proof. constructor; cbn; try reflexivity; try tauto; try (intros; lia); try constructor; try discriminate. Qed.

Definition same_hist (x y : @sub T) : Prop := head x = head y /\ sent x = sent y.
(** steps without a return, or with one that is neither [Sent] nor [Got] *)
Lemma frameC s s' t p h : invC s -> (forall q, same_hist (subs s' q) (subs s q)) -> (forall u, u <> t -> pcs s' u = pcs s u) -> pcs s' t = p -> claims p = claims (pcs s t) ->
  hist s' = h ++ hist s -> (h = [] \/ h = [Refused t] \/ exists q, h = [Nothing t q]) -> invC s'.
Proof.
  intros H M O P C HH HE.
  assert (CE : forall u, claims (pcs s' u) = claims (pcs s u)) by (intros u; destruct (Nat.eq_dec u t) as [->|N]; [rewrite P; exact C|rewrite O by exact N; reflexivity]).
  assert (HO : handed_out (hist s') = handed_out (hist s)) by (rewrite HH; destruct HE as [->|[->|(q & ->)]]; reflexivity).
  constructor; rewrite ?HO.
  - intros u. destruct (M u) as (_ & ->). rewrite <- (c_sent _ H). rewrite HH. destruct HE as [->|[->|(q & ->)]]; reflexivity.
  - intros u q i r X. unfold right_value. destruct (M q) as (_ & ->). apply (c_got _ H u q i r). rewrite HH in X. destruct HE as [->|[->|(q' & ->)]]; [exact X|destruct X as [X|X]; [discriminate|exact X]..].
  - intros q i. destruct (M q) as (-> & _). apply (c_range _ H).
  - apply (c_once _ H).
  - intros u q i. rewrite CE. apply (c_free _ H).
  - intros q i. destruct (M q) as (-> & _). intros X. destruct (c_all _ H q i X) as [Y|(u & U)]; [left; exact Y|right; exists u; rewrite CE; exact U].
Qed.
Lemma same_hist_refl x : same_hist x x.
Proof. split; reflexivity. Qed.

(** an operation returns with an element *)
Lemma gotC s s' t q i r : invC s -> subs s' = subs s -> (forall u, u <> t -> pcs s' u = pcs s u) -> pcs s' t = Idle -> claims (pcs s t) = Some (q, i) -> hist s' = Got t q i r :: hist s ->
  0 <= i < head (subs s q) -> right_value s q i r -> (forall u, claims (pcs s u) = Some (q, i) -> u = t) -> invC s'.
Proof.
  intros H M O P C HH R V U. constructor; rewrite ?HH; cbn [enqueued handed_out].
  - intros u. rewrite M. apply (c_sent _ H).
  - intros u q' i' r'. unfold right_value. rewrite M. intros [X|X]; [injection X as <- <- <- <-; exact V|apply (c_got _ H u q' i' r' X)].
  - intros q' i'. rewrite M. intros [X|X]; [injection X as <- <-; exact R|apply (c_range _ H); exact X].
  - constructor; [apply (c_free _ H t); exact C|apply (c_once _ H)].
  - intros u q' i'. destruct (Nat.eq_dec u t) as [->|N]; [rewrite P; discriminate|]. rewrite O by exact N. intros X [Y|Y]; [injection Y as <- <-; apply N, U, X|apply (c_free _ H u q' i' X Y)].
  - intros q' i'. rewrite M. intros X. destruct (c_all _ H q' i' X) as [Y|(u & Y)]; [left; right; exact Y|]. destruct (Nat.eq_dec u t) as [->|N]; [left; left; congruence|]. right. exists u. rewrite O by exact N. exact Y.
Qed.

Ltac split_step E := repeat match type of E with
  | context [match ?x with _ => _ end] => destruct x eqn:?
  end; try discriminate E; injection E as <-.
Ltac other_sub' q' q := unfold fupd; destruct (Nat.eqb_spec q' q); [subst q'|]; split; reflexivity.
Lemma stepC s g t c s' g' : invB B nothrow s g -> invB B nothrow s' g' -> invC s -> step s t c = Some s' -> invC s'.
Proof.
  intros HBB HB' H E. unfold SubQueueModel.step, free_block in E. pose proof (b_ok _ _ _ _ HBB t) as K. pose proof (b_ok _ _ _ _ HB' t) as NB.
  destruct (pcs s t) eqn:P; destruct c; try discriminate E; cbn [okB] in K.
  all: try solve [split_step E; (eapply (frameC s _ t); [exact H|intros q'; cbn; first [apply same_hist_refl|other_sub' q' t; fail|other_sub' q' q; fail]|intros u U; cbn; apply fupd_other; exact U|cbn; apply fupd_same|rewrite P; reflexivity|cbn; first [instantiate (1 := []); reflexivity|instantiate (1 := [_]); reflexivity]|cbn; eauto])].
  - (* E7 *)
    injection E as <-. constructor; cbn.
    + intros u. destruct (Nat.eqb_spec t u) as [<-|N]; [rewrite fupd_same; cbn; rewrite (c_sent _ H); reflexivity|]. rewrite fupd_other by congruence. apply (c_sent _ H).
    + intros u q i r [X|X]; [discriminate|]. destruct (c_got _ H u q i r X) as [->|(w & -> & W)]; [left; reflexivity|right; exists w; split; [reflexivity|]]. cbn. destruct (Nat.eq_dec q t) as [->|Q]; [rewrite fupd_same; cbn|rewrite fupd_other by exact Q; exact W]. rewrite znth_app1; [exact W|]. apply znth_Some_lt in W. lia.
    + intros q i X. destruct (Nat.eq_dec q t) as [->|Q]; [rewrite fupd_same; cbn|rewrite fupd_other by exact Q]; apply (c_range _ H); exact X.
    + apply (c_once _ H).
    + intros u q i. destruct (Nat.eq_dec u t) as [->|N]; [rewrite fupd_same; discriminate|]. rewrite fupd_other by exact N. apply (c_free _ H).
    + intros q i X. assert (X' : 0 <= i < head (subs s q)) by (destruct (Nat.eq_dec q t) as [->|Q]; [rewrite fupd_same in X|rewrite fupd_other in X by exact Q]; exact X).
      destruct (c_all _ H q i X') as [Y|(u & U)]; [left; exact Y|right]. exists u. rewrite fupd_other; [exact U|]. intros ->. rewrite P in U. discriminate.
  - (* D5 *)
    injection E as <-. constructor; cbn.
    + intros u. destruct (Nat.eq_dec u q) as [->|Q]; [rewrite fupd_same; cbn|rewrite fupd_other by exact Q]; apply (c_sent _ H).
    + intros u q' i r X. destruct (c_got _ H u q' i r X) as [->|(w & -> & W)]; [left; reflexivity|right; exists w; split; [reflexivity|]]. cbn. destruct (Nat.eq_dec q' q) as [->|Q]; [rewrite fupd_same; cbn|rewrite fupd_other by exact Q]; exact W.
    + intros q' i X. apply (c_range _ H) in X. destruct (Nat.eq_dec q' q) as [->|Q]; [rewrite fupd_same; cbn; lia|rewrite fupd_other by exact Q; exact X].
    + apply (c_once _ H).
    + intros u q' i. destruct (Nat.eq_dec u t) as [->|N]; [rewrite fupd_same; cbn|rewrite fupd_other by exact N; apply (c_free _ H)]. intros X. injection X as <- <-. intros X. apply (c_range _ H) in X. lia.
    + intros q' i X. destruct (Nat.eq_dec q' q) as [->|Q]; [rewrite fupd_same in X; cbn in X|rewrite fupd_other in X by exact Q].
      * destruct (Z.eq_dec i (head (subs s q))) as [->|D]; [right; exists t; rewrite fupd_same; reflexivity|]. destruct (c_all _ H q i ltac:(lia)) as [Y|(u & U)]; [left; exact Y|right]. exists u. rewrite fupd_other; [exact U|]. intros ->. rewrite P in U. discriminate.
      * destruct (c_all _ H q' i X) as [Y|(u & U)]; [left; exact Y|right]. exists u. rewrite fupd_other; [exact U|]. intros ->. rewrite P in U. discriminate.
  - (* D7 *)
    injection E as <-. cbn in NB. rewrite fupd_same in NB. destruct (entry (subs s q) (SubQueueModel.bnum B i)) as [b|]; [|destruct NB].
    eapply (frameC s _ t); [exact H|intros q'; apply same_hist_refl|intros u U; cbn; apply fupd_other; exact U|cbn; apply fupd_same|rewrite P; reflexivity|cbn; instantiate (1 := []); reflexivity|auto].
  - (* D8 throws *)
    injection E as <-. cbn in NB. rewrite fupd_same in NB. destruct (cell (blocks s b) (SubQueueModel.slot B i)) as [w|]; [|destruct NB].
    eapply (frameC s _ t); [exact H|intros q'; apply same_hist_refl|intros u U; cbn; apply fupd_other; exact U|cbn; apply fupd_same|rewrite P; reflexivity|cbn; instantiate (1 := []); reflexivity|auto].
  - (* D8 *)
    injection E as <-. cbn in NB. rewrite fupd_same in NB. destruct (cell (blocks s b) (SubQueueModel.slot B i)) as [w|]; [|destruct NB].
    eapply (frameC s _ t); [exact H|intros q'; apply same_hist_refl|intros u U; cbn; apply fupd_other; exact U|cbn; apply fupd_same|rewrite P; reflexivity|cbn; instantiate (1 := []); reflexivity|auto].
  - (* D10 *)
    assert (UQ : forall u, claims (pcs s u) = Some (q, i) -> u = t) by (intros u U; apply (b_uniq _ _ _ _ HBB u t (q, i) U); rewrite P; reflexivity).
    split_step E.
    + eapply (frameC s _ t); [exact H|intros q'; apply same_hist_refl|intros u U; cbn; apply fupd_other; exact U|cbn; apply fupd_same|rewrite P; reflexivity|cbn; instantiate (1 := []); reflexivity|auto].
    + destruct K as (K1 & K2 & K3 & K4). eapply (gotC s _ t q i r); [exact H|reflexivity|intros u U; cbn; apply fupd_other; exact U|cbn; apply fupd_same|rewrite P; reflexivity|reflexivity|exact K1|exact K4|exact UQ].
    + cbn in NB. rewrite fupd_same in NB. destruct NB.
  - (* D12 *)
    assert (UQ : forall u, claims (pcs s u) = Some (q, i) -> u = t) by (intros u U; apply (b_uniq _ _ _ _ HBB u t (q, i) U); rewrite P; reflexivity).
    destruct K as (K1 & K2 & K3 & K4). split_step E.
    + cbn in NB. rewrite fupd_same in NB. destruct NB.
    + eapply (gotC s _ t q i r); [exact H|reflexivity|intros u U; cbn; apply fupd_other; exact U|cbn; apply fupd_same|rewrite P; reflexivity|reflexivity|exact K1|exact K4|exact UQ].
Qed.

Record inv (s : state) : Prop := mkInv { v_A : exists g, invA s g; v_B : exists g, invB B nothrow s g; v_C : invC s }.
Lemma inv_step s t c s' : inv s -> step s t c = Some s' -> inv s'.
Proof.
  intros [(gA & GA) (g & G) C] E. destruct (stepA B nothrow s gA t c s' GA E) as (gA' & GA'). destruct (stepB B nothrow HB s g gA t c s' GA G E) as (g' & G').
  constructor; [exists gA'; exact GA'|exists g'; exact G'|exact (stepC s g t c s' g' G G' C E)].
Qed.
Lemma reach_inv s : reachable s -> inv s.
Proof.
  apply (reach_ind B nothrow inv); [constructor; [apply invA_init|apply invB_init; exact HB|apply invC_init]|].
  intros s0 t c s1 _ I0 E. exact (inv_step s0 t c s1 I0 E).
Qed.

(** ** Later operations take later elements *)
Definition laterP (s1 : state) (s : state) : Prop :=
  exists new, hist s = new ++ hist s1 /\ (forall q, head (subs s1 q) <= head (subs s q)) /\
  forall t, claims (pcs s1 t) = None -> (forall q i, claims (pcs s t) = Some (q, i) -> head (subs s1 q) <= i) /\ (forall q i r, In (Got t q i r) new -> head (subs s1 q) <= i).
Lemma later_frame s1 s s' t p e : laterP s1 s -> (forall q, head (subs s' q) = head (subs s q)) -> (forall u, u <> t -> pcs s' u = pcs s u) -> pcs s' t = p -> claims p = None \/ claims p = claims (pcs s t) ->
  hist s' = e ++ hist s -> (forall u q i r, In (Got u q i r) e -> u = t /\ claims (pcs s t) = Some (q, i)) -> laterP s1 s'.
Proof.
  intros (new & HN & HD & L) M O P C HH HE. exists (e ++ new). split; [rewrite HH, HN, app_assoc; reflexivity|]. split; [intros q; rewrite M; apply HD|].
  intros u U. destruct (L u U) as (L1 & L2). split.
  - intros q i X. apply L1. destruct (Nat.eq_dec u t) as [->|N]; [rewrite P in X; destruct C as [C|C]; congruence|rewrite O in X by exact N; exact X].
  - intros q i r X. apply in_app_iff in X as [X|X]; [|apply (L2 q i r X)]. destruct (HE u q i r X) as (-> & Y). apply L1. exact Y.
Qed.
Lemma later_step s1 s t c s' : laterP s1 s -> step s t c = Some s' -> laterP s1 s'.
Proof.
  intros H E. unfold SubQueueModel.step, free_block in E. destruct (pcs s t) eqn:P; destruct c; try discriminate E.
  all: try solve [split_step E; (eapply (later_frame s1 s _ t); [exact H|intros q'; cbn; first [reflexivity|unfold fupd; destruct (Nat.eqb_spec q' t); [subst q'|]; reflexivity|unfold fupd; destruct (Nat.eqb_spec q' q); [subst q'|]; reflexivity]|intros u U; cbn; apply fupd_other; exact U|cbn; apply fupd_same|rewrite ?P; cbn; auto|cbn; first [instantiate (1 := []); reflexivity|instantiate (1 := [_]); reflexivity]|
    intros u q' i' r'; cbn; rewrite ?P; intros X; first [destruct X; fail|destruct X as [X|[]]; first [discriminate X|injection X as <- <- <- <-; cbn; auto]]])].
  (* D5 *)
  injection E as <-. destruct H as (new & HN & HD & L). exists new. split; [exact HN|]. split; cbn.
  - intros q'. specialize (HD q'). destruct (Nat.eq_dec q' q) as [->|Q]; [rewrite fupd_same; cbn; lia|rewrite fupd_other by exact Q; exact HD].
  - intros u U. destruct (L u U) as (L1 & L2). split; [|exact L2]. intros q' i. destruct (Nat.eq_dec u t) as [->|N]; [rewrite fupd_same; cbn|rewrite fupd_other by exact N; apply L1]. intros X. injection X as <- <-. apply HD.
Qed.
Lemma later_run s1 p : forall s s2, laterP s1 s -> run B nothrow s p = Some s2 -> laterP s1 s2.
Proof.
  induction p as [|(t, c) p IH]; intros s s2 L R; cbn [run] in R; [injection R as <-; exact L|]. destruct (step s t c) as [s'|] eqn:E; [|discriminate]. exact (IH s' s2 (later_step s1 s t c s' L E) R).
Qed.
Lemma later_refl s : inv s -> laterP s s.
Proof. intros I0. exists []. split; [reflexivity|]. split; [lia|]. intros t C. split; [intros q i X; congruence|intros q i r []]. Qed.

(** ** Quiet moments *)
Lemma quiet_counters s q : inv s -> quiet s -> opt (subs s q) - over (subs s q) = head (subs s q).
Proof.
  intros [(g & G) _ _] Q. destruct (i_sub _ _ G q) as [A1 A2 A3 A4 A5 A6 A7 A8]. rewrite A4, A7.
  assert (ND : NoDup (claimed g q ++ failed g q)).
  { assert (NF : NoDup (failed g q)) by (clear -A2; induction (passed g q) as [|y m IHm]; [exact A2|apply IHm; inversion A2; assumption]). clear A7. revert A2 A5 A6. induction (claimed g q) as [|x l IH]; intros A2 A5 A6; [exact NF|]. inversion A5; subst. cbn. constructor; [|apply IH; auto; intros y Y; apply A6; right; exact Y]. intros X. apply in_app_iff in X as [X|X]; [contradiction|].
    assert (In x (passed g q)) as IP by (apply A6; left; reflexivity). apply in_split in IP as (l1 & l2 & EP). rewrite EP in A2. rewrite <- app_assoc in A2. cbn in A2. apply NoDup_remove_2 in A2. apply A2. apply in_app_iff. right. apply in_app_iff. right. exact X. }
  pose proof (i_opt _ _ G q) as OP. assert (L1 : zlen (claimed g q ++ failed g q) <= Z.max 0 (opt (subs s q))).
  { apply range_length; [exact ND|]. intros x X. apply A3. apply in_app_iff in X as [X|X]; apply in_app_iff; auto. }
  assert (L2 : (length (map Z.of_nat (seq 0 (Z.to_nat (opt (subs s q))))) <= length (claimed g q ++ failed g q))%nat).
  { apply NoDup_incl_length; [apply FinFun.Injective_map_NoDup; [intros a b; lia|apply seq_NoDup]|]. intros x X. apply in_map_iff in X as (n & <- & N). apply in_seq in N. apply in_app_iff. destruct (i_all _ _ G q (Z.of_nat n) ltac:(lia)) as [Y|[Y|(t & Y)]]; auto. rewrite Q in Y. discriminate. }
  rewrite map_length, seq_length, app_length in L2. unfold zlen in *. rewrite app_length in L1. lia.
Qed.
Lemma quiet_handed s q i : inv s -> quiet s -> (In (q, i) (handed_out (hist s)) <-> 0 <= i < head (subs s q)).
Proof. intros [_ _ C] Q. split; [apply (c_range _ C)|]. intros X. destruct (c_all _ C q i X) as [Y|(t & Y)]; [exact Y|]. rewrite Q in Y. discriminate. Qed.
Lemma tail_enqueued s q : inv s -> tail (subs s q) = zlen (enqueued q (hist s)).
Proof. intros [(g & G) _ C]. rewrite (c_sent _ C). apply (a_tail _ _ _ _ (i_sub _ _ G q)). Qed.
Lemma head_le_tail s q : inv s -> 0 <= head (subs s q) <= tail (subs s q).
Proof. intros [(g & G) _ C]. split; [rewrite (a_head _ _ _ _ (i_sub _ _ G q)); apply zlen_nonneg|apply (head_tail s g q G)]. Qed.
End Queue.
