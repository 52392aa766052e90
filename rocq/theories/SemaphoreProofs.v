(** Proofs about semaphores. *)

From Coq Require Import ZArith List Lia Bool.
From Verif Require Import Base Bits SemaphoreModel SemaphoreSpec.
Import ListNotations.
Open Scope Z_scope.

Lemma total_upd {A} (f : A -> Z) : forall l n x y, nth_error l n = Some x -> total f (upd l n y) = total f l - f x + f y.
Proof.
  induction l as [|a l IH]; intros [|n] x y E; try discriminate; cbn [upd total fold_right] in *.
  - injection E as ->. lia.
  - specialize (IH _ _ y E). unfold total in *. lia.
Qed.
Lemma total_app {A} (f : A -> Z) a b : total f (a ++ b) = total f a + total f b.
Proof. unfold total. induction a as [|x a IH]; cbn [app fold_right]; lia. Qed.
Lemma nth_upd_same {A} (l : list A) n x y : nth_error l n = Some x -> nth_error (upd l n y) n = Some y.
Proof. revert n. induction l as [|a l IH]; intros [|n] E; try discriminate; cbn in *; auto. Qed.
Lemma nth_upd_other {A} (l : list A) n k y : n <> k -> nth_error (upd l n y) k = nth_error l k.
Proof. revert n k. induction l as [|a l IH]; intros [|n] [|k] E; cbn; auto; try congruence. Qed.
Lemma nth_upd {A} (l : list A) n k (x y : A) : nth_error l n = Some x -> nth_error (upd l n y) k = if Nat.eqb k n then Some y else nth_error l k.
Proof. intros E. destruct (Nat.eqb_spec k n) as [->|NE]; [eapply nth_upd_same; eauto | apply nth_upd_other; congruence]. Qed.

(** ** The mutexes *)
Definition hasP (p : pc) : bool :=
  match p with
  | R75 _ | R75w _ _ | R76 _ | A93 _ _ | A94 _ _ _ | A102 _ _ | A102w _ _ _ | A103 _ _
  | T109 _ | T110 _ | T110w _ _ | T111 _ | T113 _ | T132 _ | T133 _ | T133w _ _ | T134 _ | T136 _ => true
  | _ => false
  end.
Definition hasC (p : pc) : bool :=
  match p with
  | R74 _ | R75 _ | R75w _ _ | R76 _ | R77 _ | R78 _ | A98 _ _ | A99 _ _ | T120 _ | T123 _
  | T131 _ | T132 _ | T133 _ | T133w _ _ | T134 _ | T134c _ | T136 _ | T137 _ => true
  | _ => false
  end.
(** The value loaded is still that of the counter. *)
Definition fresh (v : Z) (p : pc) : Prop := match p with R75w _ x | A94 _ _ x | A102w _ _ x | T110w _ x | T133w _ x => x = v | _ => True end.
(** The test made under the mutex still holds. *)
Definition tested (v : Z) (p : pc) : Prop := match p with T110 n | T110w n _ | T133 n | T133w n _ => n <= v | _ => True end.
(** The call a thread is in is the first of its list. *)
Definition belongs (p : pc) (l : list op) : Prop :=
  match p with
  | Idle => True
  | R73 n | R74 n | R75 n | R75w n _ | R76 n | R77 n | R78 n => exists r, l = Release n :: r
  | A91 n i => exists t r, l = TryAcquire n t :: r /\ t < 0 /\ 0 <= i <= Z.max 0 n
  | A92 n i | A93 n i | A94 n i _ | A97 n i | A98 n i | A98waiting n i | A98woken n i | A99 n i | A101 n i | A102 n i | A102w n i _ | A103 n i =>
      exists t r, l = TryAcquire n t :: r /\ t < 0 /\ 0 <= i < n
  | Return _ => exists o r, l = o :: r
  | T108 n | T109 n | T110 n | T110w n _ | T111 n | T113 n | T117 n | T120 n | T120waiting n | T120woken n _ | T123 n
  | T131 n | T132 n | T133 n | T133w n _ | T134 n | T134c n | T136 n | T137 n => exists t r, l = TryAcquire n t :: r /\ 0 <= t
  end.

Record inv (c : config) : Prop := mkInv {
  inv_pm : forall t, pm (sem_of c) = Some t <-> exists p l, nth_error (threads c) t = Some (p, l) /\ hasP p = true;
  inv_cm : forall t, cm (sem_of c) = Some t <-> exists p l, nth_error (threads c) t = Some (p, l) /\ hasC p = true;
  inv_thread : forall t p l, nth_error (threads c) t = Some (p, l) -> fresh (permits (sem_of c)) p /\ tested (permits (sem_of c)) p /\ belongs p l }.

Lemma wake_free p p' : wake p = Some p' -> hasP p = false /\ hasC p = false /\ hasP p' = false /\ hasC p' = false /\ (forall v, fresh v p') /\ (forall v, tested v p') /\ (forall l, belongs p l -> belongs p' l) /\ (forall l, in_progress p' l = in_progress p l).
Proof. destruct p; cbn; intros [= <-]; cbn; repeat split; auto. Qed.

(** What a local step does to the mutexes. *)
Definition pm_after (t : nat) (p p' : pc) (o o' : option nat) : Prop :=
  match hasP p, hasP p' with
  | false, false | true, true => o' = o
  | false, true => o = None /\ o' = Some t
  | true, false => o' = None
  end.
Definition cm_after (t : nat) (p p' : pc) (o o' : option nat) : Prop :=
  match hasC p, hasC p' with
  | false, false | true, true => o' = o
  | false, true => o = None /\ o' = Some t
  | true, false => o' = None
  end.
Lemma local_mutex t s p s' p' : local t s p = Some (s', p') -> pm_after t p p' (pm s) (pm s') /\ cm_after t p p' (cm s) (cm s').
Proof.
  destruct p; cbn; unfold lockP, unlockP, lockC, unlockC, store; intros E; try discriminate;
  try (destruct (pm s) eqn:EP; try discriminate); try (destruct (cm s) eqn:EC; try discriminate);
  try (destruct (i <? n); try discriminate); try (destruct (n <=? permits s); try discriminate); try (destruct (v =? 0); try discriminate); try (destruct timedout; try discriminate);
  try (injection E as <- <-); unfold pm_after, cm_after; cbn; try congruence; auto.
Qed.
Definition owned (has : pc -> bool) (ths : list thread) (o : option nat) : Prop :=
  forall t, o = Some t <-> exists p l, nth_error ths t = Some (p, l) /\ has p = true.
Lemma owned_upd has ths o t p l p' l' o' : owned has ths o -> nth_error ths t = Some (p, l) ->
  match has p, has p' with
  | false, false | true, true => o' = o
  | false, true => o = None /\ o' = Some t
  | true, false => o' = None
  end -> owned has (upd ths t (p', l')) o'.
Proof.
  intros H E A u. assert (N : forall k, nth_error (upd ths t (p', l')) k = if Nat.eqb k t then Some (p', l') else nth_error ths k) by (intros k; apply (nth_upd ths t k (p, l)); exact E).
  assert (SELF : has p = true -> o = Some t) by (intros HP; apply H; eauto).
  destruct (has p) eqn:HP, (has p') eqn:HP'.
  - subst o'. rewrite (SELF eq_refl). split.
    + intros [= <-]. exists p', l'. rewrite N, Nat.eqb_refl. auto.
    + intros (q & m & Q & HQ). rewrite N in Q. destruct (Nat.eqb_spec u t) as [->|NE]; [reflexivity|]. exfalso.
      assert (X : o = Some u) by (apply H; eauto). rewrite (SELF eq_refl) in X. congruence.
  - subst o'. split; [discriminate|]. intros (q & m & Q & HQ). rewrite N in Q. destruct (Nat.eqb_spec u t) as [->|NE]; [congruence|]. exfalso.
    assert (X : o = Some u) by (apply H; eauto). rewrite (SELF eq_refl) in X. congruence.
  - destruct A as (-> & ->). split.
    + intros [= <-]. exists p', l'. rewrite N, Nat.eqb_refl. auto.
    + intros (q & m & Q & HQ). rewrite N in Q. destruct (Nat.eqb_spec u t) as [->|NE]; [reflexivity|]. exfalso.
      assert (X : None = Some u) by (apply H; eauto). discriminate.
  - subst o'. rewrite (H u). split; intros (q & m & Q & HQ); exists q, m; split; auto.
    + rewrite N. destruct (Nat.eqb_spec u t) as [->|NE]; [congruence | exact Q].
    + rewrite N in Q. destruct (Nat.eqb_spec u t) as [->|NE]; [congruence | exact Q].
Qed.

Lemma not_hasP v p : hasP p = false -> fresh v p /\ tested v p.
Proof. destruct p; cbn; intros; try discriminate; auto. Qed.
Lemma local_thread t s p l s' p' : local t s p = Some (s', p') -> fresh (permits s) p -> tested (permits s) p -> belongs p l ->
  (hasP p = false -> permits s' = permits s) /\ fresh (permits s') p' /\ tested (permits s') p' /\ belongs p' l.
Proof.
  destruct p; cbn; unfold lockP, unlockP, lockC, unlockC, store; intros E F X B; try discriminate;
  try (destruct (pm s) eqn:EP; try discriminate); try (destruct (cm s) eqn:EC; try discriminate);
  try (destruct (Z.ltb_spec i n); try discriminate); try (destruct (Z.leb_spec n (permits s)); try discriminate); try (destruct (v =? 0); try discriminate); try (destruct timedout; try discriminate);
  injection E as <- <-; cbn; (split; [intros; auto; try discriminate |]; split; [auto|]; split; [auto; try lia|]); auto;
  try (destruct B as (t0 & r & B); destruct B as (-> & B1 & B2); exists t0, r; repeat split; auto; lia);
  try (destruct B as (t0 & r & B); destruct B as (-> & B1 & B2); eauto);
  try (destruct B as (t0 & r & -> & B1); eauto);
  try (destruct B as (r & ->); eauto).
Qed.
Lemma entry_ok o r v : hasP (entry o) = false /\ hasC (entry o) = false /\ fresh v (entry o) /\ tested v (entry o) /\ belongs (entry o) (o :: r) /\ in_progress (entry o) (o :: r) = 0.
Proof.
  destruct o as [n|n t|k]; cbn; try (repeat split; eauto; fail). destruct (Z.ltb_spec t 0); cbn; repeat split; auto; exists t, r; repeat split; auto; lia.
Qed.

Lemma inv_start v programs : inv (start v programs).
Proof.
  assert (A : forall t p l, nth_error (threads (start v programs)) t = Some (p, l) -> p = Idle).
  { intros t p l E. cbn in E. rewrite nth_error_map in E. destruct (nth_error programs t); [|discriminate]. injection E as <- <-. reflexivity. }
  split.
  - intros t. split; [discriminate|]. intros (p & l & E & H). rewrite (A _ _ _ E) in H. discriminate.
  - intros t. split; [discriminate|]. intros (p & l & E & H). rewrite (A _ _ _ E) in H. discriminate.
  - intros t p l E. rewrite (A _ _ _ E). cbn. auto.
Qed.

Lemma inv_step sp c c' : inv c -> step sp c c' -> inv c'.
Proof.
  intros [IP IC IT] ST.
  assert (SIMPLE : forall c0 t p l p' l', inv c0 -> nth_error (threads c0) t = Some (p, l) -> hasP p' = hasP p -> hasC p' = hasC p -> fresh (permits (sem_of c0)) p' -> tested (permits (sem_of c0)) p' -> belongs p' l' ->
    forall lg, inv (mkC (sem_of c0) (upd (threads c0) t (p', l')) lg)).
  { clear. intros c0 t p l p' l' [IP IC IT] E HP HC F X B lg. split; cbn [sem_of threads].
    - apply (owned_upd hasP _ _ _ _ _ _ _ _ IP E). rewrite HP. destruct (hasP p); reflexivity.
    - apply (owned_upd hasC _ _ _ _ _ _ _ _ IC E). rewrite HC. destruct (hasC p); reflexivity.
    - intros u q m Q. rewrite (nth_upd _ _ _ (p, l)) in Q by exact E. destruct (Nat.eqb_spec u t) as [->|NE]; [injection Q as <- <-; auto | exact (IT _ _ _ Q)]. }
  pose proof (mkInv _ IP IC IT) as I.
  destruct ST as [t o r c E | t p l s' p' c E L | t b o r c E | t n l u p l' p' c E EU W | t n l c E NO | t n l c E | t p p' l c SP E W].
  - destruct (entry_ok o r (permits (sem_of c))) as (HP & HC & F & X & B & _). exact (SIMPLE c t _ _ (entry o) (o :: r) I E HP HC F X B _).
  - destruct (IT _ _ _ E) as (F & X & B). destruct (local_thread _ _ _ _ _ _ L F X B) as (V & F' & X' & B'). destruct (local_mutex _ _ _ _ _ L) as (MP & MC). split; cbn [sem_of threads].
    + exact (owned_upd hasP _ _ _ _ _ _ _ _ IP E MP).
    + exact (owned_upd hasC _ _ _ _ _ _ _ _ IC E MC).
    + intros u q m Q. rewrite (nth_upd _ _ _ (p, l)) in Q by exact E. destruct (Nat.eqb_spec u t) as [->|NE]; [injection Q as <- <-; auto|].
      destruct (IT _ _ _ Q) as (F2 & X2 & B2). destruct (hasP p) eqn:HP.
      * assert (HQ : hasP q = false). { destruct (hasP q) eqn:HQ; [|reflexivity]. assert (X3 : pm (sem_of c) = Some u) by (apply IP; eauto). assert (X4 : pm (sem_of c) = Some t) by (apply IP; eauto). congruence. }
        destruct (not_hasP (permits s') q HQ). auto.
      * rewrite (V eq_refl). auto.
  - exact (SIMPLE c t _ _ Idle r I E eq_refl eq_refl Logic.I Logic.I Logic.I _).
  - destruct (IT _ _ _ E) as (_ & _ & B). assert (I1 : inv (mkC (sem_of c) (upd (threads c) t (R78 n, l)) (log c))) by (exact (SIMPLE c t _ _ (R78 n) l I E eq_refl eq_refl Logic.I Logic.I B _)).
    destruct (wake_free _ _ W) as (P1 & P2 & P3 & P4 & F & X & BB & _). destruct (IT _ _ _ EU) as (_ & _ & BU).
    assert (NE : u <> t) by (intros ->; rewrite E in EU; injection EU as <- _; discriminate).
    apply (SIMPLE (mkC (sem_of c) (upd (threads c) t (R78 n, l)) (log c)) u p l' p' l' I1); cbn [sem_of threads]; auto; try congruence. rewrite nth_upd_other by congruence. exact EU.
  - destruct (IT _ _ _ E) as (_ & _ & B). exact (SIMPLE c t _ _ (R78 n) l I E eq_refl eq_refl Logic.I Logic.I B _).
  - destruct (IT _ _ _ E) as (_ & _ & B). exact (SIMPLE c t _ _ (T120woken n true) l I E eq_refl eq_refl Logic.I Logic.I B _).
  - destruct (wake_free _ _ W) as (P1 & P2 & P3 & P4 & F & X & BB & _). destruct (IT _ _ _ E) as (_ & _ & B). apply (SIMPLE c t _ _ p' l I E); auto; congruence.
Qed.
Lemma inv_reach sp v programs c : reach sp (start v programs) c -> inv c.
Proof. induction 1; [apply inv_start | eapply inv_step; eassumption]. Qed.

(** ** Permits *)
Lemma local_effect t s p l s' p' : local t s p = Some (s', p') -> fresh (permits s) p -> belongs p l ->
  permits s' = permits s /\ in_progress p' l = in_progress p l \/ permits s' = wrap 32 (permits s + (in_progress p' l - in_progress p l)).
Proof.
  destruct p; cbn; unfold lockP, unlockP, lockC, unlockC, store; intros E F B; try discriminate;
  try (destruct (pm s) eqn:EP; try discriminate); try (destruct (cm s) eqn:EC; try discriminate);
  try (destruct (Z.ltb_spec i n); try discriminate); try (destruct (Z.leb_spec n (permits s)); try discriminate); try (destruct (v =? 0); try discriminate); try (destruct timedout; try discriminate);
  injection E as <- <-; cbn; auto; try (left; split; [reflexivity|lia]);
  try (right; f_equal; lia).
  all: try (destruct B as (r & ->); left; split; reflexivity).
  all: destruct B as (t0 & r & -> & B1); left; cbn; destruct (Z.ltb_spec t0 0); split; try reflexivity; lia.
Qed.

Lemma conservation sp v programs c : is_int v -> reach sp (start v programs) c ->
  permits (sem_of c) = wrap 32 (v + log_effect (log c) + threads_effect (threads c)).
Proof.
  intros V R. induction R as [|c c' R IH ST].
  - unfold start. cbn [sem_of permits log threads]. assert (T0 : threads_effect (map (fun p => (Idle, p)) programs) = 0).
    { unfold threads_effect, total. induction programs as [|a l IHl]; [reflexivity|]. cbn [map fold_right fst in_progress]. rewrite IHl. reflexivity. }
    rewrite T0. replace (v + log_effect [] + 0) with v by (cbn; lia). symmetry. apply wrap_id; [lia|]. unfold is_int, int_min, int_max in V. unfold in_s, smin, smax. lia.
  - pose proof (inv_reach _ _ _ _ R) as [IP IC IT].
    assert (UPD : forall t p l p' l', nth_error (threads c) t = Some (p, l) -> threads_effect (upd (threads c) t (p', l')) = threads_effect (threads c) - in_progress p l + in_progress p' l').
    { intros t p l p' l' E. unfold threads_effect. rewrite (total_upd _ _ _ _ _ E). reflexivity. }
    destruct ST as [t o r c E | t p l s' p' c E L | t b o r c E | t n l u p l' p' c E EU W | t n l c E NO | t n l c E | t p p' l c SP E W]; cbn [sem_of threads log].
    + rewrite (UPD _ _ _ _ _ E), IH. destruct (entry_ok o r 0) as (_ & _ & _ & _ & _ & ->). cbn [in_progress]. f_equal. lia.
    + rewrite (UPD _ _ _ _ _ E). destruct (IT _ _ _ E) as (F & _ & B). destruct (local_effect _ _ _ _ _ _ L F B) as [(-> & ->)| ->]; rewrite IH; [f_equal; lia|].
      apply wrap_eq_mod; [lia|]. rewrite Z.add_mod, wrap_mod, <- Z.add_mod by lia. f_equal. lia.
    + rewrite (UPD _ _ _ _ _ E), IH. unfold log_effect. rewrite total_app. cbn [in_progress total fold_right fst snd]. f_equal. lia.
    + assert (NE : u <> t) by (intros ->; rewrite E in EU; injection EU as <- _; discriminate). unfold threads_effect. rewrite (total_upd _ _ _ (p, l')) by (rewrite nth_upd_other by congruence; exact EU).
      fold (threads_effect (upd (threads c) t (R78 n, l))). rewrite (UPD _ _ _ _ _ E), IH. cbn [fst snd]. destruct (wake_free _ _ W) as (_ & _ & _ & _ & _ & _ & _ & ->). cbn [in_progress]. f_equal. lia.
    + rewrite (UPD _ _ _ _ _ E), IH. cbn [in_progress]. f_equal. lia.
    + rewrite (UPD _ _ _ _ _ E), IH. cbn [in_progress]. f_equal. lia.
    + rewrite (UPD _ _ _ _ _ E), IH. destruct (wake_free _ _ W) as (_ & _ & _ & _ & _ & _ & _ & ->). f_equal. lia.
Qed.
