(** Proofs about semaphores: progress, non-negativity, executions. *)

From Coq Require Import ZArith List Lia Bool.
From Verif Require Import Base Bits SemaphoreModel SemaphoreSpec SemaphoreProofs.
Import ListNotations.
Open Scope Z_scope.

(** ** Progress *)
Definition settled (t : thread) : Prop := t = (Idle, []) \/ exists n i, fst t = A98waiting n i.
Lemma settled_dec (t : thread) : settled t \/ ~ settled t.
Proof. destruct t as [p l]. destruct p; try (right; intros [E|(n0 & i0 & E)]; cbn in E; congruence). - destruct l; [left; left; reflexivity | right; intros [E|(n0 & i0 & E)]; cbn in E; congruence]. - left. right. exists n, i. reflexivity. Qed.
Lemma settled_stuck c : Forall settled (threads c) -> stuck false c.
Proof.
  intros F c' ST. rewrite Forall_forall in F.
  assert (A : forall t p l, nth_error (threads c) t = Some (p, l) -> (p = Idle /\ l = []) \/ exists n i, p = A98waiting n i).
  { intros t p l E. apply nth_error_In in E. destruct (F _ E) as [X|(n & i & X)]; [injection X as -> ->; auto | cbn in X; eauto]. }
  destruct ST as [t o r c E | t p l s' p' c E L | t b o r c E | t n l u p l' p' c E EU W | t n l c E NO | t n l c E | t p p' l c SP E W];
    destruct (A _ _ _ E) as [(X & Y)|(n0 & i0 & X)]; subst; try discriminate.
Qed.
Lemma nobody_or (ths : list thread) : (exists u p l p', nth_error ths u = Some (p, l) /\ wake p = Some p') \/ (forall u p l, nth_error ths u = Some (p, l) -> wake p = None).
Proof.
  induction ths as [|[p l] ths IH].
  - right. intros [|u] p l E; discriminate.
  - destruct (wake p) as [p'|] eqn:W; [left; exists O, p, l, p'; auto|]. destruct IH as [(u & q & m & q' & E & W')|NO].
    + left. exists (S u), q, m, q'. auto.
    + right. intros [|u] q m E; [injection E as <- <-; exact W | exact (NO _ _ _ E)].
Qed.
Lemma hasP_steps t s p : hasP p = true -> exists s' p', local t s p = Some (s', p').
Proof.
  destruct p; cbn; intros; try discriminate; unfold lockP, unlockP, lockC, unlockC, store; eauto.
Qed.
Lemma progress sp c : inv c -> ~ Forall settled (threads c) -> exists c', step sp c c'.
Proof.
  intros [IP IC IT] NS.
  assert (LOC : forall t p l s' p', nth_error (threads c) t = Some (p, l) -> local t (sem_of c) p = Some (s', p') -> exists c', step sp c c') by (intros; eexists; eapply s_local; eauto).
  destruct (pm (sem_of c)) as [t|] eqn:EP.
  { destruct (proj1 (IP t) eq_refl) as (p & l & E & H). destruct (hasP_steps t (sem_of c) p H) as (s' & p' & L). eauto. }
  assert (LP : forall t p, exists s' p', lockP t (sem_of c) p = Some (s', p')) by (intros; unfold lockP; rewrite EP; eauto).
  destruct (cm (sem_of c)) as [t|] eqn:EC.
  { destruct (proj1 (IC t) eq_refl) as (p & l & E & H).
    assert (NP : hasP p = false). { destruct (hasP p) eqn:HP; [|reflexivity]. assert (X : None = Some t) by (apply IP; eauto). discriminate. }
    destruct p; cbn in H, NP; try discriminate; try (eapply LOC; [exact E | cbn; unfold lockP, unlockP, lockC, unlockC, store; rewrite ?EP; reflexivity]).
    destruct (nobody_or (threads c)) as [(u & q & m & q' & EU & W)|NO]; eexists; [eapply s_notify | eapply s_notify_nobody]; eauto. }
  assert (EX : exists t p l, nth_error (threads c) t = Some (p, l) /\ ~ settled (p, l)).
  { clear - NS. induction (threads c) as [|[p l] ths IH]; [exfalso; apply NS; constructor|]. destruct (settled_dec (p, l)) as [SE|SE].
    - destruct IH as (t & q & m & E & N); [intros F; apply NS; constructor; assumption|]. exists (S t), q, m. auto.
    - exists O, p, l. auto. }
  destruct EX as (t & p & l & E & N). destruct (IT _ _ _ E) as (_ & _ & B).
  destruct p; try (eapply LOC; [exact E | cbn; unfold lockP, unlockP, lockC, unlockC, store; rewrite ?EP, ?EC; reflexivity]).
  - destruct l as [|o r]; [exfalso; apply N; left; reflexivity|]. eexists. eapply s_call. exact E.
  - destruct B as (o & r & ->). eexists. eapply s_return. exact E.
  - exfalso. assert (X : None = Some t) by (apply IC; exists (R77 n), l; auto). discriminate.
  - destruct (i <? n) eqn:LT; (eapply LOC; [exact E | cbn; rewrite LT; reflexivity]).
  - exfalso. apply N. right. cbn. eauto.
  - eexists. eapply s_timeout. exact E.
Qed.

(** ** Never negative without acquire *)
Definition pend (p : pc) (l : list op) : Z := match p with R76 _ | R77 _ | R78 _ | Return _ => released (tl l) | _ => released l end.
Definition pending (l : list thread) : Z := total (fun t => pend (fst t) (snd t)) l.
Lemma released_nonneg l : 0 <= released l.
Proof. unfold released, total. induction l as [|o l IH]; cbn [fold_right]; [lia|]. destruct o; lia. Qed.
Lemma pend_nonneg p l : 0 <= pend p l.
Proof. unfold pend. destruct p; apply released_nonneg. Qed.
Lemma total_nonneg {A} (f : A -> Z) l : (forall x, 0 <= f x) -> 0 <= total f l.
Proof. intros F. unfold total. induction l as [|x l IH]; cbn [fold_right]; [lia|]. specialize (F x). lia. Qed.
Lemma total_ge {A} (f : A -> Z) : forall l n x, (forall x, 0 <= f x) -> nth_error l n = Some x -> f x <= total f l.
Proof.
  induction l as [|a l IH]; intros [|n] x F E; try discriminate; unfold total in *; cbn [fold_right] in *.
  - injection E as ->. pose proof (total_nonneg f l F). unfold total in *. lia.
  - specialize (IH _ _ F E). specialize (F a). lia.
Qed.
Lemma wake_pend p p' l : wake p = Some p' -> pend p' l = pend p l.
Proof. destruct p; cbn; intros [= <-]; reflexivity. Qed.

(** Every step keeps permits + pending below the bound and changes permits in one of these ways. *)
Definition ok_ops (l : list op) : Prop := Forall (fun o => match o with Release n => 0 <= n | TryAcquire n _ => 0 <= n | Do _ => True end) l.
Lemma local_pend t s p l s' p' : local t s p = Some (s', p') -> fresh (permits s) p -> belongs p l -> ok_ops l ->
  permits s' = permits s /\ pend p' l <= pend p l \/
  (exists n, p = R75w n (permits s) /\ p' = R76 n /\ 0 <= n /\ pend p' l = pend p l - n /\ permits s' = wrap 32 (permits s + n)) \/
  (exists n, 0 <= n /\ (p = T110w n (permits s) \/ p = T133w n (permits s)) /\ permits s' = wrap 32 (permits s - n) /\ pend p' l = pend p l) \/
  (exists n i, p = A102w n i (permits s) /\ p' = A103 n i /\ permits s' = wrap 32 (permits s - 1) /\ pend p' l = pend p l).
Proof.
  intros E F B OK. assert (DROP : released (tl l) <= released l). { destruct l as [|o r]; cbn [tl]; [lia|]. unfold released, total. cbn [fold_right]. destruct o; lia. }
  destruct p; cbn in E, F, B; unfold lockP, unlockP, lockC, unlockC, store in E; try discriminate;
  try (destruct (pm s) eqn:EP; try discriminate); try (destruct (cm s) eqn:EC; try discriminate);
  try (destruct (Z.ltb_spec i n); try discriminate); try (destruct (Z.leb_spec n (permits s)); try discriminate); try (destruct (v =? 0); try discriminate); try (destruct timedout; try discriminate);
  injection E as <- <-; cbn [permits pend]; subst; try (left; split; [reflexivity|]; try exact DROP; lia).
  all: try (destruct B as (r & ->); inversion OK; subst; right; left; eexists; repeat split; try eassumption; try lia; unfold pend, released, total; cbn [tl fold_right]; lia).
  all: try (destruct B as (t0 & r & B); inversion OK; subst; right; right; left; eexists; repeat split; eauto; fail).
  all: try (right; right; right; eexists; eexists; repeat split; fail).
  all: destruct B as (t0 & r & -> & B1); inversion OK; subst; right; right; left; exists n; repeat split; eauto.
Qed.

Lemma pending_upd ths t p l p' l' : nth_error ths t = Some (p, l) -> pending (upd ths t (p', l')) = pending ths - pend p l + pend p' l'.
Proof. intros E. unfold pending. rewrite (total_upd _ _ _ _ _ E). reflexivity. Qed.
Lemma upd_Forall {A} (P : A -> Prop) : forall l n x, Forall P l -> P x -> Forall P (upd l n x).
Proof. induction l as [|a l IH]; intros [|n] x F X; cbn; auto; inversion F; subst; constructor; auto. Qed.
Lemma pend_entry o r : pend (entry o) (o :: r) <= released (o :: r).
Proof. destruct o as [n|n t|k]; cbn [entry]; try (destruct (t <? 0)); cbn [pend tl]; unfold released, total; cbn [fold_right]; lia. Qed.
Lemma wrap32_id x : int_min <= x <= int_max -> wrap 32 x = x.
Proof. intros. apply wrap_id; [lia|]. unfold int_min, int_max in *. unfold in_s, smin, smax. lia. Qed.

(** How a step changes permits and the releases still to come. *)
Lemma step_permits sp c c' : inv c -> Forall (fun t => ok_ops (snd t)) (threads c) -> step sp c c' ->
  permits (sem_of c') = permits (sem_of c) /\ pending (threads c') <= pending (threads c) \/
  (exists t n l, nth_error (threads c) t = Some (R75w n (permits (sem_of c)), l) /\ threads c' = upd (threads c) t (R76 n, l) /\ 0 <= n /\ permits (sem_of c') = wrap 32 (permits (sem_of c) + n) /\ pending (threads c') = pending (threads c) - n) \/
  (exists t n p l, nth_error (threads c) t = Some (p, l) /\ (p = T110w n (permits (sem_of c)) \/ p = T133w n (permits (sem_of c))) /\ 0 <= n <= permits (sem_of c) /\ permits (sem_of c') = wrap 32 (permits (sem_of c) - n) /\ pending (threads c') = pending (threads c)) \/
  (exists t n i l, nth_error (threads c) t = Some (A102w n i (permits (sem_of c)), l) /\ threads c' = upd (threads c) t (A103 n i, l) /\ permits (sem_of c') = wrap 32 (permits (sem_of c) - 1) /\ pending (threads c') = pending (threads c)).
Proof.
  intros [IP IC IT] OK ST. rewrite Forall_forall in OK.
  destruct ST as [t o r c E | t p l s' p' c E L | t b o r c E | t n l u p l' p' c E EU W | t n l c E NO | t n l c E | t p p' l c SP E W]; cbn [sem_of threads].
  - left. split; [reflexivity|]. rewrite (pending_upd _ _ _ _ _ _ E). pose proof (pend_entry o r). unfold pend at 1. lia.
  - destruct (IT _ _ _ E) as (F & X & B). pose proof (OK _ (nth_error_In _ _ E)) as O. cbn [snd] in O. rewrite (pending_upd _ _ _ _ _ _ E).
    destruct (local_pend _ _ _ _ _ _ L F B O) as [(A1 & A2)|[(n & -> & -> & N & P & V)|[(n & N & PP & V & P)|(n & i & -> & -> & V & P)]]].
    + left. split; [exact A1 | lia].
    + right. left. exists t, n, l. repeat split; auto. lia.
    + right. right. left. exists t, n, p, l. repeat split; auto; try lia. destruct PP as [-> | ->]; cbn in X; exact X.
    + right. right. right. exists t, n, i, l. repeat split; auto. lia.
  - left. split; [reflexivity|]. rewrite (pending_upd _ _ _ _ _ _ E). cbn [pend tl]. lia.
  - left. split; [reflexivity|]. assert (NE : u <> t) by (intros ->; rewrite E in EU; injection EU as <- _; discriminate).
    rewrite (pending_upd _ _ p l' _ _) by (rewrite nth_upd_other by congruence; exact EU). rewrite (pending_upd _ _ _ _ _ _ E), (wake_pend _ _ _ W). cbn [pend]. lia.
  - left. split; [reflexivity|]. rewrite (pending_upd _ _ _ _ _ _ E). cbn [pend]. lia.
  - left. split; [reflexivity|]. rewrite (pending_upd _ _ _ _ _ _ E). cbn [pend]. lia.
  - left. split; [reflexivity|]. rewrite (pending_upd _ _ _ _ _ _ E), (wake_pend _ _ _ W). lia.
Qed.
(** The calls left only get fewer. *)
Lemma step_ops (P : op -> Prop) sp c c' : Forall (fun t => Forall P (snd t)) (threads c) -> step sp c c' -> Forall (fun t => Forall P (snd t)) (threads c').
Proof.
  intros F ST. pose proof F as F0. rewrite Forall_forall in F0.
  destruct ST as [t o r c E | t p l s' p' c E L | t b o r c E | t n l u p l' p' c E EU W | t n l c E NO | t n l c E | t p p' l c SP E W]; cbn [threads];
    pose proof (F0 _ (nth_error_In _ _ E)) as G; cbn [snd] in G; repeat apply upd_Forall; auto.
  - inversion G; subst; assumption.
  - exact (F0 _ (nth_error_In _ _ EU)).
Qed.
Lemma pending_start programs : pending (map (fun p => (Idle, p)) programs) = total released programs.
Proof. unfold pending, total. induction programs as [|a l IH]; [reflexivity|]. cbn [map fold_right fst snd pend]. rewrite IH. reflexivity. Qed.
Lemma pending_nonneg l : 0 <= pending l.
Proof. apply total_nonneg. intros x. apply pend_nonneg. Qed.

Lemma nonneg sp v programs c : 0 <= v -> Forall (Forall try_only) programs -> v + total released programs <= int_max -> reach sp (start v programs) c ->
  0 <= permits (sem_of c) /\ permits (sem_of c) + pending (threads c) <= v + total released programs.
Proof.
  intros V F B R.
  assert (G : Forall (fun t => Forall try_only (snd t)) (threads c) /\ 0 <= permits (sem_of c) /\ permits (sem_of c) + pending (threads c) <= v + total released programs); [|tauto].
  induction R as [|c c' R (FO & P & Q) ST].
  - cbn [start threads sem_of permits]. rewrite pending_start. split; [|lia]. rewrite Forall_map. exact F.
  - split; [eapply step_ops; eassumption|].
    assert (OK : Forall (fun t => ok_ops (snd t)) (threads c)).
    { eapply Forall_impl; [|exact FO]. intros t FT. eapply Forall_impl; [|exact FT]. intros [n|n t0|k]; cbn; tauto. }
    pose proof (inv_reach _ _ _ _ R) as I. pose proof (pending_nonneg (threads c)). pose proof (pending_nonneg (threads c')).
    destruct (step_permits _ _ _ I OK ST) as [(-> & A)|[(t & n & l & E & _ & N & -> & A)|[(t & n & p & l & E & PP & N & -> & A)|(t & n & i & l & E & _)]]].
    + lia.
    + rewrite wrap32_id by (unfold int_min; lia). lia.
    + rewrite wrap32_id by (unfold int_min; lia). lia.
    + exfalso. destruct (inv_thread _ I _ _ _ E) as (_ & _ & t0 & r & -> & T & _). rewrite Forall_forall in FO. pose proof (FO _ (nth_error_In _ _ E)) as Y. cbn [snd] in Y. inversion Y as [|? ? Y1]; subst. cbn in Y1. lia.
Qed.

(** ** One acquiring thread *)
Definition releases_only (l : list op) : Prop := Forall (fun o => match o with Release n => 1 <= n | TryAcquire _ _ => False | Do _ => True end) l.
Definition taking (p : pc) : bool := match p with A98woken _ _ | A99 _ _ | A101 _ _ | A102 _ _ | A102w _ _ _ => true | _ => false end.
Definition about_to_notify (p : pc) : bool := match p with R76 _ | R77 _ => true | _ => false end.
Record one (B : Z) (c : config) : Prop := mkOne {
  one_inv : inv c;
  one_first : forall p l, nth_error (threads c) O = Some (p, l) -> ok_ops l;
  one_rest : forall t p l, nth_error (threads c) (S t) = Some (p, l) -> releases_only l;
  one_pos : 0 <= permits (sem_of c);
  one_bound : permits (sem_of c) + pending (threads c) <= B;
  one_taking : forall p l, nth_error (threads c) O = Some (p, l) -> taking p = true -> 1 <= permits (sem_of c);
  one_waiting : forall n i l t p' l', nth_error (threads c) O = Some (A98waiting n i, l) -> nth_error (threads c) t = Some (p', l') -> about_to_notify p' = true -> 1 <= permits (sem_of c) }.
Lemma releases_ok l : releases_only l -> ok_ops l.
Proof. intros F. eapply Forall_impl; [|exact F]. intros [n|n t|k]; cbn; try tauto. lia. Qed.

Lemma one_step B c c' : B <= int_max -> one B c -> step false c c' -> one B c'.
Proof.
  intros BB [I F0 FR P Q TK WT] ST. pose proof (inv_step _ _ _ I ST) as I'.
  assert (OK : Forall (fun t => ok_ops (snd t)) (threads c)).
  { apply Forall_forall. intros [p l] IN. apply In_nth_error in IN. destruct IN as ([|t] & E); [exact (F0 _ _ E) | apply releases_ok; exact (FR _ _ _ E)]. }
  pose proof (pending_nonneg (threads c)) as PN. pose proof (pending_nonneg (threads c')) as PN'.
  assert (OPS : (forall p l, nth_error (threads c') O = Some (p, l) -> ok_ops l) /\ (forall t p l, nth_error (threads c') (S t) = Some (p, l) -> releases_only l)).
  { assert (G : forall t p l l', nth_error (threads c) t = Some (p, l) -> (forall Pr : op -> Prop, Forall Pr l -> Forall Pr l') -> forall p', (forall q m, nth_error (upd (threads c) t (p', l')) O = Some (q, m) -> ok_ops m) /\ (forall u q m, nth_error (upd (threads c) t (p', l')) (S u) = Some (q, m) -> releases_only m)).
    { intros t p l l' E SUB p'. split.
      - intros q m X. rewrite (nth_upd _ _ _ (p, l)) in X by exact E. destruct (Nat.eqb_spec O t) as [<-|NE]; [injection X as <- <-; apply SUB; exact (F0 _ _ E) | exact (F0 _ _ X)].
      - intros u q m X. rewrite (nth_upd _ _ _ (p, l)) in X by exact E. destruct (Nat.eqb_spec (S u) t) as [<-|NE]; [injection X as <- <-; apply SUB; exact (FR _ _ _ E) | exact (FR _ _ _ X)]. }
    destruct ST as [t o r c E | t p l s' p' c E L | t b o r c E | t n l u p l' p' c E EU W | t n l c E NO | t n l c E | t p p' l c SP E W]; cbn [threads].
    - exact (G _ _ _ _ E (fun _ x => x) _).
    - exact (G _ _ _ _ E (fun _ x => x) _).
    - apply (G _ _ _ _ E). intros Pr X. inversion X; assumption.
    - assert (NE : u <> t) by (intros ->; rewrite E in EU; injection EU as <- _; discriminate).
      assert (LL : forall k q m, nth_error (upd (upd (threads c) t (R78 n, l)) u (p', l')) k = Some (q, m) -> exists q', nth_error (threads c) k = Some (q', m)).
      { intros k q m X. rewrite (nth_upd _ _ _ (p, l')) in X by (rewrite nth_upd_other by congruence; exact EU). destruct (Nat.eqb_spec k u) as [->|N1]; [injection X as <- <-; eauto|].
        rewrite (nth_upd _ _ _ (R77 n, l)) in X by exact E. destruct (Nat.eqb_spec k t) as [->|N2]; [injection X as <- <-; eauto | eauto]. }
      split; [intros q m X; destruct (LL _ _ _ X) as (q' & X'); exact (F0 _ _ X') | intros k q m X; destruct (LL _ _ _ X) as (q' & X'); exact (FR _ _ _ X')].
    - exact (G _ _ _ _ E (fun _ x => x) _).
    - exact (G _ _ _ _ E (fun _ x => x) _).
    - exact (G _ _ _ _ E (fun _ x => x) _). }
  destruct OPS as (O1 & O2).
  assert (NUM : 0 <= permits (sem_of c') /\ permits (sem_of c') + pending (threads c') <= B).
  { destruct (step_permits _ _ _ I OK ST) as [(-> & A)|[(t & n & l & E & _ & N & -> & A)|[(t & n & p & l & E & PP & N & -> & A)|(t & n & i & l & E & _ & -> & A)]]].
    - lia.
    - rewrite wrap32_id by (unfold int_min; lia). lia.
    - rewrite wrap32_id by (unfold int_min; lia). lia.
    - assert (T0 : t = O). { destruct t as [|t]; [reflexivity|]. exfalso. pose proof (FR _ _ _ E) as RO. destruct (inv_thread _ I _ _ _ E) as (_ & _ & t0 & r & -> & _). inversion RO; subst; assumption. }
      subst t. pose proof (TK _ _ E eq_refl). rewrite wrap32_id by (unfold int_min; lia). lia. }
  destruct NUM as (N1 & N2).
  assert (MONO : 0%nat = 0%nat -> forall t p l s' p', 0%nat <> t -> nth_error (threads c) t = Some (p, l) -> local t (sem_of c) p = Some (s', p') -> permits (sem_of c) <= permits s').
  { intros _ [|t] p l s' p' NE E L; [congruence|]. destruct (inv_thread _ I _ _ _ E) as (F & _ & B0). pose proof (FR _ _ _ E) as RO.
    pose proof (total_ge (fun t => pend (fst t) (snd t)) _ _ _ (fun x => pend_nonneg (fst x) (snd x)) E) as TG. cbn [fst snd] in TG. fold (pending (threads c)) in TG.
    destruct (local_pend _ _ _ _ _ _ L F B0 (releases_ok _ RO)) as [(A1 & A2)|[(n & -> & -> & N & PE & V)|[(n & N & PP & V & PE)|(n & i & -> & -> & V & PE)]]].
    - lia.
    - pose proof (pend_nonneg (R76 n) l). rewrite V, wrap32_id by (unfold int_min; lia). lia.
    - exfalso. destruct PP as [-> | ->]; destruct B0 as (t0 & r & -> & _); inversion RO; subst; assumption.
    - exfalso. destruct B0 as (t0 & r & -> & _); inversion RO; subst; assumption. }
  split; auto.
  - (* taking *)
    intros q m X T. pose proof I as [IP IC IT].
    destruct ST as [t o r c E | t p l s' p' c E L | t b o r c E | t n l u p l' p' c E EU W | t n l c E NO | t n l c E | t p p' l c SP E W]; cbn [threads sem_of] in *.
    + rewrite (nth_upd _ _ _ _ _ E) in X. destruct (Nat.eqb_spec O t) as [<-|NE]; [injection X as <- <-; destruct o as [k|k t0|k]; cbn in T; try discriminate; destruct (t0 <? 0); discriminate | exact (TK _ _ X T)].
    + rewrite (nth_upd _ _ _ _ _ E) in X. destruct (Nat.eqb_spec O t) as [<-|NE].
      * injection X as <- <-. destruct (IT _ _ _ E) as (F & _). pose proof (TK _ _ E) as TK0.
        destruct p; cbn in L, F, TK0; unfold lockP, unlockP, lockC, unlockC, store in L; try discriminate;
          try (destruct (pm (sem_of c)); try discriminate); try (destruct (cm (sem_of c)); try discriminate); try (destruct (i <? n)); try (destruct (n <=? permits (sem_of c))); try (destruct timedout); try (destruct (Z.eqb_spec v 0));
          injection L as <- <-; try discriminate; cbn [permits]; try (apply TK0; reflexivity); lia.
      * pose proof (TK _ _ X T). pose proof (MONO eq_refl _ _ _ _ _ NE E L). lia.
    + rewrite (nth_upd _ _ _ _ _ E) in X. destruct (Nat.eqb_spec O t) as [<-|NE]; [injection X as <- <-; discriminate | exact (TK _ _ X T)].
    + assert (NE : u <> t) by (intros ->; rewrite E in EU; injection EU as <- _; discriminate).
      rewrite (nth_upd _ _ _ (p, l')) in X by (rewrite nth_upd_other by congruence; exact EU). destruct (Nat.eqb_spec O u) as [<-|NU].
      * injection X as <- <-. destruct p; cbn in W; try discriminate; injection W as <-; [|discriminate]. exact (WT _ _ _ _ _ _ EU E eq_refl).
      * rewrite (nth_upd _ _ _ _ _ E) in X. destruct (Nat.eqb_spec O t) as [<-|NT]; [injection X as <- <-; discriminate | exact (TK _ _ X T)].
    + rewrite (nth_upd _ _ _ _ _ E) in X. destruct (Nat.eqb_spec O t) as [<-|NE]; [injection X as <- <-; discriminate | exact (TK _ _ X T)].
    + rewrite (nth_upd _ _ _ _ _ E) in X. destruct (Nat.eqb_spec O t) as [<-|NE]; [injection X as <- <-; discriminate | exact (TK _ _ X T)].
    + discriminate.
  - (* waiting *)
    intros n0 i0 l0 t1 p1 l1 X Y T. pose proof I as [IP IC IT].
    destruct ST as [t o r c E | t p l s' p' c E L | t b o r c E | t n l u p l' p' c E EU W | t n l c E NO | t n l c E | t p p' l c SP E W]; cbn [threads sem_of] in *.
    + rewrite (nth_upd _ _ _ _ _ E) in X; rewrite (nth_upd _ _ _ _ _ E) in Y. destruct (Nat.eqb_spec O t) as [<-|NE]; [injection X as X _; destruct o as [k|k t0|k]; cbn in X; try discriminate; destruct (t0 <? 0); discriminate|].
      destruct (Nat.eqb_spec t1 t) as [->|NE1]; [injection Y as <- <-; destruct o as [k|k t0|k]; cbn in T; try discriminate; destruct (t0 <? 0); discriminate|]. exact (WT _ _ _ _ _ _ X Y T).
    + rewrite (nth_upd _ _ _ _ _ E) in X; rewrite (nth_upd _ _ _ _ _ E) in Y. destruct (Nat.eqb_spec O t) as [<-|NE].
      * injection X as -> ->. destruct (Nat.eqb_spec t1 O) as [->|NE1]; [injection Y as <- <-; discriminate|]. exfalso.
        assert (HC : hasC p = true). { destruct p; cbn in L; unfold lockP, unlockP, lockC, unlockC, store in L; try discriminate; try reflexivity; try (destruct (pm (sem_of c)); try discriminate); try (destruct (cm (sem_of c)); try discriminate); try (destruct (i <? n)); try (destruct (n <=? permits (sem_of c))); try (destruct timedout); try (destruct (Z.eqb_spec v 0)); discriminate. }
        assert (C0 : cm (sem_of c) = Some O) by (apply IC; eauto). assert (C1 : cm (sem_of c) = Some t1) by (apply IC; exists p1, l1; split; [exact Y|]; destruct p1; try discriminate; reflexivity). congruence.
      * pose proof (MONO eq_refl _ _ _ _ _ NE E L) as MO. destruct (Nat.eqb_spec t1 t) as [->|NE1]; [|pose proof (WT _ _ _ _ _ _ X Y T); lia].
        injection Y as <- <-. destruct (about_to_notify p) eqn:AN; [pose proof (WT _ _ _ _ _ _ X E AN); lia|].
        destruct (IT _ _ _ E) as (F & _ & B0). destruct t as [|t]; [congruence|]. pose proof (FR _ _ _ E) as RO.
        destruct p; cbn in L, AN, F, B0; unfold lockP, unlockP, lockC, unlockC, store in L; try discriminate; try (destruct (pm (sem_of c)); try discriminate); try (destruct (cm (sem_of c)); try discriminate); try (destruct (i <? n)); try (destruct (n <=? permits (sem_of c))); try (destruct timedout); try (destruct (Z.eqb_spec v 0));
          injection L as <- <-; try discriminate.
        all: destruct B0 as (r & ->); inversion RO as [|? ? RN _]; subst; cbn [permits].
        all: pose proof (total_ge (fun t => pend (fst t) (snd t)) _ _ _ (fun x => pend_nonneg (fst x) (snd x)) E) as TG; cbn [fst snd pend] in TG; fold (pending (threads c)) in TG.
        all: assert (n <= released (Release n :: r)) by (pose proof (released_nonneg r); unfold released, total in *; cbn [fold_right]; lia).
        all: rewrite wrap32_id by (unfold int_min; lia); lia.
    + rewrite (nth_upd _ _ _ _ _ E) in X; rewrite (nth_upd _ _ _ _ _ E) in Y. destruct (Nat.eqb_spec O t) as [<-|NE]; [discriminate|]. destruct (Nat.eqb_spec t1 t) as [->|NE1]; [injection Y as <- <-; discriminate|]. exact (WT _ _ _ _ _ _ X Y T).
    + assert (NE : u <> t) by (intros ->; rewrite E in EU; injection EU as <- _; discriminate).
      assert (WW : forall n1 i1, p' <> A98waiting n1 i1) by (intros n1 i1 ->; destruct p; discriminate).
      assert (WA : about_to_notify p' = false) by (destruct p; cbn in W; try discriminate; injection W as <-; reflexivity).
      rewrite (nth_upd _ _ _ (p, l')) in X by (rewrite nth_upd_other by congruence; exact EU). rewrite (nth_upd _ _ _ (p, l')) in Y by (rewrite nth_upd_other by congruence; exact EU). destruct (Nat.eqb_spec O u) as [<-|NU]; [injection X as X _; exfalso; eapply WW; exact X|].
      destruct (Nat.eqb_spec t1 u) as [->|NU1]; [injection Y as <- <-; congruence|].
      rewrite (nth_upd _ _ _ _ _ E) in X; rewrite (nth_upd _ _ _ _ _ E) in Y. destruct (Nat.eqb_spec O t) as [<-|NT]; [discriminate|]. destruct (Nat.eqb_spec t1 t) as [->|NE1]; [injection Y as <- <-; discriminate|]. exact (WT _ _ _ _ _ _ X Y T).
    + rewrite (nth_upd _ _ _ _ _ E) in X; rewrite (nth_upd _ _ _ _ _ E) in Y. destruct (Nat.eqb_spec O t) as [<-|NE]; [discriminate|]. destruct (Nat.eqb_spec t1 t) as [->|NE1]; [injection Y as <- <-; discriminate|]. exact (WT _ _ _ _ _ _ X Y T).
    + rewrite (nth_upd _ _ _ _ _ E) in X; rewrite (nth_upd _ _ _ _ _ E) in Y. destruct (Nat.eqb_spec O t) as [<-|NE]; [discriminate|]. destruct (Nat.eqb_spec t1 t) as [->|NE1]; [injection Y as <- <-; discriminate|]. exact (WT _ _ _ _ _ _ X Y T).
    + discriminate.
Qed.
Lemma one_start v first rest : 0 <= v -> ok_ops first -> Forall releases_only rest -> one (v + total released (first :: rest)) (start v (first :: rest)).
Proof.
  intros V F R. assert (Q : v + pending (map (fun p => (Idle, p)) (first :: rest)) <= v + total released (first :: rest)) by (rewrite pending_start; lia).
  split; cbn [start sem_of permits threads] in *; auto.
  - apply inv_start.
  - intros p l [= <- <-]. exact F.
  - intros t p l E. cbn in E. rewrite nth_error_map in E. destruct (nth_error rest t) eqn:N; [|discriminate]. injection E as <- <-. rewrite Forall_forall in R. apply R. eapply nth_error_In; eauto.
  - intros p l [= <- <-]. discriminate.
  - intros n i l t p' l' E. discriminate.
Qed.
Lemma one_reach v first rest c : 0 <= v -> ok_ops first -> Forall releases_only rest -> v + total released (first :: rest) <= int_max ->
  reach false (start v (first :: rest)) c -> one (v + total released (first :: rest)) c.
Proof. intros V F R B H. induction H; [apply one_start; assumption | eapply one_step; eassumption]. Qed.

(** ** Executions *)
Inductive act : Type := Call (t : nat) | Loc (t : nat) | Ret (t : nat) | Notify (t u : nat) | Nobody (t : nat) | Timeout (t : nat) | Spurious (t : nat).
Definition exec1 (sp : bool) (a : act) (c : config) : option config :=
  match a with
  | Call t => match nth_error (threads c) t with Some (Idle, o :: r) => Some (mkC (sem_of c) (upd (threads c) t (entry o, o :: r)) (log c)) | _ => None end
  | Loc t => match nth_error (threads c) t with Some (p, l) => match local t (sem_of c) p with Some (s', p') => Some (mkC s' (upd (threads c) t (p', l)) (log c)) | None => None end | _ => None end
  | Ret t => match nth_error (threads c) t with Some (Return b, o :: r) => Some (mkC (sem_of c) (upd (threads c) t (Idle, r)) (log c ++ [(t, o, b)])) | _ => None end
  | Notify t u => match nth_error (threads c) t, nth_error (threads c) u with
      | Some (R77 n, l), Some (p, l') => match wake p with Some p' => Some (mkC (sem_of c) (upd (upd (threads c) t (R78 n, l)) u (p', l')) (log c)) | None => None end
      | _, _ => None end
  | Nobody t => match nth_error (threads c) t with
      | Some (R77 n, l) => if forallb (fun x => match wake (fst x) with None => true | Some _ => false end) (threads c) then Some (mkC (sem_of c) (upd (threads c) t (R78 n, l)) (log c)) else None
      | _ => None end
  | Timeout t => match nth_error (threads c) t with Some (T120waiting n, l) => Some (mkC (sem_of c) (upd (threads c) t (T120woken n true, l)) (log c)) | _ => None end
  | Spurious t => if sp then match nth_error (threads c) t with Some (p, l) => match wake p with Some p' => Some (mkC (sem_of c) (upd (threads c) t (p', l)) (log c)) | None => None end | _ => None end else None
  end.
Fixpoint exec (sp : bool) (l : list act) (c : config) : option config :=
  match l with [] => Some c | a :: r => match exec1 sp a c with Some c' => exec sp r c' | None => None end end.
Lemma exec1_step sp a c c' : exec1 sp a c = Some c' -> step sp c c'.
Proof.
  destruct a as [t|t|t|t u|t|t|t]; cbn [exec1]; intros E.
  - destruct (nth_error (threads c) t) as [[p l]|] eqn:N; [|discriminate]. destruct p; try discriminate. destruct l as [|o r]; [discriminate|]. injection E as <-. apply s_call. exact N.
  - destruct (nth_error (threads c) t) as [[p l]|] eqn:N; [|discriminate]. destruct (local _ _ _) as [[s' p']|] eqn:L; [|discriminate]. injection E as <-. eapply s_local; eassumption.
  - destruct (nth_error (threads c) t) as [[p l]|] eqn:N; [|discriminate]. destruct p; try discriminate. destruct l as [|o r]; [discriminate|]. injection E as <-. apply s_return. exact N.
  - destruct (nth_error (threads c) t) as [[p l]|] eqn:N; [|discriminate]. destruct p; try discriminate. destruct (nth_error (threads c) u) as [[q m]|] eqn:M; [|discriminate]. destruct (wake q) as [q'|] eqn:W; [|discriminate]. injection E as <-. eapply s_notify; eassumption.
  - destruct (nth_error (threads c) t) as [[p l]|] eqn:N; [|discriminate]. destruct p; try discriminate. destruct (forallb _ _) eqn:A; [|discriminate]. injection E as <-. apply s_notify_nobody; [exact N|].
    intros u q m M. rewrite forallb_forall in A. specialize (A _ (nth_error_In _ _ M)). cbn [fst] in A. destruct (wake q); [discriminate|reflexivity].
  - destruct (nth_error (threads c) t) as [[p l]|] eqn:N; [|discriminate]. destruct p; try discriminate. injection E as <-. apply s_timeout. exact N.
  - destruct sp; [|discriminate]. destruct (nth_error (threads c) t) as [[p l]|] eqn:N; [|discriminate]. destruct (wake p) as [p'|] eqn:W; [|discriminate]. injection E as <-. eapply s_spurious; eauto.
Qed.
Lemma reach_trans sp a b c : reach sp a b -> reach sp b c -> reach sp a c.
Proof. intros A B. induction B; [exact A | eapply reach_step; eauto]. Qed.
Lemma exec_reach sp : forall l c c', exec sp l c = Some c' -> reach sp c c'.
Proof.
  induction l as [|a l IH]; intros c c' E; cbn [exec] in E; [injection E as <-; apply reach_0|]. destruct (exec1 sp a c) as [c1|] eqn:X; [|discriminate].
  eapply reach_trans; [|apply IH; exact E]. eapply reach_step; [apply reach_0 | eapply exec1_step; exact X].
Qed.
Ltac witness sp acts c0 :=
  let r := eval vm_compute in (exec sp acts c0) in
  match r with Some ?c => exists c; split; [apply (exec_reach sp acts); vm_compute; reflexivity|] end.
