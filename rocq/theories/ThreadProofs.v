(** Proofs about ThreadModel.v. *)

From Coq Require Import ZArith List Lia Bool.
From Verif Require Import Base Bits SemaphoreModel SemaphoreSpec SemaphoreProofs SemaphoreProofs2 ThreadModel.
Import ListNotations.
Open Scope Z_scope.

(** What the other threads do. *)
Definition joiner (o : op) : Prop := (exists t, o = TryAcquire 1 t) \/ (exists k, o = Do k).

(** A joiner that has not got past its test. *)
Definition quiet (p : pc) (l : list op) : Prop :=
  match p with
  | Idle => True
  | Return b => match l with TryAcquire _ _ :: _ => b = false | _ => True end
  | A91 n i | A92 n i | A93 n i | A97 n i | A98 n i | A98waiting n i => n = 1 /\ i = 0
  | A94 n i v => n = 1 /\ i = 0 /\ v = 0
  | T108 n | T109 n | T113 n | T117 n | T120 n | T120waiting n | T120woken n _ | T123 n | T131 n | T132 n | T136 n | T137 n => n = 1
  | _ => False
  end.
(** Thread 0 before its release. *)
Definition before (p : pc) (l : list op) (lg : list (nat * op * bool)) : Prop :=
  (l = run_m /\ (p = Idle \/ p = Return true)) \/
  (l = [func_done; Release 1; alive_false] /\ (p = Idle \/ p = Return true)) \/
  (l = [Release 1; alive_false] /\ In (O, func_done, true) lg /\ (p = Idle \/ p = R73 1 \/ p = R74 1 \/ p = R75 1 \/ p = R75w 1 0)).

Record phaseA (c : config) : Prop := mkA {
  a_0 : forall p l, nth_error (threads c) 0 = Some (p, l) -> before p l (log c);
  a_t : forall t p l, nth_error (threads c) (S t) = Some (p, l) -> quiet p l /\ Forall joiner l;
  a_p : permits (sem_of c) = 0;
  a_l : forall t o, In (t, TryAcquire 1 o, true) (log c) -> False }.
Definition phase (c : config) : Prop := phaseA c \/ In (O, func_done, true) (log c).

Lemma phase_start others : Forall (Forall joiner) others -> phaseA (system others).
Proof.
  intros F. split; cbn.
  - intros p l [= <- <-]. left. auto.
  - intros t p l E. rewrite nth_error_map in E. destruct (nth_error others t) eqn:N; [|discriminate]. injection E as <- <-. split; [exact I|]. rewrite Forall_forall in F. apply F. eapply nth_error_In; eauto.
  - reflexivity.
  - auto.
Qed.
Lemma quiet_local t s p l s' p' : permits s = 0 -> local t s p = Some (s', p') -> quiet p l -> quiet p' l /\ permits s' = 0.
Proof.
  intros P E Q. destruct p; cbn in E; unfold lockP, unlockP, lockC, unlockC, store in E; cbn in Q; try contradiction; try discriminate;
  try (destruct (pm s); try discriminate); try (destruct (cm s); try discriminate);
  repeat match goal with H : _ /\ _ |- _ => destruct H end; subst; cbn in *;
  try rewrite P in *; cbn in E; injection E as <- <-; cbn; auto; try (destruct timedout; cbn; auto).
  all: destruct l as [|[]]; auto.
Qed.
Lemma upd_S {A} (x : A) l t y u : nth_error (upd (x :: l) (S t) y) (S u) = nth_error (upd l t y) u.
Proof. reflexivity. Qed.
Lemma nth_upd0 {A} (l : list A) t y : nth_error (upd l (S t) y) 0 = nth_error l 0.
Proof. destruct l; reflexivity. Qed.
Lemma nth_updS {A} (l : list A) u y : nth_error (upd l 0 y) (S u) = nth_error l (S u).
Proof. destruct l; reflexivity. Qed.

(** A step of another thread that keeps it quiet. *)
Lemma keepA c t p l p' l' s' lg : phaseA c -> nth_error (threads c) (S t) = Some (p, l) -> quiet p' l' -> Forall joiner l' -> permits s' = 0 ->
  (forall e, In e (log c) -> In e lg) -> (forall u o, In (u, TryAcquire 1 o, true) lg -> False) -> phaseA (mkC s' (upd (threads c) (S t) (p', l')) lg).
Proof.
  intros [A0 AT AP AL] E Q J P L1 L2. split; cbn [threads sem_of log]; auto.
  - intros q m. rewrite nth_upd0. intros N. destruct (A0 _ _ N) as [X|[X|(X & Y & W)]]; [left; auto | right; left; auto | right; right; auto].
  - intros u q m N. destruct (Nat.eq_dec u t) as [->|NE].
    + rewrite (nth_upd_same _ _ _ _ E) in N. injection N as <- <-. auto.
    + rewrite nth_upd_other in N by congruence. eapply AT; eauto.
Qed.
(** A step of thread 0 before its store. *)
Lemma keep0 c p l p' l' s' lg : phaseA c -> nth_error (threads c) 0 = Some (p, l) -> before p' l' lg -> permits s' = 0 ->
  (forall u o, In (u, TryAcquire 1 o, true) lg -> False) -> phaseA (mkC s' (upd (threads c) 0 (p', l')) lg).
Proof.
  intros [A0 AT AP AL] E B P L2. split; cbn [threads sem_of log]; auto.
  - intros q m N. rewrite (nth_upd_same _ _ _ _ E) in N. injection N as <- <-. exact B.
  - intros u q m. rewrite nth_updS. apply AT.
Qed.

Lemma phase_step c c' : phase c -> step false c c' -> phase c'.
Proof.
  intros [A|D] ST; cycle 1.
  { right. destruct ST; cbn [log] in *; auto. apply in_or_app. auto. }
  pose proof A as [A0 AT AP AL].
  destruct ST as [t o r c E | t p l s' p' c E L | t b o r c E | t n l u p l' p' c E EU W | t n l c E NO | t n l c E | t p p' l c SP E W].
  - left. destruct t as [|t].
    + eapply keep0; eauto. destruct (A0 _ _ E) as [(X & Y)|[(X & Y)|(X & Y & W)]]; injection X as -> ->; cbn; [left; auto | right; left; auto | right; right; auto 10].
    + destruct (AT _ _ _ E) as (_ & J). eapply keepA; eauto. inversion J as [|? ? [(x & ->)|(k & ->)] J']; subst; cbn; [destruct (x <? 0); cbn; auto | auto].
  - destruct t as [|t].
    + destruct (A0 _ _ E) as [(X & Y)|[(X & Y)|(X & Y & W)]].
      * destruct Y as [->| ->]; discriminate L.
      * destruct Y as [->| ->]; discriminate L.
      * right. exact Y.
    + left. destruct (AT _ _ _ E) as (Q & J). destruct (quiet_local _ _ _ _ _ _ AP L Q) as (Q' & P'). eapply keepA; eauto.
  - destruct t as [|t].
    + destruct (A0 _ _ E) as [(X & Y)|[(X & Y)|(X & Y & W)]].
      * left. injection X as -> ->. eapply keep0; eauto; [right; left; auto|]. intros u o. rewrite in_app_iff. intros [H|[H|[]]]; [eauto | discriminate].
      * right. destruct Y as [Y|Y]; [discriminate|]. injection Y as ->. injection X as -> ->. apply in_or_app. right. left. reflexivity.
      * destruct W as [W|[W|[W|[W|W]]]]; discriminate W.
    + left. destruct (AT _ _ _ E) as (Q & J). eapply keepA; eauto.
      * exact I.
      * inversion J; assumption.
      * intros e IN. apply in_or_app. auto.
      * intros u x. rewrite in_app_iff. intros [H|[H|[]]]; [eauto|]. injection H as <- -> ->. cbn in Q. discriminate.
  - exfalso. destruct t as [|t].
    + destruct (A0 _ _ E) as [(_ & [Y|Y])|[(_ & [Y|Y])|(_ & _ & [W1|[W1|[W1|[W1|W1]]]])]]; discriminate.
    + destruct (AT _ _ _ E) as (Q & _). exact Q.
  - exfalso. destruct t as [|t].
    + destruct (A0 _ _ E) as [(_ & [Y|Y])|[(_ & [Y|Y])|(_ & _ & [W1|[W1|[W1|[W1|W1]]]])]]; discriminate.
    + destruct (AT _ _ _ E) as (Q & _). exact Q.
  - left. destruct t as [|t].
    + exfalso. destruct (A0 _ _ E) as [(_ & [Y|Y])|[(_ & [Y|Y])|(_ & _ & [W1|[W1|[W1|[W1|W1]]]])]]; discriminate.
    + destruct (AT _ _ _ E) as (Q & J). eapply keepA; eauto.
  - discriminate.
Qed.
Lemma phase_reach others c : Forall (Forall joiner) others -> reach false (system others) c -> phase c.
Proof. intros F R. induction R; [left; apply phase_start; exact F | eapply phase_step; eauto]. Qed.

(** ** A join that begins after the end of run *)
Record late (c : config) : Prop := mkL {
  lt_t : exists p l, threads c = [(Idle, []); (p, l)] /\
    match p with
    | Idle => (l = [TryAcquire 1 (-1)] /\ permits (sem_of c) = 1) \/ l = []
    | A91 1 0 | A92 1 0 | A93 1 0 | A94 1 0 1 | A101 1 0 | A102 1 0 | A102w 1 0 1 => l = [TryAcquire 1 (-1)] /\ permits (sem_of c) = 1
    | A103 1 0 | A91 1 1 => l = [TryAcquire 1 (-1)]
    | Return true => l = [TryAcquire 1 (-1)]
    | _ => False
    end }.
Lemma late_step c c' : late c -> step false c c' -> late c'.
Proof.
  intros [(p & l & T & M)] ST.
  assert (ONE : forall t q m, nth_error (threads c) t = Some (q, m) -> (t = 0%nat /\ q = Idle /\ m = []) \/ (t = 1%nat /\ q = p /\ m = l)).
  { intros t q m. rewrite T. destruct t as [|[|[|t]]]; cbn; intros [= <- <-]; auto. }
  destruct ST as [t o r c E | t q m s' p' c E L | t b o r c E | t n m u q l' p' c E EU W | t n m c E NO | t n m c E | t q p' m c SP E W].
  - destruct (ONE _ _ _ E) as [(-> & _ & X)|(-> & <- & <-)]; [discriminate|]. cbn in M. destruct M as [(M & P)|M]; [|discriminate]. injection M as -> ->. split. rewrite T. exists (A91 1 0), [TryAcquire 1 (-1)]. auto.
  - destruct (ONE _ _ _ E) as [(-> & -> & X)|(-> & -> & ->)]; [discriminate|]. split. rewrite T. cbn [upd threads sem_of]. exists p', l. split; [reflexivity|].
    clear - L M. destruct p; try contradiction; try discriminate L;
    repeat (match type of M with match ?x with _ => _ end => destruct x end; try contradiction); cbn in L; unfold lockP, unlockP, lockC, unlockC, store in L;
    try (destruct (pm (sem_of c)); try discriminate); try (destruct (cm (sem_of c)); try discriminate); try (destruct M as (M & P)); try rewrite P in L; injection L as <- <-; cbn; auto.
  - destruct (ONE _ _ _ E) as [(-> & X & _)|(-> & <- & <-)]; [discriminate|]. split. rewrite T. exists Idle, r. split; [reflexivity|]. destruct b; [|contradiction]. injection M as -> ->. auto.
  - exfalso. destruct (ONE _ _ _ E) as [(-> & X & _)|(-> & <- & <-)]; [discriminate|]. contradiction.
  - exfalso. destruct (ONE _ _ _ E) as [(-> & X & _)|(-> & <- & <-)]; [discriminate|]. contradiction.
  - exfalso. destruct (ONE _ _ _ E) as [(-> & X & _)|(-> & <- & <-)]; [discriminate|]. contradiction.
  - discriminate.
Qed.

Lemma late_reach c c' : late c -> reach false c c' -> late c'.
Proof. intros L R. induction R; [exact L | eapply late_step; eauto]. Qed.
Lemma upd1 {A} (x y z : A) : upd [x; y] 1 z = [x; z].
Proof. reflexivity. Qed.
