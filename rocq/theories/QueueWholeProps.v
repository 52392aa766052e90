(** C112: calls of ConcurrentLinkedQueue that overlap. *)

From Coq Require Import ZArith List Lia Bool.
From Verif Require Import Base Bits TextLemmas SubQueueModel SubQueueSpec SubQueueProofs SubQueueProofs2 SubQueueProofs3 SubQueueProofs4 SubQueueProps QueueWholeModel QueueWholeSpec QueueWholeProofs QueueWholeProofs2 QueueWholeProofs3.
Import ListNotations.
Open Scope Z_scope.

Section Props.
Context {T : Type}.
Variables (B : Z) (nothrow : bool).
Hypothesis HB : 0 < B.
Notation queue := (@queue T).
Notation ostep := (@ostep T B nothrow).
Notation orun := (@orun T B nothrow).
Notation possible := (@possible T B nothrow).

Lemma possible_run p s s' : possible s -> orun s p = Some s' -> possible s'.
Proof.
  intros [p0 E0] E. exists (p0 ++ p). revert E0. generalize (@start_queue T). induction p0 as [|[t c] p0 IH]; intros s0 E0; cbn in *; [now injection E0 as ->|].
  destruct (ostep s0 t c); [|discriminate]. now apply IH.
Qed.
Lemma inner_run p : forall s s', whole B nothrow s -> orun s p = Some s' -> exists p', run B nothrow (inner s) p' = Some (inner s').
Proof.
  induction p as [|[t c] p IH]; intros s s' W E; cbn [QueueWholeModel.orun] in E; [injection E as <-; now exists []|].
  destruct (ostep s t c) as [s1|] eqn:ST; [|discriminate]. destruct (IH _ _ (whole_step B nothrow HB _ _ _ _ W ST) E) as [p' R].
  destruct (ostep_inner B nothrow HB _ _ _ _ (w_inv _ _ _ W) ST) as [[X _]|[(v & _ & X & _)|[(q & X & _)|(c' & X & _)]]]; [exists p'; now rewrite <- X|..]; eexists ((t, _) :: p'); cbn [run]; rewrite X; exact R.
Qed.
Lemma possible_inner s : possible s -> reachable B nothrow (inner s).
Proof. intros [p E]. exact (inner_run p _ _ (whole_start B nothrow HB) E). Qed.

(** *** What is delivered *)
(** No element is polled twice. *)
Theorem C112_at_most_once : forall s, possible s -> NoDup (polled (log s)).
Proof.
  intros s P. rewrite (log_polled B nothrow s (possible_whole B nothrow HB s P)). exact (C89_at_most_once B nothrow HB (inner s) (possible_inner s P)).
Qed.
(** What a poll returns is what some thread added, at that place of its order. *)
Theorem C112_right_element : forall s t q i r, possible s -> In (Polled t q i r) (log s) ->
  0 <= i < zlen (added q (log s)) /\ (r = None \/ r = znth (added q (log s)) i).
Proof.
  intros s t q i r P X. pose proof (possible_whole B nothrow HB s P) as W. rewrite (log_added B nothrow s q W).
  exact (C89_right_element B nothrow HB (inner s) t q i r (possible_inner s P) (log_got B nothrow s t q i r W X)).
Qed.
(** Elements of one thread come in its order: a poll that begins after another has
    returned gets a later one. *)
Theorem C112_in_order : forall s1 p s2 new t t' q i i' r r', possible s1 -> orun s1 p = Some s2 -> log s2 = new ++ log s1 -> ops s1 t = Resting ->
  In (Polled t' q i' r') (log s1) -> In (Polled t q i r) new -> i' < i.
Proof.
  intros s1 p s2 new t t' q i i' r r' P E N O X Y. pose proof (possible_whole B nothrow HB s1 P) as W1. pose proof (whole_run B nothrow HB p _ _ W1 E) as W2.
  destruct (inner_run p _ _ W1 E) as [p' R]. destruct (wait_free_run B nothrow HB t p' _ _ (w_inv _ _ _ W1) R) as (_ & hn & HN & _).
  assert (ID : pcs (inner s1) t = Idle) by (pose proof (w_fits _ _ _ W1 t) as F; unfold fits in F; now rewrite O in F).
  refine (C89_in_order B nothrow HB (inner s1) p' (inner s2) hn t t' q i i' r r' (possible_inner s1 P) R HN ID (log_got B nothrow s1 t' q i' r' W1 X) _).
  pose proof (w_log _ _ _ W2) as L2. rewrite N, HN, filter_app, flat_map_app, (w_log _ _ _ W1) in L2. apply app_inv_tail in L2.
  assert (Z0 : In (Polled t q i r) (filter of_subs new)) by (apply filter_In; now split). rewrite L2 in Z0. apply in_flat_map in Z0 as (e & E1 & E2).
  destruct e; cbn in E2; try contradiction; destruct E2 as [E2|[]]; try discriminate. now injection E2 as <- <- <- <-.
Qed.
(** try_dequeue never follows a null pointer. *)
Theorem C112_no_crash : forall s t, possible s -> ops s t <> Crash.
Proof. intros s t P X. pose proof (w_fits _ _ _ (possible_whole B nothrow HB s P) t) as F. unfold fits in F. now rewrite X in F. Qed.

(** *** Progress *)
(** A thread in a call can always go on, and its call has returned after a number
    of its own steps that depends only on the number of threads that ever added. *)
Theorem C112_never_blocked : forall s t, possible s -> ops s t <> Resting -> exists c s', ostep s t c = Some s'.
Proof.
  intros s t P N. pose proof (possible_whole B nothrow HB s P) as W. pose proof (w_inv _ _ _ W) as I. pose proof (w_fits _ _ _ W t) as F. unfold fits in F.
  assert (ON : pcs (inner s) t <> Idle -> forall p, exists c s', onward B nothrow s t c p = Some s').
  { intros NI p. assert (X : exists c i, inside B nothrow (inner s) t c = Some i).
    { pose proof (not_bad B nothrow (inner s) t) as NB. destruct (enabled B nothrow (inner s) t I NI) as (c & i & ST).
      pose proof (fun q => sub_nonneg B nothrow (inner s) q I) as SN. pose proof (fun q => head_le_tail B nothrow (inner s) q I) as HT.
      assert (OL : forall z, 0 <= z -> older z z = true) by (intros z Z0; apply older_refl; exact Z0).
      destruct (pcs (inner s) t) eqn:PC; try (now elim NI); try (now elim (NB u I)).
      all: try (exists OGo; unfold inside, now; rewrite PC; unfold step; rewrite PC; rewrite ?OL by (apply SN || apply HT); eauto; fail).
      unfold step in ST; rewrite PC in ST; destruct c; try discriminate ST; [exists (OBlock b)|exists OFail]; cbn [inside]; unfold step; rewrite PC; eauto. }
    destruct X as (c & i & X). exists c. unfold onward. rewrite X. eauto. }
  assert (ST : pcs (inner s) t = Idle -> forall q p, exists s', start B nothrow s t q p = Some s').
  { intros ID q p. unfold start, step. rewrite ID. rewrite older_refl by (apply (sub_nonneg B nothrow (inner s) q I)). cbn. eauto. }
  assert (OG : forall s', ostep s t OGo = Some s' -> exists c s', ostep s t c = Some s') by eauto.
  unfold QueueWholeModel.ostep in *. destruct (ops s t) eqn:O.
  - now elim N.
  - destruct F as [F _]. apply ON. intros X. rewrite X in F. discriminate.
  - exists OGo. destruct F as (ID & _ & _ & BN). destruct (if Nat.ltb _ _ then _ else _); [|eauto]. destruct count; [eauto|]. destruct best; [now apply ST|eauto].
  - exists OGo. eauto.
  - apply ON. intros X. rewrite X in F. discriminate.
  - exists OGo. eauto.
  - exists OGo. destruct F as (ID & _). destruct ps as [|p ps]; [eauto|]. destruct (Nat.eqb p b); [eauto|now apply ST].
  - destruct F as [[q F] _]. apply ON. intros X. rewrite X in F. discriminate.
  - exists OGo. destruct ps; eauto.
  - exists OGo. eauto.
  - contradiction.
Qed.
Theorem C112_bounded : forall s p s' t n, possible s -> orun s p = Some s' -> (length (prods s') <= n)%nat -> ops s t <> Resting -> (14 * n + 15 <= own_steps t p)%nat ->
  exists new e, log s' = new ++ log s /\ In e new /\ caller e = t.
Proof.
  intros s p s' t n P E L N ST. pose proof (possible_whole B nothrow HB s P) as W. destruct (bounded_run B nothrow HB n t p s s' W E L N) as [X|[N' R]]; [assumption|exfalso].
  pose proof (orank_pos B nothrow n s' t (whole_run B nothrow HB p _ _ W E) N'). pose proof (prods_run B nothrow HB p _ _ W E). pose proof (orank_bound B nothrow n s t W ltac:(lia)). lia.
Qed.

(** *** One consumer *)
(** When no other poll overlaps, a poll returns nothing only if every element
    whose add had returned when it began had been polled - however many adds
    overlap. *)
Theorem C112_one_consumer : forall s1 t p s s2, possible s1 -> ops s1 t = Resting -> (forall u, polling s1 u = false) ->
  orun s1 ((t, OPoll) :: p) = Some s -> forallb (fun d => negb (is_poll (snd d))) p = true ->
  ostep s t OGo = Some s2 -> log s2 = PollNone t :: log s ->
  forall q, zlen (added q (log s1)) = polled_of q (log s1).
Proof.
  intros s1 t p s s2 P O NP E F ST L q. pose proof (possible_whole B nothrow HB s1 P) as W1. cbn [QueueWholeModel.orun] in E.
  destruct (ostep s1 t OPoll) as [s0|] eqn:S0; [|discriminate].
  assert (ONE : one B nothrow s1 t s0).
  { pose proof (whole_step B nothrow HB _ _ _ _ W1 S0) as W0. unfold QueueWholeModel.ostep in S0. rewrite O in S0. injection S0 as <-. constructor; [assumption|intros; unfold put; cbn; lia| |].
    - intros u U. unfold polling. cbn. rewrite fupd_other by assumption. apply NP.
    - unfold phase. cbn. rewrite fupd_same. split; [intros q'; reflexivity|]. split; [|intros X; now elim X]. intros _. split; [reflexivity|]. intros q' FQ. apply (w_prods _ _ _ W1). unfold full1 in FQ. pose proof (taken_le_put B nothrow s1 q' W1). unfold put in *. lia. }
  pose proof (one_run B nothrow HB s1 t p _ _ ONE E F) as H. rewrite <- (put_added B nothrow s1 q W1), <- (taken_polled B nothrow s1 q W1 NP).
  assert (PL : polling s t = true).
  { destruct (polling s t) eqn:PT; [reflexivity|exfalso]. unfold polling in PT. assert (LL : forall (x : @oevent T) l, x :: l <> l) by (intros x l X; apply (f_equal (@length _)) in X; cbn in X; lia).
    pose proof ST as ST'. unfold QueueWholeModel.ostep in ST. destruct (ops s t); try discriminate.
    - destruct (onward_spec B nothrow HB _ _ _ _ _ (w_inv _ _ _ (o_whole _ _ _ _ _ H)) ST) as (c' & _ & _ & _ & [(_ & _ & _ & _ & EL)|(_ & e & _ & _ & EL & _)]); rewrite L in EL; [now elim (LL (PollNone t) (log s))|]. destruct e; cbn in EL; try discriminate EL. now elim (LL (PollNone t) (log s)).
    - destruct ps; injection ST as <-; [discriminate L|]. now elim (LL (PollNone t) (log s)).
    - injection ST as <-. now elim (LL (PollNone t) (log s)). }
  destruct (phase_own B nothrow HB s1 t s OGo s2 H ST PL) as [_ X]. specialize (X q L). pose proof (taken_le_put B nothrow s1 q W1). lia.
Qed.

(** *** Counting *)
(** What has been put in and taken out, in terms of the calls that returned. *)
Theorem C112_counted : forall s, possible s -> forall q, put s q = zlen (added q (log s)) /\ 0 <= taken s q <= put s q /\ (In q (prods s) \/ put s q = 0) /\
  ((forall u, polling s u = false) -> taken s q = polled_of q (log s)).
Proof.
  intros s P q. pose proof (possible_whole B nothrow HB s P) as W. split; [now apply (put_added B nothrow)|]. split; [now apply (taken_le_put B nothrow)|]. split; [|intros NP; now apply (taken_polled B nothrow)].
  destruct (Z.eq_dec (put s q) 0); [now right|left]. now apply (w_prods _ _ _ W).
Qed.
(** size counts at least what was there all the time during the call, and at most
    what was there at some time. *)
Theorem C112_size_between : forall s1 t p s s2 z ts, possible s1 -> ops s1 t = Resting ->
  orun s1 ((t, OSize) :: p) = Some s -> forallb (fun d => match snd d with OSize => false | _ => true end) p = true ->
  ostep s t OGo = Some s2 -> log s2 = Sized t z :: log s -> NoDup ts -> (forall q, put s2 q <> 0 -> In q ts) ->
  sum (fun q => Z.max 0 (put s1 q - taken s2 q)) ts <= z <= sum (fun q => put s2 q - taken s1 q) ts.
Proof.
  intros s1 t p s s2 z ts P O E F ST L ND CV. pose proof (possible_whole B nothrow HB s1 P) as W1. cbn [QueueWholeModel.orun] in E.
  destruct (ostep s1 t OSize) as [s0|] eqn:S0; [|discriminate]. pose proof (whole_step B nothrow HB _ _ _ _ W1 S0) as W0.
  assert (SZ : sizes B nothrow s1 t s0).
  { unfold QueueWholeModel.ostep in S0. rewrite O in S0. injection S0 as <-. constructor; [assumption|intros; unfold put; cbn; lia|intros; unfold taken; cbn; lia|].
    unfold counts. cbn. rewrite fupd_same. exists []. split; [reflexivity|]. cbn. lia. }
  pose proof (sizes_run B nothrow HB s1 t p W1 _ _ SZ E F) as H. destruct (sizes_step B nothrow HB s1 t s t OGo s2 W1 H ST ltac:(discriminate)) as [H2 X]. specialize (X z L).
  assert (UQ : forall q, 0 <= put s2 q - taken s1 q) by (intros q; pose proof (z_put _ _ _ _ _ H2 q); pose proof (taken_le_put B nothrow s1 q W1); lia).
  split.
  - transitivity (sum (lower s1 s2) (prods s1)); [|apply X]. apply sum_incl; [intros q; lia|assumption|]. intros q _ NZ. destruct (Z.eq_dec (put s1 q) 0) as [Z0|Z0]; [|now apply (w_prods _ _ _ W1)].
    pose proof (taken_le_put B nothrow s2 q (z_whole _ _ _ _ _ H2)). lia.
  - transitivity (sum (upper s1 s2) (prods s1)); [apply X|]. apply sum_incl; [exact UQ|exact (w_nodup _ _ _ W1)|]. intros q _ NZ. apply CV. unfold upper in NZ. pose proof (taken_le_put B nothrow s1 q W1). pose proof (z_put _ _ _ _ _ H2 q). lia.
Qed.
End Props.

(** *** What is not so *)
Section Wrong.
Context {T : Type} (v w x y : T).
Definition by_ (t : nat) (l : list (@ochoice T)) : list (nat * @ochoice T) := map (fun c => (t, c)) l.
Definition goes (t n : nat) : list (nat * @ochoice T) := repeat (t, OGo) n.
(** the first add of a thread takes block [b]; a later one finds room there *)
Definition first_add (t b : nat) (v : T) : list (nat * @ochoice T) := by_ t [OAdd v; OGo; OGo; OBlock b; OGo; OGo; OGo; OGo].
Definition next_add (t : nat) (v : T) : list (nat * @ochoice T) := by_ t [OAdd v; OGo; OGo].

(** Two threads poll for one element; the one that gets nothing has not yet said
    so when another element is added.  A third poll then finds nothing: the element
    was there before that poll began, stays there, and nobody takes it. *)
Definition before_missed : list (nat * @ochoice T) :=
  first_add 0 0 v ++ (2%nat, OPoll) :: goes 2 5 ++ (1%nat, OPoll) :: goes 1 12 ++ goes 2 2 ++ next_add 0 w.
Theorem C112_missed_refuted : exists s1 s2 s3, orun 32 true start_queue before_missed = Some s1 /\ ops s1 3%nat = Resting /\
  added 0 (log s1) = [v; w] /\ polled (log s1) = [(0%nat, 0)] /\
  orun 32 true s1 ((3%nat, OPoll) :: goes 3 8) = Some s2 /\ log s2 = PollNone 3 :: log s1 /\ put s2 0%nat - taken s2 0%nat = 1 /\
  orun 32 true s2 (goes 2 4) = Some s3 /\ log s3 = PollNone 2 :: log s2 /\ put s3 0%nat - taken s3 0%nat = 1.
Proof. do 3 eexists. repeat (split; [vm_compute; reflexivity|]). vm_compute. reflexivity. Qed.

(** size says 0, and isEmpty true, although the queue is never empty. *)
Definition before_empty : list (nat * @ochoice T) :=
  first_add 0 0 v ++ first_add 1 1 w ++ (2%nat, OPoll) :: goes 2 14 ++ (3%nat, OPoll) :: goes 3 5.
Definition during_empty : list (nat * @ochoice T) :=
  (4%nat, OSize) :: goes 4 2 ++ next_add 1 x ++ goes 3 9 ++ goes 4 3.
Theorem C112_empty_refuted : exists s1 s2, orun 32 true start_queue before_empty = Some s1 /\ orun 32 true s1 during_empty = Some s2 /\
  (exists l, log s2 = Sized 4 0 :: l) /\ forallb (fun s => 1 <=? present s) (moments 32 true s1 during_empty) = true.
Proof. do 2 eexists. split; [vm_compute; reflexivity|]. split; [vm_compute; reflexivity|]. split; [eexists; vm_compute; reflexivity|]. vm_compute. reflexivity. Qed.

(** size says 2 although there is never more than one element. *)
Definition before_two : list (nat * @ochoice T) :=
  first_add 0 0 v ++ (2%nat, OPoll) :: goes 2 12 ++ first_add 1 1 w.
Definition during_two : list (nat * @ochoice T) :=
  (4%nat, OSize) :: goes 4 2 ++ (2%nat, OPoll) :: goes 2 14 ++ next_add 0 x ++ goes 4 3.
Theorem C112_size_refuted : exists s1 s2, orun 32 true start_queue before_two = Some s1 /\ orun 32 true s1 during_two = Some s2 /\
  (exists l, log s2 = Sized 4 2 :: l) /\ forallb (fun s => present s <=? 1) (moments 32 true s1 during_two) = true.
Proof. do 2 eexists. split; [vm_compute; reflexivity|]. split; [vm_compute; reflexivity|]. split; [eexists; vm_compute; reflexivity|]. vm_compute. reflexivity. Qed.
End Wrong.

(** One consumer: an add overlaps the poll, which finds nothing. *)
Example C112_ex_one : exists s1 s s2, orun 32 true start_queue (by_ 0 [OAdd 5; OGo; OGo; OBlock 0; OGo]) = Some s1 /\
  orun 32 true s1 ((1%nat, OPoll) :: (1%nat, OGo) :: (0%nat, OGo) :: (0%nat, OGo) :: (0%nat, OGo) :: [(1%nat, OGo)]) = Some s /\
  ostep 32 true s 1 OGo = Some s2 /\ log s2 = PollNone 1 :: log s /\ log s = [Added 0 5] /\ added 0 (log s1) = [].
Proof. do 3 eexists. repeat (split; [vm_compute; reflexivity|]). vm_compute. reflexivity. Qed.
(** Polls from three sub-queues, of two, one and one elements. *)
Definition three : list (nat * @ochoice Z) := first_add 0 0 10 ++ first_add 1 1 20 ++ next_add 1 21 ++ first_add 2 2 30.
Example C112_ex_order : exists s, orun 32 true start_queue (three ++ (3%nat, OPoll) :: goes 3 16 ++ (4%nat, OPoll) :: goes 4 16 ++ (4%nat, OSize) :: goes 4 7) = Some s /\
  firstn 3 (log s) = [Sized 4 2; Polled 4 2 0 (Some 30); Polled 3 1 0 (Some 20)].
Proof. eexists. split; vm_compute; reflexivity. Qed.
(** A size call that two adds and a poll overlap. *)
Example C112_ex_size : exists s1 s s2, orun 32 true start_queue three = Some s1 /\
  orun 32 true s1 ((4%nat, OSize) :: goes 4 3 ++ (3%nat, OPoll) :: goes 3 12 ++ next_add 2 31 ++ next_add 0 11 ++ goes 4 3) = Some s /\
  ostep 32 true s 4 OGo = Some s2 /\ log s2 = Sized 4 4 :: log s /\ length (prods s2) = 3%nat /\ present s2 = 5.
Proof. do 3 eexists. repeat (split; [vm_compute; reflexivity|]). vm_compute. reflexivity. Qed.

Print Assumptions C112_at_most_once.
Print Assumptions C112_right_element.
Print Assumptions C112_in_order.
Print Assumptions C112_never_blocked.
Print Assumptions C112_bounded.
Print Assumptions C112_one_consumer.
Print Assumptions C112_counted.
Print Assumptions C112_size_between.
Print Assumptions C112_missed_refuted.
Print Assumptions C112_empty_refuted.
