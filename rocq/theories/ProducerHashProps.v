(** The table in which each thread finds its own sub-queue. *)

From Coq Require Import ZArith List Lia Bool.
From Verif Require Import Base Bits ProducerHashModel ProducerHashSpec ProducerHashProofs ProducerHashProofs2.
Import ListNotations.
Open Scope Z_scope.

Section Props.
Context (tid : nat -> Z) (hash : Z -> Z) (k0 : Z).
Context (tid_inj : forall i j, tid i = tid j -> i = j) (tid_nz : forall i, tid i <> 0) (k0_range : 0 <= k0 <= 63).
Notation run := (run tid hash (start (2 ^ k0))).

(** Two returns are of the same sub-queue exactly when they are of the same
    thread. *)
Theorem C110_own_queue l c i j p q : run l c -> Z.of_nat (length l) < 2 ^ 61 -> In (Returned i (Some p)) l -> In (Returned j (Some q)) l -> (i = j <-> p = q).
Proof.
  intros R B I J. destruct (run_good tid hash k0 tid_inj tid_nz k0_range l c R ltac:(lia)) as (o & T & G & [TR _ _]). apply TR in I, J. split; intros ->; [congruence|].
  exact (g_inj _ _ _ _ (w_glob _ _ _ _ _ _ G) _ _ _ I J).
Qed.
(** A thread is refused one only if it was refused memory. *)
Theorem C110_no_failure l c i : run l c -> Z.of_nat (length l) < 2 ^ 61 -> In (Returned i None) l -> In (Inside i false) l.
Proof.
  intros R B H. remember (start (2 ^ k0)) as st eqn:ES. induction R as [|c0 l c1 e c2 R IH S]; [destruct H|]. subst. rewrite app_length in B. cbn in B. apply in_or_app. apply in_app_or in H. destruct H as [H|[->|[]]]; [left; apply IH; auto; lia|].
  left. inversion S as [| ? ? ? E |]; subst. apply (gives_up tid hash k0 tid_inj tid_nz k0_range l c1 R i); [now rewrite E|lia].
Qed.
(** No more sub-queues are made than threads have called. *)
Theorem C110_one_each l c : run l c -> Z.of_nat (length l) < 2 ^ 61 -> exists ts, length ts = made (mem c) /\ NoDup ts /\ forall i, In i ts -> In (Called i) l.
Proof.
  intros R B. destruct (run_good tid hash k0 tid_inj tid_nz k0_range l c R ltac:(lia)) as (o & T & G & [_ TO TC]).
  assert (H : forall n, (n <= made (mem c))%nat -> exists ts, length ts = n /\ NoDup ts /\ forall i, In i ts -> exists q, (q < n)%nat /\ o i = Some q).
  { induction n as [|n IH]; intros L; [exists []; repeat split; [constructor|intros i []]|]. destruct (IH ltac:(lia)) as (ts & L1 & ND & F). destruct (TO n L) as (i & E). exists (i :: ts). cbn. split; [lia|]. split.
    - constructor; [|exact ND]. intros I. destruct (F i I) as (q & Q & E'). rewrite E in E'. injection E' as <-. lia.
    - intros j [<-|J]; [exists n; auto|]. destruct (F j J) as (q & Q & E'). exists q. split; [lia|exact E']. }
  destruct (H _ (le_n _)) as (ts & L & ND & F). exists ts. split; [exact L|]. split; [exact ND|]. intros i I. destruct (F i I) as (q & _ & E). eapply TC; eauto.
Qed.
(** Once a thread has been given its sub-queue it never waits for the others:
    however they move, the steps of a call are bounded by the places there are. *)
Theorem C110_wait_free l c i : run l c -> Z.of_nat (length l) < 2 ^ 61 -> known l i -> own i l <= 6 + 3 * places (mem c) (ntabs (mem c)).
Proof. intros R B K. apply (known_bound tid hash k0 tid_inj tid_nz k0_range l c i R ltac:(lia) K). Qed.

Lemma known_has l c o T i : run l c -> Z.of_nat (length l) < 2 ^ 61 -> good tid hash l c o T -> told l c o -> known l i -> busy (pcs c i) -> has tid (mem c) o T i.
Proof.
  intros R B G [TR _ _] K BU. pose proof (known_within tid hash k0 tid_inj tid_nz k0_range l c R ltac:(lia) i K) as W. destruct K as (q & K). apply TR in K.
  pose proof (k_at _ _ _ _ _ _ _ (w_thread _ _ _ _ _ _ G i)) as KA. assert (NN : ~ none tid (mem c) o T i) by (intros (N & _); congruence).
  destruct (pcs c i); cbn [within at_pc] in *; try (destruct W; fail); try (destruct BU; fail); tauto.
Qed.
(** While nobody enlarges the table, any thread that is left alone returns; one
    that has its sub-queue already does even if somebody stopped in the middle of
    enlarging it. *)
Theorem C110_alone l c i : run l c -> Z.of_nat (length l) < 2 ^ 61 -> busy (pcs c i) -> resizing (mem c) = false \/ known l i -> finishes tid hash i (mem c) (pcs c i).
Proof.
  intros R B BU H. destruct (run_good tid hash k0 tid_inj tid_nz k0_range l c R ltac:(lia)) as (o & T & G & TD).
  apply (alone tid hash k0 tid_inj tid_nz k0_range i l c o T G); [unfold short; lia|exact BU|]. destruct H as [H|H]; [auto|]. right. right. eapply known_has; eauto.
Qed.
(** There is always somebody who would return if left alone. *)
Theorem C110_progress l c i : run l c -> Z.of_nat (length l) < 2 ^ 61 -> busy (pcs c i) -> exists j, busy (pcs c j) /\ finishes tid hash j (mem c) (pcs c j).
Proof.
  intros R B BU. destruct (resizing (mem c)) eqn:F; [|exists i; split; [exact BU|]; eapply C110_alone; eauto].
  destruct (flag_held tid hash k0 l c R F) as (j & HJ). exists j. assert (BJ : busy (pcs c j)) by (destruct (pcs c j); cbn in *; tauto). split; [exact BJ|].
  destruct (run_good tid hash k0 tid_inj tid_nz k0_range l c R ltac:(lia)) as (o & T & G & TD). apply (alone tid hash k0 tid_inj tid_nz k0_range j l c o T G); [unfold short; lia|exact BJ|auto].
Qed.
End Props.
Print Assumptions C110_own_queue.
Print Assumptions C110_no_failure.
Print Assumptions C110_one_each.
Print Assumptions C110_wait_free.
Print Assumptions C110_alone.
Print Assumptions C110_progress.

(** Three threads whose hashes are equal, a first table of two places.  Threads 0
    and 1 race; the table grows twice; thread 0 calls again and copies its entry
    into the new table; thread 2 gets no memory. *)
Definition tid6 (i : nat) : Z := Z.of_nat i + 1.
Definition busyb (p : pc) : bool := match p with Idle | Ret _ => false | _ => true end.
Definition play1 (e : label) (c : config) : option config :=
  match e with
  | Called i => match pcs c i with Idle => Some (mkC (mem c) (set_pc (pcs c) i Load)) | _ => None end
  | Returned i r => match pcs c i with
      | Ret r' => match r, r' with
          | None, None => Some (mkC (mem c) (set_pc (pcs c) i Idle))
          | Some x, Some y => if Nat.eqb x y then Some (mkC (mem c) (set_pc (pcs c) i Idle)) else None
          | _, _ => None end
      | _ => None end
  | Inside i ok => if busyb (pcs c i) then match act tid6 (fun _ => 7) ok i (pcs c i) (mem c) with (s, p) => Some (mkC s (set_pc (pcs c) i p)) end else None
  end.
Definition play (l : list label) : option config := fold_left (fun o e => match o with Some c => play1 e c | None => None end) l (Some (start (2 ^ 1))).
Lemma play1_step e c c' : play1 e c = Some c' -> step tid6 (fun _ => 7) c e c'.
Proof.
  destruct e as [i|i r|i ok]; cbn [play1]; cbv zeta.
  - destruct (pcs c i) eqn:E; try discriminate. intros H. injection H as <-. now constructor.
  - destruct (pcs c i) as [| | | | | | | | | | | | | | | | | | | | | | |r'] eqn:E; try discriminate. destruct r as [x|], r' as [y|]; try discriminate; [destruct (Nat.eqb_spec x y) as [->|]; [|discriminate]|]; intros H; injection H as <-; now constructor.
  - destruct (busyb (pcs c i)) eqn:BU; [|discriminate]. destruct (act tid6 (fun _ => 7) ok i (pcs c i) (mem c)) as [s p] eqn:A. intros H. injection H as <-.
    constructor; [|exact A]. clear A. destruct (pcs c i); try discriminate; exact I.
Qed.
Lemma play_run l : forall c, play l = Some c -> run tid6 (fun _ => 7) (start (2 ^ 1)) l c.
Proof.
  induction l as [|e l IH] using rev_ind; intros c H; [injection H as <-; constructor|]. unfold play in H. rewrite fold_left_app in H. cbn [fold_left] in H. fold (play l) in H.
  destruct (play l) as [c1|] eqn:E; [|discriminate]. econstructor; [apply IH; reflexivity|]. now apply play1_step.
Qed.
Definition both (i j n : nat) : list label := flat_map (fun _ => [Inside i true; Inside j true]) (seq 0 n).
Definition alone6 (i n : nat) : list label := repeat (Inside i true) n.
Definition story : list label :=
  [Called 0; Called 1] ++ both 0 1 12 ++ alone6 0 2 ++ [Returned 0 (Some 0%nat)] ++ alone6 1 6 ++ [Returned 1 (Some 1%nat)] ++ [Called 0] ++ alone6 0 9 ++ [Returned 0 (Some 0%nat)]
  ++ [Called 2] ++ alone6 2 10 ++ [Inside 2 false; Inside 2 true; Returned 2 None].
Example C110_ex : exists c, run tid6 (fun _ => 7) (start (2 ^ 1)) story c /\ ntabs (mem c) = 3%nat /\ made (mem c) = 2%nat /\ count (mem c) = 2 /\ key (tabs (mem c) 2) 0 = 1 /\ known story 0 /\ In (Returned 2 None) story.
Proof.
  destruct (play story) as [c|] eqn:E; [|vm_compute in E; discriminate]. exists c. split; [exact (play_run _ _ E)|].
  assert (F : option_map (fun c => (ntabs (mem c), made (mem c), count (mem c), key (tabs (mem c) 2) 0)) (play story) = Some (3%nat, 2%nat, 2, 1)) by (vm_compute; reflexivity).
  rewrite E in F. cbn [option_map] in F. injection F as F1 F2 F3 F4. clear E. do 4 (split; [assumption|]). split; [exists 0%nat|]; unfold story; rewrite !in_app_iff; cbn [In]; tauto.
Qed.
(** In the middle of it thread 1 holds the flag, and thread 0 finishes
    nevertheless. *)
Example C110_ex_flag : exists c, run tid6 (fun _ => 7) (start (2 ^ 1)) (firstn 29 story ++ [Called 0]) c /\ resizing (mem c) = true /\ known (firstn 29 story ++ [Called 0]) 0 /\ busy (pcs c 0).
Proof.
  destruct (play (firstn 29 story ++ [Called 0%nat])) as [c|] eqn:E; [|vm_compute in E; discriminate]. exists c. split; [exact (play_run _ _ E)|].
  assert (F : option_map (fun c => (resizing (mem c), busyb (pcs c 0))) (play (firstn 29 story ++ [Called 0%nat])) = Some (true, true)) by (vm_compute; reflexivity).
  rewrite E in F. cbn [option_map] in F. injection F as F1 F2. split; [exact F1|]. clear E. split; [exists 0%nat; vm_compute; tauto|]. destruct (pcs c 0); try discriminate; exact I.
Qed.
