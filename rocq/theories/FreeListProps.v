(** C92: the free list hands out every node at most once and loses none.
    C93: its calls end, whatever the scheduler does. *)

From Coq Require Import ZArith List Bool Lia Arith.
From Verif Require Import Base Bits FreeListModel FreeListSpec FreeListProofs FreeListProofs2 FreeListProofs3 FreeListProofs4.
Import ListNotations.
Open Scope Z_scope.

Lemma exactly_one_iff a b c d a' b' c' d' : (a <-> a') -> (b <-> b') -> (c <-> c') -> (d <-> d') -> exactly_one a b c d <-> exactly_one a' b' c' d'.
Proof. unfold exactly_one. tauto. Qed.

Section Any.
(* any number of threads up to about a thousand million, any reachable state *)
Variables (stale : bool) (T : nat) (s : sys).
Hypotheses (BD : Z.of_nat T < 2 ^ 30 - 1) (R : reach stale T s).

(** A node that try_get returns was on the clients' side of nobody: it had been added and not been handed out since *)
Theorem C92_handed_out_once i n s' : step stale i (Got (Some n)) s s' -> client s n = false /\ client s' n = true.
Proof.
  intros S0. destruct (reach_inv stale T BD s R) as (ph & L & P & I). remember (Got (Some n)) as lab eqn:LB. destruct S0 as [m ts c p m' p' l E ST]. subst l. cbn [client take]. split; [|apply fupd_same].
  assert (W : work p = Some n). { inversion ST; subst; try reflexivity; try (destruct k as [|[|]]; discriminate); [destruct v; discriminate|destruct hd; discriminate]. }
  destruct (worker _ _ _ _ _ I i p n E W) as [PN _]. destruct (c n) eqn:CN; [|reflexivity]. apply (i_client _ _ _ _ _ I) in CN. congruence.
Qed.
(** Only that step and the call of add change what the clients have *)
Theorem C92_clients_keep i l s' n : step stale i l s s' -> l <> Got (Some n) -> client s' n = client s n.
Proof.
  intros S0 N. destruct S0 as [m ts c p m' p' l E ST]. cbn [client]. destruct l as [| |[k|]]; try reflexivity. cbn [take]. apply fupd_other. congruence.
Qed.
(** Every node is in exactly one place: with the clients, on the list, in the hands of a call, or left, with the flag
    set, to a call that looks at it *)
Theorem C92_one_place : exists l, on_list s l /\
  forall n, exactly_one (client s n = true) (In n l) (exists i p, nth_error (threads s) i = Some p /\ works_on p n)
                        (flagged s n /\ exists i p, nth_error (threads s) i = Some p /\ looks_at p n).
Proof.
  destruct (reach_inv stale T BD s R) as (ph & L & P & I). exists L. split; [split; [exact (i_chain _ _ _ _ _ I)|exact (i_nodup _ _ _ _ _ I)]|]. intros n.
  assert (WK : (exists i p, nth_error (threads s) i = Some p /\ works_on p n) <-> exists i, ph n = Call i).
  { split; intros (i & H).
    - destruct H as (p & E & W). exists i. apply (i_call _ _ _ _ _ I). exists p. split; [exact E|]. destruct p; cbn in *; try contradiction; congruence.
    - apply (i_call _ _ _ _ _ I) in H. destruct H as (p & E & W). exists i, p. split; [exact E|]. destruct p; cbn in *; try discriminate; congruence. }
  pose proof (i_refs _ _ _ _ _ I n) as RF. pose proof (holders_small _ _ _ _ _ I BD n) as SM.
  assert (LK : forall i p, nth_error (threads s) i = Some p -> looks_at p n -> 1 <= holders (threads s) n).
  { intros i p E H. pose proof (holding s i p n E) as HG. destruct p; cbn in H; try contradiction; subst; cbn [hold] in HG; rewrite Nat.eqb_refl in HG; exact HG. }
  assert (FL : flagged s n /\ (exists i p, nth_error (threads s) i = Some p /\ looks_at p n) <-> ph n = Waiting).
  { split.
    - intros [F (i & p & E & H)]. specialize (LK i p E H). unfold flagged in F. destruct (ph n) as [| | |j] eqn:PN; cbn [base] in RF; try reflexivity; try (unfold FLAG in *; lia). exfalso.
      apply (i_call _ _ _ _ _ I) in PN. destruct PN as (r & ER & W). rewrite ER in RF. destruct r; cbn [own work] in *; try discriminate; try (unfold FLAG in *; lia);
        injection W as ->; rewrite (i_unseen _ _ _ _ _ I j _ n ER eq_refl) in LK; lia.
    - intros PN. rewrite PN in RF. cbn [base] in RF. pose proof (i_wait _ _ _ _ _ I n PN) as H1. split; [unfold flagged, FLAG in *; lia|].
      destruct (sum_pos_ex (hold n) (threads s)) as (i & p & E & HP); [intros; apply hold_range|unfold holders in H1; lia|]. exists i, p. split; [exact E|].
      destruct p; cbn [hold looks_at] in *; try lia; destruct (Nat.eqb_spec h n); try lia; auto. subst h.
      assert (PC : ph n = Call i) by (apply (i_call _ _ _ _ _ I); eexists; split; [exact E|reflexivity]). congruence. }
  apply (exactly_one_iff _ _ _ _ _ _ _ _ (i_client _ _ _ _ _ I n) (i_listed _ _ _ _ _ I n) WK FL). unfold exactly_one. destruct (ph n) as [| | |j]; [left|right; left|right; right; right|right; right; left]; repeat split; try discriminate; try (intros [i K]; discriminate); eauto.
Qed.
(** one call at most works on a node *)
Theorem C92_one_worker i p j q n : nth_error (threads s) i = Some p -> nth_error (threads s) j = Some q -> works_on p n -> works_on q n -> j = i.
Proof.
  intros E E' W W'. destruct (reach_inv stale T BD s R) as (ph & L & P & I).
  apply (worker_unique _ _ _ _ _ I i p j q n E); auto; [destruct p|destruct q]; cbn in *; try contradiction; congruence.
Qed.
(** When no call is under way the list holds every node the clients do not have, once, and all counters are settled *)
Theorem C92_nothing_lost : quiet s -> exists l, on_list s l /\ (forall n, In n l <-> client s n = false) /\
  forall n, refs (memory s) n = if client s n then 0 else 1.
Proof.
  intros Q. destruct (reach_inv stale T BD s R) as (ph & L & P & I). exists L. split; [split; [exact (i_chain _ _ _ _ _ I)|exact (i_nodup _ _ _ _ _ I)]|].
  assert (HZ : forall n, holders (threads s) n = 0).
  { intros n. pose proof (holders_range n (threads s)) as [H0 _]. destruct (Z.eq_dec (holders (threads s) n) 0) as [|NZ]; [assumption|]. exfalso.
    destruct (sum_pos_ex (hold n) (threads s)) as (i & p & E & HP); [intros; apply hold_range|unfold holders in *; lia|]. rewrite (Q i p E) in HP. cbn in HP. lia. }
  assert (PC : forall n, ph n = Client \/ ph n = Listed).
  { intros n. destruct (ph n) as [| | |i] eqn:PN; auto; exfalso.
    - pose proof (i_wait _ _ _ _ _ I n PN). rewrite HZ in *. lia.
    - apply (i_call _ _ _ _ _ I) in PN. destruct PN as (p & E & W). rewrite (Q i p E) in W. discriminate. }
  split; intros n; pose proof (i_client _ _ _ _ _ I n) as CL; pose proof (i_listed _ _ _ _ _ I n) as LI.
  - rewrite LI. destruct (PC n) as [H|H]; rewrite H in *; destruct (client s n); split; intros; try reflexivity; try discriminate; try (destruct CL as [CL1 CL2]; now (discriminate CL1 || (discriminate (CL2 eq_refl)) || discriminate (CL1 eq_refl))).
  - rewrite (i_refs _ _ _ _ _ I n), HZ. destruct (PC n) as [H|H]; rewrite H in *; destruct (client s n); cbn [base]; try reflexivity; exfalso; destruct CL as [CL1 CL2]; (discriminate (CL1 eq_refl) || discriminate (CL2 eq_refl)).
Qed.
(** The assertion of line 1433 and the remark of line 1404: the flag is clear there *)
Theorem C92_flag_clear i p n : nth_error (threads s) i = Some p -> p = G6 n \/ p = A0 n -> Z.land (refs (memory s) n) SHOULD_BE_ON_FREELIST = 0.
Proof.
  intros E H. destruct (reach_inv stale T BD s R) as (ph & L & P & I). pose proof (holders_small _ _ _ _ _ I BD n) as SM.
  assert (RN : refs (memory s) n = holders (threads s) n).
  { destruct H as [-> | ->]; destruct (worker _ _ _ _ _ I i _ n E eq_refl) as [_ RN]; cbn [own] in RN; lia. }
  rewrite RN. unfold SHOULD_BE_ON_FREELIST. change 0x80000000 with (2 ^ 31). apply Z.bits_inj'. intros k K. rewrite Z.land_spec, Z.bits_0, (Z.pow2_bits_eqb 31 k ltac:(lia)).
  destruct (Z.eqb_spec 31 k) as [<-|]; [|apply andb_false_r]. rewrite andb_true_r. apply Z.testbit_false; [lia|]. rewrite Z.div_small; [reflexivity|]. unfold FLAG in SM. lia.
Qed.
(** A thread inside a call can always make a step *)
Theorem C93_never_blocked i : in_call s i -> exists l s', step stale i l s s'.
Proof.
  intros (p & E & N). destruct s as [m ts c]. cbn [threads] in E. destruct (next_step m p) as [r|] eqn:NS; [|destruct p; cbn in NS; congruence].
  exists (snd r), (mkSys (fst (fst r)) (upd ts i (snd (fst r))) (take c (snd r))). econstructor; [exact E|]. exact (next_step_sound stale m p r NS).
Qed.
End Any.
Print Assumptions C92_handed_out_once.
Print Assumptions C92_clients_keep.
Print Assumptions C92_one_place.
Print Assumptions C92_one_worker.
Print Assumptions C92_nothing_lost.
Print Assumptions C92_flag_clear.
Print Assumptions C93_never_blocked.

(** When loads see the current values, the calls under way make at most so many steps, whoever makes them, unless new
    calls come; so with [C93_never_blocked] they all return *)
Theorem C93_all_calls_end T s k s' : Z.of_nat T < 2 ^ 30 - 1 -> reach false T s -> steps false k s s' ->
  Z.of_nat k <= 120 * Z.of_nat T ^ 3 + 74 * Z.of_nat T ^ 2 + 15 * Z.of_nat T.
Proof.
  intros BD R S0. destruct (reach_inv false T BD s R) as (ph & L & P & I). pose proof (steps_bounded T BD k s s' S0 ph L P I). pose proof (measure_bound T ph L P s I). lia.
Qed.
Print Assumptions C93_all_calls_end.

(** try_get answers null only if the list was empty at some moment after the call: [s1] is the state after the call,
    [s] the state before the return, [l] the states between *)
Theorem C93_null_only_if_empty i s0 s1 l s s' : calls i s0 s1 -> during false s1 l s -> step false i (Got None) s s' ->
  exists x, In x (l ++ [s]) /\ on_list x [].
Proof.
  intros C D S0.
  assert (ST : forall p, nth_error (threads s1) i = Some p -> ~ recalls p).
  { destruct C as [m ts c n E N|m ts c E]; cbn [threads]; intros p EP; rewrite (nth_upd _ _ _ _ _ E), Nat.eqb_refl in EP; injection EP as <-; cbn; auto. }
  assert (EM : forall x, head (memory x) = None -> on_list x []) by (intros x H; split; [exact H|constructor]).
  remember (Got None) as lab eqn:LB. destruct S0 as [m ts c p m' p' lb E T0]. subst lb. destruct (none_step m p m' p' T0) as [RC|HN].
  - destruct (recalls_during i s1 l _ D ST p E RC) as (x & IX & HX). exists x. split; [apply in_or_app; left; exact IX|auto].
  - eexists. split; [apply in_or_app; right; left; reflexivity|]. apply EM. exact HN.
Qed.
Print Assumptions C93_null_only_if_empty.

(** ** A thread alone *)
Fixpoint solo (k : nat) (m : mem) (p : pc) : option (mem * pc * label) :=
  match k with
  | O => None
  | S k => match next_step m p with Some (m', p', Tau) => solo k m' p' | Some (m', p', l) => Some (m', p', l) | None => None end
  end.
Lemma upd_upd {A} (l : list A) i x y : upd (upd l i x) i y = upd l i y.
Proof. revert i. induction l as [|z r IH]; intros [|i]; cbn; auto. now rewrite IH. Qed.
Lemma solo_alone stale k i ts c : forall m p m' p' l, solo k m p = Some (m', p', l) -> nth_error ts i = Some p -> alone stale i (mkSys m ts c) l (mkSys m' (upd ts i p') (take c l)).
Proof.
  revert ts. induction k as [|k IH]; intros ts m p m' p' l E EP; cbn in E; [discriminate|]. destruct (next_step m p) as [[[m1 p1] l1]|] eqn:NS; [|discriminate].
  pose proof (next_step_sound stale m p _ NS) as ST. cbn [fst snd] in ST. destruct l1.
  - eapply al_more; [econstructor; [exact EP|exact ST]|]. cbn [take]. rewrite <- (upd_upd ts i p1 p'). apply (IH _ m1 p1); [exact E|]. rewrite (nth_upd _ _ _ _ _ EP). now rewrite Nat.eqb_refl.
  - injection E as <- <- <-. apply al_last; [|discriminate]. econstructor; [exact EP|exact ST].
  - injection E as <- <- <-. apply al_last; [|discriminate]. econstructor; [exact EP|exact ST].
Qed.
Lemma quiet_upd s i m c : quiet s -> quiet (mkSys m (upd (threads s) i Idle) c).
Proof.
  intros Q j p E. cbn [threads] in E. rewrite nth_error_upd in E. destruct (Nat.eqb j i); [|exact (Q j p E)]. destruct (Nat.ltb i (length (threads s))); congruence.
Qed.
(** the first six steps of try_get when nobody interferes *)
Lemma solo_get m h : head m = Some h -> refs m h = 1 ->
  solo 6 m G1 = Some (set_refs (set_head (set_refs m h 2) (next m h)) h 0, Idle, Got (Some h)).
Proof.
  intros H R. cbn [solo next_step]. rewrite H. cbn [resume fst snd solo next_step]. rewrite R. change (refs_of 1 =? 0) with false. cbn [solo next_step Z.eqb Pos.eqb]. change (uwrap 32 (1 + 1)) with 2. cbn [solo next_step set_refs head next]. rewrite H, eqo_refl.
  cbn [solo next_step set_head set_refs head next refs]. rewrite fupd_same. reflexivity.
Qed.
Lemma solo_add m n : refs m n = 0 -> solo 5 m (A0 n) = Some (set_head (set_refs (set_next (set_refs m n 2147483648) n (head m)) n 1) (Some n), Idle, Added).
Proof.
  intros R. cbn [solo next_step]. rewrite R. cbn [Z.eqb solo next_step]. change (uwrap 32 (0 + SHOULD_BE_ON_FREELIST)) with 2147483648. cbn [set_refs set_next head]. rewrite eqo_refl. reflexivity.
Qed.
Lemma on_list_fun s l l' : on_list s l -> on_list s l' -> l = l'.
Proof. intros [A _] [B _]. exact (linked_fun _ _ _ _ A B). Qed.
(** With no other call under way, try_get returns the first node of the list, if there is one, and takes it off *)
Theorem C93_get_alone stale T s i l : Z.of_nat T < 2 ^ 30 - 1 -> reach stale T s -> quiet s -> (i < length (threads s))%nat -> on_list s l ->
  exists s1 s2, calls i s s1 /\ alone false i s1 (Got (hd_error l)) s2 /\ on_list s2 (tl l) /\ quiet s2 /\
                forall r x, alone false i s1 r x -> r = Got (hd_error l) /\ x = s2.
Proof.
  intros BD R Q LI OL. destruct (C92_nothing_lost stale T s BD R Q) as (l' & OL' & IN & RF). pose proof (on_list_fun s l l' OL OL') as <-. clear OL'.
  apply nth_error_Some in LI. destruct (nth_error (threads s) i) as [p|] eqn:E; [|congruence]. clear LI. pose proof (Q i p E) as ->.
  exists (mkSys (memory s) (upd (threads s) i G1) (client s)).
  assert (E1 : nth_error (upd (threads s) i G1) i = Some G1) by (rewrite (nth_upd _ _ _ _ _ E), Nat.eqb_refl; reflexivity).
  assert (CA : calls i s (mkSys (memory s) (upd (threads s) i G1) (client s))) by (destruct s; constructor; exact E).
  destruct OL as [CH ND]. destruct l as [|h r]; cbn [linked hd_error tl] in *.
  - exists (mkSys (memory s) (upd (threads s) i Idle) (client s)).
    assert (SO : solo 1 (memory s) G1 = Some (memory s, Idle, Got None)) by (cbn [solo next_step]; rewrite CH; reflexivity).
    pose proof (solo_alone false 1 i (upd (threads s) i G1) (client s) _ _ _ _ _ SO E1) as AL. rewrite upd_upd in AL. cbn [take] in AL.
    repeat split; auto; [apply quiet_upd, Q|..]; intros; destruct (alone_det _ _ _ _ AL _ _ H); congruence.
  - destruct CH as [CH1 CH2]. assert (CL : client s h = false) by (apply IN; left; reflexivity). assert (R1 : refs (memory s) h = 1) by (rewrite RF, CL; reflexivity).
    pose proof (solo_get (memory s) h CH1 R1) as SO. pose proof (solo_alone false 6 i (upd (threads s) i G1) (client s) _ _ _ _ _ SO E1) as AL. rewrite upd_upd in AL.
    eexists. split; [exact CA|]. split; [exact AL|]. split; [split; [exact CH2|now inversion ND]|]. split; [apply quiet_upd, Q|]. intros r0 x A. destruct (alone_det _ _ _ _ AL _ _ A); split; congruence.
Qed.
Print Assumptions C93_get_alone.
(** ... and add puts its node in front *)
Theorem C93_add_alone stale T s i n l : Z.of_nat T < 2 ^ 30 - 1 -> reach stale T s -> quiet s -> (i < length (threads s))%nat -> on_list s l -> client s n = true ->
  exists s1 s2, calls i s s1 /\ alone false i s1 Added s2 /\ on_list s2 (n :: l) /\ quiet s2 /\
                forall r x, alone false i s1 r x -> r = Added /\ x = s2.
Proof.
  intros BD R Q LI OL CN. destruct (C92_nothing_lost stale T s BD R Q) as (l' & OL' & IN & RF). pose proof (on_list_fun s l l' OL OL') as <-. clear OL'.
  apply nth_error_Some in LI. destruct (nth_error (threads s) i) as [p|] eqn:E; [|congruence]. clear LI. pose proof (Q i p E) as ->.
  exists (mkSys (memory s) (upd (threads s) i (A0 n)) (fupd (client s) n false)).
  assert (E1 : nth_error (upd (threads s) i (A0 n)) i = Some (A0 n)) by (rewrite (nth_upd _ _ _ _ _ E), Nat.eqb_refl; reflexivity).
  assert (CA : calls i s (mkSys (memory s) (upd (threads s) i (A0 n)) (fupd (client s) n false))) by (destruct s; constructor; [exact E|exact CN]).
  assert (R0 : refs (memory s) n = 0) by (rewrite RF, CN; reflexivity). assert (NI : ~ In n l) by (rewrite IN; congruence).
  pose proof (solo_add (memory s) n R0) as SO. pose proof (solo_alone false 5 i (upd (threads s) i (A0 n)) (fupd (client s) n false) _ _ _ _ _ SO E1) as AL. rewrite upd_upd in AL.
  destruct OL as [CH ND]. eexists. split; [exact CA|]. split; [exact AL|]. split; [|split; [apply quiet_upd, Q|]].
  - split; [|constructor; assumption]. cbn [linked memory head set_head next set_next set_refs]. split; [reflexivity|]. rewrite fupd_same. apply linked_ext with (next (memory s)); [|exact CH].
    intros k K. apply fupd_other. congruence.
  - intros r x A. destruct (alone_det _ _ _ _ AL _ _ A); split; congruence.
Qed.
Print Assumptions C93_add_alone.

(** ** A run with contention: thread 1 looks at node 5 while thread 0 takes it, adds it again and returns; node 5 is
    left to thread 1, which puts it on the list *)
Definition contention : list cmd :=
  [Add 0 5%nat; Run 0; Run 0; Run 0; Run 0; Run 0] ++ [Get 1; Run 1; Run 1; Run 1; Run 1] ++
  [Get 0; Run 0; Run 0; Run 0; Run 0; Run 0; Run 0; Add 0 5%nat; Run 0].
Definition after (cs : list cmd) : sys := match run (init 2) cs with Some s => s | None => init 2 end.
Lemma contention_reached stale : reach stale 2 (after contention).
Proof. apply (run_reach stale 2 contention (init 2)); [constructor|]. vm_compute. reflexivity. Qed.
Example C92_left_to_another : exists s, reach false 2 s /\ flagged s 5%nat /\ nth_error (threads s) 0 = Some Idle /\ nth_error (threads s) 1 = Some (G5 5%nat None) /\ on_list s [].
Proof.
  exists (after contention). split; [apply contention_reached|]. unfold flagged. repeat split; try (vm_compute; congruence). constructor.
Qed.
Definition finished : list cmd := contention ++ [Run 1; Run 1; Run 1; Run 1; Run 1; Run 1].
Lemma finished_reached stale : reach stale 2 (after finished).
Proof. apply (run_reach stale 2 finished (init 2)); [constructor|]. vm_compute. reflexivity. Qed.
Example C92_put_back : exists s, reach false 2 s /\ quiet s /\ on_list s [5%nat] /\ client s 5%nat = false /\ client s 6%nat = true.
Proof.
  exists (after finished). split; [apply finished_reached|]. split; [|split; [|split; reflexivity]].
  - intros [|[|i]] p E; vm_compute in E; try congruence. destruct i; discriminate.
  - split; [vm_compute; auto|]. constructor; [intros []|constructor].
Qed.
(** there try_get has answered null although node 5 is on the list when it returns: the list was empty during the call *)
Example C93_null_case : exists s s', reach false 2 s /\ step false 1 (Got None) s s' /\ on_list s' [5%nat].
Proof.
  exists (after (contention ++ [Run 1; Run 1; Run 1; Run 1; Run 1])), (after finished). split; [|split].
  - apply (run_reach false 2 (contention ++ [Run 1; Run 1; Run 1; Run 1; Run 1]) (init 2)); [constructor|]. vm_compute. reflexivity.
  - set (s := after (contention ++ [Run 1; Run 1; Run 1; Run 1; Run 1])). assert (E : nth_error (threads s) 1 = Some (A4 5%nat None (KGet None))) by reflexivity.
    assert (HD : head (memory s) = None) by reflexivity.
    assert (S1 : after finished = mkSys (set_head (memory s) (Some 5%nat)) (upd (threads s) 1 Idle) (client s)) by reflexivity.
    rewrite S1. destruct s as [m ts c]. cbn [memory threads client] in *. exact (s_run false 1 m ts c _ _ Idle (Got None) E (t_push false m 5%nat None (KGet None) HD)).
  - split; [vm_compute; auto|]. constructor; [intros []|constructor].
Qed.
