(** Properties of the lock-free queue under the blocking queue (C89-C91). *)

From Coq Require Import ZArith List Lia Bool.
From Verif Require Import Base Bits TextLemmas SubQueueModel SubQueueSpec SubQueueProofs SubQueueProofs2 SubQueueProofs3 SubQueueProofs4.
Import ListNotations.
Open Scope Z_scope.

Section Props.
Context {T : Type}.
Variables (B : Z) (nothrow : bool).
Hypothesis HB : 0 < B.
Notation reachable := (@reachable T B nothrow).

(** * C89: every element is handed out at most once, to one thread, in the order of its producer *)

(** No element is handed out twice. *)
Theorem C89_at_most_once s : reachable s -> NoDup (handed_out (hist s)).
Proof. intros R. apply (c_once _ (v_C _ _ _ (reach_inv B nothrow HB s R))). Qed.

(** What a dequeue hands out is what the producer enqueued at that place. *)
Theorem C89_right_element s t q i r : reachable s -> In (Got t q i r) (hist s) ->
  0 <= i < zlen (enqueued q (hist s)) /\ (r = None \/ r = znth (enqueued q (hist s)) i).
Proof.
  intros R X. pose proof (reach_inv B nothrow HB s R) as V. rewrite <- (tail_enqueued B nothrow s q V), (c_sent _ (v_C _ _ _ V)). pose proof (c_range _ (v_C _ _ _ V) q i (got_handed t q i r _ X)). pose proof (head_le_tail B nothrow s q V). split; [lia|].
  destruct (c_got _ (v_C _ _ _ V) t q i r X) as [->|(v & -> & W)]; auto.
Qed.

(** An element handed out by a dequeue that began after another element of
    the same producer had been handed out comes later in that producer's order. *)
Theorem C89_in_order s1 p s2 new t t' q i i' r r' : reachable s1 -> run B nothrow s1 p = Some s2 -> since (hist s1) (hist s2) new -> pcs s1 t = Idle ->
  In (Got t' q i' r') (hist s1) -> In (Got t q i r) new -> i' < i.
Proof.
  intros R P S0 I0 X Y. pose proof (reach_inv B nothrow HB s1 R) as V. destruct (later_run B nothrow s1 p s1 s2 (later_refl B nothrow s1 V) P) as (new' & HN & _ & L). unfold since in S0. rewrite HN in S0. apply app_inv_tail in S0. subst new'.
  destruct (L t) as (_ & L2); [rewrite I0; reflexivity|]. specialize (L2 q i r Y). pose proof (c_range _ (v_C _ _ _ V) q i' (got_handed t' q i' r' _ X)). lia.
Qed.

(** When an element is handed out, each earlier one of the producer has been
    handed out or is being taken by an operation in progress; so when all is
    quiet a producer's elements handed out are the first ones it enqueued. *)
Theorem C89_no_gap s q i i' : reachable s -> In (q, i) (handed_out (hist s)) -> 0 <= i' < i -> In (q, i') (handed_out (hist s)) \/ exists t, claims (pcs s t) = Some (q, i').
Proof.
  intros R X Y. pose proof (reach_inv B nothrow HB s R) as V. pose proof (c_range _ (v_C _ _ _ V) q i X). apply (c_all _ (v_C _ _ _ V)). lia.
Qed.
Lemma count_head s q : inv B nothrow s -> quiet s -> count_of (T := T) q (hist s) = head (subs s q).
Proof.
  intros V Q. pose proof (head_le_tail B nothrow s q V) as HL. unfold count_of. set (l := filter _ _).
  assert (M : forall d, In d l <-> exists i, d = (q, i) /\ 0 <= i < head (subs s q)).
  { intros (q', i). unfold l. rewrite filter_In. cbn. destruct (Nat.eqb_spec q' q) as [->|N].
    - rewrite (quiet_handed B nothrow s q i V Q). split; [intros (X & _); exists i; auto|intros (j & X & Y); injection X as ->; auto].
    - split; [intros (_ & X); discriminate|intros (j & X & _); congruence]. }
  assert (ND : NoDup l) by (apply NoDup_filter; apply (c_once _ (v_C _ _ _ V))).
  assert (L1 : (length l <= length (map (fun n => (q, Z.of_nat n)) (seq 0 (Z.to_nat (head (subs s q))))))%nat).
  { apply NoDup_incl_length; [exact ND|]. intros d D. apply M in D as (i & -> & I). apply in_map_iff. exists (Z.to_nat i). split; [rewrite Z2Nat.id by lia; reflexivity|apply in_seq; lia]. }
  assert (L2 : (length (map (fun n => (q, Z.of_nat n)) (seq 0 (Z.to_nat (head (subs s q))))) <= length l)%nat).
  { apply NoDup_incl_length; [apply FinFun.Injective_map_NoDup; [intros a b X; injection X; lia|apply seq_NoDup]|]. intros d D. apply in_map_iff in D as (n & <- & N). apply in_seq in N. apply M. exists (Z.of_nat n). split; [reflexivity|lia]. }
  rewrite map_length, seq_length in *. unfold zlen. lia.
Qed.
Theorem C89_prefix_when_quiet s q i : reachable s -> quiet s -> (In (q, i) (handed_out (hist s)) <-> 0 <= i < count_of q (hist s)).
Proof.
  intros R Q. pose proof (reach_inv B nothrow HB s R) as V. rewrite (count_head s q V Q). apply (quiet_handed B nothrow s q i V Q).
Qed.

(** * C90: memory *)

(** No null pointer is followed, no element read that is not there, none
    overwritten, no block given back twice, and the assertions hold. *)
Theorem C90_no_undefined_behaviour s t u : reachable s -> pcs s t <> Bad u.
Proof. intros R. apply (not_bad B nothrow s t u (reach_inv B nothrow HB s R)). Qed.

(** A block in the pool holds no element, no operation in progress works on
    it, and no producer is filling it. *)
Theorem C90_pool_blocks_unused s b : reachable s -> avail s b = true -> (forall r, 0 <= r < B -> cell (blocks s b) r = None) /\ (forall t, uses (pcs s t) <> Some b) /\
  (forall q, slot B (tail (subs s q)) <> 0 -> tailBlock (subs s q) <> Some b).
Proof. intros R. apply (pool_block B nothrow s b (reach_inv B nothrow HB s R)). Qed.

(** An element enqueued and not yet being taken is in the block its index
    entry names, which is not in the pool. *)
Theorem C90_elements_kept s q i : reachable s -> head (subs s q) <= i < tail (subs s q) ->
  exists b, entry (subs s q) (bnum B i) = Some b /\ avail s b = false /\ cell (blocks s b) (slot B i) = znth (enqueued q (hist s)) i.
Proof. intros R. pose proof (reach_inv B nothrow HB s R) as V. rewrite (c_sent _ (v_C _ _ _ V)). apply (kept B nothrow HB s q i V). Qed.

(** * C91: progress *)

(** The counters never cross, and tailIndex counts the enqueued elements. *)
Theorem C91_counters s q : reachable s -> 0 <= head (subs s q) <= tail (subs s q) /\ tail (subs s q) = zlen (enqueued q (hist s)).
Proof. intros R. pose proof (reach_inv B nothrow HB s R) as V. split; [apply (head_le_tail B nothrow s q V)|apply (tail_enqueued B nothrow s q V)]. Qed.

(** A thread in an operation is never blocked, and after at most eleven of its
    own steps the operation has returned, whatever the others do. *)
Theorem C91_never_blocked s t : reachable s -> pcs s t <> Idle -> exists c s', step B nothrow s t c = Some s'.
Proof. intros R. apply (enabled B nothrow s t (reach_inv B nothrow HB s R)). Qed.
Theorem C91_bounded s p s' t : reachable s -> run B nothrow s p = Some s' -> pcs s t <> Idle -> (11 <= steps_of t p)%nat -> exists new e, since (hist s) (hist s') new /\ In e new /\ by_thread e = t.
Proof.
  intros R P N L. destruct (wait_free_run B nothrow HB t p s s' (reach_inv B nothrow HB s R) P) as (V & new & HN & [(e & E1 & E2)|[H|(H & H2)]]); [exists new, e; auto|contradiction|exfalso].
  assert (RK : (rank (pcs s t) <= 11)%nat) by (destruct (pcs s t); cbn; lia). assert (RZ : rank (pcs s' t) = 0%nat) by lia. pose proof (not_bad B nothrow s' t) as NB. destruct (pcs s' t); try discriminate RZ; [congruence|eapply NB; [exact V|reflexivity]].
Qed.

(** With no other operation in progress, a dequeue whose loads return the
    latest values gets the first element not yet handed out, or finds that
    there is none. *)
Theorem C91_dequeue_alone s t q : reachable s -> quiet s ->
  exists s0 n s', step B nothrow s t (CDeq q (tail (subs s q))) = Some s0 /\ alone B nothrow n s0 t = Some s' /\ (n <= 11)%nat /\ quiet s' /\
  since (hist s) (hist s') [if count_of q (hist s) <? zlen (enqueued q (hist s)) then Got t q (count_of q (hist s)) (znth (enqueued q (hist s)) (count_of q (hist s))) else Nothing t q].
Proof.
  intros R Q. pose proof (reach_inv B nothrow HB s R) as V. rewrite (count_head s q V Q), <- (tail_enqueued B nothrow s q V), (c_sent _ (v_C _ _ _ V)). apply (dequeue_alone B nothrow HB s t q V Q).
Qed.

(** An enqueue is refused only if memory runs out or the constructor throws. *)
Theorem C91_no_refusal p s : run B nothrow (@init T) p = Some s -> forallb (fun d => negb (is_failure (snd d))) p = true -> forallb (fun e => negb (is_refused e)) (hist s) = true.
Proof.
  intros R F. assert (V : inv B nothrow (@init T)) by (apply (reach_inv B nothrow HB); exists []; reflexivity). destruct (refused_run B nothrow HB p init s V ltac:(discriminate) R F) as (new & HN & FN). cbn in HN. rewrite app_nil_r in HN. rewrite HN. exact FN.
Qed.

(** size_approx is exact when all is quiet. *)
Theorem C91_size_when_quiet s q : reachable s -> quiet s -> size_approx (subs s q) = zlen (enqueued q (hist s)) - count_of q (hist s).
Proof.
  intros R Q. pose proof (reach_inv B nothrow HB s R) as V. rewrite (count_head s q V Q), <- (tail_enqueued B nothrow s q V). pose proof (head_le_tail B nothrow s q V). unfold size_approx. destruct (Z.ltb_spec (head (subs s q)) (tail (subs s q))); lia.
Qed.
End Props.
Print Assumptions C89_at_most_once.
Print Assumptions C89_right_element.
Print Assumptions C89_in_order.
Print Assumptions C89_no_gap.
Print Assumptions C89_prefix_when_quiet.
Print Assumptions C90_no_undefined_behaviour.
Print Assumptions C90_pool_blocks_unused.
Print Assumptions C90_elements_kept.
Print Assumptions C91_counters.
Print Assumptions C91_never_blocked.
Print Assumptions C91_bounded.
Print Assumptions C91_dequeue_alone.
Print Assumptions C91_no_refusal.
Print Assumptions C91_size_when_quiet.

(** The comparison of indices that wrap around at 2^64 is the comparison of
    the unbounded ones as long as they are less than 2^63 apart. *)
Theorem C91_circular_less_than a b : 0 <= a -> 0 <= b -> Z.abs (a - b) < 2 ^ 63 -> circular_less_than (uwrap 64 a) (uwrap 64 b) = (a <? b).
Proof.
  intros A C D. unfold circular_less_than, uwrap. rewrite <- Zminus_mod. destruct (Z.ltb_spec a b) as [L|L].
  - replace (a - b) with ((2 ^ 64 + (a - b)) + (-1) * 2 ^ 64) by lia. rewrite Z.mod_add by lia. rewrite Z.mod_small by lia. apply Z.ltb_lt. lia.
  - rewrite Z.mod_small by lia. apply Z.ltb_ge. lia.
Qed.
Print Assumptions C91_circular_less_than.
(** For a block size that is a power of two, [idx & (BLOCK_SIZE - 1)] is the
    place in the block, also of a wrapped index. *)
Theorem C91_place_in_block i k : 0 <= i -> 0 <= k <= 64 -> Z.land (uwrap 64 i) (2 ^ k - 1) = slot (2 ^ k) i.
Proof.
  intros I K. replace (2 ^ k - 1) with (Z.ones k) by (rewrite Z.ones_equiv; lia). rewrite Z.land_ones by lia. unfold slot, uwrap.
  assert (0 < 2 ^ k) by (apply Z.pow_pos_nonneg; lia). replace (2 ^ 64) with (2 ^ k * 2 ^ (64 - k)) by (rewrite <- Z.pow_add_r by lia; f_equal; lia).
  assert (0 < 2 ^ (64 - k)) by (apply Z.pow_pos_nonneg; lia). rewrite Z.rem_mul_r by lia. rewrite Z.mul_comm, Z.mod_add by lia. apply Z.mod_mod. lia.
Qed.
Print Assumptions C91_place_in_block.

(** A block of two elements: thread 1 enqueues 7, 8 and 9, threads 2 and 3
    dequeue at the same time, and the first block goes back to the pool. *)
Definition demo_script : list (nat * @choice Z) :=
    [ (1%nat, CEnq 7); (1%nat, CLoad 0); (1%nat, CGo); (1%nat, CBlock 5%nat); (1%nat, CGo); (1%nat, CGo); (1%nat, CGo); (1%nat, CGo);
      (1%nat, CEnq 8); (1%nat, CGo); (1%nat, CGo);
      (2%nat, CDeq 1 2); (2%nat, CLoad 0); (2%nat, CLoad 0); (3%nat, CDeq 1 2); (3%nat, CLoad 0); (3%nat, CLoad 0); (2%nat, CGo); (3%nat, CGo);
      (3%nat, CLoad 2); (2%nat, CLoad 2); (3%nat, CGo); (2%nat, CGo);
      (2%nat, CGo); (3%nat, CGo); (2%nat, CGo); (3%nat, CGo); (2%nat, CGo); (2%nat, CGo);
      (1%nat, CEnq 9); (1%nat, CLoad 1); (1%nat, CGo); (1%nat, CBlock 6%nat); (1%nat, CGo); (1%nat, CGo); (1%nat, CGo); (1%nat, CGo);
      (3%nat, CGo); (3%nat, CGo); (3%nat, CGo); (3%nat, CGo) ].
Definition demo : option (@state Z) := run 2 true init demo_script.
Example demo_ok : option_map hist demo = Some [Got 3 1 0 (Some 7); Sent 1 9; Got 2 1 1 (Some 8); Sent 1 8; Sent 1 7].
Proof. vm_compute. reflexivity. Qed.
Example demo_pool : option_map (fun s => (avail s 5%nat, avail s 6%nat, size_approx (subs s 1%nat))) demo = Some (true, false, 1).
Proof. vm_compute. reflexivity. Qed.
Lemma some_reachable (o : option (@state Z)) h : o = run 2 true init demo_script -> option_map hist o = Some h -> exists s, o = Some s /\ reachable 2 true s.
Proof. intros E H. destruct o as [s|]; [|discriminate]. exists s. split; [reflexivity|]. exists demo_script. symmetry. exact E. Qed.
Lemma demo_run : demo = run 2 true init demo_script.
Proof. unfold demo. reflexivity. Qed.
Example demo_reachable : exists s, demo = Some s /\ reachable 2 true s.
Proof. apply (some_reachable demo [Got 3 1 0 (Some 7); Sent 1 9; Got 2 1 1 (Some 8); Sent 1 8; Sent 1 7]); [exact demo_run|exact demo_ok]. Qed.
(** an over-eager dequeue is refunded *)
Example demo_nothing : option_map hist (run 2 true (@init Z) [(2%nat, CDeq 1 0); (2%nat, CLoad 0); (2%nat, CLoad 0)]) = Some [Nothing 2 1].
Proof. vm_compute. reflexivity. Qed.
