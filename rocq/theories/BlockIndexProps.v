(** C113: however the index of blocks is reused and enlarged while others
    read it, every element is looked for in the block it was put in. *)

From Coq Require Import ZArith List Bool Lia ZifyBool ZifyNat.
From Verif Require Import Base SubQueueModel BlockIndexModel BlockIndexSpec BlockIndexProofs BlockIndexProofs2 BlockIndexProofs3 BlockIndexProofs4 BlockIndexProofs5 BlockIndexProofs6.
From Verif Require SubQueueProofs2.
Import ListNotations.
Open Scope Z_scope.

Section C113.
Variables (B cap0 : Z).
Hypothesis (HS : valid_sizes B cap0).

(** Every look-up, at whatever moment of whatever run, yields the block that
    was put for that element. *)
Theorem C113_right_block ok l s i v : irun B (init cap0 ok) l = Some s -> In (Look i v) (ihist s) ->
  0 <= i / B /\ exists b, v = Ptr b /\ nth_error (blocks_put (ihist s)) (Z.to_nat (i / B)) = Some b.
Proof.
  destruct HS as ((lb & Hl & ->) & (a0 & Ha & ->)). intros R I. destruct ok.
  - apply (reach_inv lb a0 Hl Ha) in R. destruct R as (_ & _ & _ & L). exact (L i v I).
  - apply (barren_run lb) in R; auto using barren_init. destruct R as (_ & _ & _ & _ & R). specialize (R _ I). discriminate.
Qed.

(** Nobody reads outside the arrays, uses an entry that was never filled or a
    null pointer, and no assertion fails. *)
Theorem C113_no_undefined_behaviour ok l s : irun B (init cap0 ok) l = Some s ->
  (forall u, prod s <> PBad u) /\ (forall c u, cons s c <> CBad u).
Proof.
  destruct HS as ((lb & Hl & ->) & (a0 & Ha & ->)). intros R. destruct ok.
  - apply (reach_inv lb a0 Hl Ha) in R. destruct R as (_ & P & C & _). split.
    + intros u E. unfold prod_ok in P. rewrite E in P. exact P.
    + intros c u E. specialize (C c). unfold cons_ok in C. rewrite E in C. exact C.
  - apply (barren_run lb) in R; auto using barren_init. destruct R as (_ & _ & R1 & R2 & _). split; [intros u; congruence|intros c u; rewrite R2; discriminate].
Qed.

(** A look-up takes four steps of its own and is never held up. *)
Theorem C113_lookup_wait_free l s c i : irun B (init cap0 true) l = Some s -> cons s c = CIdle -> in_use (ihist s) (i / B) -> exists b s',
  irun B s [CStart c i; CHdr c (curh s); CTail c (pred (length (tails (cur s)))); CGo c; CGo c] = Some s' /\
  ihist s' = Look i (Ptr b) :: ihist s /\ nth_error (blocks_put (ihist s)) (Z.to_nat (i / B)) = Some b.
Proof.
  destruct HS as ((lb & Hl & ->) & (a0 & Ha & ->)). intros R E U. pose proof (reach_inv lb a0 Hl Ha _ _ R) as I. pose proof (reach_inv2 lb a0 Hl Ha _ _ R) as J.
  destruct (look_alone lb a0 Hl Ha s c i I J E U) as (b & s' & Q1 & Q2 & Q3 & _). eauto.
Qed.

(** A put that nothing fails for succeeds, in at most eight steps, whatever
    the readers are doing. *)
Theorem C113_put_succeeds l s b : irun B (init cap0 true) l = Some s -> prod s = PIdle -> Z.of_nat (length (blocks_put (ihist s))) < 2 ^ 56 ->
  exists l' s', (length l' <= 8)%nat /\ (forall x, In x l' -> x = CPut \/ x = PGo \/ x = PBlock b) /\ irun B s l' = Some s' /\ ihist s' = Put b :: ihist s.
Proof.
  destruct HS as ((lb & Hl & ->) & (a0 & Ha & ->)). intros R E N. pose proof (reach_inv lb a0 Hl Ha _ _ R) as I. pose proof (reach_inv2 lb a0 Hl Ha _ _ R) as J.
  assert (Nb : nb s = Z.of_nat (length (blocks_put (ihist s)))) by (destruct I as (S & _); destruct S; auto). rewrite <- Nb in N.
  destruct (put_alone lb a0 Hl Ha s b I J E N) as (l' & s' & Q1 & Q2 & Q3 & Q4 & _). eauto 8.
Qed.

(** Each refusal is due to a failure of malloc, of the pool of blocks or of
    an element's constructor. *)
Theorem C113_refused_only_by_failure l s : irun B (init cap0 true) l = Some s -> Z.of_nat (length (blocks_put (ihist s))) < 2 ^ 56 ->
  (refusals (ihist s) <= failures l)%nat.
Proof.
  destruct HS as ((lb & Hl & ->) & (a0 & Ha & ->)). intros R N. pose proof (reach_inv lb a0 Hl Ha _ _ R) as I.
  assert (Nb : nb s = Z.of_nat (length (blocks_put (ihist s)))) by (destruct I as (S & _); destruct S; auto). rewrite <- Nb in N.
  pose proof (refusal_run lb a0 Hl Ha l (init (2 ^ a0) true) s (inv_init lb a0 Ha) (inv2_init a0 Ha) N R) as Q.
  rewrite init_true in Q by auto. cbn in Q. lia.
Qed.

(** A block is cleared at most once, and only after it was put. *)
Theorem C113_cleared_once l s : irun B (init cap0 true) l = Some s ->
  NoDup (cleared (ihist s)) /\ forall n, In n (cleared (ihist s)) -> 0 <= n < Z.of_nat (length (blocks_put (ihist s))).
Proof.
  destruct HS as ((lb & Hl & ->) & (a0 & Ha & ->)). intros R.
  refine (proj1 (run_ind lb a0 Hl Ha (fun s => (NoDup (cleared (ihist s)) /\ forall n, In n (cleared (ihist s)) -> 0 <= n < Z.of_nat (length (blocks_put (ihist s)))) /\ True) _ _ l s R)).
  { rewrite init_true by auto. cbn. split; [split; [constructor|intros n []]|exact Logic.I]. }
  clear s R. intros s x s' I J ((N & M) & _) H. split; [|exact Logic.I]. pose proof (hist_step lb s x s' H) as ((new & E) & _).
  assert (K : forall s', cleared (ihist s') = cleared (ihist s) -> (length (blocks_put (ihist s)) <= length (blocks_put (ihist s')))%nat ->
              NoDup (cleared (ihist s')) /\ forall n, In n (cleared (ihist s')) -> 0 <= n < Z.of_nat (length (blocks_put (ihist s')))).
  { intros s1 -> L. split; [exact N|]. intros n Q. specialize (M n Q). lia. }
  destruct x; unfold istep in H.
  - destruct (prod s); try discriminate. destruct (Nat.eqb (nh s) 0); injection H as <-; apply K; reflexivity.
  - destruct (prod s); try discriminate.
    + destruct (slot_at _ _); [destruct (_ =? _); [|destruct (val _)]|]; injection H as <-; apply K; reflexivity.
    + destruct (fits s); injection H as <-; [|apply K; reflexivity]. destruct (grow_facts s P1b) as (_ & _ & _ & _ & _ & F6 & _). apply K; rewrite F6; reflexivity.
    + destruct (slot_at _ _); [destruct (_ =? _)|]; injection H as <-; apply K; reflexivity.
    + injection H as <-. apply K; reflexivity.
    + injection H as <-. apply K; reflexivity.
    + injection H as <-. apply K; reflexivity.
    + injection H as <-. apply K; reflexivity.
    + injection H as <-. apply K; [reflexivity|]. cbn. rewrite app_length. lia.
  - destruct (prod s); try discriminate. destruct (slot_at _ _); [destruct (_ && _)%bool|]; try discriminate; injection H as <-; apply K; reflexivity.
  - destruct (prod s); try discriminate; injection H as <-; apply K; reflexivity.
  - destruct (prod s); try discriminate; injection H as <-; apply K; reflexivity.
  - destruct (cons s c); try discriminate. destruct (there _ _); try discriminate. injection H as <-; apply K; reflexivity.
  - destruct (cons s c); try discriminate. destruct (_ && _)%bool; try discriminate. injection H as <-; apply K; reflexivity.
  - destruct (cons s c); try discriminate. destruct (nth_error _ _); try discriminate. destruct (_ || _)%bool; try discriminate. injection H as <-; apply K; reflexivity.
  - destruct (cons s c); try discriminate.
    + destruct (slot_at _ _); [destruct (_ =? _); [|destruct (slot_at _ _)]|]; injection H as <-; apply K; reflexivity.
    + destruct (val _); injection H as <-; apply K; reflexivity.
  - destruct (cons s c); try discriminate. injection H as <-; apply K; reflexivity.
  - destruct (cons s c) eqn:Ec; try discriminate. destruct (users _ _) as [|u [|u2 us]]; try discriminate. injection H as <-. cbn.
    pose proof I as (S & _ & C & _). specialize (C c). unfold cons_ok in C. rewrite Ec in C. destruct C as ((A1 & A2 & _) & _).
    assert (U : in_use (ihist s) (i / 2 ^ lb)) by (apply (in_use_spec lb a0 Hl Ha s _ I J); auto). destruct U as (U1 & U2).
    split; [constructor; auto|]. intros n [<-|Q]; auto.
Qed.

(** The index has more slots than at the start only if the blocks in use were
    once spread over at least half as many (the writer's reads being up to
    date). *)
Theorem C113_size l s d : irun B (init cap0 true) l = Some s -> ~ In PStale l -> (forall h, earlier h (ihist s) -> spread h d) ->
  slots s <= Z.max cap0 (2 * d).
Proof.
  destruct HS as ((lb & Hl & ->) & (a0 & Ha & ->)). intros R N Sp. pose proof (reach_inv lb a0 Hl Ha _ _ R) as I.
  rewrite (slots_cap lb s I).
  refine (proj2 (size_run lb a0 Hl Ha l (init (2 ^ a0) true) s d (inv_init lb a0 Ha) (inv2_init a0 Ha) N R Sp _)).
  rewrite init_true by auto. unfold cur, curh. cbn. split; [lia|discriminate].
Qed.

(** But it is not bounded by the number of blocks in use: while one block is
    not emptied (its last reader is delayed), the index grows with every block
    that passes, though there are never more than two in use. *)
Theorem C113_size_by_use_refuted k : 0 <= k < 2 ^ 50 -> exists l s, irun B (init cap0 true) l = Some s /\
  (forall h, earlier h (ihist s) -> live h <= 2) /\ k <= slots s.
Proof.
  destruct HS as ((lb & Hl & ->) & (a0 & Ha & ->)). intros Hk.
  destruct (stalled_reach lb a0 Hl Ha (Z.to_nat k) ltac:(lia)) as (l & s & R & (E1 & E2 & E3 & E4 & E5)).
  pose proof (reach_inv lb a0 Hl Ha _ _ R) as I. pose proof (reach_inv2 lb a0 Hl Ha _ _ R) as J. exists l, s. split; [exact R|]. split.
  - intros h Hh. rewrite E5 in Hh. exact (stalled_live lb a0 (Z.to_nat k) h Hh).
  - rewrite (slots_cap lb s I). assert (U : in_use (ihist s) 0).
    { rewrite E5. split; [rewrite stalled_put, repeat_length; lia|]. intros Q. apply (stalled_cleared lb a0) in Q. lia. }
    apply (in_use_spec lb a0 Hl Ha s 0 I J) in U. destruct U as (U1 & U2). pose proof I as (S & _). pose proof (cur_good _ _ S) as G. destruct S, G.
    assert (W : win (cur s) 0) by (apply g_use; auto; unfold cur, curh; lia). unfold win in W. fold (curh s) in s_cnt. fold (cur s) in s_cnt. lia.
Qed.

(** If malloc fails when the sub-queue is made, every put is refused. *)
Theorem C113_no_index l s e : irun B (init cap0 false) l = Some s -> In e (ihist s) -> e = Refused.
Proof.
  destruct HS as ((lb & Hl & ->) & (a0 & Ha & ->)). intros R. apply (barren_run lb) in R; auto using barren_init. destruct R as (_ & _ & _ & _ & R). apply R.
Qed.
End C113.

(** The sub-queues use the index as this model assumes: whoever looks a block
    up or uses it holds an element of a block that is in the index, and
    whoever clears an entry is then the only one to hold an element of that
    block. *)
Theorem C113_protocol {T} B nothrow (s : @state T) : 0 < B -> reachable B nothrow s ->
  (forall t q i, holds (pcs s t) = Some (q, i) -> 0 <= i /\ entry (subs s q) (bnum B i) <> None) /\
  (forall t u q i j b r, pcs s t = D11 q i b r -> holds (pcs s u) = Some (q, j) -> u <> t -> bnum B j <> bnum B i).
Proof.
  intros HB R. destruct (SubQueueProofs2.reach_invB B nothrow HB s R) as ((gA & GA) & (g & G)). split.
  - intros t q i E. exact (entry_held B nothrow s (gA, g) t q i GA G E).
  - intros t u q i j b r E F N. exact (clearing_alone B nothrow HB s (gA, g) t u q i j b r GA G E F N).
Qed.

(** The sizes of this program are accepted. *)
Example C113_ex_sizes : valid_sizes 32 32.
Proof. split; exists 5; split; try lia; reflexivity. Qed.

(** Two elements to a block and an index of two slots.  A reader of element 1
    (block 0) loads the index and stops; blocks 1 and 2 are put, which needs an
    index of four slots; block 1 is emptied, block 3 put; a put finds no block
    and is taken back; the reader goes on in the old index, of which it
    still reads the old tail, and finds block 0. *)
Definition put b := [CPut; PGo; PGo; PGo; PBlock b; PGo].
Definition put_growing b := [CPut; PGo; PGo; PGo; PGo; PGo; PBlock b; PGo].
Definition ex_run : list choice :=
  put 10 ++ [CStart 0 1; CHdr 0 0] ++ put 11 ++ put_growing 12 ++
  [CStart 1 2; CHdr 1 1; CTail 1 0; CGo 1; CGo 1; CClear 1] ++
  put 13 ++ [CPut; PGo; PGo; PGo; PGo; PGo; PFail; PGo; PGo] ++
  [CTail 0 1; CGo 0; CGo 0; CClear 0].
Example C113_ex : option_map (fun s => (ihist s, slots s, nh s, cons s 0%nat)) (irun 2 (init 2 true) ex_run) =
  Some ([Clear 0; Look 1 (Ptr 10); Refused; Put 13; Clear 1; Look 2 (Ptr 11); Put 12; Put 11; Put 10], 8, 3%nat, CIdle).
Proof. vm_compute. reflexivity. Qed.
(** ... and an index that has grown to eight slots for at most two blocks in
    use. *)
Definition emptied c i h t := [CStart c i; CHdr c h; CTail c t; CGo c; CGo c; CClear c].
Definition ex_stalled : list choice :=
  put 10 ++ put 11 ++ emptied 0 2 0 2 ++ put_growing 12 ++ emptied 0 4 1 1 ++ put 13 ++ emptied 0 6 1 2 ++ put_growing 14 ++ emptied 0 8 2 1.
Example C113_ex_stalled : option_map (fun s => (live (ihist s), slots s, cleared (ihist s))) (irun 2 (init 2 true) ex_stalled) = Some (1, 8, [4; 3; 2; 1]).
Proof. vm_compute. reflexivity. Qed.

Print Assumptions C113_right_block.
Print Assumptions C113_no_undefined_behaviour.
Print Assumptions C113_lookup_wait_free.
Print Assumptions C113_put_succeeds.
Print Assumptions C113_refused_only_by_failure.
Print Assumptions C113_cleared_once.
Print Assumptions C113_size.
Print Assumptions C113_size_by_use_refuted.
Print Assumptions C113_no_index.
Print Assumptions C113_protocol.
