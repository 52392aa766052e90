(** C109: a thread that is left alone finishes its call, whatever state the
    others left the table in, and its size() is exact. *)

From Coq Require Import ZArith List Lia Bool.
From Verif Require Import Base CuckooModel CuckooRunModel CuckooThreadsModel CuckooProofs7 CuckooProofs8 CuckooProofs9 CuckooProofs10 CuckooProofs12 CuckooProofs16 CuckooAloneSpec.
From Verif Require Import ConcMapSpec CuckooSpec.
Import ListNotations.
Open Scope Z_scope.

Section Alone.
Context {K V : Type} (hash : K -> Z) (keq : K -> K -> bool) (simple nothrow : bool).
Context (keq_spec : forall a b, keq a b = true <-> a = b).
Notation dict := (@dict K V). Notation op := (@op K V). Notation config := (@config K V).
Notation atomic_map := (fun (d : dict) (o : op) (d' : dict) a => legal o d a d').
Notation run := (run hash keq simple nothrow). Notation section := (section hash keq simple nothrow). Notation solo := (solo hash keq simple nothrow).

Lemma leads_solo i p t p' t' : leads hash keq simple nothrow p t p' t' -> forall c : config, tbl c = t -> pcs c i = p -> exists c', solo i c c' /\ tbl c' = t' /\ pcs c' i = p'.
Proof.
  induction 1 as [p t|p t p1 t1 p2 t2 E L IH]; intros c T P; [exists c; split; [constructor|auto]|]. subst.
  destruct (IH (mkC t1 (set_pc (pcs c) i p1)) eq_refl) as (c' & S & A); [cbn; unfold set_pc; now rewrite Nat.eqb_refl|].
  exists c'. split; [eapply solo_more; eassumption|exact A].
Qed.

Lemma reached n l (c : config) : run (start n) l c -> calls (fun o => o <> Clear /\ o <> Size) l -> Z.of_nat (length l) < 2 ^ 63 ->
  exists m, rep hash (tbl c) m /\ zlen m < 2 ^ 63 /\ (forall i, ok_pc hash (pcs c i)) /\ atomic atomic_map nothing (history l) (dict_of keq m) (fun i => status_of false (pcs c i)).
Proof.
  intros R LK LN. assert (LK1 : calls (fun o : op => o <> Clear) l) by (eapply Forall_impl; [|exact LK]; intros [[]|]; cbn; tauto).
  assert (LK2 : calls no_size l) by (eapply Forall_impl; [|exact LK]; intros [[? o|]|]; cbn; auto; intros [_ X]; destruct o; cbn; auto).
  destruct (run_calm hash keq simple nothrow n l c R LK1) as [C U]. destruct (calm_good hash keq simple nothrow keq_spec n l c C LK2 LN) as (m & [GH GL GA]).
  destruct GH as [[GR GP]|(z & PZ & _)]; [|exfalso; apply (U z); rewrite PZ; exact I]. exists m. split; [exact GR|]. split; [unfold zlen in *; lia|].
  split; [|exact (GA (fun _ => false))]. intros i. destruct (GP i) as [OK|[Q|Q]]; [exact OK|exfalso; apply (U i); rewrite Q; exact I..].
Qed.

(** Wherever the threads are, and however their steps interleaved until now, a
    thread in a call comes to its return in finitely many steps of its own. *)
Theorem C109_finishes n l (c : config) i o : run (start n) l c -> calls (fun o => o <> Clear /\ o <> Size) l -> Z.of_nat (length l) < 2 ^ 63 ->
  calling (pcs c i) = Some o -> exists c' a, solo i c c' /\ pcs c' i = Reply a.
Proof.
  intros R LK LN D. destruct (reached n l c R LK LN) as (m & GR & B & OK & _). specialize (OK i).
  assert (D' : doing (pcs c i) = Some o) by (destruct (pcs c i); cbn in *; try discriminate; try contradiction; exact D).
  destruct (any_ends hash keq simple nothrow keq_spec _ o _ m GR B OK D') as (a & t' & L).
  destruct (leads_solo i _ _ _ _ L c eq_refl eq_refl) as (c' & S & _ & P). eauto.
Qed.

(** A size() that nobody disturbs counts the mappings, even with other calls
    under way: those that have taken effect are counted. *)
Lemma sum_leads s0 l0 (t : @table K V) : 0 <= l0 -> forall n, Z.of_nat n = nlocks t - l0 ->
  leads hash keq simple nothrow (Sum l0 s0) t (Reply (Count (uwrap 64 (s0 + (sum_counters (counter t) (Z.to_nat (nlocks t)) - sum_counters (counter t) (Z.to_nat l0)))))) t.
Proof.
  intros L0 n. revert l0 s0 L0. induction n as [|n IH]; intros l0 s0 L0 N.
  - apply leads_one. cbn [CuckooThreadsModel.section]. replace (l0 <? nlocks t) with false by lia. replace (nlocks t) with l0 by lia. do 4 f_equal. lia.
  - eapply leads_more; [cbn [CuckooThreadsModel.section]; replace (l0 <? nlocks t) with true by lia; reflexivity|].
    specialize (IH (l0 + 1) (s0 + counter t l0) ltac:(lia) ltac:(lia)). replace (Z.to_nat (l0 + 1)) with (S (Z.to_nat l0)) in IH by lia. cbn [sum_counters] in IH. rewrite Z2Nat.id in IH by lia.
    match goal with H : leads _ _ _ _ _ _ (Reply (Count (uwrap 64 ?a))) _ |- leads _ _ _ _ _ _ (Reply (Count (uwrap 64 ?b))) _ => replace b with a by lia end. exact IH.
Qed.
Theorem C109_size n l (c : config) i : run (start n) l c -> calls (fun o => o <> Clear /\ o <> Size) l -> Z.of_nat (length l) < 2 ^ 63 -> pcs c i = Idle ->
  exists c' a d f, solo i (mkC (tbl c) (set_pc (pcs c) i (Start Size))) c' /\ pcs c' i = Reply a /\ legal Size d a d /\
    atomic atomic_map nothing (history l) d f /\ (forall j, pcs c j = Idle -> f j = NoCall) /\ forall j b, pcs c j = Reply b -> f j = Answered b.
Proof.
  intros R LK LN Q. destruct (reached n l c R LK LN) as (m & GR & B & _ & A).
  assert (NL : 0 <= nlocks (tbl c)) by (destruct (r_wf _ _ _ GR) as [[W1 W2 W3] _]; assert (0 < 2 ^ hp (tbl c)) by (apply Z.pow_pos_nonneg; lia); lia).
  assert (L : leads hash keq simple nothrow (Start Size) (tbl c) (Reply (Count (zlen m))) (tbl c)).
  { eapply leads_more; [reflexivity|]. pose proof (sum_leads 0 0 (tbl c) ltac:(lia) (Z.to_nat (nlocks (tbl c))) ltac:(lia)) as S. cbn [Z.to_nat sum_counters] in S. rewrite Z.sub_0_r, Z.add_0_l in S.
    change (uwrap 64 (sum_counters (counter (tbl c)) (Z.to_nat (nlocks (tbl c))))) with (size (tbl c)) in S. rewrite (size_ok hash (tbl c) m GR) in S by (assert (2 ^ 63 < 2 ^ 64) by reflexivity; lia). exact S. }
  destruct (leads_solo i _ _ _ _ L (mkC (tbl c) (set_pc (pcs c) i (Start Size))) eq_refl) as (c' & S & _ & P); [cbn; unfold set_pc; now rewrite Nat.eqb_refl|].
  exists c', (Count (zlen m)), (dict_of keq m), (fun j => status_of false (pcs c j)). split; [exact S|]. split; [exact P|]. 
  split; [|split; [exact A|]; split; [intros j E; now rewrite E|intros j b E; now rewrite E]].
  destruct (perform_ok hash keq simple nothrow keq_spec Size (tbl c) m GR B) as (t' & a & m' & E & R' & LE & _). cbn in E. injection E as <- <-.
  rewrite (size_ok hash (tbl c) m GR) in LE by (assert (2 ^ 63 < 2 ^ 64) by reflexivity; lia). cbn in LE |- *. split; [reflexivity|]. exact (proj2 LE).
Qed.

(** What the solo steps are: steps of the map that leave the other threads
    where they were. *)
Theorem C109_steps i (c c' : config) : solo i c c' -> (exists k, run c (repeat None k) c') /\ forall j, j <> i -> pcs c' j = pcs c j.
Proof.
  assert (CONS : forall (c0 c1 c2 : config) l, step hash keq simple nothrow c0 None c1 -> run c1 l c2 -> run c0 (None :: l) c2).
  { intros c0 c1 c2 l S R. induction R as [c5|c5 l c3 e c4 R IH X]; [exact (run_step hash keq simple nothrow c0 [] c0 None c5 (run_none _ _ _ _ c0) S)|].
    exact (run_step hash keq simple nothrow c0 (None :: l) c3 e c4 (IH S) X). }
  induction 1 as [c|c t p c' E S IH]; [split; [exists 0%nat; constructor|auto]|]. destruct IH as [(k & R) O]. split.
  - exists (Datatypes.S k). cbn [repeat]. refine (CONS _ _ _ _ _ R). now constructor.
  - intros j N. rewrite (O j N). cbn. unfold set_pc. now rewrite (proj2 (Nat.eqb_neq j i) N).
Qed.
End Alone.

(** Both buckets of the key 12 are full.  Thread 0 has found that the key 256
    can move to bucket 2; before it moves it, thread 1 fills bucket 2. *)
Definition alone_ident (k : Z) : Z := k.
Definition go (i n : nat) : list (nat * @act Z Z) := repeat (i, Go) n.
Definition put_all (i : nat) (k : Z) (n : nat) : list (nat * @act Z Z) := (i, Call (Put k k)) :: go i n ++ [(i, Return)].
Definition disturbed : list (nat * @act Z Z) :=
  flat_map (fun k => put_all 1 k 2) [0; 4; 8; 256; 1; 5; 9; 13] ++ [(0%nat, Call (Put 12 12))] ++ go 0 7 ++ flat_map (fun k => put_all 1 k 2) [2; 6; 10; 14].
Example C109_ex : exists l c, run alone_ident Z.eqb true true (start 16) l c /\ calls (fun o => o <> Clear /\ o <> Size) l /\ Z.of_nat (length l) < 2 ^ 63 /\
  calling (pcs c 0%nat) = Some (Put 12 12) /\ exists to from, pcs c 0%nat = Move 12 12 2 to [from] /\ cell (tbl c) (r_bucket to) (r_slot to) <> None.
Proof.
  destruct (play alone_ident Z.eqb true true disturbed (start 16) []) as [[c l]|] eqn:E; [|vm_compute in E; discriminate].
  exists l, c. split; [refine (play_run _ _ _ _ _ _ _ _ _ _ _ E); constructor|].
  assert (L : option_map snd (Some (c, l)) = Some l) by reflexivity. rewrite <- E in L. vm_compute in L. injection L as <-.
  split; [repeat (constructor; [first [exact I|split; discriminate]|]); constructor|]. split; [reflexivity|].
  assert (P : Some (pcs c 0%nat, cell (tbl c) 2 0) = option_map (fun x => (pcs (fst x) 0%nat, cell (tbl (fst x)) 2 0)) (play alone_ident Z.eqb true true disturbed (start 16) [])) by (rewrite E; reflexivity).
  match type of P with _ = ?r => let v := eval vm_compute in r in assert (Q : r = v) by (vm_compute; reflexivity); rewrite Q in P end. clear Q E. injection P as P1 P2.
  rewrite P1. split; [reflexivity|]. eexists. eexists. split; [reflexivity|]. cbn. rewrite P2. discriminate.
Qed.
Print Assumptions C109_finishes.
Print Assumptions C109_size.
Print Assumptions C109_steps.
