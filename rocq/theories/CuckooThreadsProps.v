(** C106-C107: the table under ConcurrentHashMap used by several threads. *)

From Coq Require Import ZArith List Lia Bool.
From Verif Require Import Base CuckooModel CuckooThreadsModel CuckooProofs10 CuckooProofs12.
From Verif Require Import ConcMapSpec CuckooSpec.
Import ListNotations.
Open Scope Z_scope.

Section Props.
Context {K V : Type} (hash : K -> Z) (keq : K -> K -> bool) (simple nothrow : bool).
Context (keq_spec : forall a b, keq a b = true <-> a = b).
Notation op := (@CuckooSpec.op K V). Notation dict := (@CuckooSpec.dict K V). Notation config := (@config K V).
(** An atomic map: each call has a legal effect at once. *)
Notation atomic_map := (fun (d : dict) (o : op) (d' : dict) a => legal o d a d').
Notation run := (run hash keq simple nothrow). Notation calm_run := (calm_run hash keq simple nothrow). Notation section := (section hash keq simple nothrow).

(** Lookups, insertions, removals and walks of any number of threads: the
    history is one of an atomic map. *)
Theorem C107_linearizable n l (c : config) : run (start n) l c -> calls (fun o => o <> Clear /\ o <> Size) l -> Z.of_nat (length l) < 2 ^ 63 ->
  linearizable atomic_map nothing (history l).
Proof.
  intros R LK LN. assert (LK1 : calls (fun o : op => o <> Clear) l) by (eapply Forall_impl; [|exact LK]; intros [[]|]; cbn; tauto).
  assert (LK2 : calls no_size l) by (eapply Forall_impl; [|exact LK]; intros [[? o|]|]; cbn; auto; intros [_ X]; destruct o; cbn; auto).
  destruct (run_calm hash keq simple nothrow n l c R LK1) as [C U]. destruct (calm_good hash keq simple nothrow keq_spec n l c C LK2 LN) as (m & [_ _ GA]).
  eexists. eexists. exact (GA (fun _ => false)).
Qed.
(** No step of theirs meets an uninitialised slot, a broken precondition or an
    index out of bounds, and all steps take place. *)
Theorem C107_no_failure n l (c : config) i : run (start n) l c -> calls (fun o => o <> Clear /\ o <> Size) l -> Z.of_nat (length l) < 2 ^ 63 ->
  exists t p, section (pcs c i) (tbl c) = Done t p.
Proof. exact (calm_no_failure hash keq simple nothrow keq_spec n l c i). Qed.
(** When all calls have returned, the table holds the result of a sequential
    order of them. *)
Theorem C107_quiescent n l (c : config) k : run (start n) l c -> calls (fun o => o <> Clear /\ o <> Size) l -> Z.of_nat (length l) < 2 ^ 63 -> (forall i, pcs c i = Idle) ->
  exists d f, atomic atomic_map nothing (history l) d f /\ (forall i, f i = NoCall) /\ exists t', find hash keq simple k (tbl c) = Done t' (d k).
Proof.
  intros R LK LN Q. assert (LK1 : calls (fun o : op => o <> Clear) l) by (eapply Forall_impl; [|exact LK]; intros [[]|]; cbn; tauto).
  assert (LK2 : calls no_size l) by (eapply Forall_impl; [|exact LK]; intros [[? o|]|]; cbn; auto; intros [_ X]; destruct o; cbn; auto).
  destruct (run_calm hash keq simple nothrow n l c R LK1) as [C U]. destruct (calm_good hash keq simple nothrow keq_spec n l c C LK2 LN) as (m & [GH _ GA]).
  destruct GH as [[GR _]|(z & PZ & _)]; [|rewrite Q in PZ; discriminate].
  exists (CuckooProofs9.dict_of keq m). eexists. split; [exact (GA (fun _ => false))|]. split; [intros i; cbv beta; now rewrite Q|].
  destruct (CuckooProofs8.find_ok hash keq simple keq_spec k (tbl c) m GR) as (t' & E & _). exists t'. exact E.
Qed.

(** With clear(), the same as long as no other thread touches the table
    between the two loops of one. *)
Theorem C106_undisturbed_partial n l (c : config) : calm_run (start n) l c -> calls (fun o => o <> Size) l -> Z.of_nat (length l) < 2 ^ 63 ->
  linearizable atomic_map nothing (history l).
Proof.
  intros R LK LN. assert (LK2 : calls no_size l) by (eapply Forall_impl; [|exact LK]; intros [[? o|]|]; cbn; auto; intros X; destruct o; cbn; auto).
  destruct (calm_good hash keq simple nothrow keq_spec n l c R LK2 LN) as (m & [_ _ GA]). eexists. eexists. exact (GA (fun _ => false)).
Qed.
End Props.

(** *** Refuted: clear() and size() *)
(** A map of the default capacity with int keys hashed to themselves. *)
Definition ident (k : Z) : Z := uwrap 64 k.
Notation amap := (fun (d : @dict Z Z) (o : op) (d' : dict) a => legal o d a d').
Notation step_of i n := (repeat (i, Go) n).
Definition whole (i : nat) (o : @op Z Z) (n : nat) : list (nat * @act Z Z) := (i, Call o) :: step_of i n ++ [(i, Return)].
Definition played (s : list (nat * @act Z Z)) : option (config * list (option event)) := play ident Z.eqb true true s (start 262144) [].
Definition histories (s : list (nat * @act Z Z)) : option (list event) := match played s with Some (_, l) => Some (history l) | None => None end.
Lemma played_run s h : histories s = Some h -> exists l c, run ident Z.eqb true true (start 262144) l c /\ history l = h.
Proof.
  unfold histories, played. destruct (play ident Z.eqb true true s (start 262144) []) as [[c l]|] eqn:E; [|discriminate]. intros Q. injection Q as <-. exists l, c. split; [|reflexivity].
  refine (play_run _ _ _ _ _ _ _ _ _ _ _ E). constructor.
Qed.
Definition all_counters : nat := Z.to_nat 65538.

(** Thread 1 is between the loops of clear() when thread 0 puts a mapping: it
    stays in the map, which counts none. *)
Definition clear_history : list (@event (@op Z Z) (@ans Z Z)) :=
  [Inv 1 Clear; Inv 0 (Put 5 50); Res 0 (Stored true); Res 1 Cleared; Inv 0 Size; Res 0 (Count 0); Inv 0 (Get 5); Res 0 (Found (Some 50))].
Definition clear_schedule := [(1%nat, Call Clear); (1%nat, Go); (1%nat, Go)] ++ whole 0 (Put 5 50) 2 ++ [(1%nat, Go); (1%nat, Return)].
Lemma nth_prefix {A} (h : list A) e rest l : (h ++ [e]) ++ rest = l -> nth_error l (length h) = Some e /\ h ++ (e :: rest) = l.
Proof. intros <-. rewrite <- app_assoc. cbn. split; [|reflexivity]. rewrite nth_error_app2, Nat.sub_diag by lia. reflexivity. Qed.
Ltac other_threads NC X := let u := fresh in let U := fresh in intros u U; rewrite X; unfold set_status; destruct u as [|[|u]]; [lia|lia|]; cbn; apply NC; lia.
Lemma clear_not : ~ linearizable amap nothing clear_history.
Proof.
  intros (s & f & A).
  assert (M : forall h d g, atomic amap nothing h d g -> forall rest, h ++ rest = clear_history ->
    (forall t, (2 <= t)%nat -> g t = NoCall) /\
    match length h with
    | 0%nat | 1%nat | 2%nat => True
    | 3%nat => g 0%nat = NoCall
    | 4%nat => g 0%nat = NoCall /\ g 1%nat = NoCall
    | 5%nat => g 1%nat = NoCall /\ (g 0%nat = Called Size \/ exists n, g 0%nat = Answered (Count n) /\ (n = 0 -> d 5 = None))
    | 6%nat => g 1%nat = NoCall /\ g 0%nat = NoCall /\ d 5 = None
    | 7%nat => g 1%nat = NoCall /\ d 5 = None /\ (g 0%nat = Called (Get 5) \/ g 0%nat = Answered (Found None))
    | _ => False
    end).
  { clear. intros h d g A. induction A as [f F|h s f t c f' A IH F X|h s f t c f' s' r A IH F J X|h s f t r f' A IH F X]; intros rest E.
    - split; [auto|exact I].
    - apply nth_prefix in E. destruct E as [N E]. destruct (IH _ E) as [NC P]. rewrite app_length, Nat.add_comm. cbn [length Nat.add]. clear IH A E.
      destruct (length h) as [|[|[|[|[|[|[|[|n]]]]]]]]; try contradiction; cbn in N; try discriminate N; injection N as <- <-.
      all: split; [other_threads NC X|]; try rewrite !X; cbn; try tauto.
    - destruct (IH _ E) as [NC P]. clear IH A E. assert (T : (t < 2)%nat) by (destruct (Nat.lt_ge_cases t 2) as [L|L]; [exact L|rewrite (NC t L) in F; discriminate]).
      split; [intros u U; rewrite X; unfold set_status; replace (Nat.eqb u t) with false by (symmetry; apply Nat.eqb_neq; lia); apply NC; lia|].
      destruct t as [|[|t]]; [| |lia]; destruct (length h) as [|[|[|[|[|[|[|[|n]]]]]]]]; try rewrite !X; cbn; try tauto; try congruence; try (exfalso; intuition congruence).
      + destruct P as [P1 [P2|(n & P2 & _)]]; [|congruence]. split; [exact P1|]. right. rewrite P2 in F. injection F as <-. destruct r; cbn in J; try contradiction. exists n. split; [reflexivity|].
        intros ->. destruct J as (S1 & keys & ND & IN & L). destruct keys; [|discriminate L]. rewrite S1. destruct (s 5) eqn:Q; [|reflexivity]. exfalso. apply (proj2 (IN 5)). congruence.
      + destruct P as [P1 [P2 [P3|P3]]]; [|congruence]. rewrite P3 in F. injection F as <-. destruct r; cbn in J; try contradiction. destruct J as [-> S1]. split; [exact P1|]. split; [now rewrite S1|]. right. now rewrite P2.
    - apply nth_prefix in E. destruct E as [N E]. destruct (IH _ E) as [NC P]. rewrite app_length, Nat.add_comm. cbn [length Nat.add]. clear IH A E.
      destruct (length h) as [|[|[|[|[|[|[|[|n]]]]]]]]; try contradiction; cbn in N; try discriminate N; try (injection N as <- <-).
      all: try (split; [other_threads NC X|]; try rewrite !X; cbn; try tauto).
      + destruct P as [P1 [P2|(n & P2 & P3)]]; [congruence|]. rewrite P2 in F. injection F as ->. auto.
      + destruct P as [P1 [P2 [P3|P3]]]; congruence. }
  destruct (M _ _ _ A [] (app_nil_r _)) as [_ []].
Qed.
Theorem C106_clear_refuted : exists l c, run ident Z.eqb true true (start 262144) l c /\ history l = clear_history /\ ~ linearizable amap nothing (history l).
Proof.
  destruct (played_run (clear_schedule ++ whole 0 Size all_counters ++ whole 0 (Get 5) 2) clear_history) as (l & c & R & H); [vm_compute; reflexivity|].
  exists l, c. split; [exact R|]. split; [exact H|]. rewrite H. exact clear_not.
Qed.
(** Then remove() brings the size to 2^64 - 1. *)
Theorem C106_size_refuted : exists l c, run ident Z.eqb true true (start 262144) l c /\
  history l = [Inv 1 Clear; Inv 0 (Put 5 50); Res 0 (Stored true); Res 1 Cleared; Inv 0 (Del 5); Res 0 (Removed true); Inv 0 Size; Res 0 (Count 18446744073709551615)].
Proof. apply (played_run (clear_schedule ++ whole 0 (Del 5) 2 ++ whole 0 Size all_counters)). vm_compute. reflexivity. Qed.

(** size() reads the counters one after the other: it counts no mapping of a
    map that was never empty. *)
Definition size_history : list (@event (@op Z Z) (@ans Z Z)) :=
  [Inv 0 (Put 5 50); Res 0 (Stored true); Inv 1 Size; Inv 0 (Put 0 7); Res 0 (Stored true); Inv 0 (Del 5); Res 0 (Removed true); Res 1 (Count 0)].
Definition size_schedule := whole 0 (Put 5 50) 2 ++ [(1%nat, Call Size); (1%nat, Go); (1%nat, Go); (1%nat, Go)] ++ whole 0 (Put 0 7) 2 ++ whole 0 (Del 5) 2 ++ step_of 1%nat (Z.to_nat 65535) ++ [(1%nat, Return)].
Lemma count_pos (d d' : @dict Z Z) k n : d k <> None -> legal Size d (Count n) d' -> 1 <= n.
Proof. intros N (S1 & keys & ND & IN & ->). apply IN in N. destruct keys; [destruct N|]. cbn. lia. Qed.
Lemma size_not : ~ linearizable amap nothing size_history.
Proof.
  intros (s & f & A).
  assert (M : forall h d g, atomic amap nothing h d g -> forall rest, h ++ rest = size_history ->
    (forall t, (2 <= t)%nat -> g t = NoCall) /\
    (((3 <= length h)%nat -> g 1%nat = Called Size \/ exists n, g 1%nat = Answered (Count n) /\ 1 <= n) /\ ((length h < 3)%nat -> g 1%nat = NoCall)) /\
    match length h with
    | 0%nat => g 0%nat = NoCall
    | 1%nat => g 0%nat = Called (Put 5 50) \/ exists a, g 0%nat = Answered a /\ forall b, a = Stored b -> d 5 <> None
    | 2%nat | 3%nat => g 0%nat = NoCall /\ d 5 <> None
    | 4%nat => d 5 <> None /\ (g 0%nat = Called (Put 0 7) \/ exists a, g 0%nat = Answered a /\ forall b, a = Stored b -> d 0 <> None)
    | 5%nat => g 0%nat = NoCall /\ d 0 <> None
    | 6%nat => d 0 <> None /\ (g 0%nat = Called (Del 5) \/ exists a, g 0%nat = Answered a)
    | 7%nat => g 0%nat = NoCall /\ d 0 <> None
    | _ => False
    end).
  { clear. intros h d g A. induction A as [f F|h s f t c f' A IH F X|h s f t c f' s' r A IH F J X|h s f t r f' A IH F X]; intros rest E.
    - split; [auto|]. split; [split; [cbn; lia|auto]|apply F].
    - apply nth_prefix in E. destruct E as [N E]. destruct (IH _ E) as (NC & [P1 P2] & P). rewrite app_length, Nat.add_comm. cbn [length Nat.add]. clear IH A E.
      destruct (length h) as [|[|[|[|[|[|[|[|n]]]]]]]]; try contradiction; cbn in N; try discriminate N; injection N as <- <-.
      all: split; [other_threads NC X|]; rewrite !X; cbn; try (split; [split; [intros; try (apply P1; lia); auto; lia|intros; try (apply P2; lia); lia]|]); try tauto.
    - destruct (IH _ E) as (NC & [P1 P2] & P). clear IH A E. assert (T : (t < 2)%nat) by (destruct (Nat.lt_ge_cases t 2) as [L|L]; [exact L|rewrite (NC t L) in F; discriminate]).
      split; [intros u U; rewrite X; unfold set_status; replace (Nat.eqb u t) with false by (symmetry; apply Nat.eqb_neq; lia); apply NC; lia|].
      destruct t as [|[|t]]; [| |lia]; rewrite !X; cbn.
      + split; [auto|]. destruct (length h) as [|[|[|[|[|[|[|[|n]]]]]]]]; try tauto; try (destruct P; congruence).
        * congruence.
        * destruct P as [P|(a & P & _)]; [|congruence]. right. rewrite P in F. injection F as <-. exists r. split; [reflexivity|]. intros b ->. cbn in J. destruct J as [J _]. congruence.
        * destruct P as [PD [P|(a & P & _)]]; [|congruence]. rewrite P in F. injection F as <-. split.
          -- destruct r; cbn in J; try contradiction; [destruct J as (_ & AG & _); rewrite AG by discriminate; exact PD|destruct J as (_ & ->); exact PD].
          -- right. exists r. split; [reflexivity|]. intros b ->. cbn in J. destruct J as [J _]. congruence.
        * destruct P as [PD [P|(a & P)]]; [|congruence]. rewrite P in F. injection F as <-. split; [|right; eauto].
          destruct r; cbn in J; try contradiction. destruct J as (_ & AG & _). rewrite AG by discriminate. exact PD.
      + destruct (Nat.lt_ge_cases (length h) 3) as [L|L]; [rewrite (P2 L) in F; discriminate|]. destruct (P1 L) as [Q|(n & Q & _)]; [|congruence]. rewrite Q in F. injection F as <-.
        assert (SAME : forall k, s' k = s k) by (destruct r; cbn in J; try contradiction; apply J).
        assert (NE : exists k, s k <> None). { destruct (length h) as [|[|[|[|[|[|[|[|n]]]]]]]]; try lia; try contradiction; solve [exists 5; tauto|exists 0; tauto]. }
        destruct NE as (k & NE). split; [split; [|intros; lia]|].
        * intros _. right. destruct r as [| | | | |n|]; try contradiction. exists n. split; [reflexivity|]. exact (count_pos s s' k n NE J).
        * destruct (length h) as [|[|[|[|[|[|[|[|n]]]]]]]]; try lia; rewrite ?SAME; auto.
    - apply nth_prefix in E. destruct E as [N E]. destruct (IH _ E) as (NC & [P1 P2] & P). rewrite app_length, Nat.add_comm. cbn [length Nat.add]. clear IH A E.
      destruct (length h) as [|[|[|[|[|[|[|[|n]]]]]]]]; try contradiction; cbn in N; try discriminate N; try (injection N as <- <-).
      all: try (split; [other_threads NC X|]; rewrite !X; cbn; try (split; [split; [intros; try (apply P1; lia); auto; lia|intros; try (apply P2; lia); lia]|])).
      + destruct P as [P|(a & P & D)]; [congruence|]. rewrite P in F. injection F as ->. split; [reflexivity|]. now apply (D true).
      + destruct P as [PD [P|(a & P & D)]]; [congruence|]. rewrite P in F. injection F as ->. split; [reflexivity|]. now apply (D true).
      + destruct P as [PD _]. auto.
      + exfalso. destruct (P1 ltac:(lia)) as [Q|(n & Q & L)]; [congruence|]. rewrite Q in F. injection F as ->. lia. }
  destruct (M _ _ _ A [] (app_nil_r _)) as (_ & _ & []).
Qed.
Theorem C107_size_refuted : exists l c, run ident Z.eqb true true (start 262144) l c /\ history l = size_history /\ ~ linearizable amap nothing (history l).
Proof.
  destruct (played_run size_schedule size_history) as (l & c & R & H); [vm_compute; reflexivity|].
  exists l, c. split; [exact R|]. split; [exact H|]. rewrite H. exact size_not.
Qed.

(** Three threads whose calls overlap. *)
Example C107_ex : exists l c, run ident Z.eqb true true (start 262144) l c /\ calls (fun o => o <> Clear /\ o <> Size) l /\
  history l = [Inv 0 (Put 5 50); Inv 1 (Put 5 51); Inv 2 (Get 5); Res 1 (Stored true); Res 2 (Found (Some 51)); Res 0 (Stored false)].
Proof.
  destruct (play ident Z.eqb true true [(0%nat, Call (Put 5 50)); (1%nat, Call (Put 5 51)); (0%nat, Go); (1%nat, Go); (2%nat, Call (Get 5)); (1%nat, Go); (2%nat, Go); (2%nat, Go); (0%nat, Go); (1%nat, Return); (2%nat, Return); (0%nat, Return)] (start 262144) []) as [[c l]|] eqn:E; [|vm_compute in E; discriminate].
  exists l, c. split; [refine (play_run _ _ _ _ _ _ _ _ _ _ _ E); constructor|].
  assert (L : option_map snd (Some (c, l)) = Some l) by reflexivity. rewrite <- E in L. vm_compute in L. injection L as <-. split; [|reflexivity].
  repeat (constructor; [first [exact I|split; discriminate]|]). constructor.
Qed.

Print Assumptions C107_linearizable.
Print Assumptions C107_no_failure.
Print Assumptions C107_quiescent.
Print Assumptions C107_size_refuted.
Print Assumptions C106_undisturbed_partial.
Print Assumptions C106_clear_refuted.
Print Assumptions C106_size_refuted.
