(** C108: the locks of the table under ConcurrentHashMap. *)

From Coq Require Import ZArith List Lia Bool.
From Verif Require Import Base CuckooModel CuckooThreadsModel CuckooProofs12 CuckooLocksModel CuckooLocksSpec CuckooProofs13 CuckooProofs14 CuckooProofs15 CuckooThreadsProps.
From Verif Require Import ConcMapSpec CuckooSpec.
Import ListNotations.
Open Scope Z_scope.

Section Props.
Context {K V : Type} (hash : K -> Z) (keq : K -> K -> bool) (simple nothrow : bool).
Context (keq_spec : forall a b, keq a b = true <-> a = b).
Notation op := (@CuckooSpec.op K V). Notation ans := (@CuckooSpec.ans K V). Notation dict := (@CuckooSpec.dict K V). Notation fine := (@fine K V). Notation table := (@table K V).
Notation frun := (frun hash keq simple nothrow). Notation fstep := (fstep hash keq simple nothrow). Notation section := (section hash keq simple nothrow).
Notation atomic_map := (fun (d : dict) (o : op) (d' : dict) a => legal o d a d').
Notation log := (list (option (@ConcMapSpec.event op ans))).
Notation allowed := (calls (fun o : op => o <> Clear /\ o <> Size)).

(** A lock has at most one owner. *)
Theorem C108_exclusion n (l : log) (c : fine) i j x : frun (fstart n) l c -> In x (has_locks c i) -> In x (has_locks c j) -> i = j.
Proof. intros R I J. pose proof (tight_run hash keq simple nothrow _ _ _ R) as T. apply (t_own hash c T) in I, J. congruence. Qed.

(** A thread that does its section has all locks of the section, and the
    hashpower is the one it was looked up for, although it was tested when only
    the first lock was taken. *)
Theorem C108_inside n (l : log) (c : fine) i held : frun (fstart n) l c -> phases c i = Taking held [] ->
  exists h, needs hash (pcs (base c) i) = Some (h, held) /\ forall x, h = Some x -> hp (tbl (base c)) = x.
Proof.
  intros R P. pose proof (tight_run hash keq simple nothrow _ _ _ R) as T. destruct (t_take hash c T _ _ _ P) as (h & N & H). rewrite app_nil_r in N. exists h. split; [exact N|].
  apply H. apply needs_orderly in N. apply N.
Qed.

(** What the section reads and writes lies under these locks: it is no use to
    know more of the table, and nothing else is changed. *)
Theorem C108_footprint n (l : log) (c : fine) i h ls : frun (fstart n) l c -> allowed l -> Z.of_nat (length l) < 2 ^ 63 -> needs hash (pcs (base c) i) = Some (Some h, ls) ->
  within ls (section (pcs (base c) i)).
Proof.
  intros R LK LN N. destruct (refines hash keq simple nothrow n l c R) as (l' & R' & _ & L' & C'). refine (section_within hash keq simple nothrow _ h ls N _).
  apply (reachable_ok hash keq simple nothrow keq_spec n l' _ i R'); [now apply C'|lia].
Qed.

(** As long as a thread has a lock, no step of another thread changes what lies
    under it. *)
Theorem C108_private n (l : log) (c c' : fine) i j e x : frun (fstart n) l c -> allowed l -> Z.of_nat (length l) < 2 ^ 63 ->
  In x (has_locks c i) -> j <> i -> fstep j c e c' -> same_under [x] (tbl (base c)) (tbl (base c')).
Proof. intros R LK LN I N ST. exact (private_step hash keq simple nothrow keq_spec n l c i j e c' x R LK LN ST N I). Qed.

(** Sections of two threads that both have their locks can be done in either
    order, with the same effect. *)
Theorem C108_commute n (l : log) (c : fine) i j hi hj held_i held_j ti tij tj tji pi pi' pj pj' : frun (fstart n) l c -> allowed l -> Z.of_nat (length l) < 2 ^ 63 -> i <> j ->
  phases c i = Taking held_i [] -> phases c j = Taking held_j [] -> needs hash (pcs (base c) i) = Some (Some hi, held_i) -> needs hash (pcs (base c) j) = Some (Some hj, held_j) ->
  section (pcs (base c) i) (tbl (base c)) = Done ti pi -> section (pcs (base c) j) ti = Done tij pj ->
  section (pcs (base c) j) (tbl (base c)) = Done tj pj' -> section (pcs (base c) i) tj = Done tji pi' ->
  pi = pi' /\ pj = pj' /\ hp tij = hp tji /\ (forall b s, cell tij b s = cell tji b s) /\ (forall x, counter tij x = counter tji x) /\ (forall x, migrated tij x = migrated tji x).
Proof.
  intros R LK LN D PI PJ NI NJ E1 E2 E3 E4. apply (within_commute held_i held_j _ _ _ _ _ _ _ _ _ _ _ (C108_footprint n l c i hi held_i R LK LN NI) (C108_footprint n l c j hj held_j R LK LN NJ)) with (1 := fun x A B =>
    D (C108_exclusion n l c i j x R ltac:(unfold has_locks; rewrite PI; exact A) ltac:(unfold has_locks; rewrite PJ; exact B))) (2 := E1) (3 := E2) (4 := E3) (5 := E4).
Qed.

(** No deadlock: when a thread waits for a lock, some thread has that lock or a
    later one and waits for none. *)
Theorem C108_no_deadlock n (l : log) (c : fine) i x : frun (fstart n) l c -> waits c i x ->
  exists j y, owner c y = Some j /\ x <= y /\ forall z, ~ waits c j z.
Proof. intros R W. pose proof (tight_run hash keq simple nothrow _ _ _ R) as T. exact (unblock hash c T (Z.to_nat (kMaxNumLocks - x)) i x W ltac:(lia)). Qed.
(** As long as a call is going on, some thread that is in a call can make a
    step. *)
Theorem C108_progress n (l : log) (c : fine) i : frun (fstart n) l c -> allowed l -> Z.of_nat (length l) < 2 ^ 63 -> phases c i <> Out \/ pcs (base c) i <> Idle ->
  exists j e c', (phases c j <> Out \/ pcs (base c) j <> Idle) /\ fstep j c e c'.
Proof. exact (progress hash keq simple nothrow keq_spec n l c i). Qed.

(** With the steps on locks the history is still one of an atomic map. *)
Theorem C108_linearizable n (l : log) (c : fine) : frun (fstart n) l c -> allowed l -> Z.of_nat (length l) < 2 ^ 63 -> linearizable atomic_map nothing (history l).
Proof.
  intros R LK LN. destruct (refines hash keq simple nothrow n l c R) as (l' & R' & H' & L' & C'). rewrite <- H'.
  apply (C107_linearizable hash keq simple nothrow keq_spec n l' (base c) R'); [now apply C'|lia].
Qed.
End Props.

(** Thread 0 has the lock of key 5 and thread 1 waits for it; thread 2 does a
    whole call with other locks; then all finish. *)
Definition some_steps (i : nat) (n : nat) : list (nat * @act Z Z) := repeat (i, Go) n.
Definition contended : list (nat * @act Z Z) :=
  [(0%nat, Call (Put 5 50))] ++ some_steps 0 4 ++ [(1%nat, Call (Put 5 51))] ++ some_steps 1 2 ++ [(2%nat, Call (Put 6 60))] ++ some_steps 2 9 ++ [(2%nat, Return)].
Definition relieved : list (nat * @act Z Z) := some_steps 0 5 ++ [(0%nat, Return)] ++ some_steps 1 7 ++ [(1%nat, Return)].
Example C108_ex : exists l c, frun ident Z.eqb true true (fstart 262144) l c /\ waits c 1%nat 5 /\ has_locks c 0%nat = [5] /\ history l = [Inv 0 (Put 5 50); Inv 1 (Put 5 51); Inv 2 (Put 6 60); Res 2 (Stored true)].
Proof.
  destruct (fplay ident Z.eqb true true contended (fstart 262144) []) as [[c l]|] eqn:E; [|vm_compute in E; discriminate].
  exists l, c. split; [refine (fplay_run _ _ _ _ _ _ _ _ _ _ _ E); apply frun_none|].
  assert (X : option_map (fun x : fine * list (option event) => let (c, l) := x in (phases c 1%nat, owner c 5, has_locks c 0%nat, history l)) (fplay ident Z.eqb true true contended (fstart 262144) []) =
    Some (Taking [] [5; 31099], Some 0%nat, [5], [Inv 0 (Put 5 50); Inv 1 (Put 5 51); Inv 2 (Put 6 60); Res 2 (Stored true)])) by (vm_compute; reflexivity).
  rewrite E in X. cbn [option_map] in X. injection X as X1 X2 X3 X4. split; [split; [rewrite X1; eauto|rewrite X2; discriminate]|]. split; assumption.
Qed.
Example C108_ex_done : match fplay ident Z.eqb true true (contended ++ relieved) (fstart 262144) [] with Some (_, l) => history l | None => [] end =
  [Inv 0 (Put 5 50); Inv 1 (Put 5 51); Inv 2 (Put 6 60); Res 2 (Stored true); Res 0 (Stored true); Res 1 (Stored false)].
Proof. vm_compute. reflexivity. Qed.

Print Assumptions C108_exclusion.
Print Assumptions C108_inside.
Print Assumptions C108_footprint.
Print Assumptions C108_private.
Print Assumptions C108_commute.
Print Assumptions C108_no_deadlock.
Print Assumptions C108_progress.
Print Assumptions C108_linearizable.
