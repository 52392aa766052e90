(** C114: when a queue is destroyed, every element that nobody took is
    destroyed exactly once and all memory is given back. *)

From Coq Require Import ZArith List Bool Lia ZifyBool ZifyNat.
From Verif Require Import Base Bits SubQueueModel SubQueueSpec SubQueueProofs SubQueueProofs2 SubQueueProofs3 SubQueueProofs4 SubQueueProps DestroyModel DestroySpec DestroyProofs DestroyProofs2 DestroyProofs3.
Import ListNotations.
Open Scope Z_scope.

Section C114.
Context {T : Type}.
Variables (B : Z) (nothrow : bool).
Hypothesis HB : 0 < B.
Notation reachable := (@reachable T B nothrow).

Lemma destroy_all s ps : reachable s -> quiet s -> all_threads ps (hist s) ->
  exists m, destroy_queue B ps s = Ok m /\ destroyed m = concat (map (remaining (hist s)) ps) /\
  forall b, mavail m b = true /\ forall r, 0 <= r < B -> cell (mblocks m b) r = None.
Proof.
  intros R Q (ND & AL). destruct (reach_invE B nothrow HB s R) as (V & D & H). unfold destroy_queue.
  destruct (subs_ok B nothrow HB s V D H Q ps (mkMem (blocks s) (avail s) []) ND) as (m & E & De & Fr & Dn); [intros; split; reflexivity|].
  exists m. split; [exact E|]. split.
  - rewrite De. cbn. f_equal. apply map_ext. intros q. unfold remaining. rewrite (count_head B nothrow s q V Q), (c_sent _ (v_C _ _ _ V)). reflexivity.
  - intros b. assert (X : (exists q j, In q ps /\ entry (subs s q) j = Some b) \/ (avail s b = true /\ forall q j, entry (subs s q) j <> Some b)).
    { destruct (avail s b) eqn:A.
      - right. split; [reflexivity|]. intros q j X. destruct (d_ent _ _ D q j b X). congruence.
      - destruct (quiet_lost B s b D Q A) as (q & j & X). left. exists q, j. split; [|exact X]. apply AL. intros Z0.
        destruct (quiet_entry B nothrow HB s q j b V D Q X) as (Y1 & Y2 & _). rewrite (tail_enqueued B nothrow s q V), Z0 in Y2. unfold zlen in Y2. cbn in Y2. nia. }
    destruct X as [(q & j & I & X)|(A & X)]; [exact (Dn q j b I X)|]. destruct (Fr b) as (-> & ->); [intros q j _; apply X|]. cbn. split; [exact A|]. apply (pool_block B nothrow s b V A).
Qed.

(** The destructor meets no undefined behaviour, and destroys, for each
    thread, the elements that were not handed out, in order, each once. *)
Theorem C114_destroys_the_rest s ps : reachable s -> quiet s -> all_threads ps (hist s) ->
  exists m, destroy_queue B ps s = Ok m /\ destroyed m = concat (map (remaining (hist s)) ps).
Proof. intros R Q A. destruct (destroy_all s ps R Q A) as (m & E & De & _). eauto. Qed.

(** After it all blocks are in the pool, and none holds an element. *)
Theorem C114_no_leak s ps m : reachable s -> quiet s -> all_threads ps (hist s) -> destroy_queue B ps s = Ok m ->
  forall b, mavail m b = true /\ forall r, 0 <= r < B -> cell (mblocks m b) r = None.
Proof. intros R Q A E. destruct (destroy_all s ps R Q A) as (m' & E' & _ & L). rewrite E in E'. injection E' as <-. exact L. Qed.

Lemma filter_parts {A} (f : A -> bool) l : (length l = length (filter f l) + length (filter (fun x => negb (f x)) l))%nat.
Proof. induction l as [|x l IH]; [reflexivity|]. cbn [filter length]. destruct (f x); cbn [negb length]; lia. Qed.
Lemma split_total (l : list (nat * Z)) ps : NoDup ps -> (forall d, In d l -> In (fst d) ps) -> length l = total (fun q => filter (fun d => Nat.eqb (fst d) q) l) ps.
Proof.
  revert l. induction ps as [|q ps IH]; intros l ND A.
  - destruct l as [|d l]; [reflexivity|]. destruct (A d (or_introl eq_refl)).
  - inversion_clear ND as [|? ? NI ND']. unfold total in *. cbn [map concat]. rewrite app_length.
    rewrite (filter_parts (fun d => Nat.eqb (fst d) q) l) at 1. f_equal. rewrite (IH (filter (fun x => negb (Nat.eqb (fst x) q)) l) ND').
    + f_equal. f_equal. apply map_ext_in. intros p I. induction l as [|d l IHl]; [reflexivity|]. cbn [filter]. assert (p <> q) by (intros ->; contradiction).
      specialize (IHl (fun d' I' => A d' (or_intror I'))).
      destruct (Nat.eqb_spec (fst d) q) as [Eq|Nq]; cbn [negb filter]; rewrite IHl; [|reflexivity]. destruct (Nat.eqb_spec (fst d) p); [congruence|reflexivity].
    + intros d I. apply filter_In in I as (I & N). destruct (A d I) as [X|X]; [subst; rewrite Nat.eqb_refl in N; discriminate|exact X].
Qed.

(** Every element enqueued was either handed out or is destroyed now. *)
Theorem C114_accounted s ps m : reachable s -> quiet s -> all_threads ps (hist s) -> destroy_queue B ps s = Ok m ->
  (length (handed_out (hist s)) + length (destroyed m) = total (fun q => enqueued q (hist s)) ps)%nat.
Proof.
  intros R Q A E. destruct (destroy_all s ps R Q A) as (m' & E' & De & _). rewrite E in E'. injection E' as <-. rewrite De. destruct A as (ND & AL). pose proof (reach_inv B nothrow HB s R) as V.
  rewrite (split_total (handed_out (hist s)) ps ND).
  - unfold total. clear ND AL E De. induction ps as [|q ps IH]; [reflexivity|]. cbn [map concat]. rewrite !app_length, <- IH. unfold remaining. rewrite skipn_length. unfold count_of, zlen. rewrite Nat2Z.id.
    pose proof (count_head B nothrow s q V Q) as CH. pose proof (head_le_tail B nothrow s q V) as HT. rewrite (tail_enqueued B nothrow s q V) in HT. unfold count_of, zlen in *. lia.
  - intros (q, i) I. apply AL. intros Z0. cbn [fst] in Z0. pose proof (proj1 (C89_prefix_when_quiet B nothrow HB s q i R Q) I) as X. pose proof (count_head B nothrow s q V Q) as CH. pose proof (head_le_tail B nothrow s q V) as HT.
    rewrite (tail_enqueued B nothrow s q V), Z0 in HT. change (zlen (@nil T)) with 0 in HT. lia.
Qed.
End C114.

(** Threads 0 and 1; blocks of two elements.  Thread 0 enqueues 5, 6, 7, its
    5 and 6 are taken; thread 1 enqueues 8, 9, and 8 is taken: 7 and 9 are
    destroyed. *)
Definition enq0 t v b : list (nat * @choice Z) := [(t, CEnq v); (t, CLoad 0); (t, CGo); (t, CBlock b); (t, CGo); (t, CGo); (t, CGo); (t, CGo)].
Definition enq1 t v : list (nat * @choice Z) := [(t, CEnq v); (t, CGo); (t, CGo)].
Definition deq t q tl op : list (nat * @choice Z) := [(t, CDeq q tl); (t, CLoad 0); (t, CLoad op); (t, CGo); (t, CLoad tl); (t, CGo); (t, CGo); (t, CGo); (t, CGo); (t, CGo)].
Definition ex_run := enq0 0%nat 5 10%nat ++ enq1 0%nat 6 ++ enq0 0%nat 7 11%nat ++ deq 1%nat 0%nat 3 0 ++ deq 1%nat 0%nat 3 1 ++ [(1%nat, CGo); (1%nat, CGo)] ++
                     enq0 1%nat 8 12%nat ++ enq1 1%nat 9 ++ deq 0%nat 1%nat 2 0.
Example C114_ex : match run 2 true init ex_run with
                  | Some s => (hist s, match destroy_queue 2 [1; 0]%nat s with Ok m => Some (destroyed m, map (mavail m) [10; 11; 12]%nat, map (avail s) [10; 11; 12]%nat) | _ => None end)
                  | None => ([], None)
                  end = ([Got 0%nat 1%nat 0 (Some 8); Sent 1%nat 9; Sent 1%nat 8; Got 1%nat 0%nat 1 (Some 6); Got 1%nat 0%nat 0 (Some 5); Sent 0%nat 7; Sent 0%nat 6; Sent 0%nat 5],
                         Some ([9; 7], [true; true; true], [true; false; false])).
Proof. vm_compute. reflexivity. Qed.
Example C114_ex_quiet : exists s, run 2 true init ex_run = Some s /\ quiet s /\ all_threads [1; 0]%nat (hist s).
Proof.
  eexists. split; [vm_compute; reflexivity|]. split.
  - intros [|[|t]]; reflexivity.
  - split; [repeat constructor; cbn; intuition lia|]. intros [|[|q]] N; cbn; auto.
Qed.
(** It must not be destroyed while an operation is in progress: here an
    enqueue has made its element and not yet published it, and it stays
    behind in a block that was given back. *)
Example C114_ex_in_use : match run 2 true (@init Z) (enq0 0%nat 5 10%nat ++ deq 1%nat 0%nat 1 0 ++ [(0%nat, CEnq 6); (0%nat, CGo)]) with
                         | Some s => match destroy_queue 2 [0%nat] s with Ok m => Some (map (cell (mblocks m 10%nat)) [0; 1]) | _ => None end
                         | None => None
                         end = Some [None; Some 6].
Proof. vm_compute. reflexivity. Qed.

Print Assumptions C114_destroys_the_rest.
Print Assumptions C114_no_leak.
Print Assumptions C114_accounted.
