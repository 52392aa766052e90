(** Property theorems C75: ArrayList.forEach, Vector.trimToSize and
    operator[], copies and capacities of PriorityQueue. *)

From Coq Require Import ZArith List Lia Bool Permutation.
From Verif Require Import Base Bits TextLemmas StdVector ListSpec CollectionPiecesSpec ArrayListModel ListProofs VectorModel VectorProofs VectorProofs2.
From Verif Require Import PriorityQueueSpec PriorityQueueModel.
From Verif Require PriorityQueueProps HashMapModel.
Import ListNotations.
Open Scope Z_scope.

(** forEach calls the action for the elements in order and stops after the
    first refusal, for every action (with any effects). *)
Theorem C75_forEach : forall (E S : Type) (action : S -> E -> S * bool) (l : list E) (s : S), visits action l s (al_forEach action l s).
Proof.
  intros E S action l. induction l as [|x l IH]; intros s; cbn [al_forEach]; [left; constructor|].
  destruct (action s x) as [s1 [|]] eqn:A; cbn [negb].
  - destruct (IH s1) as [C|(xs & y & ys & s2 & -> & C & R)]; [left; econstructor; eauto|]. right. exists (x :: xs), y, ys, s2. split; auto. split; auto. econstructor; eauto.
  - right. exists [], x, l, s. split; auto. split; auto. constructor.
Qed.
Print Assumptions C75_forEach.
(** the same for HashMap.forEach, in the order of the table *)
Theorem C29_forEach_stops : forall (K V S : Type) (action : S -> K -> V -> S * bool) (m : list (K * V)) (s : S), visits (fun s p => action s (fst p) (snd p)) m s (HashMapModel.forEach action m s).
Proof.
  intros K V S action m. induction m as [|[k v] m IH]; intros s; cbn [HashMapModel.forEach]; [left; constructor|].
  destruct (action s k v) as [s1 [|]] eqn:A; cbn [negb].
  - destruct (IH s1) as [C|(xs & y & ys & s2 & -> & C & R)]; [left; econstructor; eauto|]. right. exists ((k, v) :: xs), y, ys, s2. split; auto. split; auto. econstructor; eauto.
  - right. exists [], (k, v), m, s. split; auto. split; auto. constructor.
Qed.
Print Assumptions C29_forEach_stops.

Lemma called_cons_inv (E S : Type) (action : S -> E -> S * bool) s x xs s' : called action s (x :: xs) s' -> exists s1, action s x = (s1, true) /\ called action s1 xs s'.
Proof. intros C. inversion C; subst. eauto. Qed.
Lemma called_nil_inv (E S : Type) (action : S -> E -> S * bool) s s' : called action s [] s' -> s' = s.
Proof. intros C. inversion C; subst. auto. Qed.

(** [visits] determines the result. *)
Theorem C75_visits_fun : forall (E S : Type) (action : S -> E -> S * bool) (l : list E) (s a b : S), visits action l s a -> visits action l s b -> a = b.
Proof.
  intros E S action.
  assert (V : forall x l s a, visits action (x :: l) s a -> action s x = (a, false) \/ exists s1, action s x = (s1, true) /\ visits action l s1 a).
  { intros x l s a [C|(xs & y & ys & s1 & L & C & R)].
    - apply called_cons_inv in C as (s1 & A & C). right. exists s1. split; auto. left. auto.
    - destruct xs as [|u xs]; cbn in L; injection L as <- ->.
      + apply called_nil_inv in C as ->. auto.
      + apply called_cons_inv in C as (s2 & A & C). right. exists s2. split; auto. right. exists xs, y, ys, s1. auto. }
  induction l as [|z l IH]; intros s a b A B.
  - assert (N : forall a, visits action [] s a -> a = s). { intros c [C|(xs & x & ys & s1 & L & _)]; [now apply called_nil_inv in C|destruct xs; discriminate]. } now rewrite (N a A), (N b B).
  - apply V in A as [A|(s1 & A & A2)]; apply V in B as [B|(s2 & B & B2)]; rewrite A in B; try congruence. injection B as <-. eauto.
Qed.
Print Assumptions C75_visits_fun.

(** trimToSize keeps every element, makes the capacity the size, and the
    vector goes on working: a conforming history after it behaves like the
    list it held. *)
Theorem C75_trimToSize : forall (E : Type) (E_dec : forall a b : E, {a = b} + {a <> b}) m eqb (dv : E) (v : vector E) ops, (forall a b, eqb a b = true <-> a = b) -> vinv v ->
  v_toArray (v_trimToSize v) = v_toArray v /\ v_capacity (v_trimToSize v) = zlen (v_toArray v) /\
  ((forall pre o post l as_, ops = pre ++ o :: post -> lrun E_dec dv (v_toArray v) pre l as_ -> conforming m l o /\ room E_dec dv l o) ->
   exists v' as_, v_run m eqb dv (v_trimToSize v) ops = Ok (v', as_) /\ lrun E_dec dv (v_toArray v) ops (v_toArray v') as_).
Proof.
  intros E E_dec m eqb dv v ops Heq I. pose proof I as (I1 & I2 & I3). pose proof (zlen_nonneg (vdata v)) as N. rewrite p30 in I1.
  assert (TA : forall w : vector E, v_toArray w = vdata w) by (intros w; unfold v_toArray, v_copyInto; now rewrite fold_push). rewrite !TA.
  split; [reflexivity|]. split; [unfold v_capacity; cbn [v_trimToSize vcap]; rewrite w32 by (unfold int_min, int_max; lia); reflexivity|]. intros C.
  destruct (run_ok E_dec m eqb dv Heq ops (v_trimToSize v)) as (v' & as_ & R & L & _); auto.
  - split; [change (vdata (v_trimToSize v)) with (vdata v); rewrite p30; lia|]. split; [change (vcap (v_trimToSize v)) with (zlen (vdata v)); unfold int_max; lia|exact I3].
  - exists v', as_. rewrite TA. auto.
Qed.
Print Assumptions C75_trimToSize.

(** operator[] reads the element, or throws without reading outside. *)
Theorem C75_subscript : forall (E : Type) (v : vector E) i, match znth (v_toArray v) i with
  | Some x => v_subscript v i = Ok x | None => v_subscript v i = Throw IllegalArgumentException end.
Proof.
  intros E v i. unfold v_toArray, v_copyInto. rewrite fold_push. cbn [app]. unfold v_subscript. destruct (znth (vdata v) i) as [x|] eqn:Q.
  - apply znth_Some_lt in Q as L. replace ((i <? 0) || (i >=? zlen (vdata v))) with false by lia. unfold raw_get. now rewrite Q.
  - apply znth_None in Q. replace ((i <? 0) || (i >=? zlen (vdata v))) with true by lia. auto.
Qed.
Print Assumptions C75_subscript.

(** A copy of a priority queue answers every history exactly like the
    original (and they are separate values). *)
Theorem C75_pq_copy : forall (E : Type) (E_dec : forall a b : E, {a = b} + {a <> b}) (lt : E -> E -> bool) (mk pop : list E -> list E) (dflt : option E) (v : list E) ops,
  q_run E_dec lt mk pop dflt (pq_copy v) ops = q_run E_dec lt mk pop dflt v ops.
Proof. intros. unfold pq_copy. now rewrite PriorityQueueProps.fold_snoc. Qed.
Print Assumptions C75_pq_copy.

(** A queue with a positive capacity starts empty and answers every conforming
    history like a bag; other capacities are rejected. *)
Theorem C75_pq_capacity : forall (E : Type) (E_dec : forall a b : E, {a = b} + {a <> b}) (lt : E -> E -> bool) (mk pop : list E -> list E) (dflt : option E),
  strict_weak lt -> make_heap_contract lt mk -> pop_heap_contract lt pop ->
  forall n (ops : list (qop E)), zlen ops <= int_max ->
  (forall pre o post b as_, ops = pre ++ o :: post -> qrun lt [] pre b as_ -> PriorityQueueProps.queue_conforming pre b o) ->
  if n <? 1 then pq_new_capacity n = @Throw (list E) InterruptedException
  else exists v0 v as_ b, pq_new_capacity n = Ok v0 /\ q_run E_dec lt mk pop dflt v0 ops = Ok (v, as_) /\ qrun lt [] ops b as_ /\ Permutation b v.
Proof.
  intros E E_dec lt mk pop dflt SW MK POP n ops L C. unfold pq_new_capacity. destruct (n <? 1); auto.
  destruct (PriorityQueueProps.q_run_ok E_dec lt mk pop dflt SW MK POP ops [] [] [] []) as (v & as_ & b & R & Q & P); auto.
  - split; auto. intros _. apply PriorityQueueProps.heap_nil.
  - exists []. constructor.
  - exists [], v, as_, b. auto.
Qed.
Print Assumptions C75_pq_capacity.

(** Summing until the sum exceeds 5: 4 is not visited. *)
Example C75_ex : al_forEach (fun s x => (s + x, s + x <? 6)) [1; 2; 3; 4] 0 = 6 /\
  v_trimToSize (mkV Z [7; 8] 100 (Some 0)) = mkV Z [7; 8] 2 (Some 0) /\
  v_subscript (mkV Z [7; 8] 100 (Some 0)) 1 = Ok 8 /\ v_subscript (mkV Z [7; 8] 100 (Some 0)) 2 = Throw IllegalArgumentException /\
  pq_copy [3; 1; 2] = [3; 1; 2] /\ pq_new_capacity 0 = @Throw (list Z) InterruptedException.
Proof. repeat split. Qed.

(** Vector: a negative capacity is rejected; copyInto pushes the elements
    behind what the array already holds. *)
Theorem C75_vector_capacity : forall (E : Type) n inc, n < 0 -> v_new (E := E) n inc = Throw InvalidArgument.
Proof. intros E n inc H. unfold v_new. replace (n <? 0) with true by lia. auto. Qed.
Print Assumptions C75_vector_capacity.
Theorem C75_vector_copyInto : forall (E : Type) (v : vector E) a, v_copyInto v a = a ++ vdata v.
Proof. intros E v a. unfold v_copyInto. apply fold_push. Qed.
Print Assumptions C75_vector_copyInto.
