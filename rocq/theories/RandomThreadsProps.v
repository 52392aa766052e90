(** C53 Random under concurrency. *)

From Coq Require Import ZArith List Lia Bool Permutation.
From Verif Require Import Base Bits RandomSpec RandomModel RandomProofs RandomThreadsModel.
Import ListNotations.
Open Scope Z_scope.

(** ** What a sequential run does *)

(** One call after the other, starting in state [x]: the values and the final state. *)
Fixpoint one_by_one (x : Z) (l : list gcall) : list Z * Z :=
  match l with
  | [] => ([], x)
  | Next bits :: r => let (vs, y) := one_by_one (lcg x) r in (high bits (lcg x) :: vs, y)
  | Seed s :: r => let (vs, y) := one_by_one (scrambled s) r in (0 :: vs, y)
  end.
(** The calls and the values that have taken effect, in order; those of one thread. *)
Definition made (l : list (nat * gcall * Z)) : list gcall := map (fun e => snd (fst e)) l.
Definition values (l : list (nat * gcall * Z)) : list Z := map snd l.
Definition of_th (n : nat) (l : list (nat * gcall * Z)) : list gcall := made (filter (fun e => Nat.eqb (fst (fst e)) n) l).
(** The programs call next with 1 to 32 bits. *)
Definition gcall_ok (c : gcall) : Prop := match c with Next bits => 0 < bits <= 32 | Seed _ => True end.

(** ** Proofs *)
Lemma nth_rset n t : forall l k, nth_error (set_rthread n t l) k = if Nat.eqb n k then match nth_error l n with Some _ => Some t | None => None end else nth_error l k.
Proof. revert t. induction n as [|n IH]; intros t [|x l] [|k]; cbn; auto. destruct (Nat.eqb n k); auto. Qed.

Lemma one_app l1 : forall x l2, one_by_one x (l1 ++ l2) =
  (fst (one_by_one x l1) ++ fst (one_by_one (snd (one_by_one x l1)) l2), snd (one_by_one (snd (one_by_one x l1)) l2)).
Proof.
  induction l1 as [|c l1 IH]; intros x l2; cbn [one_by_one app].
  - cbn. destruct (one_by_one x l2); reflexivity.
  - destruct c; rewrite IH; [destruct (one_by_one (lcg x) l1) | destruct (one_by_one (scrambled seed) l1)]; reflexivity.
Qed.
Lemma of_th_app n l e : of_th n (l ++ [e]) = of_th n l ++ (if Nat.eqb (fst (fst e)) n then [snd (fst e)] else []).
Proof. unfold of_th, made. rewrite filter_app, map_app. f_equal. cbn. destruct (Nat.eqb _ n); auto. Qed.

Definition rinv (x0 : Z) (programs : list (list gcall)) (c : rconfig) : Prop :=
  one_by_one x0 (made (done_ c)) = (values (done_ c), seed_of c) /\
  forall n, match nth_error (rthreads c) n, nth_error programs n with
            | Some (Between, rest), Some p => p = of_th n (done_ c) ++ rest
            | Some (Loading bits, rest), Some p => p = of_th n (done_ c) ++ Next bits :: rest
            | Some (Exchanging bits old new, rest), Some p => p = of_th n (done_ c) ++ Next bits :: rest /\ new = lcg old
            | None, None => True
            | _, _ => False
            end.

Lemma advance_lcg x : advance HW x = Ok (lcg x).
Proof.
  pose proof (next_ok x 1 ltac:(lia)) as H. unfold next in H. destruct (advance HW x); cbn [bind] in H; try discriminate.
  cbn [sshr bind] in H. congruence.
Qed.

Ltac other Ik NK := rewrite ?app_nil_r; exact Ik.
Lemma rinv_step x0 programs c c' n : Forall (Forall gcall_ok) programs -> rinv x0 programs c -> rstep n c c' -> rinv x0 programs c'.
Proof.
  intros OK (I1 & I2) ST.
  assert (BITS : forall k p l bits rest, nth_error programs k = Some p -> p = l ++ Next bits :: rest -> 0 < bits <= 32).
  { intros k p l bits rest P ->. apply nth_error_In in P. rewrite Forall_forall in OK. specialize (OK _ P). rewrite Forall_forall in OK.
    apply (OK (Next bits)). apply in_app_iff. right. left. reflexivity. }
  destruct ST as [bits rest c E|s rest c E|bits rest c new E A|bits old new rest c v E S V|bits old new rest c E]; pose proof (I2 n) as In_; rewrite E in In_;
    (destruct (nth_error programs n) as [p|] eqn:P; [|contradiction]).
  - split; [exact I1|]. intros k. cbn [rthreads done_]. rewrite nth_rset. destruct (Nat.eqb_spec n k) as [<-|NK]; [rewrite E, P; exact In_ | apply I2].
  - split.
    + cbn [done_ seed_of]. unfold made, values. rewrite !map_app. rewrite one_app. unfold made in I1. rewrite I1. cbn. rewrite scramble_ok. reflexivity.
    + intros k. cbn [rthreads done_]. rewrite nth_rset, of_th_app. cbn [fst snd]. destruct (Nat.eqb_spec n k) as [<-|NK].
      * rewrite E, P. rewrite <- app_assoc. exact In_.
      * rewrite app_nil_r. apply I2.
  - split; [exact I1|]. intros k. cbn [rthreads done_]. rewrite nth_rset. destruct (Nat.eqb_spec n k) as [<-|NK]; [rewrite E, P | apply I2].
    split; [exact In_|]. rewrite advance_lcg in A. congruence.
  - destruct In_ as (IP & ->). pose proof (BITS n p _ bits rest P IP) as B. split.
    + cbn [done_ seed_of]. unfold made, values. rewrite !map_app. rewrite one_app. unfold made in I1. rewrite I1. cbn [map fst snd one_by_one]. f_equal; [|congruence].
      f_equal. f_equal. rewrite S. pose proof (next_ok old bits B) as N. unfold next in N. rewrite advance_lcg in N. cbn [bind] in N. rewrite V in N. cbn [bind] in N. congruence.
    + intros k. cbn [rthreads done_]. rewrite nth_rset, of_th_app. cbn [fst snd]. destruct (Nat.eqb_spec n k) as [<-|NK].
      * rewrite E, P. rewrite <- app_assoc. exact IP.
      * rewrite app_nil_r. apply I2.
  - split; [exact I1|]. intros k. cbn [rthreads done_]. rewrite nth_rset. destruct (Nat.eqb_spec n k) as [<-|NK]; [rewrite E, P; tauto | apply I2].
Qed.

Lemma rinv_reach seed programs c : Forall (Forall gcall_ok) programs -> rreach (rstart seed programs) c -> rinv (scrambled seed) programs c.
Proof.
  intros OK R. induction R as [|n c c' R IH ST]; [|eapply rinv_step; eauto].
  split; [cbn; rewrite scramble_ok; reflexivity|]. intros n. cbn. rewrite nth_error_map. destruct (nth_error programs n); cbn; auto.
Qed.

(** ** C53 *)

(** At every moment of every schedule, the calls that have taken effect and
    their values are those of a sequential run: no state is skipped and none
    is used twice. *)
Theorem C53_sequential : forall seed programs c, Forall (Forall gcall_ok) programs -> rreach (rstart seed programs) c ->
  one_by_one (scrambled seed) (made (done_ c)) = (values (done_ c), seed_of c) /\
  forall n p, nth_error programs n = Some p -> exists rest, p = of_th n (done_ c) ++ rest.
Proof.
  intros seed programs c OK R. destruct (rinv_reach seed programs c OK R) as (I1 & I2). split; [exact I1|]. intros n p P. specialize (I2 n). rewrite P in I2.
  destruct (nth_error (rthreads c) n) as [([| |] & rest)|]; try contradiction; [| |destruct I2 as (I2 & _)]; eauto.
Qed.
Print Assumptions C53_sequential.

(** When all threads have finished, every call of every program has taken effect, in program order. *)
Theorem C53_finished : forall seed programs c, Forall (Forall gcall_ok) programs -> rreach (rstart seed programs) c -> rfinished c ->
  forall n p, nth_error programs n = Some p -> of_th n (done_ c) = p.
Proof.
  intros seed programs c OK R F n p P. destruct (rinv_reach seed programs c OK R) as (_ & I2). specialize (I2 n). rewrite P in I2.
  unfold rfinished in F. rewrite Forall_forall in F.
  destruct (nth_error (rthreads c) n) as [(pc & rest)|] eqn:E; [|contradiction]. apply nth_error_In in E. apply F in E. injection E as -> ->. rewrite app_nil_r in I2. auto.
Qed.
Print Assumptions C53_finished.

(** All threads draw the same number of bits: the k-th draw to take effect,
    whichever thread makes it, has the k-th value of the sequence. *)
Theorem C53_each_state_once : forall seed programs c bits, 0 < bits <= 32 -> Forall (Forall (eq (Next bits))) programs ->
  rreach (rstart seed programs) c ->
  values (done_ c) = map (fun k => high bits (state_after (S k) (scrambled seed))) (seq 0 (length (done_ c))).
Proof.
  intros seed programs c bits B ALL R.
  assert (OK : Forall (Forall gcall_ok) programs).
  { eapply Forall_impl; [|exact ALL]. intros p. apply Forall_impl. intros a <-. exact B. }
  destruct (C53_sequential seed programs c OK R) as (I1 & I2).
  assert (MADE : Forall (eq (Next bits)) (made (done_ c))).
  { apply Forall_forall. intros g G. apply in_map_iff in G as (((n & g') & v) & E & IN). cbn in E. subst g'.
    assert (NP : exists p, nth_error programs n = Some p).
    { clear I1 I2 ALL. revert IN. induction R as [|k c c' R IH ST]; [contradiction|]. pose proof (rinv_reach seed programs c OK R) as (_ & I2).
      specialize (I2 k). destruct ST; cbn [done_]; auto; intros IN; apply in_app_iff in IN as [IN|[IN|[]]]; auto;
        injection IN as <- _ _; rewrite H in I2; destruct (nth_error programs k); eauto; contradiction. }
    destruct NP as (p & P). destruct (I2 n p P) as (rest & EP). apply nth_error_In in P. rewrite Forall_forall in ALL. specialize (ALL _ P).
    rewrite Forall_forall in ALL. apply ALL. rewrite EP. apply in_app_iff. left. unfold of_th, made. apply in_map_iff. exists (n, g, v). split; [reflexivity|].
    apply filter_In. split; [exact IN|]. cbn. apply Nat.eqb_refl. }
  assert (SEQ : forall l x, Forall (eq (Next bits)) l -> fst (one_by_one x l) = map (fun k => high bits (state_after (S k) x)) (seq 0 (length l))).
  { induction l as [|g l IH]; intros x A; [reflexivity|]. inversion A; subst. cbn [one_by_one]. specialize (IH (lcg x) H2). destruct (one_by_one (lcg x) l). cbn [fst] in *.
    rewrite IH. cbn [length seq map]. rewrite <- seq_shift, map_map. reflexivity. }
  specialize (SEQ _ (scrambled seed) MADE). rewrite I1 in SEQ. cbn [fst] in SEQ. rewrite SEQ. unfold made. rewrite map_length. reflexivity.
Qed.
Print Assumptions C53_each_state_once.

(** Lock freedom: a thread with work to do finishes its current call when it
    runs alone for a while, wherever the other threads have been stopped. *)
Theorem C53_progress : forall seed programs c n, Forall (Forall gcall_ok) programs -> rreach (rstart seed programs) c ->
  (exists t, nth_error (rthreads c) n = Some t /\ t <> (Between, [])) ->
  exists c' g v, ralone n c c' /\ done_ c' = done_ c ++ [(n, g, v)].
Proof.
  intros seed programs c n OK R ((pc & rest) & E & NE).
  assert (LOAD : forall c bits rest, nth_error (rthreads c) n = Some (Loading bits, rest) -> exists c' g v, ralone n c c' /\ done_ c' = done_ c ++ [(n, g, v)]).
  { clear. intros c bits rest E. eexists. exists (Next bits). eexists. split.
    - eapply ralone_step; [eapply ralone_step; [apply ralone_0|]|].
      + eapply r_load; [exact E | apply advance_lcg].
      + eapply r_exchange; [cbn [rthreads]; rewrite nth_rset, Nat.eqb_refl, E; reflexivity | reflexivity | reflexivity].
    - reflexivity. }
  assert (TRANS : forall c1 c2 c3, rstep n c1 c2 -> ralone n c2 c3 -> ralone n c1 c3).
  { clear. intros c1 c2 c3 S A. induction A; [eapply ralone_step; [apply ralone_0 | exact S] | eapply ralone_step; eauto]. }
  destruct pc as [|bits|bits old new].
  - destruct rest as [|[bits|s] rest]; [congruence| |].
    + pose proof (r_enter n bits rest c E) as ST. edestruct LOAD as (c' & g & v & A & D); [|exists c', g, v; split; [eapply TRANS; eassumption | exact D]].
      cbn [rthreads]. rewrite nth_rset, Nat.eqb_refl, E. reflexivity.
    + eexists. exists (Seed s), 0. split; [eapply ralone_step; [apply ralone_0 | apply r_seed; exact E]|]. reflexivity.
  - eapply LOAD; eassumption.
  - pose proof (r_fail n bits old new rest c E) as ST. edestruct LOAD as (c' & g & v & A & D); [|exists c', g, v; split; [eapply TRANS; eassumption | exact D]].
    cbn [rthreads]. rewrite nth_rset, Nat.eqb_refl, E. reflexivity.
Qed.
Print Assumptions C53_progress.

(** Two threads race: the exchange of the slower one fails, it retries and
    gets the second value. *)
Example C53_example : exists c, rreach (rstart 42 [[Next 32]; [Next 32]]) c /\ rfinished c /\
  done_ c = [(1%nat, Next 32, -1170105035); (0%nat, Next 32, 234785527)].
Proof.
  pose proof (rreach_0 (rstart 42 [[Next 32]; [Next 32]])) as R0.
  eassert (R1 : rreach _ _) by (eapply rreach_step; [exact R0 | eapply (r_enter 0); reflexivity]).
  eassert (R2 : rreach _ _) by (eapply rreach_step; [exact R1 | eapply (r_load 0); [reflexivity | apply advance_lcg]]).
  eassert (R3 : rreach _ _) by (eapply rreach_step; [exact R2 | eapply (r_enter 1); reflexivity]).
  eassert (R4 : rreach _ _) by (eapply rreach_step; [exact R3 | eapply (r_load 1); [reflexivity | apply advance_lcg]]).
  eassert (R5 : rreach _ _) by (eapply rreach_step; [exact R4 | eapply (r_exchange 1); reflexivity]).
  eassert (R6 : rreach _ _) by (eapply rreach_step; [exact R5 | eapply (r_fail 0); reflexivity]).
  eassert (R7 : rreach _ _) by (eapply rreach_step; [exact R6 | eapply (r_load 0); [reflexivity | apply advance_lcg]]).
  eassert (R8 : rreach _ _) by (eapply rreach_step; [exact R7 | eapply (r_exchange 0); reflexivity]).
  eexists. split; [exact R8|]. split; [repeat constructor | vm_compute; reflexivity].
Qed.
