(** Property theorems C33: java.util.Stack. *)

From Coq Require Import ZArith List Lia Bool.
From Verif Require Import Base Bits TextLemmas StdVector ListSpec StackSpec ListProofs VectorModel VectorProofs StackModel.
Import ListNotations.
Open Scope Z_scope.

Lemma delete_last {E} (l : list E) x : delete_at (zlen l) (l ++ [x]) = l.
Proof.
  unfold delete_at, cut, zlen. rewrite Nat2Z.id, firstn_app, Nat.sub_diag, firstn_all, firstn_O, app_nil_r, skipn_all2; [apply app_nil_r|]. rewrite app_length. cbn. lia.
Qed.

Lemma s_step_ok {E} m (v : vector E) s o : vinv v -> vdata v = rev s -> zlen (fst (sstep s o)) <= 2 ^ 30 ->
  exists v', s_step m v o = Ok (v', snd (sstep s o)) /\ vinv v' /\ vdata v' = rev (fst (sstep s o)).
Proof.
  intros I D H. pose proof I as (L & _). rewrite p30 in L. pose proof (zlen_nonneg (vdata v)). assert (W : wrap 32 (zlen (vdata v)) = zlen (vdata v)) by (apply w32; unfold int_min, int_max; lia).
  assert (LR : zlen (vdata v) = zlen s) by (rewrite D; apply zlen_rev).
  assert (TOP : forall x r, s = x :: r -> s_peek m v = Ok x /\ exists v', v_removeAt v (zlen (vdata v) - 1) = Ok (v', x) /\ vdata v' = rev r /\ vinv v').
  { intros x r ->. rewrite zlen_cons in LR. pose proof (zlen_nonneg r). cbn [rev] in D. assert (N : zlen (vdata v) - 1 = zlen (rev r)) by (rewrite zlen_rev; lia).
    assert (X : znth (vdata v) (zlen (vdata v) - 1) = Some x). { rewrite N, D, znth_nth by (rewrite zlen_rev; lia). unfold zlen. rewrite Nat2Z.id, nth_error_app2, Nat.sub_diag by lia. auto. }
    assert (VV : valid (vdata v) (zlen (vdata v) - 1)) by (unfold valid; lia). split.
    - unfold s_peek, v_size. rewrite W. replace (zlen (vdata v) =? 0) with false by lia. unfold ssub. rewrite s32 by (unfold int_min, int_max; lia). cbn [bind]. destruct (get_ok v _ VV) as (y & Y & ->). congruence.
    - destruct (removeAt_ok v _ VV) as (y & Y & ->). eexists. split; [f_equal; f_equal; congruence|]. assert (Q : delete_at (zlen (vdata v) - 1) (vdata v) = rev r) by (rewrite N, D; apply delete_last).
      cbn [with_data vdata]. split; auto. rewrite Q. apply vinv_with; auto. rewrite p30, zlen_rev. lia. }
  destruct o as [x| | |].
  - cbn [sstep fst snd] in *. destruct (add_ok m v x I) as (v' & E1 & D' & I'); [rewrite zlen_cons in H; lia|]. unfold s_step, s_push. rewrite E1. cbn [bind]. exists v'. split; auto. split; auto. rewrite D', D. auto.
  - unfold s_step, s_pop, v_size. rewrite W. destruct s as [|x r].
    + cbn [sstep fst snd]. unfold s_peek, v_size. rewrite W, LR. cbn. exists v. auto.
    + destruct (TOP x r eq_refl) as (-> & v' & E1 & D' & I'). cbn [bind]. unfold ssub. rewrite s32 by (unfold int_min, int_max; lia). cbn [bind]. rewrite E1. cbn [bind sstep fst snd]. exists v'. auto.
  - unfold s_step. destruct s as [|x r].
    + cbn [sstep fst snd]. unfold s_peek, v_size. rewrite W, LR. cbn. exists v. auto.
    + destruct (TOP x r eq_refl) as (-> & _). cbn [bind sstep fst snd]. exists v. auto.
  - unfold s_step, s_empty, v_size. rewrite W, LR. exists v. destruct s as [|x r]; cbn [sstep fst snd]; [auto|]. rewrite zlen_cons. pose proof (zlen_nonneg r). replace (zlen r + 1 =? 0) with false by lia. auto.
Qed.

(** Every history of push/pop/peek/empty on a new stack answers as the
    mathematical stack does, EmptyStackException included. *)
Theorem C33_history : forall (E : Type) m (ops : list (sop E)), zlen ops <= 2 ^ 30 ->
  exists s0 s, v_default = Ok s0 /\ s_run m s0 ops = Ok (s, snd (srun [] ops)) /\ v_toArray s = rev (fst (srun [] ops)).
Proof.
  intros E m ops H. exists (mkV E [] 10 (Some 0)).
  assert (Q : forall ops (v : vector E) s, vinv v -> vdata v = rev s -> zlen s + zlen ops <= 2 ^ 30 -> exists v', s_run m v ops = Ok (v', snd (srun s ops)) /\ vdata v' = rev (fst (srun s ops))).
  { clear. induction ops as [|o ops IH]; intros v s I D L; cbn [s_run srun]; [exists v; auto|]. rewrite zlen_cons in L. pose proof (zlen_nonneg ops).
    assert (zlen (fst (sstep s o)) <= zlen s + 1) by (destruct o, s; cbn [sstep fst]; rewrite ?zlen_cons, ?zlen_nil; lia).
    destruct (s_step_ok m v s o I D) as (v1 & -> & I1 & D1); [lia|]. destruct (sstep s o) as (s1, a). cbn [fst snd bind] in *.
    destruct (IH v1 s1 I1 D1) as (v2 & -> & D2); [lia|]. destruct (srun s1 ops) as (s2, l). cbn [fst snd bind] in *. exists v2. auto. }
  destruct (Q ops (mkV E [] 10 (Some 0)) []) as (v & R & D); [|auto|rewrite zlen_nil; lia|].
  - split; [rewrite p30; cbn; lia|]. split; [unfold int_max; cbn; lia|]. exists 0. unfold int_min. rewrite p30. cbn. split; auto; lia.
  - exists v. split; auto. split; auto. unfold v_toArray, v_copyInto. now rewrite fold_push.
Qed.
Print Assumptions C33_history.

(** search finds the topmost occurrence, or -1 ... *)
Theorem C33_search_partial : forall (E : Type) m eqb (v : vector E) x, (forall a b, eqb a b = true <-> a = b) -> vinv v -> vdata v <> [] ->
  exists r, s_search m eqb v x = Ok r /\ last_pos (valid (v_toArray v)) x (v_toArray v) r.
Proof.
  intros E m eqb v x Heq I N. pose proof I as (L & _). rewrite p30 in L. assert (0 < zlen (vdata v)) by (destruct (vdata v); [congruence|rewrite zlen_cons in *; pose proof (zlen_nonneg l); lia]).
  unfold v_toArray, v_copyInto. rewrite fold_push. cbn [app]. unfold s_search, v_lastIndexOf. rewrite w32 by (unfold int_min, int_max; lia). unfold ssub. rewrite s32 by (unfold int_min, int_max; lia). cbn [bind].
  destruct (lastIndexOf_ok eqb Heq v x (zlen (vdata v) - 1)) as (r & -> & F); [unfold valid; lia|]. cbn [bind]. exists r.
  assert (G : last_pos (valid (vdata v)) x (vdata v) r) by (eapply last_pos_ext; [|exact F]; unfold valid; intros; lia).
  split; auto. destruct (r >=? 0) eqn:Q; auto. destruct G as [(_ & G & _)|(-> & _)]; auto. unfold valid in G. lia.
Qed.
Print Assumptions C33_search_partial.

(** ... but reports its index from the bottom instead of the 1-based distance
    from the top: wrong for every one-element stack, and on the empty stack
    search throws. *)
Theorem C33_search_refuted : forall (E : Type) m eqb (x : E) c inc, (forall a b, eqb a b = true <-> a = b) ->
  s_search m eqb (mkV E [x] c inc) x = Ok 0 /\ s_search m eqb (mkV E [] c inc) x = Throw IllegalArgumentException.
Proof.
  intros E m eqb x c inc Heq. split; unfold s_search, v_lastIndexOf; cbn [vdata]; change (wrap 32 (zlen [x])) with 1; change (wrap 32 (zlen (@nil E))) with 0; unfold ssub; rewrite s32 by (unfold int_min, int_max; lia); cbn [bind]; auto.
  change (v_lastIndexOfFrom eqb (mkV E [x] c inc) x (1 - 1)) with (if eqb x x then Ok 0 else Ok (-1)). now rewrite (proj2 (Heq x x) eq_refl).
Qed.
Print Assumptions C33_search_refuted.

(** The exact relation to Java's answer: code result [r >= 0] is Java's [size - r]. *)
Theorem C33_search_relation_partial : forall (E : Type) m eqb (v : vector E) x r, (forall a b, eqb a b = true <-> a = b) -> vinv v -> s_search m eqb v x = Ok r -> 0 <= r ->
  znth (rev (v_toArray v)) (zlen (v_toArray v) - r - 1) = Some x /\ forall j, 0 <= j < zlen (v_toArray v) - r - 1 -> znth (rev (v_toArray v)) j <> Some x.
Proof.
  intros E m eqb v x r Heq I S R. assert (N : vdata v <> []).
  { intros N. unfold s_search, v_lastIndexOf in S. rewrite N in S. change (wrap 32 (zlen (@nil E))) with 0 in S. unfold ssub in S. rewrite s32 in S by (unfold int_min, int_max; lia). cbn [bind] in S. unfold v_lastIndexOfFrom in S. rewrite N in S. discriminate. }
  destruct (C33_search_partial E m eqb v x Heq I N) as (r' & S' & F). rewrite S in S'. injection S' as <-. destruct F as [(F1 & F2 & F3)|(F1 & _)]; [|lia]. set (l := v_toArray v) in *. clearbody l. unfold valid in F2.
  assert (RV : forall j, 0 <= j < zlen l -> znth (rev l) j = znth l (zlen l - j - 1)).
  { intros j Hj. rewrite !znth_nth by lia. assert (X : (Z.to_nat j < length l)%nat) by (unfold zlen in Hj; lia). rewrite (nth_error_nth' (rev l) x) by (rewrite rev_length; auto). rewrite (nth_error_nth' l x) by (unfold zlen in *; lia).
    rewrite rev_nth by auto. f_equal. f_equal. unfold zlen in *. lia. }
  split; [rewrite RV by lia; rewrite <- F1; f_equal; lia|]. intros j Hj. rewrite RV by lia. apply F3; unfold valid; lia.
Qed.
Print Assumptions C33_search_relation_partial.

Example C33_example : s_run HW (mkV Z [] 10 (Some 0)) [SPop; SPush 3; SPush 4; SPeek; SPop; SEmpty; SPop; SPeek; SEmpty] =
  Ok (mkV Z [] 10 (Some 0), [AException; AElem 3; AElem 4; AElem 4; AElem 4; ABool false; AElem 3; AException; ABool true]) /\
  s_search HW Z.eqb (mkV Z [7; 8; 7; 9] 10 (Some 0)) 7 = Ok 2.
Proof. vm_compute. auto. Qed.
