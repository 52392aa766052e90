(** One call of a Vector, and whole histories. *)

From Coq Require Import ZArith List Lia Bool.
From Verif Require Import Base Bits TextLemmas StdVector ListSpec ArrayListModel ListProofs VectorModel VectorProofs.
Import ListNotations.
Open Scope Z_scope.

Section P.
Context {E : Type} (E_dec : forall a b : E, {a = b} + {a <> b}) (m : cpp) (eqb : E -> E -> bool) (dv : E).
Context (Heq : forall a b, eqb a b = true <-> a = b).
Notation vec := (vector E).

(** The call leaves at most 2^30 elements. *)
Definition room (l : list E) (o : lop E) : Prop := forall l' a, lstep E_dec dv l o l' a -> zlen l' <= 2 ^ 30.

Ltac done1 v := exists v; eexists; split; [reflexivity|]; split; [|auto].

Lemma step_ok v o : vinv v -> conforming m (vdata v) o -> room (vdata v) o ->
  exists v' a, v_step m eqb dv v o = Ok (v', a) /\ lstep E_dec dv (vdata v) o (vdata v') a /\ vinv v'.
Proof using Heq.
  intros I C R. pose proof I as (L1 & L2 & _). pose proof (zlen_nonneg (vdata v)) as L0. rewrite p30 in L1. unfold v_step.
  assert (W : wrap 32 (zlen (vdata v)) = zlen (vdata v)) by (apply w32; unfold int_min, int_max; lia).
  destruct o as [x|i x|xs|i xs|i|i x|i|x|i j|x|x i|x|x i|x|xs|xs|xs|n| | | | |].
  - (* add *) destruct (add_ok m v x I) as (v' & E1 & D & I').
    { specialize (R (vdata v ++ [x]) (Bool true)). cbn in R. rewrite zlen_app in R. change (zlen [x]) with 1 in R. apply R. auto. }
    rewrite E1. cbn [bind catching]. exists v'. eexists. split; [reflexivity|]. cbn [lstep]. auto.
  - (* addAt *) assert (slot (vdata v) i \/ ~ slot (vdata v) i) as [S|S] by (unfold slot; lia).
    + destruct (addAt_ok m v i x I) as (v' & E1 & D & I'); auto.
      { specialize (R (insert_at i [x] (vdata v)) Unit). cbn in R. rewrite zlen_insert_at in R by auto. change (zlen [x]) with 1 in R. apply R. auto. }
      rewrite E1. cbn [bind catching]. exists v'. eexists. split; [reflexivity|]. cbn [lstep]. auto.
    + rewrite addAt_bad by auto. cbn [bind catching]. exists v. eexists. split; [reflexivity|]. cbn [lstep]. auto.
  - (* addAll *) assert (S : slot (vdata v) 0) by (unfold slot; lia). unfold v_addAll, v_addAllAt.
    destruct (addAll_ok m xs v 0 I) as (v' & E1 & D & I'); auto.
    { specialize (R (vdata v ++ xs) (Bool (negb (zlen xs =? 0)))). cbn in R. rewrite zlen_app in R. apply R. auto. }
    rewrite E1. cbn [bind catching]. exists v'. eexists. split; [reflexivity|]. cbn [lstep]. split; auto. split; auto. rewrite D. unfold insert_at. cbn [Z.to_nat firstn skipn app]. cbn [conforming] in C. destruct C as [C|C]; rewrite C; now rewrite ?app_nil_r.
  - (* addAllAt *) unfold v_addAllAt. assert (slot (vdata v) i \/ ~ slot (vdata v) i) as [S|S] by (unfold slot; lia).
    + destruct (addAll_ok m xs v i I) as (v' & E1 & D & I'); auto.
      { specialize (R (insert_at i xs (vdata v)) (Bool (negb (zlen xs =? 0)))). cbn in R. rewrite zlen_insert_at in R by auto. apply R. auto. }
      rewrite E1. cbn [bind catching]. exists v'. eexists. split; [reflexivity|]. cbn [lstep]. auto.
    + destruct C as [C|C]; [|tauto]. destruct xs as [|x xs]; [congruence|]. cbn [v_addAll_loop]. rewrite addAt_bad by auto. cbn [bind catching]. exists v. eexists. split; [reflexivity|]. cbn [lstep]. auto.
  - (* get *) assert (valid (vdata v) i \/ ~ valid (vdata v) i) as [S|S] by (unfold valid; lia).
    + destruct (get_ok v i S) as (x & X & ->). cbn [bind catching]. exists v. eexists. split; [reflexivity|]. cbn [lstep]. split; auto. left. split; auto. split; auto. exists x. auto.
    + unfold v_get. unfold valid in S. replace ((i <? 0) || (i >=? zlen (vdata v))) with true by lia. cbn [bind catching]. exists v. eexists. split; [reflexivity|]. cbn [lstep]. auto.
  - (* set *) unfold v_set. assert (valid (vdata v) i \/ ~ valid (vdata v) i) as [S|S] by (unfold valid; lia).
    + destruct (get_ok v i S) as (y & X & ->). unfold raw_set. rewrite X. pose proof S as S'. unfold valid in S'. replace ((i <? 0) || (i >=? zlen (vdata v))) with false by lia. cbn [bind catching].
      eexists. eexists. split; [reflexivity|]. cbn [lstep with_data vdata]. split; [left; split; auto; split; [now apply zupd_split|exists y; auto]|]. apply vinv_with; auto. rewrite zupd_len, p30. lia.
    + unfold valid in S. replace ((i <? 0) || (i >=? zlen (vdata v))) with true by lia. cbn [bind catching]. exists v. eexists. split; [reflexivity|]. cbn [lstep]. auto.
  - (* removeAt *) assert (valid (vdata v) i \/ ~ valid (vdata v) i) as [S|S] by (unfold valid; lia).
    + destruct (removeAt_ok v i S) as (x & X & ->). cbn [bind catching]. eexists. eexists. split; [reflexivity|]. cbn [lstep with_data vdata]. split; [left; split; auto; split; auto; exists x; auto|].
      apply vinv_with; auto. rewrite zlen_delete_at, p30 by auto. lia.
    + unfold v_removeAt. unfold valid in S. replace ((i <? 0) || (i >=? zlen (vdata v))) with true by lia. cbn [bind catching]. exists v. eexists. split; [reflexivity|]. cbn [lstep]. auto.
  - (* remove *) unfold v_remove. destruct (indexOf_ok eqb Heq v x 0 I) as (r & E1 & F); [lia|]. rewrite E1. cbn [bind]. assert (F1 : first_pos (valid (vdata v)) x (vdata v) r) by (eapply first_pos_ext; [|exact F]; unfold valid; intros; lia).
    destruct (r =? -1) eqn:Q; cbn [bind catching].
    + exists v. eexists. split; [reflexivity|]. cbn [lstep]. split; auto. exists r. rewrite Q. auto.
    + pose proof F1 as F2. destruct F2 as [(G1 & G2 & G3)|(G1 & G2)]; [|lia]. destruct (removeAt_ok v r G2) as (y & X & ->). cbn [bind catching]. eexists. eexists. split; [reflexivity|]. cbn [lstep with_data vdata]. split; [exists r; rewrite Q; auto|].
      apply vinv_with; auto. rewrite zlen_delete_at, p30 by auto. lia.
  - (* removeRange *) unfold v_removeRange. rewrite W. cbn [conforming] in C.
    assert ((0 <= i < j /\ j < zlen (vdata v)) \/ ~ (0 <= i <= j /\ j <= zlen (vdata v))) as [S|S] by lia.
    + replace ((i <? 0) || (i >=? zlen (vdata v)) || (j <? 0) || (j >=? zlen (vdata v))) with false by lia. replace (j <? i) with false by lia. replace (i =? j) with false by lia.
      rewrite remove_times_ok by lia. replace (i + Z.of_nat (Z.to_nat (j - i))) with j by lia. cbn [bind catching]. eexists. eexists. split; [reflexivity|]. cbn [lstep with_data vdata]. split; [left; split; [lia|auto]|].
      apply vinv_with; auto. unfold cut, zlen in *. rewrite app_length, firstn_length, skipn_length, p30. lia.
    + exists v, Bad. split; [|cbn [lstep]; auto]. destruct (_ || _) eqn:Q; cbn [bind catching]; auto. replace (j <? i) with true by lia. auto.
  - (* indexOf *) unfold v_indexOf. rewrite W. destruct (indexOf_ok eqb Heq v x 0 I) as (r & E1 & F); [lia|]. rewrite E1. cbn [bind catching]. exists v. eexists. split; [reflexivity|]. cbn [lstep]. split; auto. split; auto. exists r. split; auto. eapply first_pos_ext; [|exact F]; unfold valid; intros; lia.
  - (* indexOfFrom *) unfold v_indexOfFrom, v_size. rewrite W. cbn [conforming] in C. destruct (Z.ltb_spec i 0).
    + cbn [orb bind catching]. exists v. eexists. split; [reflexivity|]. cbn [lstep]. split; auto. right. split; [lia|auto].
    + replace (false || (i >=? zlen (vdata v))) with false by lia. destruct (indexOf_ok eqb Heq v x i I) as (r & E1 & F); [lia|]. rewrite E1. cbn [bind catching]. exists v. eexists. split; [reflexivity|]. cbn [lstep]. split; auto. left. split; auto. split; auto. exists r. auto.
  - (* lastIndexOf *) cbn [conforming] in C. assert (0 < zlen (vdata v)) by (destruct (vdata v); [congruence|rewrite zlen_cons in *; pose proof (zlen_nonneg l); lia]).
    unfold v_lastIndexOf. rewrite W. unfold ssub. rewrite s32 by (unfold int_min, int_max; lia). cbn [bind].
    destruct (lastIndexOf_ok eqb Heq v x (zlen (vdata v) - 1)) as (r & E1 & F); [unfold valid; lia|]. rewrite E1. cbn [bind catching]. exists v. eexists. split; [reflexivity|]. cbn [lstep]. split; auto. split; auto. exists r. split; auto. eapply last_pos_ext; [|exact F]; unfold valid; intros; lia.
  - (* lastIndexOfFrom *) cbn [conforming] in C. destruct (Z.ltb_spec i (zlen (vdata v))).
    + destruct (lastIndexOf_ok eqb Heq v x i) as (r & E1 & F); [unfold valid; lia|]. rewrite E1. cbn [bind catching]. exists v. eexists. split; [reflexivity|]. cbn [lstep]. split; auto. left. split; auto. split; auto. exists r. auto.
    + unfold v_lastIndexOfFrom. replace ((i <? 0) || (i >=? zlen (vdata v))) with true by lia. cbn [bind catching]. exists v. eexists. split; [reflexivity|]. cbn [lstep]. split; auto. right. split; [lia|auto].
  - (* contains *) unfold v_contains, v_indexOf. rewrite W. destruct (indexOf_ok eqb Heq v x 0 I) as (r & E1 & F); [lia|]. rewrite E1. cbn [bind catching]. exists v. eexists. split; [reflexivity|]. cbn [lstep]. split; auto. split; auto. f_equal.
    unfold memb. destruct F as [(G1 & G2 & G3)|(G1 & G2)].
    + replace (negb (r =? -1)) with true by (unfold valid in G2; lia). symmetry. apply existsb_exists. exists x. split; [|unfold eqE; destruct (E_dec x x); congruence]. rewrite znth_nth in G1 by (unfold valid in G2; lia). eapply nth_error_In; eauto.
    + subst r. cbn. symmetry. apply not_true_is_false. intros X. apply existsb_exists in X. destruct X as (y & Y1 & Y2). unfold eqE in Y2. destruct (E_dec x y); [|discriminate]. subst. apply In_nth_error in Y1. destruct Y1 as (n & Y1).
      assert (n < length (vdata v))%nat by (apply nth_error_Some; congruence). apply (G2 (Z.of_nat n)); [unfold valid, zlen; lia|]. rewrite znth_nth, Nat2Z.id by lia. auto.
  - (* containsAll *) cbn [bind catching]. exists v. eexists. split; [reflexivity|]. cbn [lstep]. rewrite (containsAll_ok E_dec eqb Heq). auto.
  - (* removeAll *) cbn [conforming] in C. unfold v_removeAll. subst m. destruct (filter_call v (fun y => std_found eqb xs y) I) as (l & E1 & E2 & E3 & E4). rewrite E1. cbn [bind catching]. rewrite E3. eexists. eexists. split; [reflexivity|]. cbn [lstep with_data vdata].
    split; [|apply vinv_with; auto; rewrite p30; lia]. subst l. split.
    + apply filter_ext. intros y. now rewrite (memb_std E_dec eqb Heq).
    + f_equal. generalize (vdata v). intros l. induction l; cbn; auto. rewrite (memb_std E_dec eqb Heq). f_equal. auto.
  - (* retainAll *) cbn [conforming] in C. unfold v_retainAll. subst m. destruct (filter_call v (fun y => negb (std_found eqb xs y)) I) as (l & E1 & E2 & E3 & E4). rewrite E1. cbn [bind catching]. rewrite E3. eexists. eexists. split; [reflexivity|]. cbn [lstep with_data vdata].
    split; [|apply vinv_with; auto; rewrite p30; lia]. subst l. split.
    + apply filter_ext. intros y. now rewrite (memb_std E_dec eqb Heq), negb_involutive.
    + f_equal. generalize (vdata v). intros l. induction l; cbn; auto. rewrite (memb_std E_dec eqb Heq). f_equal. auto.
  - (* setSize *) unfold v_setSize. destruct (Z.ltb_spec n 0).
    + cbn [bind catching]. exists v. eexists. split; [reflexivity|]. cbn [lstep]. split; auto. right. split; [lia|auto].
    + assert (N : n <= 2 ^ 30). { specialize (R (resize dv n (vdata v)) Unit). cbn in R. assert (zlen (resize dv n (vdata v)) = n) as <-; [|apply R; auto]. unfold resize, zlen. rewrite app_length, firstn_length, repeat_length. lia. }
      assert (exists v1, (if n >? zlen (vdata v) then v_ensureCapacity m v n else Ok v) = Ok v1 /\ vdata v1 = vdata v /\ vinv v1) as (v1 & -> & D & I1).
      { destruct (_ >? _); [|exists v; auto]. destruct (ensure_ok m v n I N) as (c & -> & Hc & _). eexists. split; [reflexivity|]. split; auto. eapply vinv_mk; eauto. }
      cbn [bind catching]. eexists. eexists. split; [reflexivity|]. cbn [lstep with_data vdata]. rewrite D. split; [left; auto|]. apply vinv_with; auto. unfold vec_resize, zlen. rewrite app_length, firstn_length, repeat_length, p30 in *. lia.
  - cbn [bind catching]. eexists. eexists. split; [reflexivity|]. cbn [lstep v_clear with_data vdata]. split; auto. apply vinv_with; auto. rewrite p30. cbn. lia.
  - cbn [bind catching]. exists v. eexists. split; [reflexivity|]. cbn [lstep]. unfold v_size. rewrite W. auto.
  - cbn [bind catching]. exists v. eexists. split; [reflexivity|]. cbn [lstep]. auto.
  - unfold v_firstElement. destruct (vdata v) as [|x l] eqn:D; cbn [bind catching]; exists v; eexists; (split; [reflexivity|]); rewrite D; cbn [lstep]; split; auto.
    left. split; [discriminate|]. split; auto. exists x. auto.
  - unfold v_lastElement. destruct (Z.eqb_spec (zlen (vdata v)) 0) as [Z0|Z0].
    + cbn [bind catching]. exists v. eexists. split; [reflexivity|]. cbn [lstep]. split; auto. right. split; auto. intros N. apply N. destruct (vdata v); auto. rewrite zlen_cons in Z0. pose proof (zlen_nonneg l). lia.
    + destruct (raw_get_rd (vdata v) (zlen (vdata v) - 1)) as (y & -> & Y); [lia|]. cbn [bind catching]. exists v. eexists. split; [reflexivity|]. cbn [lstep]. split; auto. left. split; [intros N; rewrite N in Z0; apply Z0; auto|]. split; auto. exists y. auto.
Qed.

Lemma run_ok ops : forall v, vinv v ->
  (forall pre o post l as_, ops = pre ++ o :: post -> lrun E_dec dv (vdata v) pre l as_ -> conforming m l o /\ room l o) ->
  exists v' as_, v_run m eqb dv v ops = Ok (v', as_) /\ lrun E_dec dv (vdata v) ops (vdata v') as_ /\ vinv v'.
Proof using Heq.
  induction ops as [|o ops IH]; intros v I H; cbn [v_run]; [exists v, []; split; auto; split; auto; constructor|].
  destruct (H [] o ops (vdata v) [] eq_refl) as (C & R); [constructor|]. destruct (step_ok v o I C R) as (v1 & a & -> & S & I1). cbn [bind].
  destruct (IH v1 I1) as (v2 & l & -> & L & I2).
  - intros pre o' post l' as_ -> Q. apply (H (o :: pre) o' post l' (a :: as_)); auto. econstructor; eauto.
  - cbn [bind]. exists v2, (a :: l). split; auto. split; auto. econstructor; eauto.
Qed.
End P.
