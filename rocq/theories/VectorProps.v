(** Property theorems C32: java.util.Vector. *)

From Coq Require Import ZArith List Lia Bool.
From Verif Require Import Base Bits TextLemmas StdVector ListSpec ArrayListModel ListProofs VectorModel VectorProofs VectorProofs2.
Import ListNotations.
Open Scope Z_scope.

(** Every history of conforming calls (VectorProofs.v: [conforming]) on a
    Vector(cap, inc) gives the answers and the contents of a mathematical
    list; exceptions leave it unchanged.  [room]: at most 2^30 elements. *)
Theorem C32_history_partial : forall (E : Type) (E_dec : forall a b : E, {a = b} + {a <> b}) m eqb (dv : E) cap inc ops, (forall a b, eqb a b = true <-> a = b) ->
  0 <= cap <= int_max -> int_min <= inc <= 2 ^ 30 ->
  (forall pre o post l as_, ops = pre ++ o :: post -> lrun E_dec dv [] pre l as_ -> conforming m l o /\ room E_dec dv l o) ->
  exists v0 v as_, v_new cap inc = Ok v0 /\ v_run m eqb dv v0 ops = Ok (v, as_) /\ lrun E_dec dv [] ops (v_toArray v) as_.
Proof.
  intros E E_dec m eqb dv cap inc ops Heq Hc Hi H. exists (mkV E [] cap (Some inc)).
  destruct (run_ok E_dec m eqb dv Heq ops (mkV E [] cap (Some inc))) as (v & as_ & R & L & _); auto.
  - split; [rewrite p30; cbn; lia|]. split; auto. exists inc. auto.
  - exists v, as_. split; [unfold v_new; replace (cap <? 0) with false by lia; auto|]. split; auto. unfold v_toArray, v_copyInto. now rewrite fold_push.
Qed.
Print Assumptions C32_history_partial.

(** addAll(list) puts the elements in front instead of behind. *)
Theorem C32_addAll_refuted : forall (E : Type) m (v : vector E) xs, vinv v -> zlen (vdata v) + zlen xs <= 2 ^ 30 ->
  exists v', v_addAll m v xs = Ok (v', negb (zlen xs =? 0)) /\ v_toArray v' = xs ++ v_toArray v.
Proof.
  intros E m v xs I H. unfold v_addAll, v_addAllAt. pose proof (zlen_nonneg (vdata v)). destruct (addAll_ok m xs v 0 I H) as (v' & -> & D & _); [unfold slot; lia|]. cbn [bind]. exists v'. split; auto.
  unfold v_toArray, v_copyInto. rewrite !fold_push, D. reflexivity.
Qed.
Print Assumptions C32_addAll_refuted.

(** removeRange(i, i) removes one element, removeRange(i, size) is rejected. *)
Theorem C32_removeRange_refuted : forall (E : Type) (v : vector E) i, vinv v -> 0 <= i < zlen (vdata v) ->
  (exists v', v_removeRange v i i = Ok v' /\ vdata v' = delete_at i (vdata v)) /\ v_removeRange v i (zlen (vdata v)) = Throw IllegalArgumentException.
Proof.
  intros E v i (I & _) H. rewrite p30 in I. unfold v_removeRange. rewrite w32 by (unfold int_min, int_max; lia). split.
  - replace ((i <? 0) || (i >=? zlen (vdata v)) || (i <? 0) || (i >=? zlen (vdata v))) with false by lia. replace (i <? i) with false by lia. rewrite Z.eqb_refl.
    destruct (removeAt_ok v i H) as (x & _ & ->). cbn [bind]. eexists. split; reflexivity.
  - replace ((i <? 0) || (i >=? zlen (vdata v)) || (zlen (vdata v) <? 0) || (zlen (vdata v) >=? zlen (vdata v))) with true by lia. auto.
Qed.
Print Assumptions C32_removeRange_refuted.

(** lastIndexOf on an empty vector throws instead of returning -1; so do
    indexOf(x, i) for i >= size and lastIndexOf(x, i) for i < 0; addAll(i, {})
    accepts any index. *)
Theorem C32_search_bounds_refuted : forall (E : Type) m eqb (v : vector E) x i, vinv v ->
  (vdata v = [] -> v_lastIndexOf m eqb v x = Throw IllegalArgumentException) /\
  (zlen (vdata v) <= i -> v_indexOfFrom eqb v x i = Throw IllegalArgumentException) /\
  (i < 0 -> v_lastIndexOfFrom eqb v x i = Throw IllegalArgumentException) /\
  v_addAllAt m v i [] = Ok (v, false).
Proof.
  intros E m eqb v x i (I & _). rewrite p30 in I. pose proof (zlen_nonneg (vdata v)). repeat split.
  - intros D. unfold v_lastIndexOf. rewrite D. change (wrap 32 (zlen (@nil E))) with 0. unfold ssub. rewrite s32 by (unfold int_min, int_max; lia). reflexivity.
  - intros H1. unfold v_indexOfFrom, v_size. rewrite w32 by (unfold int_min, int_max; lia). replace ((i <? 0) || (i >=? zlen (vdata v))) with true by lia. auto.
  - intros H1. unfold v_lastIndexOfFrom. replace ((i <? 0) || (i >=? zlen (vdata v))) with true by lia. auto.
Qed.
Print Assumptions C32_search_bounds_refuted.

(** Assignment from another vector copies it; assignment to itself empties it. *)
Theorem C32_assign : forall (E : Type) m (v target : vector E), vinv v -> vinv target -> exists v', v_assign m v target = Ok v' /\ v_toArray v' = v_toArray target.
Proof.
  intros E m v target I (T & _). pose proof T as T'. rewrite p30 in T'. pose proof (zlen_nonneg (vdata target)). unfold v_assign, v_size. rewrite w32 by (unfold int_min, int_max; lia).
  destruct (ensure_ok m (v_clear v) (zlen (vdata target))) as (c & -> & _); auto.
  { apply vinv_with; auto. rewrite p30. cbn. lia. }
  cbn [bind]. eexists. split; [reflexivity|]. unfold v_toArray, v_copyInto. cbn [vdata v_clear with_data]. now rewrite !fold_push.
Qed.
Print Assumptions C32_assign.

Theorem C32_self_assign_refuted : forall (E : Type) m (v : vector E), exists v', v_assign_self m v = Ok v' /\ vdata v' = [].
Proof. intros E m v. unfold v_assign_self, v_assign, v_clear, with_data. cbn. eexists. split; reflexivity. Qed.
Print Assumptions C32_self_assign_refuted.

(** Vectors built from a list, or copied, have an uninitialised capacity
    increment: the first growth is undefined. *)
Theorem C32_built_from_list_refuted : forall (E : Type) m (xs : list E) x, zlen xs < int_max ->
  v_toArray (v_of xs) = xs /\ v_add m (v_of xs) x = UB Uninitialised.
Proof.
  intros E m xs x H. unfold int_max in H. pose proof (zlen_nonneg xs). unfold v_toArray, v_copyInto, v_of, v_add. cbn [vdata]. rewrite !fold_push. cbn [app]. split; auto.
  rewrite w32 by (unfold int_min, int_max; lia). unfold sadd. rewrite s32 by (unfold int_min, int_max; lia). cbn [bind]. unfold v_ensureCapacity, v_capacity. cbn [vcap vinc]. rewrite w32 by (unfold int_min, int_max; lia).
  replace ((0 <? zlen xs + 1) && (zlen xs <? zlen xs + 1)) with true by lia. auto.
Qed.
Print Assumptions C32_built_from_list_refuted.

Theorem C32_copy : forall (E : Type) (v : vector E) cap, v_toArray (v_copy cap v) = v_toArray v.
Proof. intros. unfold v_toArray, v_copyInto, v_copy. cbn [vdata]. now rewrite !fold_push. Qed.
Print Assumptions C32_copy.

(** clone copies the elements (and initialises the increment). *)
Theorem C32_clone : forall (E : Type) m (v : vector E), zlen (vdata v) <= 2 ^ 30 -> exists c, v_clone m v = Ok c /\ v_toArray c = v_toArray v /\ vinv c.
Proof.
  intros E m v H. unfold v_clone, v_default, v_new. cbn [Z.ltb Z.compare bind].
  assert (Q : forall (l : list E) (c : vector E), vinv c -> zlen (vdata c) + zlen l <= 2 ^ 30 -> exists c', v_add_each m c l = Ok c' /\ vdata c' = vdata c ++ l /\ vinv c').
  { induction l as [|x l IH]; intros c I L; cbn [v_add_each]; [exists c; rewrite app_nil_r; auto|]. rewrite zlen_cons in L. pose proof (zlen_nonneg l). destruct (add_ok m c x I) as (c1 & -> & D & I1); [lia|]. cbn [bind].
    destruct (IH c1 I1) as (c2 & -> & D2 & I2); [rewrite D, zlen_app; change (zlen [x]) with 1; lia|]. exists c2. split; auto. split; auto. rewrite D2, D, <- app_assoc. auto. }
  destruct (Q (vdata v) (mkV E [] 10 (Some 0))) as (c & -> & D & I); [split; [rewrite p30; cbn; lia|]; split; [unfold int_max; cbn; lia|]; exists 0; unfold int_min; rewrite p30; cbn; split; auto; lia|cbn [vdata]; rewrite zlen_nil; lia|].
  exists c. split; auto. split; auto. unfold v_toArray, v_copyInto. rewrite !fold_push, D. auto.
Qed.
Print Assumptions C32_clone.

(** v.add(v[i]) on a full vector reads a dangling reference. *)
Theorem C32_add_own_element_refuted : forall (E : Type) m (v : vector E) i, vinv v -> vcap v = zlen (vdata v) -> zlen (vdata v) < 2 ^ 30 -> 0 <= i < zlen (vdata v) -> v_add_own m v i = UB UseAfterFree.
Proof.
  intros E m v i I C L H. pose proof I as (H1 & H2 & _). rewrite p30 in *. unfold v_add_own. destruct (get_ok v i H) as (x & _ & ->). cbn [bind]. rewrite w32 by (unfold int_min, int_max; lia). unfold sadd. rewrite s32 by (unfold int_min, int_max; lia). cbn [bind].
  destruct (ensure_ok m v (zlen (vdata v) + 1) I) as (c & -> & Hc & _ & Hn); [rewrite p30; lia|]. cbn [bind vcap]. replace (vcap v <? c) with true by lia. auto.
Qed.
Print Assumptions C32_add_own_element_refuted.

(** removeAll/retainAll keep using the iterator they erased: undefined in ISO
    C++ as soon as one element is dropped (gcc's vector does the right thing). *)
Theorem C32_removeAll_iso : forall (E : Type) eqb (v : vector E) xs, (forall a b, eqb a b = true <-> a = b) -> (exists x, In x (vdata v) /\ In x xs) -> v_removeAll ISO eqb v xs = UB Precondition.
Proof.
  intros E eqb v xs Heq (x & X1 & X2). unfold v_removeAll.
  assert (Q : forall q p, In x q -> v_filter_loop ISO (S (length q)) (fun y => std_found eqb xs y) (p ++ q) (zlen p) = UB Precondition).
  { induction q as [|y q IH]; intros p I; [destruct I|]. cbn [length]. remember (S (length q)) as f eqn:Ef. cbn [v_filter_loop]. rewrite zlen_app, zlen_cons. pose proof (zlen_nonneg q). pose proof (zlen_nonneg p). replace (negb (zlen p =? zlen p + (zlen q + 1))) with true by lia.
    assert (raw_get (p ++ y :: q) (zlen p) = Ok y) as ->. { unfold raw_get. rewrite znth_nth by lia. unfold zlen. rewrite Nat2Z.id, nth_error_app2, Nat.sub_diag by lia. auto. }
    cbn [bind]. destruct (std_found eqb xs y) eqn:D.
    - unfold vec_erase. rewrite zlen_app, zlen_cons. replace ((0 <=? zlen p) && (zlen p <? zlen p + (zlen q + 1))) with true by lia. auto.
    - destruct I as [->|I]; [exfalso; assert (std_found eqb xs x = true); [|congruence]; apply existsb_exists; exists x; split; auto; apply Heq; auto|].
      replace (zlen p + 1) with (zlen (p ++ [y])) by (rewrite zlen_app; reflexivity). replace (p ++ y :: q) with ((p ++ [y]) ++ q) by (rewrite <- app_assoc; auto). subst f. apply (IH (p ++ [y]) I). }
  pose proof (Q (vdata v) [] X1) as Q1. cbn [app] in Q1. rewrite zlen_nil in Q1. rewrite Q1. auto.
Qed.
Print Assumptions C32_removeAll_iso.

(** equals. *)
Theorem C32_equals : forall (E : Type) eqb (v w : vector E), (forall a b, eqb a b = true <-> a = b) -> zlen (vdata v) <= int_max -> zlen (vdata w) <= int_max ->
  exists b, v_equals eqb v w = Ok b /\ (b = true <-> v_toArray v = v_toArray w).
Proof.
  intros E eqb v w Heq H1 H2. unfold int_max in *. pose proof (zlen_nonneg (vdata v)). pose proof (zlen_nonneg (vdata w)). unfold v_toArray, v_copyInto. rewrite !fold_push. cbn [app]. unfold v_equals, v_size. rewrite !w32 by (unfold int_min, int_max; lia).
  destruct (Z.eqb_spec (zlen (vdata v)) (zlen (vdata w))) as [L|L]; cbn [negb]; [|exists false; split; auto; split; [discriminate|congruence]].
  assert (Q : forall a b p q, zlen p = zlen q -> zlen a = zlen b -> exists r, v_equals_loop eqb (S (length a)) (p ++ a) (q ++ b) (zlen p) (zlen (p ++ a)) = Ok r /\ (r = true <-> a = b)).
  { induction a as [|x a IH]; intros b p q P L1; cbn [length]; [cbn [v_equals_loop]|remember (S (length a)) as f eqn:Ef; cbn [v_equals_loop]].
    - rewrite app_nil_r. rewrite Z.ltb_irrefl. exists true. split; auto. destruct b; [tauto|]. rewrite zlen_cons in L1. pose proof (zlen_nonneg b). cbn in L1. lia.
    - destruct b as [|y b]; [rewrite zlen_cons in L1; pose proof (zlen_nonneg a); cbn in L1; lia|]. rewrite !zlen_cons in L1. rewrite zlen_app, zlen_cons. pose proof (zlen_nonneg a). pose proof (zlen_nonneg p). replace (zlen p <? zlen p + (zlen a + 1)) with true by lia.
      assert (forall (p a : list E) x, raw_get (p ++ x :: a) (zlen p) = Ok x) as RG. { clear. intros. unfold raw_get. rewrite znth_nth by apply zlen_nonneg. unfold zlen. rewrite Nat2Z.id, nth_error_app2, Nat.sub_diag by lia. auto. }
      rewrite RG. cbn [bind]. rewrite P, RG. cbn [bind]. destruct (eqb x y) eqn:Q; cbn [negb].
      + apply Heq in Q. subst. destruct (IH b (p ++ [y]) (q ++ [y])) as (r & R1 & R2); [rewrite !zlen_app; lia|lia|]. rewrite <- !app_assoc in R1. cbn [app] in R1. rewrite !zlen_app, zlen_cons in R1. change (zlen [y]) with 1 in R1.
        rewrite P in R1. rewrite zlen_cons in *. exists r. split; [exact R1|]. rewrite R2. split; congruence.
      + exists false. split; auto. split; [discriminate|]. intros EQ. injection EQ as -> _. rewrite (proj2 (Heq y y) eq_refl) in Q. discriminate. }
  destruct (Q (vdata v) (vdata w) [] [] eq_refl L) as (r & R1 & R2). cbn [app] in R1. rewrite zlen_nil in R1. exists r. auto.
Qed.
Print Assumptions C32_equals.

Example C32_example :
  (forall a b, Z.eqb a b = true <-> a = b) /\
  v_run HW Z.eqb 0 (mkV Z [] 10 (Some 0)) [LAdd 5; LAdd 7; LAddAt 1 6; LSet 0 4; LRemoveAt 2; LAdd 4; LIndexOf 4; LLastIndexOf 4; LGet 9; LRemoveAll [6]; LSetSize 4; LRemoveRange 1 3; LSize]
  = Ok (mkV Z [4; 0] 10 (Some 0), [Bool true; Bool true; Unit; Elem 5; Elem 7; Bool true; Int 0; Int 2; Bad; Bool true; Unit; Unit; Int 2]) /\
  vinv (mkV Z [1; 2] 2 (Some 0)) /\ v_add_own HW (mkV Z [1; 2] 2 (Some 0)) 0 = UB UseAfterFree.
Proof. split; [exact Z.eqb_eq|]. split; [vm_compute; auto|]. split; [|reflexivity]. split; [rewrite p30; cbn; lia|]. split; [unfold int_max; cbn; lia|]. exists 0. unfold int_min. rewrite p30. cbn. split; auto; lia. Qed.
