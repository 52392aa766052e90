(** Property theorems C26-C28, C65: java.util.Arrays. *)

From Coq Require Import ZArith List Lia Bool Permutation.
From Verif Require Import Base Bits TextLemmas ArraysModel ArraysSpec ArraysProofs ArraysProofs2.
Import ListNotations.
Open Scope Z_scope.

(** ** C26: sort *)

(** The whole array, C array or Array<Type>, any element type with a total preorder. *)
Theorem C26_sort : forall (A : Type) m raw (lt : A -> A -> bool) a, total_order lt -> zlen a <= 2 ^ 30 ->
  exists a', sort m raw lt a (zlen a) = Ok a' /\ Permutation a a' /\ sorted_range lt a' 0 (zlen a - 1).
Proof. intros A m raw lt a T H. destruct (sortOrigin_ok m raw lt T a 0 (zlen a - 1) ltac:(lia) ltac:(lia) H) as (a' & E & (P & _) & S). exists a'. auto. Qed.
Print Assumptions C26_sort.

(** A closed range: sorted, a permutation, and nothing outside the range changes. *)
Theorem C26_sort_range : forall (A : Type) m raw (lt : A -> A -> bool) a from to, total_order lt -> zlen a <= 2 ^ 30 -> 0 <= from -> to < zlen a ->
  exists a', sortByIndex m raw lt a from to = Ok a' /\ Permutation a a' /\ sorted_range lt a' from to /\
  forall p, p < from \/ to < p -> znth a' p = znth a p.
Proof.
  intros A m raw lt a from to T H H1 H2. destruct (sortOrigin_ok m raw lt T a from to H1 H2 H) as (a' & E & (P & L & O & _) & S). exists a'. split; auto. split; auto. split; auto.
  intros p Hp. apply O. lia.
Qed.
Print Assumptions C26_sort_range.

(** Beyond 2^30 elements the midpoint [(i + j) / 2] of a range can overflow:
    such a range is not sorted but raises out_of_range (Array), or is undefined. *)
Theorem C26_midpoint_overflow : forall (A : Type) (lt : A -> A -> bool) a from to, 0 <= from < to -> to < zlen a -> zlen a <= int_max -> int_max < from + to ->
  sortByIndex HW false lt a from to = Throw OutOfRange /\ sortByIndex HW true lt a from to = UB OutOfBounds /\ sortByIndex ISO false lt a from to = UB SignedOverflow.
Proof.
  intros A lt a from to H1 H2 H3 H4. unfold sortByIndex, sortOrigin. destruct (2 * length a + 2)%nat eqn:Q; [lia|]. cbn [sort_loop]. replace (from <? to) with true by lia.
  unfold sadd. rewrite !sres_HW by lia. rewrite sres_ISO_ub by (unfold in_s, smin, smax, int_max in *; change (2 ^ (32 - 1)) with 2147483648; lia). cbn [bind].
  assert (N : Z.quot (wrap 32 (from + to)) 2 < 0).
  { assert (W : wrap 32 (from + to) <= -2) by (unfold wrap, int_max in *; change (32 - 1) with 31; change (2 ^ 32) with 4294967296; change (2 ^ 31) with 2147483648; Z.to_euclidean_division_equations; lia).
    Z.to_euclidean_division_equations; lia. }
  unfold rd, raw_get, at_. assert (znth a (Z.quot (wrap 32 (from + to)) 2) = None) as -> by (apply znth_None; lia). auto.
Qed.
Print Assumptions C26_midpoint_overflow.

Lemma Zlt_total : total_order Z.ltb.
Proof. split; intros; lia. Qed.
Example C26_example : total_order Z.ltb /\ sort HW false Z.ltb [5; 3; 9; 3; -1; 7; 0] 7 = Ok [-1; 0; 3; 3; 5; 7; 9] /\
  sortByIndex HW true Z.ltb [9; 8; 7; 6; 5; 4] 1 3 = Ok [9; 6; 7; 8; 5; 4] /\ sort HW false Z.ltb [] 0 = Ok [].
Proof. split; [apply Zlt_total|vm_compute; auto]. Qed.

(** ** C27: binarySearch *)

(** Whatever the array contains, a non-negative result is an index in the range at which the key is stored, and no cell outside is read. *)
Theorem C27_result_holds_key : forall (A : Type) m raw (lt eqb : A -> A -> bool) a from to key, zlen a <= 2 ^ 30 -> to < zlen a ->
  exists i, binarySearchByIndex m raw lt eqb a from to key = Ok i /\ (i = -1 \/ (from <= i <= to /\ exists x, znth a i = Some x /\ eqb x key = true)).
Proof.
  intros A m raw lt eqb a from to key Hz Ht. unfold binarySearchByIndex, searchOrigin. destruct (_ || _) eqn:E; [exists (-1); auto|].
  apply search_sound; try lia. unfold zlen in *. lia.
Qed.
Print Assumptions C27_result_holds_key.

(** On sorted ranges of 4, 8, 16, ... elements the search is right: the first occurrence, or -1 if there is none. *)
Theorem C27_power_of_two_partial : forall (A : Type) m raw (lt eqb : A -> A -> bool) a from to key k, total_order lt ->
  (forall x y, eqb x y = true <-> lt x y = false /\ lt y x = false) -> zlen a <= 2 ^ 30 -> 0 <= from -> to < zlen a -> sorted_range lt a from to ->
  (2 <= k)%nat -> to - from + 1 = 2 ^ Z.of_nat k ->
  (exists i x, binarySearchByIndex m raw lt eqb a from to key = Ok i /\ from <= i <= to /\ znth a i = Some x /\ eqb x key = true /\
     forall p y, from <= p < i -> znth a p = Some y -> eqb y key = false) \/
  (binarySearchByIndex m raw lt eqb a from to key = Ok (-1) /\ forall p x, from <= p <= to -> znth a p = Some x -> eqb x key = false).
Proof.
  intros A m raw lt eqb a from to key k T E Hz Hf Ht S Hk Hd. unfold binarySearchByIndex, searchOrigin.
  assert (Z.of_nat k < 2 ^ Z.of_nat k) by (apply Z.pow_gt_lin_r; lia). replace (_ || _) with false by lia.
  destruct (search_pow2 m raw lt eqb T E a key Hz k (Datatypes.S (length a)) from to Hk Hd Hf Ht) as [(i & (F1 & (x & F2 & F3) & F4) & ->)|(N & ->)]; auto.
  { unfold zlen in *. lia. }
  left. exists i, x. repeat split; auto; try lia. intros p y Hp Ey. specialize (F4 p y Hp Ey). destruct (eqb y key) eqn:Q; auto. apply E in Q. destruct Q. congruence.
Qed.
Print Assumptions C27_power_of_two_partial.

(** For every other length, every strictly increasing array contains a key that is reported absent. *)
Theorem C27_misses_present_key_refuted : forall (A : Type) m raw (lt eqb : A -> A -> bool) a, total_order lt -> 1 <= zlen a <= 2 ^ 30 ->
  (forall p q x y, 0 <= p -> p < q -> q < zlen a -> znth a p = Some x -> znth a q = Some y -> lt x y = true) ->
  (forall k, (2 <= k)%nat -> zlen a <> 2 ^ Z.of_nat k) ->
  exists p key, znth a p = Some key /\ binarySearchByKey m raw lt eqb a key (zlen a) = Ok (-1).
Proof.
  intros A m raw lt eqb a T Hz S B. unfold binarySearchByKey, searchOrigin. replace (_ || _) with false by lia.
  destruct (Z.eq_dec (zlen a) 2) as [E2|E2].
  - destruct (znth_ex a 0 ltac:(lia)) as (x & Ex). exists 0, x. split; auto. rewrite E2. cbn [search_loop]. change (0 <? 2 - 1) with true. cbv iota.
    replace (sadd m 32 0 (2 - 1)) with (Ok 1) by (destruct m; reflexivity). cbn [bind]. change (Z.quot 1 2) with 0. rewrite (rd_ok _ _ _ _ Ex). cbn [bind].
    assert (lt x x = false) as -> by (destruct (lt x x) eqn:L; auto; rewrite (proj1 T _ _ L) in L; auto). change (0 =? 0 - 1) with false. cbv iota.
    destruct (length a) eqn:Q; [unfold zlen in E2; lia|]. cbn [search_loop]. auto.
  - destruct (search_miss m raw lt eqb T a ltac:(lia) (Datatypes.S (length a)) 0 (zlen a - 1)) as (p & key & Hp & Ep & R); try lia; eauto.
    + intros k Hk Q. destruct (Nat.eq_dec k 1) as [->|]; [cbn in Q; lia|]. apply (B k); lia.
    + unfold zlen. lia.
    + intros p q x y; intros. apply (S p q); auto; lia.
Qed.
Print Assumptions C27_misses_present_key_refuted.

(** binarySearch(array, from, to, key) ignores [from]: it may answer with an index before it. *)
Theorem C27_from_ignored_refuted : exists a from to key i, 0 <= from <= to /\ to < zlen a /\ sorted_range Z.ltb a 0 (zlen a - 1) /\
  binarySearchRange HW false Z.ltb Z.eqb a from to key = Ok i /\ 0 <= i < from.
Proof.
  exists [1; 1; 1; 1], 2, 3, 1, 0. split; [lia|]. split; [reflexivity|]. split; [|split; [vm_compute; reflexivity|lia]].
  assert (G : forall p x, znth [1; 1; 1; 1] p = Some x -> x = 1).
  { intros p x E. rewrite znth_nth in E by (apply znth_Some_lt in E; lia). apply nth_error_In in E. cbn in E. intuition. }
  intros p q x y _ _ _ E1 E2. rewrite (G _ _ E1), (G _ _ E2). reflexivity.
Qed.
Print Assumptions C27_from_ignored_refuted.

Example C27_example : binarySearchByKey HW false Z.ltb Z.eqb [1; 3; 3; 9] 3 4 = Ok 1 /\ binarySearchByKey HW false Z.ltb Z.eqb [1; 3; 3; 9] 4 4 = Ok (-1) /\
  binarySearchByKey HW false Z.ltb Z.eqb [7] 7 1 = Ok (-1) /\ binarySearchByKey HW false Z.ltb Z.eqb [1; 2; 3; 4; 5] 5 5 = Ok 4 /\ binarySearchByKey HW false Z.ltb Z.eqb [1; 2; 3; 4; 5] 3 5 = Ok (-1).
Proof. vm_compute. auto 10. Qed.

(** ** C28: copyOf, copyOfRange, fill, equals *)

Theorem C28_copyOf : forall (A : Type) (a : list A) n d, 0 <= n ->
  copyOf a n d = Ok (firstn (Z.to_nat n) a ++ repeat d (Z.to_nat (n - zlen a))).
Proof.
  intros A a n d Hn. unfold copyOf. pose proof (zlen_nonneg a). rewrite push_range_ok by (unfold zlen in *; lia). cbn [bind]. f_equal. unfold slice. rewrite Z.sub_0_r. cbn [skipn Z.to_nat app]. f_equal.
  - destruct (Z.le_ge_cases n (zlen a)); [rewrite Z.min_r by lia; auto|]. rewrite Z.min_l by lia. unfold zlen in *. rewrite Nat2Z.id, firstn_all, firstn_all2 by lia. auto.
  - f_equal. lia.
Qed.
Print Assumptions C28_copyOf.

Theorem C28_copyOfRange_partial : forall (A : Type) (a : list A) from to,
  copyOfRange a from to = Ok (if (0 <=? from) && (from <=? to) && (to <? zlen a) then slice a from to else []).
Proof.
  intros A a from to. unfold copyOfRange. replace ((0 <=? from) && (from <=? to) && (to <? zlen a)) with (negb ((from <? 0) || (to <? 0) || (to <? from) || (zlen a - 1 <? to))) by lia.
  destruct (_ || _) eqn:E; auto. cbn [negb]. rewrite push_range_ok by (unfold zlen in *; lia). auto.
Qed.
Print Assumptions C28_copyOfRange_partial.

(** A slice reaching the end of the array comes back empty. *)
Theorem C28_copyOfRange_to_end_refuted : forall (A : Type) (a : list A) from, copyOfRange a from (zlen a) = Ok [].
Proof. intros A a from. rewrite C28_copyOfRange_partial. replace (_ && (zlen a <? zlen a)) with false by lia. auto. Qed.
Print Assumptions C28_copyOfRange_to_end_refuted.

(** The converting overload does reach the end. *)
Theorem C28_copyOfRange_convert : forall (A B : Type) (conv : A -> B) (a : list A) from to, 0 <= from <= to -> to <= zlen a ->
  copyOfRangeConv conv a from to = Ok (map conv (slice a from to)).
Proof.
  intros A B conv a from to H1 H2. unfold copyOfRangeConv. destruct (_ || _) eqn:E.
  - assert (from = to) as -> by lia. unfold slice. rewrite Z.sub_diag. auto.
  - rewrite push_conv_ok by (unfold zlen in *; lia). auto.
Qed.
Print Assumptions C28_copyOfRange_convert.

Theorem C28_fill_range : forall (A : Type) (a : list A) from to v, 0 <= from <= to -> to < zlen a ->
  exists a', fillByIndex a from to v = Ok a' /\ zlen a' = zlen a /\ forall p, znth a' p = if (from <=? p) && (p <=? to) then Some v else znth a p.
Proof.
  intros A a from to v H1 H2. unfold fillByIndex. replace (_ || _) with false by lia. apply fill_loop_ok; try lia. unfold zlen in *. lia.
Qed.
Print Assumptions C28_fill_range.
Theorem C28_fill_bad_range : forall (A : Type) (a : list A) from to v, ~ (0 <= from <= to /\ to < zlen a) -> fillByIndex a from to v = Ok a.
Proof. intros A a from to v H. unfold fillByIndex. replace (_ || _) with true by lia. auto. Qed.
Print Assumptions C28_fill_bad_range.
Theorem C28_fill : forall (A : Type) (a : list A) v, fill a v = Ok (repeat v (length a)).
Proof.
  intros A a v. unfold fill. destruct (Z.eq_dec (zlen a) 0) as [E|E].
  - rewrite C28_fill_bad_range by lia. apply zlen_0 in E. subst. auto.
  - pose proof (zlen_nonneg a). destruct (C28_fill_range A a 0 (zlen a - 1) v ltac:(lia) ltac:(lia)) as (a' & -> & L & R). f_equal.
    apply znth_ext; [unfold zlen in *; rewrite repeat_length; auto|]. intros i Hi. rewrite R. replace ((0 <=? i) && (i <=? zlen a - 1)) with true by lia.
    rewrite znth_nth by lia. symmetry. apply nth_error_repeat. unfold zlen in *. lia.
Qed.
Print Assumptions C28_fill.

Theorem C28_equals : forall (A : Type) (neb : A -> A -> bool) a b, (forall x y, neb x y = false <-> x = y) ->
  exists r, equals neb a b = Ok r /\ (r = true <-> a = b).
Proof. intros. apply equals_ok; auto. Qed.
Print Assumptions C28_equals.

Example C28_example : copyOf [1; 2; 3] 5 0 = Ok [1; 2; 3; 0; 0] /\ copyOf [1; 2; 3] 2 0 = Ok [1; 2] /\ copyOfRange [1; 2; 3; 4] 1 3 = Ok [2; 3] /\
  copyOfRange [1; 2; 3; 4] 1 4 = Ok [] /\ fillByIndex [1; 2; 3; 4] 1 2 9 = Ok [1; 9; 9; 4] /\ fill [1; 2] 7 = Ok [7; 7] /\
  equals (fun x y => negb (x =? y)) [1; 2] [1; 2] = Ok true /\ equals (fun x y => negb (x =? y)) [1; 2] [1; 3] = Ok false.
Proof. vm_compute. auto 10. Qed.

(** ** C65: hashCode *)

(** The Java polynomial, reduced to int, on every non-empty array. *)
Theorem C65_hashCode_polynomial_partial : forall l, l <> [] -> hashCode HW l = Ok (wrap 32 (fold_left (fun h x => 31 * h + x) l 1)).
Proof.
  intros l N. unfold hashCode. destruct l as [|x l]; [contradiction|]. destruct (hash_int_ok (x :: l) 1) as (r & -> & R1 & R2).
  rewrite (R2 N), R1. f_equal.
Qed.
Print Assumptions C65_hashCode_polynomial_partial.
(** The empty array hashes to 0; the Java contract says 1. *)
Theorem C65_empty_refuted : forall m, hashCode m [] = Ok 0 /\ fold_left (fun h x => 31 * h + x) [] 1 = 1.
Proof. auto. Qed.
Print Assumptions C65_empty_refuted.
(** Arrays with equal contents have equal hash codes. *)
Theorem C65_equal_arrays_equal_hash : forall m a b, equals (fun x y => negb (x =? y)) a b = Ok true -> hashCode m a = hashCode m b.
Proof.
  intros m a b H. destruct (equals_ok (fun x y => negb (x =? y)) ltac:(intros x y; rewrite negb_false_iff; apply Z.eqb_eq) a b) as (r & E & R).
  rewrite E in H. injection H as ->. rewrite (proj1 R eq_refl). auto.
Qed.
Print Assumptions C65_equal_arrays_equal_hash.
Theorem C65_iso : exists l, Forall is_int l /\ hashCode ISO l = UB SignedOverflow.
Proof. exists [2147483647; 1]. split; [repeat constructor; unfold is_int, int_min, int_max; lia|]. reflexivity. Qed.
Print Assumptions C65_iso.
Example C65_example : hashCode HW [1; 2; 3] = Ok 30817 /\ hashCode HW [2147483647; -5; 77] = Ok (-2147454896).
Proof. vm_compute. auto. Qed.
