(** Property theorems C31: java.util.ArrayList. The state is the list itself,
    so a theorem for every list covers every history. *)

From Coq Require Import ZArith List Lia Bool.
From Verif Require Import Base Bits TextLemmas StdVector ListSpec ArrayListModel ListProofs.
Import ListNotations.
Open Scope Z_scope.

Definition decides {E} (eqb : E -> E -> bool) : Prop := forall a b, eqb a b = true <-> a = b.

(** Construction from elements, add, clear, clone, size, isEmpty. *)
Theorem C31_add : forall (E : Type) (E_dec : forall a b : E, {a = b} + {a <> b}) (dv : E) l x l' b, al_add l x = (l', b) -> lstep E_dec dv l (LAdd x) l' (Bool b).
Proof. intros E E_dec dv l x l' b H. unfold al_add in H. injection H as <- <-. cbn. auto. Qed.
Print Assumptions C31_add.

Theorem C31_build : forall (E : Type) (l : list E), al_of l = l /\ al_clone l = l /\ al_clear l = [] /\ al_size l = zlen l /\ (al_isEmpty l = true <-> l = []).
Proof.
  intros E l. unfold al_of. rewrite fold_push. repeat split; auto; unfold al_isEmpty.
  - destruct l; auto. rewrite zlen_cons. pose proof (zlen_nonneg l). lia.
  - intros ->. reflexivity.
Qed.
Print Assumptions C31_build.

(** get: the element, or IndexOutOfBoundsException for every other int index. *)
Theorem C31_get : forall (E : Type) (l : list E) i,
  (0 <= i < zlen l -> exists x, znth l i = Some x /\ al_get l i = Ok x) /\ (~ 0 <= i < zlen l -> al_get l i = Throw IndexOutOfBoundsException).
Proof.
  intros E l i. split; intros H.
  - destruct (al_get_rd l i H) as (y & E1 & E2). eauto.
  - unfold al_get, al_size. replace ((i <? 0) || (i >=? zlen l)) with true by lia. auto.
Qed.
Print Assumptions C31_get.

(** remove(index). *)
Theorem C31_removeAt : forall (E : Type) (l : list E) i,
  (0 <= i < zlen l -> exists x, znth l i = Some x /\ al_removeAt l i = Ok (delete_at i l, x)) /\ (~ 0 <= i < zlen l -> al_removeAt l i = Throw IndexOutOfBoundsException).
Proof.
  intros E l i. unfold al_removeAt. split; intros H.
  - destruct (al_get_rd l i H) as (y & E1 & E2). exists y. split; auto. rewrite E1. unfold al_size. replace ((i <? 0) || (i >=? zlen l)) with false by lia. cbn [bind].
    unfold vec_erase. replace ((0 <=? i) && (i <? zlen l)) with true by lia. reflexivity.
  - unfold al_size. replace ((i <? 0) || (i >=? zlen l)) with true by lia. auto.
Qed.
Print Assumptions C31_removeAt.

(** indexOf, lastIndexOf, contains, remove(element). *)
Theorem C31_search : forall (E : Type) (E_dec : forall a b : E, {a = b} + {a <> b}) (dv : E) eqb (l : list E) x, decides eqb -> zlen l <= int_max ->
  (exists i, al_indexOf eqb l x = Ok i /\ lstep E_dec dv l (LIndexOf x) l (Int i)) /\
  (exists i, al_lastIndexOf eqb l x = Ok i /\ lstep E_dec dv l (LLastIndexOf x) l (Int i)) /\
  (exists b, al_contains eqb HW l x = Ok b /\ lstep E_dec dv l (LContains x) l (Bool b)) /\
  (exists l' b, al_remove eqb l x = Ok (l', b) /\ lstep E_dec dv l (LRemove x) l' (Bool b)).
Proof.
  intros E E_dec dv eqb l x D H. unfold int_max in H.
  destruct (find_up_ok eqb D (al_get l) l x (zlen l) (al_get_rd l) (S (length l)) 0) as (i & E1 & F); [pose proof (zlen_nonneg l); lia|unfold zlen; lia|].
  assert (F1 : first_pos (valid l) x l i) by (eapply first_pos_ext; [|exact F]; unfold valid; intros; lia).
  repeat split.
  - exists i. split; auto. cbn. split; auto. exists i. auto.
  - destruct (find_down_ok eqb D (al_get l) l x (zlen l) (al_get_rd l) (S (length l)) (zlen l - 1)) as (j & E2 & G); [lia|pose proof (zlen_nonneg l); lia|unfold zlen; lia|].
    exists j. split.
    + unfold al_lastIndexOf, al_size. rewrite wrap_id; auto; [lia|]. unfold in_s, smin, smax. change (2 ^ (32 - 1)) with 2147483648. pose proof (zlen_nonneg l). lia.
    + cbn. split; auto. exists j. split; auto. eapply last_pos_ext; [|exact G]. unfold valid. intros; lia.
  - exists (memb E_dec x l). cbn. split; auto. now rewrite (memb_existsb eqb D E_dec).
  - unfold al_remove, al_indexOf, al_size. rewrite E1. cbn [bind]. destruct (i =? -1) eqn:Q.
    + exists l, false. split; auto. cbn. exists i. rewrite Q. auto.
    + destruct F1 as [(G1 & G2 & G3)|(G1 & G2)]; [|lia]. destruct (proj1 (C31_removeAt E l i) G2) as (y & Y1 & Y2). rewrite Y2. cbn [bind]. exists (delete_at i l), true. split; auto.
      cbn. exists i. rewrite Q. split; [left|]; auto.
Qed.
Print Assumptions C31_search.

(** In ISO C++ iterating over the list through begin()/end(), as contains and
    toArray do, evaluates vector::operator[] out of range. *)
Theorem C31_iteration_iso : forall (E : Type) eqb (l : list E) x, al_contains eqb ISO l x = UB OutOfBounds /\ al_toArray ISO l = UB OutOfBounds /\ al_toArray HW l = Ok l.
Proof. intros. cbn. repeat split; auto. now rewrite fold_push. Qed.
Print Assumptions C31_iteration_iso.

(** set stores the element and raises for a bad index... *)
Theorem C31_set_partial : forall (E : Type) (l : list E) i x,
  (0 <= i < zlen l -> exists r, al_set l i x = Ok (replace_at i x l, r)) /\ (~ 0 <= i < zlen l -> al_set l i x = Throw IndexOutOfBoundsException).
Proof.
  intros E l i x. unfold al_set, al_size. split; intros H.
  - replace ((i <? 0) || (i >=? zlen l)) with false by lia. unfold raw_set. destruct (znth_ex l i H) as (y & Y). rewrite Y. cbn [bind]. unfold raw_get.
    rewrite znth_zupd by lia. rewrite Z.eqb_refl. cbn [bind]. exists x. rewrite zupd_split by auto. reflexivity.
  - replace ((i <? 0) || (i >=? zlen l)) with true by lia. auto.
Qed.
Print Assumptions C31_set_partial.

(** ... but it returns the new element, not the previous one. *)
Theorem C31_set_returns_old_refuted : forall (E : Type) (l : list E) i x, 0 <= i < zlen l -> al_set l i x = Ok (replace_at i x l, x).
Proof.
  intros E l i x H. unfold al_set, al_size. replace ((i <? 0) || (i >=? zlen l)) with false by lia. unfold raw_set. destruct (znth_ex l i H) as (y & Y). rewrite Y. cbn [bind]. unfold raw_get.
  rewrite znth_zupd by lia. rewrite Z.eqb_refl. cbn [bind]. rewrite zupd_split by auto. reflexivity.
Qed.
Print Assumptions C31_set_returns_old_refuted.

(** add(index, x) inserts for an index inside a non-empty list, and at 0 in the empty one. *)
Theorem C31_addAt_partial : forall (E : Type) (l : list E) i x, zlen l <= int_max -> (0 <= i < zlen l \/ (i = 0 /\ l = [])) -> al_addAt l i x = Ok (insert_at i [x] l).
Proof.
  intros E l i x S H. unfold int_max in S. unfold al_addAt, vec_insert, insert_at, uwrap. pose proof (zlen_nonneg l).
  destruct H as [H|(-> & ->)]; [|reflexivity].
  rewrite !Z.mod_small by (change (2 ^ 64) with 18446744073709551616; lia). replace ((i <? 0) || (i >? zlen l - 1)) with false by lia. replace ((0 <=? i) && (i <=? zlen l)) with true by lia. auto.
Qed.
Print Assumptions C31_addAt_partial.

(** Adding at the end is silently ignored, and so is every index out of range (no exception)... *)
Theorem C31_addAt_end_refuted : forall (E : Type) (l : list E) i x, l <> [] -> zlen l <= int_max -> int_min <= i <= int_max -> (i < 0 \/ zlen l <= i) ->
  al_addAt l i x = Ok l.
Proof.
  intros E l i x N S I H. unfold al_addAt, uwrap. destruct (Z.ltb_spec i 0); auto. cbn [orb].
  assert (0 < zlen l) by (destruct l; [congruence|]; rewrite zlen_cons; pose proof (zlen_nonneg l); lia). unfold int_max in *.
  rewrite !Z.mod_small by (change (2 ^ 64) with 18446744073709551616; lia). replace (i >? zlen l - 1) with true by lia. auto.
Qed.
Print Assumptions C31_addAt_end_refuted.

(** ... while on the empty list every positive index makes the vector insert out of bounds. *)
Theorem C31_addAt_empty_refuted : forall (E : Type) i (x : E), 0 < i <= int_max -> al_addAt [] i x = UB OutOfBounds.
Proof.
  intros E i x H. unfold int_max in H. unfold al_addAt. change (zlen (@nil E) - 1) with (-1). change (uwrap 64 (-1)) with 18446744073709551615. unfold uwrap. rewrite Z.mod_small by (change (2 ^ 64) with 18446744073709551616; lia).
  replace ((i <? 0) || (i >? 18446744073709551615)) with false by lia. unfold vec_insert. change (zlen (@nil E)) with 0. replace ((0 <=? i) && (i <=? 0)) with false by lia. auto.
Qed.
Print Assumptions C31_addAt_empty_refuted.

(** ArrayList(n) has n elements (not an empty list of capacity n). *)
Theorem C31_capacity_constructor_refuted : forall (E : Type) (dv : E) n, 0 <= n -> al_new dv n = Ok (repeat dv (Z.to_nat n)) /\ (forall l, al_new dv n = Ok l -> al_size l = n).
Proof.
  intros E dv n H. unfold al_new, vec_resize. replace (n <? 0) with false by lia. rewrite firstn_nil. cbn [app length]. rewrite Nat.sub_0_r. split; auto.
  intros l L. injection L as <-. unfold al_size, zlen. rewrite repeat_length. lia.
Qed.
Print Assumptions C31_capacity_constructor_refuted.

(** removeRange (protected) on a valid range. *)
Theorem C31_removeRange : forall (E : Type) (l : list E) i j, 0 <= i <= j -> j <= zlen l -> al_removeRange l i j = Ok (cut i j l).
Proof. intros E l i j H1 H2. unfold al_removeRange, vec_erase_range. replace ((0 <=? i) && (i <=? j) && (j <=? zlen l)) with true by lia. reflexivity. Qed.
Print Assumptions C31_removeRange.

Example C31_example : decides Z.eqb /\ al_indexOf Z.eqb [4; 5; 4] 4 = Ok 0 /\ al_lastIndexOf Z.eqb [4; 5; 4] 4 = Ok 2 /\ al_indexOf Z.eqb [4; 5; 4] 9 = Ok (-1) /\
  al_remove Z.eqb [4; 5; 4] 4 = Ok ([5; 4], true) /\ al_addAt [4; 5; 4] 1 7 = Ok [4; 7; 5; 4] /\ al_addAt [4; 5; 4] 3 7 = Ok [4; 5; 4] /\
  al_set [4; 5; 6] 1 8 = Ok ([4; 8; 6], 8) /\ al_get [4] 1 = Throw IndexOutOfBoundsException /\ al_addAt [] 1 3 = UB OutOfBounds.
Proof. split; [exact Z.eqb_eq|vm_compute; auto 20]. Qed.
