(** Lemmas on lists shared by the collection proofs, and ArrayList. *)

From Coq Require Import ZArith List Lia Bool.
From Verif Require Import Base Bits TextLemmas StdVector ListSpec ArrayListModel.
Import ListNotations.
Open Scope Z_scope.

Lemma fold_push {A} (l a : list A) : fold_left (fun r x => r ++ [x]) l a = a ++ l.
Proof. revert a. induction l as [|x l IH]; intros a; cbn; [now rewrite app_nil_r|]. rewrite IH, <- app_assoc. auto. Qed.

Lemma zlen_cut {A} (l : list A) i : 0 <= i < zlen l -> zlen (firstn (Z.to_nat i) l ++ skipn (Z.to_nat (i + 1)) l) = zlen l - 1.
Proof. intros H. unfold zlen in *. rewrite app_length, firstn_length, skipn_length. lia. Qed.

Lemma upd_split {A} (l : list A) n x : (n < length l)%nat -> upd l n x = firstn n l ++ x :: skipn (S n) l.
Proof. revert n. induction l as [|y l IH]; intros n H; [cbn in H; lia|]. destruct n; cbn; auto. f_equal. apply IH. cbn in H. lia. Qed.
Lemma zupd_split {A} (l : list A) i x : 0 <= i < zlen l -> zupd l i x = firstn (Z.to_nat i) l ++ x :: skipn (Z.to_nat (i + 1)) l.
Proof. intros H. unfold zupd, zlen in *. rewrite upd_split by lia. replace (Z.to_nat (i + 1)) with (S (Z.to_nat i)) by lia. auto. Qed.

Section S.
Context {E : Type} (eqb : E -> E -> bool) (Heq : forall a b, eqb a b = true <-> a = b).

Lemma first_pos_ext (P Q : Z -> Prop) x (l : list E) i : (forall p, P p <-> Q p) -> first_pos P x l i -> first_pos Q x l i.
Proof using. intros H [(H1 & H2 & H3)|(H1 & H2)]; [left; repeat split; auto; [now apply H|intros j ? Hj; apply H3; auto; now apply H]|right; split; auto; intros j Hj; apply H2; now apply H]. Qed.
Lemma last_pos_ext (P Q : Z -> Prop) x (l : list E) i : (forall p, P p <-> Q p) -> last_pos P x l i -> last_pos Q x l i.
Proof using. intros H [(H1 & H2 & H3)|(H1 & H2)]; [left; repeat split; auto; [now apply H|intros j ? Hj; apply H3; auto; now apply H]|right; split; auto; intros j Hj; apply H2; now apply H]. Qed.

Lemma find_up_ok rd (l : list E) x hi : (forall j, 0 <= j < hi -> exists y, rd j = Ok y /\ znth l j = Some y) -> forall fuel i, 0 <= i <= hi -> hi - i < Z.of_nat fuel ->
  exists r, find_up fuel rd eqb x i hi = Ok r /\ first_pos (fun p => i <= p < hi) x l r.
Proof using Heq.
  intros R. induction fuel as [|f IH]; intros i H1 H2; [lia|].
  - cbn [find_up]. destruct (Z.ltb_spec i hi).
    + destruct (R i) as (y & E1 & E2); [lia|]. rewrite E1. cbn [bind]. destruct (eqb y x) eqn:Q.
      * apply Heq in Q. subst. exists i. split; auto. left. repeat split; auto; try lia.
      * destruct (IH (i + 1)) as (r & E3 & F); [lia|lia|]. exists r. split; auto. assert (N : y <> x) by (intros ->; rewrite (proj2 (Heq x x) eq_refl) in Q; discriminate).
        destruct F as [(F1 & F2 & F3)|(F1 & F2)]; [left|right].
        -- repeat split; auto; try lia. intros j Hj1 Hj2. destruct (Z.eq_dec j i) as [->|]; [congruence|]. apply F3; lia.
        -- split; auto. intros j Hj. destruct (Z.eq_dec j i) as [->|]; [congruence|]. apply F2; lia.
    + exists (-1). split; auto. right. split; auto. intros j Hj. lia.
Qed.
Lemma find_down_ok rd (l : list E) x hi : (forall j, 0 <= j < hi -> exists y, rd j = Ok y /\ znth l j = Some y) -> forall fuel i, i < hi -> -1 <= i -> i + 1 < Z.of_nat fuel ->
  exists r, find_down fuel rd eqb x i = Ok r /\ last_pos (fun p => 0 <= p <= i) x l r.
Proof using Heq.
  intros R. induction fuel as [|f IH]; intros i H0 H1 H2; [lia|]. cbn [find_down]. destruct (Z.leb_spec 0 i).
  - destruct (R i) as (y & E1 & E2); [lia|]. rewrite E1. cbn [bind]. destruct (eqb y x) eqn:Q.
    + apply Heq in Q. subst. exists i. split; auto. left. repeat split; auto; try lia.
    + destruct (IH (i - 1)) as (r & E3 & F); [lia|lia|lia|]. exists r. split; auto. assert (N : y <> x) by (intros ->; rewrite (proj2 (Heq x x) eq_refl) in Q; discriminate).
      destruct F as [(F1 & F2 & F3)|(F1 & F2)]; [left|right].
      * repeat split; auto; try lia. intros j Hj1 Hj2. destruct (Z.eq_dec j i) as [->|]; [congruence|]. apply F3; lia.
      * split; auto. intros j Hj. destruct (Z.eq_dec j i) as [->|]; [congruence|]. apply F2; lia.
  - exists (-1). split; auto. right. split; auto. intros j Hj. lia.
Qed.
Lemma raw_get_rd (l : list E) j : 0 <= j < zlen l -> exists y, raw_get l j = Ok y /\ znth l j = Some y.
Proof using. intros H. destruct (znth_ex l j H) as (y & Q). exists y. unfold raw_get. rewrite Q. auto. Qed.
Lemma al_get_rd (l : list E) j : 0 <= j < zlen l -> exists y, al_get l j = Ok y /\ znth l j = Some y.
Proof using. intros H. destruct (znth_ex l j H) as (y & Q). exists y. unfold al_get, al_size, at_. rewrite Q. replace ((j <? 0) || (j >=? zlen l)) with false by lia. auto. Qed.
Lemma memb_existsb (E_dec : forall a b : E, {a = b} + {a <> b}) l x : existsb (fun y => eqb y x) l = memb E_dec x l.
Proof using Heq.
  unfold memb, eqE. induction l as [|y l IH]; cbn; auto. rewrite IH. f_equal. destruct (E_dec x y) as [->|N]; [now apply Heq|].
  destruct (eqb y x) eqn:Q; auto. apply Heq in Q. congruence.
Qed.
End S.
