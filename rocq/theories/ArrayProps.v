(** C87: Array. *)

From Coq Require Import ZArith List Lia Bool.
From Verif Require Import Base Bits TextLemmas StdVector ArrayModel ArraySpec.
Import ListNotations.
Open Scope Z_scope.

Section A.
Context {E : Type}.
Variables (dv : E) (max_size : Z).
Implicit Types (a : Array E) (l : list E).

Lemma fold_push (k : list E) : forall l, fold_left (fun v e => v ++ [e]) k l = l ++ k.
Proof. induction k as [|e k IH]; intros l; cbn [fold_left]; [rewrite app_nil_r; reflexivity|]. rewrite IH, <- app_assoc. reflexivity. Qed.
Lemma len31 (l : list E) : zlen l < 2 ^ 31 -> wrap 32 (zlen l) = zlen l.
Proof. intros H. apply wrap_id; [lia|]. unfold in_s, smin, smax. change (2 ^ (32 - 1)) with (2 ^ 31). pose proof (zlen_nonneg l). lia. Qed.
Lemma sized_holds l : zlen l < 2 ^ 31 -> holds E (sized E l) l.
Proof. intros H. split; [reflexivity|]. cbn. apply len31. exact H. Qed.
Lemma upd_put (l : list E) i e : (i < List.length l)%nat -> upd l i e = firstn i l ++ e :: skipn (S i) l.
Proof. revert i. induction l as [|x l IH]; intros [|i] H; cbn [List.length] in H; try lia; cbn; [reflexivity|]. rewrite IH by lia. reflexivity. Qed.
Lemma put_zlen l i e : (i < List.length l)%nat -> zlen (firstn i l ++ e :: skipn (S i) l) = zlen l.
Proof. intros R. rewrite <- upd_put by exact R. unfold zlen. rewrite upd_length. reflexivity. Qed.
Lemma set_ok a l i e : holds E a l -> match put E l i e with Some k => exists b, set E a i e = Ok b /\ holds E b k | None => set E a i e = Throw OutOfRange end.
Proof.
  intros (<- & L). unfold put, set, at_set. destruct ((0 <=? i) && (i <? zlen (original E a))) eqn:R.
  - destruct (znth_ex (original E a) i ltac:(lia)) as (x & X). rewrite X. cbn [bind]. eexists. split; [reflexivity|]. split; cbn [original length].
    + unfold zupd. destruct (Z.leb_spec 0 i); [|lia]. apply upd_put. unfold zlen in R. lia.
    + rewrite L. symmetry. apply put_zlen. unfold zlen in R. lia.
  - rewrite (proj2 (znth_None _ _)); [reflexivity|]. pose proof (zlen_nonneg (original E a)). lia.
Qed.
Lemma put_len l i e k : put E l i e = Some k -> zlen k = zlen l.
Proof.
  unfold put. destruct ((0 <=? i) && (i <? zlen l)) eqn:R; [|discriminate]. intros H. assert (K : k = firstn (Z.to_nat i) l ++ e :: skipn (S (Z.to_nat i)) l) by congruence. rewrite K. apply put_zlen. unfold zlen in R. lia.
Qed.
Lemma run_ok p : forall a l, holds E a l -> zlen l + added E p < 2 ^ 31 ->
  match meaning E p l with Some k => exists b, run E p a = Ok b /\ holds E b k | None => run E p a = Throw OutOfRange end.
Proof.
  assert (NN : forall p, 0 <= added E p) by (induction p0 as [|[]]; cbn [added]; try lia; pose proof (zlen_nonneg l); lia).
  induction p as [|o p IH]; intros a l H B; [exists a; split; [reflexivity|exact H]|]. pose proof (NN p) as Np. cbn [added meaning run do] in *. destruct o as [e|k|i e]; cbn [do bind].
  - apply IH; [|rewrite zlen_app; cbn; unfold zlen in *; cbn; lia]. destruct H as (<- & L). apply sized_holds. rewrite zlen_app. unfold zlen in *. cbn [List.length]. lia.
  - apply IH; [|rewrite zlen_app; lia]. destruct H as (<- & L). unfold append. rewrite fold_push. apply sized_holds. rewrite zlen_app. lia.
  - pose proof (set_ok a l i e H) as G. destruct (put E l i e) as [k|] eqn:P; [|rewrite G; reflexivity]. destruct G as (b & G1 & G2). rewrite G1. cbn [bind]. apply IH; [exact G2|]. apply put_len in P. lia.
Qed.
Lemma until_ok p : forall l v, until_null E (map Some l ++ None :: p) v = Ok (v ++ l).
Proof. induction l as [|e l IH]; intros v; cbn; [rewrite app_nil_r; reflexivity|]. rewrite IH, <- app_assoc. reflexivity. Qed.
Lemma iterate_ok a l : holds E a l -> forall n k, (n <= List.length l)%nat -> (S n <= k)%nat -> iterate E k a (zlen l - Z.of_nat n) (firstn (List.length l - n) l) = Ok l.
Proof.
  intros (O & L). induction n as [|n IH]; intros k N K; (destruct k as [|k]; [lia|]); cbn [iterate]; rewrite L.
  - replace (zlen l - Z.of_nat 0) with (zlen l) by lia. rewrite Z.eqb_refl, Nat.sub_0_r, firstn_all. reflexivity.
  - destruct (Z.eqb_spec (zlen l - Z.of_nat (S n)) (zlen l)); [lia|]. unfold get, at_. rewrite O. destruct (znth_ex l (zlen l - Z.of_nat (S n))) as (x & X); [unfold zlen; lia|]. rewrite X. cbn [bind].
    replace (firstn (List.length l - S n) l ++ [x]) with (firstn (List.length l - n) l).
    + replace (zlen l - Z.of_nat (S n) + 1) with (zlen l - Z.of_nat n) by lia. apply IH; lia.
    + replace (List.length l - n)%nat with (S (List.length l - S n)) by lia.
      assert (NE : nth_error l (List.length l - S n) = Some x). { rewrite <- X. rewrite znth_nth by (unfold zlen; lia). f_equal. unfold zlen. lia. }
      clear -NE. revert NE. generalize (List.length l - S n)%nat as i. induction l as [|y l IHl]; intros [|i] NE; cbn in *; try discriminate; [injection NE as ->; reflexivity|]. rewrite IHl by exact NE. reflexivity.
Qed.
End A.

(** Every constructor gives an array holding the given elements... *)
Theorem C87_constructors : forall E (dv : E) max_size (l : list E) p n, zlen l < 2 ^ 31 -> 0 <= n <= max_size -> n < 2 ^ 31 ->
  holds E (new E) [] /\ holds E (of_list E l) l /\ (exists a, of_pointers E (map Some l ++ None :: p) = Ok a /\ holds E a l) /\
  exists a, of_size E dv max_size n = Ok a /\ holds E a (repeat dv (Z.to_nat n)).
Proof.
  intros E dv ms l p n L N N'. split; [split; reflexivity|]. split; [unfold of_list; rewrite fold_push; apply sized_holds; exact L|]. split.
  - unfold of_pointers. rewrite until_ok. cbn [bind List.app]. eexists. split; [reflexivity|]. apply sized_holds. exact L.
  - unfold of_size. destruct (Z.ltb_spec n 0); [lia|]. destruct (Z.ltb_spec ms n); [lia|]. cbn [orb]. eexists. split; [reflexivity|]. unfold vec_resize. cbn [List.length]. rewrite firstn_nil, Nat.sub_0_r. split; [reflexivity|]. cbn [length]. unfold zlen. rewrite repeat_length, Z2Nat.id by lia.
    apply wrap_id; [lia|]. unfold in_s, smin, smax. change (2 ^ (32 - 1)) with (2 ^ 31). lia.
Qed.
Print Assumptions C87_constructors.
(** ...and every program on it behaves like the program on the list, throwing
    exactly when an assignment is outside the bounds. *)
Theorem C87_refines_list : forall E (a : Array E) l p, holds E a l -> zlen l + added E p < 2 ^ 31 ->
  match meaning E p l with Some k => exists b, run E p a = Ok b /\ holds E b k | None => run E p a = Throw OutOfRange end.
Proof. intros. apply run_ok; assumption. Qed.
Print Assumptions C87_refines_list.
(** Reading: the element at the index, or std::out_of_range. *)
Theorem C87_get : forall E (a : Array E) l i, holds E a l -> (forall e, znth l i = Some e -> get E a i = Ok e) /\ (i < 0 \/ length E a <= i -> get E a i = Throw OutOfRange) /\ (0 <= i < length E a -> exists e, get E a i = Ok e).
Proof.
  intros E a l i (<- & L). unfold get, at_. split; [intros e ->; reflexivity|]. split.
  - intros H. rewrite (proj2 (znth_None _ _)); [reflexivity|]. lia.
  - intros H. destruct (znth_ex (original E a) i ltac:(lia)) as (x & ->). eauto.
Qed.
Print Assumptions C87_get.
(** A loop over the array visits every element once, in order. *)
Theorem C87_iteration : forall E (a : Array E) l, holds E a l -> for_each E a = Ok l.
Proof.
  intros E a l H. unfold for_each. pose proof (iterate_ok a l H (List.length l) (S (S (List.length (original E a))))) as P. rewrite Nat.sub_diag in P. cbn [firstn] in P.
  replace (zlen l - Z.of_nat (List.length l)) with 0 in P by (unfold zlen; lia). apply P; [lia|]. destruct H as (-> & _). lia.
Qed.
Print Assumptions C87_iteration.
Example C87_ex : exists a, run Z [Push Z 7; Append Z [8; 9]; Set_ Z 1 5] (of_list Z [1; 2]) = Ok a /\ for_each Z a = Ok [1; 5; 7; 8; 9] /\ length Z a = 5.
Proof. eexists. split; [vm_compute; reflexivity|]. split; reflexivity. Qed.
(** Negative sizes throw.  Java throws NegativeArraySizeException. *)
Theorem C87_negative_size : forall E (dv : E) max_size n, n < 0 -> of_size E dv max_size n = Throw BadAlloc.
Proof. intros E dv ms n N. unfold of_size. destruct (Z.ltb_spec n 0); [reflexivity|lia]. Qed.
Print Assumptions C87_negative_size.
Lemma no_length E (a : Array E) : length E a = 0 -> for_each E a = Ok [].
Proof. intros H. unfold for_each. cbn [iterate]. rewrite H. reflexivity. Qed.
(** The constructor takes a long, but [length] is an int: from 2^31 elements
    on the array misstates its length, so 2^32 elements look like none. *)
Theorem C87_large_size_refuted : forall E (dv : E) max_size n, 2 ^ 31 <= n <= max_size -> exists a, of_size E dv max_size n = Ok a /\ zlen (original E a) = n /\ length E a <> n /\ length E a < 2 ^ 31 /\
  (n = 2 ^ 32 -> for_each E a = Ok []).
Proof.
  intros E dv ms n N. unfold of_size. destruct (Z.ltb_spec n 0); [lia|]. destruct (Z.ltb_spec ms n); [lia|]. cbn [orb]. eexists. split; [reflexivity|]. cbn [original length].
  pose proof (wrap_range 32 n ltac:(lia)) as R. unfold in_s, smin, smax in R. change (2 ^ (32 - 1)) with (2 ^ 31) in R. split.
  - unfold vec_resize, zlen. cbn [List.length]. rewrite firstn_nil, Nat.sub_0_r, app_nil_l, repeat_length, Z2Nat.id by lia. reflexivity.
  - split; [lia|]. split; [lia|]. intros W. apply no_length. cbn [length]. rewrite W. reflexivity.
Qed.
Print Assumptions C87_large_size_refuted.
