(** The invariants of threads making generators. *)
From Coq Require Import ZArith List Lia Bool Arith.
From Verif Require Import Base Bits RandomSpec RandomModel RandomProofs RandomSeedModel RandomSeedSpec RandomSeedProofs.
Import ListNotations.
Open Scope Z_scope.

Lemma next_value k u : 0 <= k -> nth_value k u -> exists v, next_unique HW u = Ok v /\ nth_value (k + 1) v.
Proof.
  intros K (_ & (q & Q)). unfold next_unique, smul. rewrite sres_HW by lia. eexists. split; [reflexivity|]. split.
  - pose proof (wrap_range 64 (u * 181783497276652981) ltac:(lia)) as R. unfold in_s, smin, smax in R. change (64 - 1) with 63 in R. lia.
  - pose proof (wrap_mod 64 (u * 181783497276652981) ltac:(lia)) as M. set (w := wrap 64 _) in *.
    pose proof (Z.div_mod w (2 ^ 64) ltac:(lia)) as D1. pose proof (Z.div_mod (u * 181783497276652981) (2 ^ 64) ltac:(lia)) as D2. rewrite M in D1.
    rewrite Z.pow_add_r, Z.pow_1_r by lia. exists (w / 2 ^ 64 - u * 181783497276652981 / 2 ^ 64 + q * 181783497276652981). lia.
Qed.
Lemma nth_first : nth_value 0 FIRST.
Proof. split; [unfold FIRST; lia|]. exists 0. reflexivity. Qed.

Lemma at_same f t x : at_set f t x t = x.
Proof. unfold at_set. now rewrite Nat.eqb_refl. Qed.
Lemma at_other f t x t' : t' <> t -> at_set f t x t' = f t'.
Proof. intros N. unfold at_set. now destruct (Nat.eqb_spec t' t). Qed.

Record ok (w : world) : Prop := {
  k_field : nth_value (Z.of_nat (length (taken w))) (field w);
  k_taken : forall k x, nth_error (taken w) k = Some x -> nth_value (Z.of_nat k + 1) (snd x);
  k_seeding : forall t k u, at_ w t = Seeding k u -> nth_error (taken w) k = Some (t, u) /\ ~ In k (map (fun g : generator => fst (fst (fst g))) (made w));
  k_made : forall k u c s, In (k, u, c, s) (made w) -> s = seed_from u c /\ exists t, nth_error (taken w) k = Some (t, u);
  k_once : NoDup (map (fun g : generator => fst (fst (fst g))) (made w)) }.

Lemma nth_snoc {A} (l : list A) x k y : nth_error (l ++ [x]) k = Some y -> nth_error l k = Some y \/ (k = length l /\ y = x).
Proof.
  intros H. destruct (Nat.lt_ge_cases k (length l)) as [L|L]; [left; now rewrite nth_error_app1 in H|]. right. rewrite nth_error_app2 in H by lia.
  destruct (k - length l)%nat as [|[|]] eqn:E; cbn in H; try discriminate. injection H as <-. split; [lia|reflexivity].
Qed.
Lemma nth_keep {A} (l : list A) x k y : nth_error l k = Some y -> nth_error (l ++ [x]) k = Some y.
Proof. intros H. rewrite nth_error_app1; [exact H|]. apply nth_error_Some. congruence. Qed.
Lemma NoDup_end {A} (l : list A) k : NoDup l -> ~ In k l -> NoDup (l ++ [k]).
Proof.
  induction l as [|x l IH]; intros N I; cbn; [repeat constructor; exact (fun f => f)|].
  inversion N as [|? ? N1 N2]; subst. constructor; [|apply IH; [assumption|]; intros X; apply I; now right].
  rewrite in_app_iff. intros [X|[X|[]]]; [contradiction|]. subst. apply I. now left.
Qed.

Lemma ok_step t w w' : ok w -> step t w w' -> ok w'.
Proof.
  intros [A B C D E] S. inversion S as [P|P|c u P Q R|c P Q|k u clock P]; subst w'; clear S.
  1,2,4: (split; cbn [field taken made at_ failed]; try assumption; intros t' k u X; destruct (Nat.eq_dec t' t) as [->|N]; [rewrite at_same in X; discriminate|rewrite at_other in X by exact N; exact (C t' k u X)]).
  - destruct (next_value _ _ (Nat2Z.is_nonneg _) A) as (v & R' & V). rewrite Q, R in R'. injection R' as <-.
    split; cbn [field taken made at_ failed].
    + rewrite app_length. cbn [length]. replace (Z.of_nat (length (taken w) + 1)) with (Z.of_nat (length (taken w)) + 1) by lia. exact V.
    + intros k x X. apply nth_snoc in X as [X|[-> ->]]; [exact (B k x X)|exact V].
    + intros t' k u' X. destruct (Nat.eq_dec t' t) as [->|N].
      * rewrite at_same in X. injection X as <- <-. split; [rewrite nth_error_app2, Nat.sub_diag by lia; reflexivity|].
        intros I. apply in_map_iff in I as ([[[k0 u0] c0] s0] & K0 & I). cbn in K0. subst k0. destruct (D _ _ _ _ I) as (_ & t0 & T). assert (L : (length (taken w) < length (taken w))%nat) by (apply nth_error_Some; congruence). lia.
      * rewrite at_other in X by exact N. destruct (C t' k u' X) as [C1 C2]. split; [now apply nth_keep|exact C2].
    + intros k u' c' s' I. destruct (D _ _ _ _ I) as (D1 & t0 & D2). split; [exact D1|]. exists t0. now apply nth_keep.
    + exact E.
  - destruct (C t k u P) as [C1 C2]. split; cbn [field taken made at_ failed]; try assumption.
    + intros t' k' u' X. destruct (Nat.eq_dec t' t) as [->|N]; [rewrite at_same in X; discriminate|]. rewrite at_other in X by exact N. destruct (C t' k' u' X) as [C3 C4]. split; [exact C3|].
      rewrite map_app, in_app_iff. cbn. intros [Y|[Y|[]]]; [contradiction|]. subst k'. rewrite C1 in C3. injection C3 as Y _. now symmetry in Y.
    + intros k' u' c' s' I. apply in_app_iff in I as [I|[I|[]]]; [exact (D _ _ _ _ I)|]. injection I as <- <- <- <-. split; [reflexivity|eauto].
    + rewrite map_app. cbn. now apply NoDup_end.
Qed.
Lemma ok_reach n w : reach n w -> ok w.
Proof.
  induction 1 as [|w t w' R IH T S]; [|exact (ok_step t w w' IH S)]. split; cbn.
  - apply nth_first. - intros [|k]; discriminate. - discriminate. - intros k u c s []. - constructor.
Qed.

(** How often exchanges fail *)
Definition count (p : nat -> bool) (n : nat) : nat := length (filter p (seq 0 n)).
Lemma count_le p q n : (forall x, q x = true -> p x = true) -> (count q n <= count p n)%nat.
Proof.
  intros H. unfold count. induction (seq 0 n) as [|x l IH]; cbn; [lia|]. specialize (H x). destruct (q x); [rewrite H by reflexivity; cbn; lia|]. destruct (p x); cbn; lia.
Qed.
Lemma count_drop p q n t : (t < n)%nat -> p t = true -> q t = false -> (forall x, q x = true -> p x = true) -> (count q n + 1 <= count p n)%nat.
Proof.
  intros T P Q H. unfold count. assert (I : In t (seq 0 n)) by (apply in_seq; lia). revert I. generalize (seq 0 n) as l. induction l as [|x l IH]; intros I; [destruct I|].
  assert (LE : (length (filter q l) <= length (filter p l))%nat) by (clear - H; induction l as [|y l IH]; cbn; [lia|]; specialize (H y); destruct (q y); [rewrite H by reflexivity; cbn; lia|]; destruct (p y); cbn; lia).
  cbn. destruct I as [->|I].
  - rewrite P, Q. cbn. lia.
  - specialize (IH I). specialize (H x). destruct (q x); [rewrite H by reflexivity; cbn; lia|]. destruct (p x); cbn; lia.
Qed.
Lemma count_all n : count (fun _ => true) n = n.
Proof. unfold count. rewrite <- (seq_length n 0) at 2. generalize (seq 0 n) as l. induction l; cbn; congruence. Qed.

Definition stale (w : world) (t : nat) : bool := match at_ w t with Loaded c => negb (c =? field w) | _ => false end.
Lemma fail_bound n w : reach n w -> (failed w + count (stale w) n <= (n - 1) * length (taken w))%nat.
Proof.
  induction 1 as [|w t w' R IH T S].
  - cbn. unfold count. replace (filter (stale start) (seq 0 n)) with (@nil nat); [cbn; lia|]. symmetry. generalize (seq 0 n) as l. induction l; cbn; auto.
  - inversion S as [P|P|c u P Q U|c P Q|k u clock P]; subst w'; clear S; cbn [failed taken].
    + assert (count (stale (mkW (field w) (at_set (at_ w) t Trying) (taken w) (made w) (failed w))) n <= count (stale w) n)%nat; [|lia].
      apply count_le. intros x. unfold stale. cbn [at_ field]. unfold at_set. destruct (Nat.eqb_spec x t); [discriminate|auto].
    + assert (count (stale (mkW (field w) (at_set (at_ w) t (Loaded (field w))) (taken w) (made w) (failed w))) n <= count (stale w) n)%nat; [|lia].
      apply count_le. intros x. unfold stale. cbn [at_ field]. unfold at_set. destruct (Nat.eqb_spec x t); [rewrite Z.eqb_refl; discriminate|auto].
    + match goal with |- (_ + count ?q n <= _)%nat => assert (LE : (count q n + 1 <= n)%nat) end.
      { rewrite <- (count_all n) at 2. apply (count_drop _ _ n t T); [reflexivity| |reflexivity]. unfold stale. cbn [at_]. now rewrite at_same. }
      rewrite app_length. cbn [length]. rewrite Nat.mul_add_distr_l. lia.
    + match goal with |- (S _ + count ?q n <= _)%nat => assert (LE : (count q n + 1 <= count (stale w) n)%nat) end.
      { apply (count_drop _ _ n t T).
        - unfold stale. rewrite P. apply negb_true_iff. apply Z.eqb_neq. congruence.
        - unfold stale. cbn [at_]. now rewrite at_same.
        - intros x. unfold stale. cbn [at_ field]. unfold at_set. destruct (Nat.eqb_spec x t); [discriminate|auto]. }
      lia.
    + match goal with |- (_ + count ?q n <= _)%nat => assert (LE : (count q n <= count (stale w) n)%nat) end; [|lia].
      apply count_le. intros x. unfold stale. cbn [at_ field]. unfold at_set. destruct (Nat.eqb_spec x t); [discriminate|auto].
Qed.
