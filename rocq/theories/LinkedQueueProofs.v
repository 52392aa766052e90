(** The queue of sub-queues. *)

From Coq Require Import ZArith List Lia Bool Permutation.
From Verif Require Import Base LinkedQueueModel LinkedQueueSpec.
Import ListNotations.
Open Scope Z_scope.

Section Proofs.
Context {T : Type} (default : option T).
Implicit Types (m : mem T) (v : T).

(** *** Scanning *)
Lemma scan_spec m : forall ps n b z k r, scan m ps n b z = (k, r) -> (n = 0%nat -> b = None /\ z = 0) -> (n <> 0%nat -> exists p, b = Some p /\ 0 < len m p) ->
  (k = 0%nat -> n = 0%nat /\ forall p, In p ps -> items m p = []) /\ (k <> 0%nat -> exists p, r = Some p /\ 0 < len m p /\ (In p ps \/ b = Some p)).
Proof.
  induction ps as [|p ps IH]; intros n b z k r E B0 B1; cbn [scan] in E.
  - injection E as <- <-. split; [intros ->; split; [reflexivity|intros p []]|]. intros N. destruct (B1 N) as (p & -> & L). exists p. auto.
  - assert (LP : 0 < len m p \/ items m p = []) by (unfold len; destruct (items m p); cbn; [auto|left; lia]).
    destruct (Nat.ltb_spec n 3) as [N3|N3].
    + destruct (Z.ltb_spec 0 (len m p)) as [P|P].
      * destruct (Z.ltb_spec z (len m p)) as [Z1|Z1].
        -- destruct (IH _ _ _ _ _ E ltac:(lia) ltac:(intros _; exists p; auto)) as [I1 I2]. split; [intros K; destruct (I1 K); lia|].
           intros K. destruct (I2 K) as (q & -> & L & [I|I]); exists q; split; auto; split; auto; left; [now right|left; congruence].
        -- assert (NZ : n <> 0%nat) by (intros N; destruct (B0 N); lia).
           destruct (IH _ _ _ _ _ E ltac:(lia) ltac:(intros _; auto)) as [I1 I2]. split; [intros K; destruct (I1 K); lia|].
           intros K. destruct (I2 K) as (q & -> & L & [I|I]); exists q; split; auto; split; auto; left; now right.
      * destruct LP as [LP|LP]; [lia|]. destruct (IH _ _ _ _ _ E B0 B1) as [I1 I2]. split.
        -- intros K. destruct (I1 K) as [-> I]. split; [reflexivity|]. intros q [<-|Q]; auto.
        -- intros K. destruct (I2 K) as (q & -> & L & [I|I]); exists q; split; auto; split; auto; left; now right.
    + injection E as <- <-. split; [lia|]. intros N. destruct (B1 N) as (q & -> & L). exists q. auto.
Qed.

(** A dequeue takes the oldest element of a sub-queue, or there is none. *)
Lemma dequeue_spec m : (exists q v l, In q (prods m) /\ items m q = v :: l /\ try_dequeue m = Ok (Some (v, set_items m q l))) \/
  ((forall q, In q (prods m) -> items m q = []) /\ try_dequeue m = Ok None).
Proof.
  unfold try_dequeue. destruct (scan m (prods m) 0 None 0) as [k r] eqn:E.
  destruct (scan_spec _ _ _ _ _ _ _ E ltac:(auto) ltac:(intros N; now elim N)) as [I1 I2].
  destruct k as [|k].
  - right. split; [now destruct (I1 eq_refl)|reflexivity].
  - left. destruct (I2 ltac:(discriminate)) as (p & -> & L & [I|I]); [|discriminate]. unfold take.
    destruct (items m p) as [|v l] eqn:P; [unfold len in L; rewrite P in L; cbn in L; lia|]. now exists p, v, l.
Qed.

(** *** What is reachable *)
Definition wf m : Prop := NoDup (prods m) /\ forall u, items m u <> [] -> In u (prods m).
Definition contents m : list T := concat (map (items m) (prods m)).

Lemma wf_empty : wf empty.
Proof. split; [constructor|]. now intros u U. Qed.
Lemma listed_In m t : listed m t = true <-> In t (prods m).
Proof. unfold listed. rewrite existsb_exists. split; [intros (x & I & E); apply Nat.eqb_eq in E; now subst|]. intros I. exists t. now rewrite Nat.eqb_refl. Qed.
Lemma wf_registered m t : wf m -> wf (registered m t) /\ In t (prods (registered m t)) /\ items (registered m t) = items m.
Proof.
  intros [N I]. unfold registered. destruct (listed m t) eqn:L.
  - apply listed_In in L. now repeat split.
  - assert (X : ~ In t (prods m)) by (rewrite <- listed_In, L; discriminate). cbn. repeat split; cbn; auto. now constructor.
Qed.
Lemma wf_set m t l : wf m -> In t (prods m) -> wf (set_items m t l).
Proof. intros [N I] P. split; [exact N|]. cbn. intros u. destruct (Nat.eqb_spec u t); [now subst|auto]. Qed.
Lemma set_same m t l : items (set_items m t l) t = l.
Proof. cbn. now rewrite Nat.eqb_refl. Qed.
Lemma set_other m t l : same_but t (items m) (items (set_items m t l)).
Proof. intros u U. cbn. destruct (Nat.eqb_spec u t); [now elim U|reflexivity]. Qed.

(** *** Counting *)
Lemma contents_len m : forall ps z, 0 <= z < 2 ^ 64 -> z + Z.of_nat (length (concat (map (items m) ps))) < 2 ^ 64 ->
  fold_left (fun n q => uwrap 64 (n + len m q)) ps z = z + Z.of_nat (length (concat (map (items m) ps))).
Proof.
  induction ps as [|p ps IH]; intros z Z1 Z2; cbn in *; [lia|]. rewrite app_length in *. unfold len at 2.
  unfold uwrap at 2. rewrite Z.mod_small by lia. rewrite IH by lia. lia.
Qed.
Lemma size_contents m : Z.of_nat (length (contents m)) < 2 ^ 64 -> size_approx m = Z.of_nat (length (contents m)).
Proof. intros L. unfold size_approx. apply (contents_len m (prods m) 0); [lia|exact L]. Qed.
Lemma contents_nil m : wf m -> contents m = [] <-> all_empty (items m).
Proof.
  intros [N I]. unfold contents. split.
  - intros C u. destruct (items m u) eqn:E; [reflexivity|]. exfalso.
    assert (P : In u (prods m)) by (apply I; rewrite E; discriminate).
    assert (X : In t (concat (map (items m) (prods m)))) by (apply in_concat; exists (items m u); split; [now apply in_map|rewrite E; now left]).
    rewrite C in X. exact X.
  - intros A. clear N I. induction (prods m) as [|p ps IH]; [reflexivity|]. cbn. now rewrite (A p), IH.
Qed.
Lemma contents_set m q l v : NoDup (prods m) -> In q (prods m) -> items m q = v :: l -> Permutation (contents m) (v :: contents (set_items m q l)).
Proof.
  unfold contents. intros N I E. cbn [prods set_items].
  assert (X : forall ps, NoDup ps -> (In q ps -> Permutation (concat (map (items m) ps)) (v :: concat (map (items (set_items m q l)) ps))) /\ (~ In q ps -> map (items (set_items m q l)) ps = map (items m) ps)).
  { induction 1 as [|p ps P NP [J1 J2]]; [split; [intros []|reflexivity]|]. split.
    - intros [->|Q]; cbn [map concat].
      + rewrite E, (J2 P), set_same. reflexivity.
      + rewrite (set_other m q l p) by (intros ->; contradiction). rewrite (J1 Q). symmetry. apply Permutation_middle.
    - intros Q. cbn [map]. rewrite (set_other m q l p) by (intros ->; apply Q; now left). f_equal. apply J2. intros Q'. apply Q. now right. }
  now apply X.
Qed.
Lemma contents_add m t v : wf m -> In t (prods m) -> length (contents (set_items m t (items m t ++ [v]))) = S (length (contents m)).
Proof.
  unfold contents. intros [N _] I. cbn [prods set_items].
  assert (X : forall ps, NoDup ps -> (In t ps -> length (concat (map (items (set_items m t (items m t ++ [v]))) ps)) = S (length (concat (map (items m) ps)))) /\ (~ In t ps -> map (items (set_items m t (items m t ++ [v]))) ps = map (items m) ps)).
  { induction 1 as [|p ps P NP [J1 J2]]; [split; [intros []|reflexivity]|]. split.
    - intros [->|Q]; cbn [map concat].
      + rewrite (J2 P), set_same, !app_length. cbn. lia.
      + rewrite (set_other m t _ p) by (intros ->; contradiction). rewrite !app_length, (J1 Q). lia.
    - intros Q. cbn [map]. rewrite (set_other m t _ p) by (intros ->; apply Q; now left). f_equal. apply J2. intros Q'. apply Q. now right. }
  now apply X.
Qed.
Lemma contents_registered m t : wf m -> length (contents (registered m t)) = length (contents m).
Proof.
  intros [N I]. unfold registered. destruct (listed m t) eqn:L; [reflexivity|]. unfold contents. cbn.
  destruct (items m t) eqn:E; [reflexivity|]. assert (X : In t (prods m)) by (apply I; rewrite E; discriminate). apply listed_In in X. congruence.
Qed.
Lemma total_contents m : wf m -> total (items m) (Z.of_nat (length (contents m))).
Proof. intros [N I]. exists (prods m). auto. Qed.

(** *** One call *)
Lemma enqueue_spec a t v m : wf m -> let m' := fst (enqueue a t v m) in
  wf m' /\ (length (contents m') <= S (length (contents m)))%nat /\
  ((items m' t = items m t ++ [v] /\ same_but t (items m) (items m')) \/ (a <> Enough /\ items m' = items m)).
Proof.
  intros W. destruct (wf_registered m t W) as (W1 & P & E). unfold enqueue. destruct a; cbn zeta.
  - cbn [fst]. split; [now apply wf_set|]. split; [rewrite contents_add by assumption; rewrite contents_registered by assumption; lia|].
    left. rewrite set_same, E. split; [reflexivity|]. intros u U. rewrite set_other by assumption. now rewrite E.
  - destruct (listed m t) eqn:L; cbn [fst].
    + apply listed_In in L. split; [now apply wf_set|]. split; [rewrite contents_add by assumption; lia|]. left. rewrite set_same. split; [reflexivity|apply set_other].
    + split; [assumption|]. split; [lia|]. right. split; [discriminate|reflexivity].
  - cbn [fst]. split; [assumption|]. split; [rewrite contents_registered by assumption; lia|]. right. split; [discriminate|exact E].
Qed.
Lemma exec_does a t c m m' r : wf m -> Z.of_nat (length (contents m)) < 2 ^ 64 -> exec default a t m c = Ok (m', r) ->
  does (items m) (t, a, c) r (items m') /\ wf m' /\ (length (contents m') <= S (length (contents m)))%nat.
Proof.
  intros W L E.
  assert (O : forall r', match c with Add _ | Poll | IsEmpty | Size => False | _ => True end -> Ok (m, r') = Ok (m', r) ->
    does (items m) (t, a, c) r (items m') /\ wf m' /\ (length (contents m') <= S (length (contents m)))%nat).
  { intros r' C X. injection X as -> ->. split; [now apply d_other|]. split; [assumption|lia]. }
  destruct c; cbn [exec] in E; try discriminate; try (now apply (O _ I E)); clear O.
  - injection E as <- <-. destruct (enqueue_spec a t v m W) as (W' & LL & [[X Y]|[X Y]]); split; auto; [now apply d_add|]. apply d_lost; [assumption|]. intros u. now rewrite Y.
  - destruct (dequeue_spec m) as [(q & v & l & Q & I & D)|[A D]]; rewrite D in E.
    + injection E as <- <-. split; [apply (d_poll _ _ _ q); [now rewrite set_same|apply set_other]|]. split; [now apply wf_set|].
      pose proof (Permutation_length (contents_set m q l v (proj1 W) Q I)) as X. cbn in X |- *. lia.
    + destruct default as [d|]; [|discriminate]. injection E as <- <-. split; [|split; [assumption|lia]]. apply d_none; [|reflexivity].
      intros u. destruct (items m u) eqn:U; [reflexivity|]. rewrite <- U. apply A, W. rewrite U. discriminate.
  - injection E as <- <-. split; [|split; [assumption|lia]]. apply d_is_empty; [|reflexivity]. rewrite size_contents by assumption. rewrite <- contents_nil by assumption.
    rewrite Z.eqb_eq. destruct (contents m); cbn; split; auto; try discriminate; lia.
  - injection E as <- <-. split; [|split; [assumption|lia]]. rewrite size_contents by assumption. apply d_size; [now apply total_contents|reflexivity].
Qed.
Lemma exec_all_follows : forall (l : list (nat * alloc * call T)) m m' rs, wf m -> Z.of_nat (length (contents m) + length l) < 2 ^ 64 -> exec_all default m l = Ok (m', rs) ->
  follows (items m) l rs (items m') /\ wf m'.
Proof.
  induction l as [|[[t a] c] l IH]; intros m m' rs W L E; cbn [exec_all] in E.
  - injection E as <- <-. split; [now constructor|assumption].
  - destruct (exec default a t m c) as [[m1 r]| | |] eqn:X; cbn in E; try discriminate.
    destruct (exec_all default m1 l) as [[m2 rs']| | |] eqn:Y; cbn in E; try discriminate. injection E as <- <-.
    cbn [length] in L. destruct (exec_does _ _ _ _ _ _ W ltac:(lia) X) as (D & W1 & L1).
    destruct (IH _ _ _ W1 ltac:(lia) Y) as [F W2]. split; [|assumption]. now apply (f_cons _ _ _ (items m1)).
Qed.
Lemma exec_wf a t c m m' r : wf m -> exec default a t m c = Ok (m', r) -> wf m'.
Proof.
  intros W E. destruct c; cbn [exec] in E; try discriminate; try (now injection E as <- <-).
  - injection E as <- <-. now apply enqueue_spec.
  - destruct (dequeue_spec m) as [(q & v & l & Q & I & D)|[A D]]; rewrite D in E.
    + injection E as <- <-. now apply wf_set.
    + destruct default as [d|]; [|discriminate]. now injection E as <- <-.
Qed.
Lemma exec_all_wf : forall (l : list (nat * alloc * call T)) m m' rs, wf m -> exec_all default m l = Ok (m', rs) -> wf m'.
Proof.
  induction l as [|[[t a] c] l IH]; intros m m' rs W E; cbn [exec_all] in E; [now injection E as <- <-|].
  destruct (exec default a t m c) as [[m1 r]| | |] eqn:X; cbn in E; try discriminate.
  destruct (exec_all default m1 l) as [[m2 rs']| | |] eqn:Y; cbn in E; try discriminate. injection E as <- <-.
  apply (IH m1 m2 rs'); [|assumption]. exact (exec_wf _ _ _ _ _ _ W X).
Qed.
(** Polls alone take everything out. *)
Lemma drain : forall n m, wf m -> length (contents m) = n -> forall ts, length ts = n ->
  exists m' vs, exec_all default m (map (fun t => (t, Enough, Poll)) ts) = Ok (m', map RValue vs) /\ Permutation vs (contents m) /\ all_empty (items m').
Proof.
  induction n as [|n IH]; intros m W L ts LT.
  - destruct ts; [|discriminate]. exists m, []. split; [reflexivity|]. destruct (contents m) eqn:C; [|discriminate]. split; [constructor|]. now apply contents_nil.
  - destruct ts as [|t ts]; [discriminate|]. injection LT as LT.
    destruct (dequeue_spec m) as [(q & v & l & Q & I & D)|[A D]].
    + pose proof (contents_set m q l v (proj1 W) Q I) as P. pose proof (Permutation_length P) as PL. rewrite L in PL. injection PL as PL.
      destruct (IH (set_items m q l) (wf_set _ _ _ W Q) (eq_sym PL) ts LT) as (m' & vs & E & PV & A).
      exists m', (v :: vs). cbn [map exec_all exec]. rewrite D. cbn. rewrite E. cbn. split; [reflexivity|]. split; [|assumption]. now rewrite P, PV.
    + exfalso. assert (C : contents m = []). { apply contents_nil; [assumption|]. intros u. destruct (items m u) eqn:U; [reflexivity|]. rewrite <- U. apply A, W. rewrite U. discriminate. }
      rewrite C in L. discriminate.
Qed.

(** *** One thread *)
Lemma holds_size t m l : holds t m l -> size_approx m = Z.of_nat (length l).
Proof.
  intros (E & L & [P|[P ->]]); unfold size_approx; rewrite P; cbn [fold_left]; [|reflexivity].
  unfold len. rewrite E. unfold uwrap. rewrite Z.add_0_l. apply Z.mod_small. lia.
Qed.
Lemma holds_take t m v l : holds t m (v :: l) -> try_dequeue m = Ok (Some (v, set_items m t l)) /\ holds t (set_items m t l) l.
Proof.
  intros (E & L & [P|[_ X]]); [|discriminate]. split.
  - unfold try_dequeue. rewrite P. cbn [scan]. unfold len. rewrite E. cbn [length Nat.ltb Nat.leb]. 
    destruct (Z.ltb_spec 0 (Z.of_nat (S (length l)))); [|lia]. unfold take. now rewrite E.
  - split; [apply set_same|]. cbn [length] in L. split; [lia|]. now left.
Qed.
Lemma holds_none t m : holds t m [] -> try_dequeue m = Ok None.
Proof. intros (E & _ & [P|[P _]]); unfold try_dequeue; rewrite P; cbn [scan]; [|reflexivity]. unfold len. now rewrite E. Qed.
Lemma holds_add t m l v : holds t m l -> Z.of_nat (length (l ++ [v])) < 2 ^ 64 -> holds t (fst (enqueue Enough t v m)) (l ++ [v]).
Proof.
  intros (E & L & P) LL. unfold enqueue. cbn [fst]. unfold registered, listed. destruct P as [P|[P ->]]; rewrite P; cbn [existsb].
  - rewrite Nat.eqb_refl. cbn [orb]. split; [rewrite set_same; now rewrite E|]. split; [assumption|]. now left.
  - split; [rewrite set_same; cbn; now rewrite E|]. split; [assumption|]. now left.
Qed.
End Proofs.
