(** Threads that are known do not wait; threads left alone finish. *)

From Coq Require Import ZArith List Lia Bool.
From Verif Require Import Base Bits ProducerHashModel ProducerHashSpec ProducerHashProofs.
Import ListNotations.
Open Scope Z_scope.

Section Proofs.
Context (tid : nat -> Z) (hash : Z -> Z) (k0 : Z).
Context (tid_inj : forall i j, tid i = tid j -> i = j) (tid_nz : forall i, tid i <> 0) (k0_range : 0 <= k0 <= 63).
Notation act := (act tid hash).
Notation step := (step tid hash).
Notation run := (run tid hash).
Notation good := (good tid hash).
Notation pos := (pos tid hash).
Notation way := (way tid hash).
Notation on_way := (on_way tid hash).

(** *** Failures *)
Lemma gives_up l c : run (start (2 ^ k0)) l c -> forall i, (match pcs c i with GiveUp _ | GiveUpUnlock | Ret None => True | _ => False end) ->
  Z.of_nat (length l) <= 2 ^ 62 -> In (Inside i false) l.
Proof.
  intros R. remember (start (2 ^ k0)) as st eqn:ES. induction R as [|c0 l c1 e c2 R IH ST]; intros i P B; subst; [destruct P|]. rewrite app_length in B. cbn in B.
  destruct ST as [c j E|c j r E|c j ok s p BU A]; cbn in P; unfold set_pc in P; destruct (Nat.eqb_spec i j) as [EQ|N]; try (apply in_or_app; left; apply IH; auto; lia); try (destruct P; fail).
  subst j. destruct (run_good tid hash k0 tid_inj tid_nz k0_range l c R ltac:(lia)) as (o & T & G & _).
  pose proof (k_at _ _ _ _ _ _ _ (w_thread _ _ _ _ _ _ G i)) as KA. pose proof (w_thread _ _ _ _ _ _ G i) as TO. specialize (IH eq_refl i).
  remember (pcs c i) as pi eqn:PI. symmetry in PI. apply in_or_app. destruct pi; cbn [ProducerHashModel.act at_pc] in *; try (injection A as <- <-; tauto).
  - destruct (_ =? tid i); [|destruct (_ =? 0); [destruct h|]]; injection A as <- <-; destruct P.
  - destruct KA as (L & HA & KE & AB). destruct (k_val _ _ _ _ _ _ _ TO h a ltac:(lia) KE) as [[VE VN]|[]]. rewrite VE in A. destruct (Nat.eqb h m); injection A as <- <-; [destruct (o i); [destruct P|congruence]|destruct P].
  - destruct (_ =? 0); injection A as <- <-; destruct P.
  - destruct (_ =? 0); injection A as <- <-; destruct P.
  - injection A as <- <-. destruct KA as (_ & HA & VE & _). destruct HA as (H1 & _). rewrite VE in P. destruct (o i); [destruct P|congruence].
  - destruct (_ <=? n); injection A as <- <-; destruct P.
  - destruct (resizing (mem c)); injection A as <- <-; destruct P.
  - destruct (_ <=? n); injection A as <- <-; destruct P.
  - destruct (grown _ _ _); [destruct ok|]; injection A as <- <-; try (destruct P; fail). right. cbn. auto.
  - destruct (n <? _); injection A as <- <-; destruct P.
  - destruct ok; injection A as <- <-; try (destruct P; fail). right. cbn. auto.
  - destruct (_ =? 0); injection A as <- <-; destruct P.
  - destruct (_ =? 0); injection A as <- <-; destruct P.
  - injection A as <- <-. left. apply IH; [exact I|lia].
  - injection A as <- <-. left. apply IH; [exact I|lia].
  - destruct BU.
Qed.

(** *** Distances *)
Definition dist (i : nat) (c a : Z) : Z := (a - hash (tid i)) mod c.
Lemma dist_pos i c d : 0 <= d < c -> dist i c (pos i c d) = d.
Proof.
  intros D. unfold dist, ProducerHashProofs.pos. rewrite Zminus_mod_idemp_l. replace (hash (tid i) + d - hash (tid i)) with d by lia. now apply Z.mod_small.
Qed.
Lemma way_short l c o T i m a d : good l c o T -> (m < ntabs (mem c))%nat -> way (mem c) i m a d -> 0 <= d < cap (tabs (mem c) m).
Proof.
  intros G L (D & P & W). split; [exact D|]. destruct (empty_place tid hash l c o T m G L) as (b & R & Z0).
  destruct (pos_all tid hash i (cap (tabs (mem c) m)) b ltac:(lia) R) as (d' & D' & ->). destruct (Z.lt_ge_cases d (cap (tabs (mem c) m))); [assumption|]. destruct (W d' ltac:(lia)) as [W1 _]. contradiction.
Qed.
Lemma way_dist l c o T i m a d : good l c o T -> (m < ntabs (mem c))%nat -> way (mem c) i m a d -> dist i (cap (tabs (mem c) m)) a = d.
Proof. intros G L W. pose proof (way_short _ _ _ _ _ _ _ _ G L W). destruct W as (_ & -> & _). now apply dist_pos. Qed.

(** *** Threads that are known *)
Lemma caps_kept l c o T e c' : good l c o T -> step c e c' -> (ntabs (mem c) <= ntabs (mem c'))%nat /\ forall m, (m < ntabs (mem c))%nat -> cap (tabs (mem c') m) = cap (tabs (mem c) m).
Proof.
  intros G ST. destruct ST as [c j E|c j r E|c j ok s p BU A]; cbn; auto. pose proof (k_at _ _ _ _ _ _ _ (w_thread _ _ _ _ _ _ G j)) as KA. pose proof (g_tabs _ _ _ _ (w_glob _ _ _ _ _ _ G)) as T1.
  destruct (pcs c j); cbn [ProducerHashModel.act at_pc] in *;
    repeat match type of A with
    | (if ?b then _ else _) = _ => destruct b
    | (match ?h with O => _ | S _ => _ end) = _ => destruct h
    | (match ?h with None => _ | Some _ => _ end) = _ => destruct h
    end; injection A as <- <-; cbn; auto;
    try (split; [lia|]; intros m' L'; destruct (Nat.eqb_spec m' m) as [EQ|]; [rewrite EQ|]; reflexivity).
  destruct KA as (ME & _). unfold newest in ME. split; [lia|]. intros m' L'. destruct (Nat.eqb_spec m' (S m)); [lia|reflexivity].
Qed.
Lemma places_kept s s' n : (forall m, (m < n)%nat -> cap (tabs s' m) = cap (tabs s m)) -> places s' n = places s n.
Proof. induction n as [|n IH]; intros H; cbn; [reflexivity|]. rewrite IH by (intros; apply H; lia). rewrite (H n) by lia. reflexivity. Qed.
Lemma places_mono s n n' : (forall m, (m < n')%nat -> 0 <= cap (tabs s m)) -> (n <= n')%nat -> places s n <= places s n'.
Proof.
  induction n' as [|n' IH]; intros H L; [replace n with O by lia; lia|]. destruct (Nat.eq_dec n (S n')) as [->|]; [lia|]. cbn. assert (places s n <= places s n') by (apply IH; [intros; apply H; lia|lia]). specialize (H n' ltac:(lia)). lia.
Qed.
Definition within (s : shared) (i : nat) (p : pc) (n : Z) : Prop :=
  match p with
  | Idle | Load => n <= 0
  | Look m h idx => n <= 1 + places s (S m) - places s (S h) + dist i (cap (tabs s h)) (idx mod cap (tabs s h))
  | Take m _ _ => n <= 2 + places s (S m)
  | Copy m idx _ => n <= 3 + places s (S m) + 2 * dist i (cap (tabs s m)) (idx mod cap (tabs s m))
  | CopyCas m a _ => n <= 4 + places s (S m) + 2 * dist i (cap (tabs s m)) a
  | CopyVal m _ _ => n <= 5 + 3 * places s (S m)
  | Ret _ => n <= 6 + 3 * places s (ntabs s)
  | _ => False
  end.
Lemma own_snoc i l e : own i (l ++ [e]) = count_own i (own i l) e.
Proof. unfold own. now rewrite fold_left_app. Qed.
Lemma within_kept l c o T e c' i n : good l c o T -> step c e c' -> (forall m, (m < ntabs (mem c'))%nat -> 0 <= cap (tabs (mem c') m)) -> within (mem c) i (pcs c i) n -> within (mem c') i (pcs c i) n.
Proof.
  intros G ST CN W. destruct (caps_kept _ _ _ _ _ _ G ST) as [NT CK]. pose proof (k_at _ _ _ _ _ _ _ (w_thread _ _ _ _ _ _ G i)) as KA.
  assert (PK : forall m, (m <= ntabs (mem c))%nat -> places (mem c') m = places (mem c) m) by (intros m L; apply places_kept; intros; apply CK; lia).
  destruct (pcs c i); cbn [within at_pc] in *; auto.
  - destruct KA as (L & _). rewrite (PK (S m)), (PK (S h)), (CK h) by lia. exact W.
  - destruct KA as (L & _). rewrite (PK (S m)) by lia. exact W.
  - destruct KA as (L & _). rewrite (PK (S m)), (CK m) by lia. exact W.
  - destruct KA as (L & _). rewrite (PK (S m)), (CK m) by lia. exact W.
  - destruct KA as (L & _). rewrite (PK (S m)) by lia. exact W.
  - pose proof (places_mono (mem c') (ntabs (mem c)) (ntabs (mem c')) CN NT). rewrite (PK (ntabs (mem c))) in H by lia. lia.
Qed.
Lemma known_within l c : run (start (2 ^ k0)) l c -> Z.of_nat (length l) <= 2 ^ 62 -> forall i, known l i -> within (mem c) i (pcs c i) (own i l).
Proof.
  intros R. remember (start (2 ^ k0)) as st eqn:ES. induction R as [|c0 l c1 e c2 R IH ST]; intros B i KN; subst; [destruct KN as (q & []) |]. rewrite app_length in B. cbn in B. rewrite own_snoc.
  assert (NOTE : Z.of_nat (length l) <= 2 ^ 62) by lia.
  destruct (run_good tid hash k0 tid_inj tid_nz k0_range l c1 R NOTE) as (o & T & G & TD). specialize (IH eq_refl NOTE i).
  destruct (run_good tid hash k0 tid_inj tid_nz k0_range _ c2 (run_step _ _ _ _ _ _ _ R ST)) as (o2 & T2 & G2 & _); [rewrite app_length; cbn; lia|].
  assert (CN : forall m, (m < ntabs (mem c2))%nat -> 0 <= cap (tabs (mem c2) m)). { intros m L. destruct (g_cap _ _ _ _ (w_glob _ _ _ _ _ _ G2) m L) as (k & K & ->). apply Z.pow_nonneg. lia. }
  pose proof (fun n => within_kept l c1 o T e c2 i n G ST CN) as KEEP.
  assert (KNL : known l i \/ exists q, e = Returned i (Some q)). { destruct KN as (q & H). apply in_app_or in H. destruct H as [H|[H|[]]]; [left; exists q; exact H|right; eauto]. }
  destruct ST as [c j E|c j r E|c j ok s p BU A]; cbn [count_own mem pcs] in *; unfold set_pc; destruct (Nat.eqb_spec i j) as [EQ|N]; rewrite ?(proj2 (Nat.eqb_neq j i) (not_eq_sym N));
    try (rewrite <- EQ, Nat.eqb_refl).
  - cbn. lia.
  - destruct KNL as [K|(q & K)]; [|discriminate]. apply KEEP, IH, K.
  - cbn. lia.
  - destruct KNL as [K|(q & K)]; [|congruence]. apply KEEP, IH, K.
  - subst j. destruct KNL as [K|(q & K)]; [|discriminate]. specialize (IH K). destruct K as (q & K). pose proof (t_ret _ _ _ TD _ _ K) as OI. clear KEEP.
    pose proof (k_at _ _ _ _ _ _ _ (w_thread _ _ _ _ _ _ G i)) as KA. pose proof (k_at _ _ _ _ _ _ _ (w_thread _ _ _ _ _ _ G2 i)) as KA2. cbn [pcs mem] in KA2. unfold set_pc in KA2. rewrite Nat.eqb_refl in KA2.
    pose proof (g_tabs _ _ _ _ (w_glob _ _ _ _ _ _ G)) as T1.
    assert (CAPS : forall m, (m < ntabs (mem c))%nat -> exists k, 0 <= k <= 63 /\ cap (tabs (mem c) m) = 2 ^ k) by (apply (w_glob _ _ _ _ _ _ G)).
    assert (CAPP : forall m, (m < ntabs (mem c))%nat -> 0 < cap (tabs (mem c) m)) by (intros m L; destruct (CAPS m L) as (k & Hk & ->); apply Z.pow_pos_nonneg; lia).
    assert (PM : forall n n', (n <= n' <= ntabs (mem c))%nat -> places (mem c) n <= places (mem c) n') by (intros n n' L; apply places_mono; [intros; pose proof (CAPP m ltac:(lia)); lia|lia]).
    remember (pcs c i) as pi eqn:PI. symmetry in PI. destruct pi; cbn [ProducerHashModel.act at_pc within] in *; try (destruct IH; fail); try (destruct BU; fail).
    + (* Load *) injection A as <- <-. cbn [within]. assert (0 <= dist i (cap (tabs (mem c) (newest (mem c)))) (hash (tid i) mod cap (tabs (mem c) (newest (mem c))))) by (apply Z.mod_pos_bound, CAPP; unfold newest; lia). lia.
    + (* Look *) destruct KA as (L & NH & AB & ON). assert (LH : (h < ntabs (mem c))%nat) by lia. destruct ON as (d & W). pose proof (way_dist _ _ _ _ _ _ _ _ G LH W) as DE. pose proof (way_short _ _ _ _ _ _ _ _ G LH W) as DS. rewrite DE in IH.
      assert (ME : mask (tabs (mem c) h) idx = idx mod cap (tabs (mem c) h)) by (destruct (CAPS h LH) as (k & Hk & CE); apply (mask_mod _ _ k); [lia|exact CE]). rewrite ME in A.
      assert (PH : places (mem c) (S h) = places (mem c) h + cap (tabs (mem c) h) + 1) by reflexivity. pose proof (PM 0%nat h ltac:(lia)) as P0. cbn [places] in P0.
      destruct (_ =? tid i) eqn:E1; [|destruct (_ =? 0) eqn:E2; [destruct h as [|h]|]]; injection A as <- <-; cbn [within at_pc] in *.
      * lia.
      * destruct KA2 as (_ & OI2 & NI & _). exfalso. destruct NH as [(NO & _)|(_ & HI & (m' & b & L' & E'))]; [congruence|]. destruct m' as [|m'].
        -- eapply (empty_absent tid hash tid_nz); [apply (w_thread _ _ _ _ _ _ G i)|exact LH|exact W|apply Z.eqb_eq; exact E2|exact E'].
        -- apply (AB (S m') ltac:(lia) b E').
      * assert (0 <= dist i (cap (tabs (mem c) h)) (hash (tid i) mod cap (tabs (mem c) h))) by (apply Z.mod_pos_bound, CAPP; lia). lia.
      * destruct KA2 as (_ & _ & _ & (d2 & W2)). cbn [mem] in W2. assert (WN : on_way (mem c) i h (idx mod cap (tabs (mem c) h) + 1)) by (eapply (way_next2 tid hash); eauto; apply Z.eqb_neq; assumption).
        destruct WN as (d3 & W3). destruct W as (D & P & W). assert (W4 : way (mem c) i h ((idx mod cap (tabs (mem c) h) + 1) mod cap (tabs (mem c) h)) (d + 1)).
        { split; [lia|]. split; [rewrite P; apply pos_next, CAPP, LH|]. intros x X. destruct (Z.eq_dec x d) as [->|]; [rewrite <- P; split; apply Z.eqb_neq; assumption|apply W; lia]. }
        rewrite (way_dist _ _ _ _ _ _ _ _ G LH W4). lia.
    + (* Take *) destruct KA as (L & _). pose proof (PM 0%nat (S m) ltac:(lia)) as P0. pose proof (PM (S m) (ntabs (mem c)) ltac:(lia)) as P1. cbn [places] in P0. destruct (Nat.eqb h m); injection A as <- <-; cbn [within].
      * cbn [places] in *. lia.
      * assert (0 <= dist i (cap (tabs (mem c) m)) (hash (tid i) mod cap (tabs (mem c) m))) by (apply Z.mod_pos_bound, CAPP; lia). lia.
    + (* Copy *) destruct KA as (L & HA & VE & AB & (d & W) & EX). assert (ME : mask (tabs (mem c) m) idx = idx mod cap (tabs (mem c) m)) by (destruct (CAPS m L) as (k & Hk & CE); apply (mask_mod _ _ k); [lia|exact CE]). rewrite ME in A.
      rewrite (way_dist _ _ _ _ _ _ _ _ G L W) in IH. destruct (_ =? 0) eqn:E0; injection A as <- <-; cbn [within].
      * rewrite (way_dist _ _ _ _ _ _ _ _ G L W). lia.
      * assert (W4 : way (mem c) i m ((idx mod cap (tabs (mem c) m) + 1) mod cap (tabs (mem c) m)) (d + 1)).
        { destruct W as (D & P & W). split; [lia|]. split; [rewrite P; apply pos_next, CAPP, L|]. intros x X. destruct (Z.eq_dec x d) as [->|]; [rewrite <- P; split; [apply Z.eqb_neq; assumption|apply AB]|apply W; lia]. }
        rewrite (way_dist _ _ _ _ _ _ _ _ G L W4). lia.
    + (* CopyCas *) destruct KA as (L & HA & VE & AB & (d & W) & EX). rewrite (way_dist _ _ _ _ _ _ _ _ G L W) in IH. pose proof (way_short _ _ _ _ _ _ _ _ G L W) as DS. destruct (_ =? 0) eqn:E0; injection A as <- <-; cbn [within].
      * assert (PE : forall x, places (set_tab (mem c) m x) (S m) = places (mem c) (S m) - cap (tabs (mem c) m) + cap x). { intros x. cbn. rewrite Nat.eqb_refl. rewrite (places_kept (mem c) _ m); [lia|]. intros z Hz. cbn. destruct (Nat.eqb_spec z m); [lia|reflexivity]. }
        rewrite PE. cbn [cap set_key]. pose proof (PM 0%nat m ltac:(lia)) as P0. cbn [places] in *. lia.
      * assert (W4 : way (mem c) i m ((a + 1) mod cap (tabs (mem c) m)) (d + 1)).
        { destruct W as (D & P & W). split; [lia|]. split; [rewrite P; apply pos_next, CAPP, L|]. intros x X. destruct (Z.eq_dec x d) as [->|]; [rewrite <- P; split; [apply Z.eqb_neq; assumption|apply AB]|apply W; lia]. }
        rewrite (way_dist _ _ _ _ _ _ _ _ G L W4). lia.
    + (* CopyVal *) destruct KA as (L & _). injection A as <- <-. cbn [within ntabs set_tab]. rewrite (places_kept (mem c)); [|intros z _; cbn; destruct (Nat.eqb_spec z m); [subst|]; reflexivity]. pose proof (PM (S m) (ntabs (mem c)) ltac:(lia)). lia.
  - destruct KNL as [K|(q & K)]; [|discriminate]. apply KEEP, IH, K.
Qed.

(** *** Alone *)
Notation finishes := (finishes tid hash).
Lemma known_bound l c i : run (start (2 ^ k0)) l c -> Z.of_nat (length l) <= 2 ^ 62 -> known l i -> own i l <= 6 + 3 * places (mem c) (ntabs (mem c)).
Proof.
  intros R B K. pose proof (known_within l c R B i K) as W. destruct (run_good tid hash k0 tid_inj tid_nz k0_range l c R B) as (o & T & G & TD).
  pose proof (k_at _ _ _ _ _ _ _ (w_thread _ _ _ _ _ _ G i)) as KA.
  assert (CAPP : forall m, (m < ntabs (mem c))%nat -> 0 < cap (tabs (mem c) m)) by (intros m L; destruct (g_cap _ _ _ _ (w_glob _ _ _ _ _ _ G) m L) as (k & Hk & ->); apply Z.pow_pos_nonneg; lia).
  assert (PM : forall n n', (n <= n' <= ntabs (mem c))%nat -> places (mem c) n <= places (mem c) n') by (intros n n' L; apply places_mono; [intros; pose proof (CAPP m ltac:(lia)); lia|lia]).
  assert (DB : forall m a, (m < ntabs (mem c))%nat -> dist i (cap (tabs (mem c) m)) a < cap (tabs (mem c) m)) by (intros m a L; apply Z.mod_pos_bound, CAPP, L).
  pose proof (PM 0%nat (ntabs (mem c)) ltac:(lia)) as P0. cbn [places] in P0.
  destruct (pcs c i); cbn [within at_pc] in *; try (destruct W; fail); try lia.
  - destruct KA as (L & _). pose proof (PM (S m) (ntabs (mem c)) ltac:(lia)). pose proof (DB h (idx mod cap (tabs (mem c) h)) ltac:(lia)). pose proof (PM 0%nat h ltac:(lia)). cbn [places] in *. lia.
  - destruct KA as (L & _). pose proof (PM (S m) (ntabs (mem c)) ltac:(lia)). lia.
  - destruct KA as (L & _). pose proof (PM (S m) (ntabs (mem c)) ltac:(lia)). pose proof (DB m (idx mod cap (tabs (mem c) m)) ltac:(lia)). pose proof (PM 0%nat m ltac:(lia)). cbn [places] in *. lia.
  - destruct KA as (L & _). pose proof (PM (S m) (ntabs (mem c)) ltac:(lia)). pose proof (DB m a ltac:(lia)). pose proof (PM 0%nat m ltac:(lia)). cbn [places] in *. lia.
  - destruct KA as (L & _). pose proof (PM (S m) (ntabs (mem c)) ltac:(lia)). lia.
Qed.

Section Alone.
Context (i : nat).
Lemma one_more s p : busy p -> (forall ok, finishes i (fst (act ok i p s)) (snd (act ok i p s))) -> finishes i s p.
Proof. apply finishes_later. Qed.
Lemma fin_val s m a v : finishes i s (CopyVal m a v).
Proof. apply one_more; [exact I|]. intros ok. cbn. constructor. Qed.
Lemma fin_pval s m a v : finishes i s (ProbeVal m a v).
Proof. apply one_more; [exact I|]. intros ok. cbn. constructor. Qed.
Lemma fin_giveup s b : finishes i s (GiveUp b).
Proof. apply one_more; [exact I|]. intros ok. cbn. destruct b; [apply one_more; [exact I|]; intros ok'; cbn|]; constructor. Qed.
(** A way through a table with a free place. *)
Section Way.
Context (s : shared) (m : nat) (k e : Z) (K : 0 <= k <= 63) (CE : cap (tabs s m) = 2 ^ k) (E : 0 <= e < cap (tabs s m)) (EK : key (tabs s m) (pos i (cap (tabs s m)) e) = 0).
Lemma cpos : 0 < cap (tabs s m). Proof. rewrite CE. apply Z.pow_pos_nonneg; lia. Qed.
Lemma fin_walk (P : pc -> Prop) (mk : Z -> pc) (fnd : Z -> pc) :
  (forall idx, P (if key (tabs s m) (mask (tabs s m) idx) =? 0 then fnd (mask (tabs s m) idx) else mk (mask (tabs s m) idx + 1)) -> P (mk idx)) ->
  (forall a, key (tabs s m) a = 0 -> P (fnd a)) ->
  forall n d idx, (Z.to_nat (e - d) < n)%nat -> 0 <= d <= e -> idx mod cap (tabs s m) = pos i (cap (tabs s m)) d -> P (mk idx).
Proof.
  intros ST FD. induction n as [|n IH]; intros d idx N D I; [lia|]. apply ST. rewrite (mask_mod _ _ k) by (lia || exact CE). rewrite I.
  destruct (Z.eqb_spec (key (tabs s m) (pos i (cap (tabs s m)) d)) 0) as [Z0|NZ]; [now apply FD|].
  assert (d <> e) by (intros ->; contradiction). apply (IH (d + 1)); [lia|lia|]. apply pos_next, cpos.
Qed.
Lemma fin_pcas a q : key (tabs s m) a = 0 -> finishes i s (ProbeCas m a q).
Proof. intros H. apply one_more; [exact I|]. intros ok. cbn. rewrite H. cbn. apply fin_pval. Qed.
Lemma fin_ccas a v : key (tabs s m) a = 0 -> finishes i s (CopyCas m a v).
Proof. intros H. apply one_more; [exact I|]. intros ok. cbn. rewrite H. cbn. apply fin_val. Qed.
Lemma fin_probe q d idx : 0 <= d <= e -> idx mod cap (tabs s m) = pos i (cap (tabs s m)) d -> finishes i s (Probe m idx q).
Proof.
  intros D I'. apply (fin_walk (finishes i s) (fun x => Probe m x q) (fun a => ProbeCas m a q)) with (n := S (Z.to_nat (e - d))) (d := d); auto; [|intros; now apply fin_pcas].
  intros x H. apply one_more; [exact I|]. intros ok. cbn. destruct (_ =? 0); exact H.
Qed.
Lemma fin_copy v d idx : 0 <= d <= e -> idx mod cap (tabs s m) = pos i (cap (tabs s m)) d -> finishes i s (Copy m idx v).
Proof.
  intros D I'. apply (fin_walk (finishes i s) (fun x => Copy m x v) (fun a => CopyCas m a v)) with (n := S (Z.to_nat (e - d))) (d := d); auto; [|intros; now apply fin_ccas].
  intros x H. apply one_more; [exact I|]. intros ok. cbn. destruct (_ =? 0); exact H.
Qed.
End Way.

(** With the invariant. *)
Lemma hole l c o T m : good l c o T -> (m < ntabs (mem c))%nat -> exists k e, 0 <= k <= 63 /\ cap (tabs (mem c) m) = 2 ^ k /\ 0 <= e < cap (tabs (mem c) m) /\ key (tabs (mem c) m) (pos i (cap (tabs (mem c) m)) e) = 0.
Proof.
  intros G L. destruct (g_cap _ _ _ _ (w_glob _ _ _ _ _ _ G) m L) as (k & K & CE). destruct (empty_place tid hash l c o T m G L) as (b & R & Z0).
  destruct (pos_all tid hash i (cap (tabs (mem c) m)) b ltac:(lia) R) as (e & E & ->). exists k, e. auto.
Qed.
Lemma start_probe l c o T m q : good l c o T -> (m < ntabs (mem c))%nat -> finishes i (mem c) (Probe m (hash (tid i)) q).
Proof. intros G L. destruct (hole l c o T m G L) as (k & e & K & CE & E & EK). eapply (fin_probe (mem c) m k e) with (d := 0); eauto; [lia|]. apply pos_start. lia. Qed.
Lemma start_copy l c o T m v : good l c o T -> (m < ntabs (mem c))%nat -> finishes i (mem c) (Copy m (hash (tid i)) v).
Proof. intros G L. destruct (hole l c o T m G L) as (k & e & K & CE & E & EK). eapply (fin_copy (mem c) m k e) with (d := 0); eauto; [lia|]. apply pos_start. lia. Qed.
Lemma way_e l c o T m a d e : good l c o T -> (m < ntabs (mem c))%nat -> way (mem c) i m a d -> 0 <= e < cap (tabs (mem c) m) -> key (tabs (mem c) m) (pos i (cap (tabs (mem c) m)) e) = 0 -> 0 <= d <= e.
Proof. intros G L (D & P & W) E EK. split; [exact D|]. destruct (Z.le_gt_cases d e); [assumption|]. destruct (W e ltac:(lia)) as [W1 _]. contradiction. Qed.

(** The step from one good configuration to the next. *)
Lemma next l c o T ok s p : good l c o T -> Z.of_nat (length l) < 2 ^ 62 -> busy (pcs c i) -> act ok i (pcs c i) (mem c) = (s, p) -> exists l' c' o' T', good l' c' o' T' /\ mem c' = s /\ pcs c' i = p /\ length l' = S (length l).
Proof.
  intros G B BU A. destruct (inside_good tid hash k0 tid_inj tid_nz k0_range l c o T i ok s p G B BU A) as (o' & T' & G' & _). exists (l ++ [Inside i ok]), (mkC s (set_pc (pcs c) i p)), o', T'.
  split; [exact G'|]. split; [reflexivity|]. split; [cbn; unfold set_pc; now rewrite Nat.eqb_refl|]. rewrite app_length. cbn. lia.
Qed.
Definition short (l : list label) (k : Z) : Prop := Z.of_nat (length l) + k < 2 ^ 62.
Definition done (c : config) : Prop := finishes i (mem c) (pcs c i).
Lemma by_next l c o T k : good l c o T -> short l (k + 1) -> 0 <= k -> busy (pcs c i) ->
  (forall ok l' c' o' T', good l' c' o' T' -> short l' k -> act ok i (pcs c i) (mem c) = (mem c', pcs c' i) -> done c') -> done c.
Proof.
  intros G SH K BU H. apply one_more; [exact BU|]. intros ok. destruct (act ok i (pcs c i) (mem c)) as [s p] eqn:A. destruct (next l c o T ok s p G ltac:(unfold short in SH; lia) BU A) as (l' & c' & o' & T' & G' & <- & <- & L).
  cbn. eapply (H ok l' c' o' T'); eauto. unfold short in *. lia.
Qed.
Lemma create_done l c o T m n : good l c o T -> short l 1 -> pcs c i = Create m n -> done c.
Proof.
  intros G SH PC. pose proof (k_at _ _ _ _ _ _ _ (w_thread _ _ _ _ _ _ G i)) as KA. rewrite PC in KA. destruct KA as (L & _).
  apply (by_next l c o T 0 G SH ltac:(lia)); [rewrite PC; exact I|]. rewrite PC. cbn [ProducerHashModel.act]. intros ok l' c' o' T' G' _ A. unfold done. destruct ok; injection A as MM <-.
  - apply (start_probe l' c' o' T'); [exact G'|]. rewrite <- MM. exact L.
  - apply fin_giveup.
Qed.
Lemma fits_done l c o T m n : good l c o T -> short l 2 -> pcs c i = Fits m n -> n < room (cap (tabs (mem c) m)) -> done c.
Proof.
  intros G SH PC R. apply (by_next l c o T 1 G SH ltac:(lia)); [rewrite PC; exact I|]. rewrite PC. cbn [ProducerHashModel.act]. intros ok l' c' o' T' G' S' A.
  destruct (Z.ltb_spec n (room (cap (tabs (mem c) m)))); [|lia]. injection A as MM PC'. eapply create_done; eauto.
Qed.
Lemma unlock_done l c o T m n : good l c o T -> short l 3 -> pcs c i = Unlock m n -> n < room (cap (tabs (mem c) m)) -> done c.
Proof.
  intros G SH PC R. apply (by_next l c o T 2 G SH ltac:(lia)); [rewrite PC; exact I|]. rewrite PC. cbn [ProducerHashModel.act]. intros ok l' c' o' T' G' S' A. injection A as MM PC'.
  eapply fits_done; eauto. rewrite <- MM. exact R.
Qed.
Lemma publish_done l c o T m n cp : good l c o T -> short l 4 -> pcs c i = Publish m n cp -> done c.
Proof.
  intros G SH PC. pose proof (k_at _ _ _ _ _ _ _ (w_thread _ _ _ _ _ _ G i)) as KA. rewrite PC in KA. destruct KA as (_ & _ & k & K & CE & _ & H).
  apply (by_next l c o T 3 G SH ltac:(lia)); [rewrite PC; exact I|]. rewrite PC. cbn [ProducerHashModel.act]. intros ok l' c' o' T' G' S' A. injection A as MM PC'.
  eapply unlock_done; eauto. rewrite <- MM. cbn [tabs]. rewrite Nat.eqb_refl. cbn [cap]. apply (half_room _ _ k); [lia|exact CE|exact H].
Qed.
Lemma alloc_done l c o T m n : good l c o T -> short l 5 -> pcs c i = Alloc m n -> done c.
Proof.
  intros G SH PC. apply (by_next l c o T 4 G SH ltac:(lia)); [rewrite PC; exact I|]. rewrite PC. cbn [ProducerHashModel.act]. intros ok l' c' o' T' G' S' A.
  destruct (grown _ _ _) as [cp|]; [destruct ok|]; injection A as MM PC'.
  - eapply publish_done; eauto.
  - unfold done. rewrite <- PC'. apply fin_giveup.
  - pose proof (k_at _ _ _ _ _ _ _ (w_thread _ _ _ _ _ _ G' i)) as KA. rewrite <- PC' in KA. destruct KA.
Qed.
Lemma reload_done l c o T n : good l c o T -> short l 6 -> pcs c i = Reload n -> done c.
Proof.
  intros G SH PC. pose proof (g_tabs _ _ _ _ (w_glob _ _ _ _ _ _ G)) as T1. destruct (g_cap _ _ _ _ (w_glob _ _ _ _ _ _ G) (newest (mem c)) ltac:(unfold newest; lia)) as (k & K & CE).
  apply (by_next l c o T 5 G SH ltac:(lia)); [rewrite PC; exact I|]. rewrite PC. cbn [ProducerHashModel.act]. intros ok l' c' o' T' G' S' A.
  destruct (Z.leb_spec (Z.shiftr (cap (tabs (mem c) (newest (mem c)))) 1) n); injection A as MM PC'.
  - eapply alloc_done; eauto.
  - eapply unlock_done; eauto; [unfold short in *; lia|]. rewrite <- MM. apply (half_room _ _ k); [lia|exact CE|lia].
Qed.
Lemma lock_done l c o T m n : good l c o T -> short l 7 -> pcs c i = Lock m n -> resizing (mem c) = false -> done c.
Proof.
  intros G SH PC F. apply (by_next l c o T 6 G SH ltac:(lia)); [rewrite PC; exact I|]. rewrite PC. cbn [ProducerHashModel.act]. rewrite F. intros ok l' c' o' T' G' S' A. injection A as MM PC'. eapply reload_done; eauto.
Qed.
Lemma check_done l c o T m n : good l c o T -> short l 8 -> pcs c i = Check m n -> resizing (mem c) = false -> done c.
Proof.
  intros G SH PC F. pose proof (k_at _ _ _ _ _ _ _ (w_thread _ _ _ _ _ _ G i)) as KA. rewrite PC in KA. destruct KA as (L & _). destruct (g_cap _ _ _ _ (w_glob _ _ _ _ _ _ G) m L) as (k & K & CE).
  apply (by_next l c o T 7 G SH ltac:(lia)); [rewrite PC; exact I|]. rewrite PC. cbn [ProducerHashModel.act]. intros ok l' c' o' T' G' S' A.
  destruct (Z.leb_spec (Z.shiftr (cap (tabs (mem c) m)) 1) n); injection A as MM PC'.
  - eapply lock_done; eauto. congruence.
  - eapply fits_done; eauto; [unfold short in *; lia|]. rewrite <- MM. apply (half_room _ _ k); [lia|exact CE|lia].
Qed.
Lemma wait_done l c o T n : good l c o T -> short l 9 -> pcs c i = Wait n -> resizing (mem c) = false -> done c.
Proof.
  intros G SH PC F. apply (by_next l c o T 8 G SH ltac:(lia)); [rewrite PC; exact I|]. rewrite PC. cbn [ProducerHashModel.act]. intros ok l' c' o' T' G' S' A. injection A as MM PC'. eapply check_done; eauto. congruence.
Qed.
Lemma fits_done2 l c o T m n : good l c o T -> short l 10 -> pcs c i = Fits m n -> resizing (mem c) = false -> done c.
Proof.
  intros G SH PC F. apply (by_next l c o T 9 G SH ltac:(lia)); [rewrite PC; exact I|]. rewrite PC. cbn [ProducerHashModel.act]. intros ok l' c' o' T' G' S' A.
  destruct (Z.ltb_spec n (room (cap (tabs (mem c) m)))); injection A as MM PC'.
  - eapply create_done; eauto. unfold short in *. lia.
  - eapply wait_done; eauto. congruence.
Qed.
Lemma unlock_done2 l c o T m n : good l c o T -> short l 11 -> pcs c i = Unlock m n -> done c.
Proof.
  intros G SH PC. apply (by_next l c o T 10 G SH ltac:(lia)); [rewrite PC; exact I|]. rewrite PC. cbn [ProducerHashModel.act]. intros ok l' c' o' T' G' S' A. injection A as MM PC'.
  eapply fits_done2; eauto. rewrite <- MM. reflexivity.
Qed.
Lemma add_done l c o T m : good l c o T -> short l 11 -> pcs c i = Add m -> resizing (mem c) = false -> done c.
Proof.
  intros G SH PC F. apply (by_next l c o T 10 G SH ltac:(lia)); [rewrite PC; exact I|]. rewrite PC. cbn [ProducerHashModel.act]. intros ok l' c' o' T' G' S' A. injection A as MM PC'.
  eapply check_done; eauto; [unfold short in *; lia|]. rewrite <- MM. exact F.
Qed.
Lemma take_done l c o T m h a : good l c o T -> (m < ntabs (mem c))%nat -> finishes i (mem c) (Take m h a).
Proof. intros G L. apply one_more; [exact I|]. intros ok. cbn. destruct (Nat.eqb h m); cbn; [constructor|]. eapply start_copy; eauto. Qed.
Lemma table_done l c o T m H : good l c o T -> (m < ntabs (mem c))%nat -> (H <= m)%nat ->
  (absent tid (mem c) i H -> finishes i (mem c) (match H with O => Add m | S h => Look m h (hash (tid i)) end)) -> forall idx, on_way (mem c) i H idx -> finishes i (mem c) (Look m H idx).
Proof.
  intros G L LH NX idx (d & W). destruct (hole l c o T H G ltac:(lia)) as (k & e & K & CE & E & EK). assert (CP : 0 < cap (tabs (mem c) H)) by lia.
  remember (Z.to_nat (e - d)) as n eqn:EN. revert d idx W EN. induction n as [n IHn] using lt_wf_ind. intros d idx W EN.
  pose proof (way_e l c o T H _ _ _ G ltac:(lia) W E EK) as DE. apply one_more; [exact I|]. intros ok. cbn [ProducerHashModel.act]. rewrite (mask_mod _ _ k) by (lia || exact CE).
  destruct (Z.eqb_spec (key (tabs (mem c) H) (idx mod cap (tabs (mem c) H))) (tid i)) as [T0|NT]; [eapply take_done; eauto|].
  destruct (Z.eqb_spec (key (tabs (mem c) H) (idx mod cap (tabs (mem c) H))) 0) as [Z0|NZ].
  - assert (AH : absent tid (mem c) i H) by (eapply (empty_absent tid hash tid_nz); [apply (w_thread _ _ _ _ _ _ G i)|lia|exact W|exact Z0]). destruct H; exact (NX AH).
  - cbn [fst snd]. assert (W4 : way (mem c) i H ((idx mod cap (tabs (mem c) H) + 1) mod cap (tabs (mem c) H)) (d + 1)).
    { destruct W as (D & P & W). split; [lia|]. split; [rewrite P; apply pos_next, CP|]. intros x X. destruct (Z.eq_dec x d) as [->|]; [rewrite <- P; split; assumption|apply W; lia]. }
    assert (d <> e) by (destruct W as (_ & P & _); intros ->; rewrite P in NZ; contradiction). apply (IHn (Z.to_nat (e - (d + 1))) ltac:(lia) (d + 1)); [exact W4|reflexivity].
Qed.
Lemma look_done l c o T m : good l c o T -> short l 12 -> (m < ntabs (mem c))%nat -> (forall x y, ~ writing (pcs c i) x y) ->
  (none tid (mem c) o T i /\ resizing (mem c) = false) \/ has tid (mem c) o T i ->
  forall h, (h <= m)%nat -> (forall m', (h < m' < ntabs (mem c))%nat -> absent tid (mem c) i m') -> forall idx, on_way (mem c) i h idx -> finishes i (mem c) (Look m h idx).
Proof.
  intros G SH L NW NH. induction h as [|h IHh]; intros LH AB idx ON; (eapply table_done; [eassumption|exact L|exact LH| |exact ON]); intros AH.
  - destruct NH as [[N F]|(_ & _ & (m' & b & L' & E'))]; [|exfalso; destruct m' as [|m']; [exact (AH b E')|exact (AB (S m') ltac:(lia) b E')]].
    pose proof (quiet tid hash k0 tid_inj tid_nz k0_range l (Inside i true) c o T i (Add m) G) as Q. specialize (Q (conj L N) ltac:(intros []) ltac:(intros x y WR; destruct (NW x y WR))).
    pose proof (add_done _ _ _ _ m Q) as D. unfold done in D. cbn [mem pcs] in D. unfold set_pc in D. rewrite Nat.eqb_refl in D. apply D; auto. unfold short in *. rewrite app_length. cbn. lia.
  - apply IHh; [lia| |].
    + intros m' L'. destruct (Nat.eq_dec m' (S h)) as [->|]; [exact AH|apply AB; lia].
    + apply (way_start tid hash). apply (w_glob _ _ _ _ _ _ G). lia.
Qed.
Lemma alone l c o T : good l c o T -> short l 12 -> busy (pcs c i) -> resizing (mem c) = false \/ holds (pcs c i) \/ has tid (mem c) o T i -> done c.
Proof.
  intros G SH BU FR. pose proof (k_at _ _ _ _ _ _ _ (w_thread _ _ _ _ _ _ G i)) as KA. pose proof (g_tabs _ _ _ _ (w_glob _ _ _ _ _ _ G)) as T1.
  assert (NHA : forall n, pending tid (mem c) o T i n -> ~ has tid (mem c) o T i) by (intros n (P & _) (H & _); congruence).
  remember (pcs c i) as pi eqn:PC. symmetry in PC. destruct pi; cbn [at_pc holds] in *; try (destruct BU; fail).
  - unfold done. rewrite PC. apply one_more; [exact I|]. intros ok. cbn [ProducerHashModel.act fst snd]. eapply look_done; eauto; try (unfold newest; lia).
    + intros x y. rewrite PC. exact id.
    + destruct FR as [F|[[]|H]]; [destruct KA; auto|auto].
    + apply (way_start tid hash). apply (w_glob _ _ _ _ _ _ G). unfold newest. lia.
  - destruct KA as (L & NH & AB & ON). unfold done. rewrite PC. eapply look_done; eauto; try lia.
    + intros x y. rewrite PC. exact id.
    + destruct FR as [F|[[]|H]]; [destruct NH; auto|auto].
  - unfold done. rewrite PC. eapply take_done; eauto. lia.
  - destruct KA as (L & _ & _ & _ & (d & W) & _). unfold done. rewrite PC. destruct (hole l c o T m G L) as (k & e & K & CE & E & EK). eapply (fin_copy (mem c) m k e) with (d := d); eauto; [exact (way_e l c o T m _ _ _ G L W E EK)|]. apply W.
  - destruct KA as (L & _ & _ & AB & (d & W) & _). unfold done. rewrite PC. destruct (hole l c o T m G L) as (k & e & K & CE & E & EK). apply one_more; [exact I|]. intros ok. cbn [ProducerHashModel.act].
    destruct (Z.eqb_spec (key (tabs (mem c) m) a) 0) as [Z0|NZ]; [apply fin_val|]. cbn [fst snd]. pose proof (way_e l c o T m _ _ _ G L W E EK). assert (d <> e) by (destruct W as (_ & P & _); intros ->; rewrite P in NZ; contradiction).
    eapply (fin_copy (mem c) m k e) with (d := d + 1); eauto; [lia|]. destruct W as (_ & -> & _). apply pos_next. lia.
  - unfold done. rewrite PC. apply fin_val.
  - destruct FR as [F|[[]|H]]; [|exfalso; destruct KA as (_ & N & _), H; congruence]. eapply add_done; eauto. unfold short in *. lia.
  - destruct FR as [F|[[]|H]]; [|exfalso; eapply NHA; [apply KA|exact H]]. eapply check_done; eauto. unfold short in *. lia.
  - destruct FR as [F|[[]|H]]; [|exfalso; eapply NHA; [apply KA|exact H]]. eapply lock_done; eauto. unfold short in *. lia.
  - eapply reload_done; eauto. unfold short in *. lia.
  - eapply alloc_done; eauto. unfold short in *. lia.
  - eapply publish_done; eauto. unfold short in *. lia.
  - eapply unlock_done2; eauto. unfold short in *. lia.
  - destruct FR as [F|[[]|H]]; [|exfalso; eapply NHA; [apply KA|exact H]]. eapply fits_done2; eauto. unfold short in *. lia.
  - destruct FR as [F|[[]|H]]; [|exfalso; eapply NHA; [apply KA|exact H]]. eapply wait_done; eauto. unfold short in *. lia.
  - eapply create_done; eauto. unfold short in *. lia.
  - destruct KA as (L & _ & _ & _ & (d & W)). unfold done. rewrite PC. destruct (hole l c o T m G L) as (k & e & K & CE & E & EK). eapply (fin_probe (mem c) m k e) with (d := d); eauto; [exact (way_e l c o T m _ _ _ G L W E EK)|]. apply W.
  - destruct KA as (L & _ & _ & AB & (d & W)). unfold done. rewrite PC. destruct (hole l c o T m G L) as (k & e & K & CE & E & EK). apply one_more; [exact I|]. intros ok. cbn [ProducerHashModel.act].
    destruct (Z.eqb_spec (key (tabs (mem c) m) a) 0) as [Z0|NZ]; [apply fin_pval|]. cbn [fst snd]. pose proof (way_e l c o T m _ _ _ G L W E EK). assert (d <> e) by (destruct W as (_ & P & _); intros ->; rewrite P in NZ; contradiction).
    eapply (fin_probe (mem c) m k e) with (d := d + 1); eauto; [lia|]. destruct W as (_ & -> & _). apply pos_next. lia.
  - unfold done. rewrite PC. apply fin_pval.
  - unfold done. rewrite PC. apply fin_giveup.
  - unfold done. rewrite PC. apply one_more; [exact I|]. intros ok. cbn. constructor.
  - destruct KA.
Qed.
End Alone.
End Proofs.
