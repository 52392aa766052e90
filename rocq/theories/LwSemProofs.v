(** Invariant of the lightweight semaphore. *)

From Coq Require Import ZArith List Bool Lia.
From Verif Require Import Base Bits SemaphoreSpec SemaphoreProofs LwSemModel LwSemSpec.
Import ListNotations.
Open Scope Z_scope.

(** ** Each thread: where it can be in its call *)
Definition works (c : call) (k : style) (max : Z) (t : timeout) : Prop := (c = Wait t /\ k = One /\ max = 1) \/ (c = WaitMany max t /\ k = Many /\ 0 < max).
Definition tries (c : call) (k : style) (max acc : Z) (t : option timeout) : Prop :=
  (c = TryWait /\ k = One /\ max = 1 /\ acc = 0 /\ t = None) \/ (exists u, c = Wait u /\ k = One /\ max = 1 /\ acc = 0 /\ t = Some u) \/
  (c = TryWaitMany max /\ k = Many /\ acc = 0 /\ t = None /\ 0 <= max) \/ (exists u, c = WaitMany max u /\ k = Many /\ acc = 0 /\ t = Some u /\ 0 <= max) \/
  (exists u, c = WaitMany (max + 1) u /\ k = Many /\ acc = 1 /\ t = None /\ 0 < max).
Definition pc_ok (c : call) (p : pc) : Prop :=
  match p with
  | Done r => result_ok c r /\ 0 <= r
  | Load k max acc t => tries c k max acc t
  | Cas k max acc t _ => tries c k max acc t
  | Spin k max t _ | Dec k max t => works c k max t
  | SpinCas k max t _ old => works c k max t /\ 0 < old
  | Block k max => works c k max Never
  | Sleep k max | Adjust k max | AdjustOld k max _ => works c k max After
  | Add n => c = Signal n /\ 0 <= n
  | Post n => exists m, c = Signal m
  end.
Lemma start_ok c : valid c -> pc_ok c (start c).
Proof. destruct c; cbn [valid start pc_ok]; unfold tries; intros V; try tauto; try (split; [auto|lia]); eauto 12; try (do 2 right; left; repeat split; lia); do 3 right; left; eexists; repeat split; eauto; lia. Qed.
Lemma got_one_ok c k max t : works c k max t -> pc_ok c (got_one k max).
Proof.
  intros [(-> & -> & ->)|(-> & -> & M)]; cbn [got_one pc_ok]; [destruct t; cbn; lia|]. destruct (Z.ltb_spec 1 max) as [L|L]; cbn [pc_ok]; [|destruct t; cbn; lia].
  unfold tries. do 4 right. exists t. replace (max - 1 + 1) with max by lia. repeat split; auto. lia.
Qed.
Lemma lower_range k max old : 0 < old -> (k = One -> max = 1) -> 0 <= max -> 0 <= lower k max old <= old /\ old - lower k max old <= max /\ (0 < max -> lower k max old < old).
Proof. intros O K M. destruct k; cbn [lower]; [rewrite K by auto; lia|]. destruct (Z.ltb_spec max old); lia. Qed.
Lemma tries_range c k max acc t : tries c k max acc t -> (k = One -> max = 1) /\ 0 <= max /\ 0 <= acc.
Proof. unfold tries. intros [(-> & -> & -> & -> & ->)|[(u & -> & -> & -> & -> & ->)|[(-> & -> & -> & -> & M)|[(u & -> & -> & -> & -> & M)|(u & -> & -> & -> & -> & M)]]]]; repeat split; try lia; try discriminate; auto. Qed.
Lemma tries_some c k max acc t : tries c k max acc (Some t) -> acc = 0.
Proof. unfold tries. intros [(_ & _ & _ & E & _)|[(u & _ & _ & _ & E & _)|[(_ & _ & E & _ & _)|[(u & _ & _ & E & _ & _)|(u & _ & _ & _ & E & _)]]]]; auto; discriminate. Qed.
Lemma works_range c k max t : works c k max t -> (k = One -> max = 1) /\ 0 < max.
Proof. intros [(-> & -> & ->)|(-> & -> & M)]; split; auto; try lia; discriminate. Qed.
Lemma tries_done c k max acc t r : tries c k max acc t -> 0 <= r <= max -> (t <> None -> 0 < max -> 0 < r) -> result_ok c (acc + r) /\ 0 <= acc + r.
Proof.
  unfold tries. intros [(-> & -> & -> & -> & ->)|[(u & -> & -> & -> & -> & ->)|[(-> & -> & -> & -> & M)|[(u & -> & -> & -> & -> & M)|(u & -> & -> & -> & -> & M)]]]] R P; cbn [result_ok].
  - lia.
  - assert (0 < r) by (apply P; [discriminate|lia]). destruct u; lia.
  - lia.
  - assert (0 < max -> 0 < r) by (intros; apply P; [discriminate|lia]). destruct u; lia.
  - destruct u; lia.
Qed.
Lemma works_done c k max t r : works c k max t -> 1 <= r <= max -> result_ok c r /\ 0 <= r.
Proof. intros [(-> & -> & ->)|(-> & -> & M)] R; cbn [result_ok]; destruct t; lia. Qed.
Lemma tstep_ok call c s p c' s' p' : pc_ok call p -> tstep c s p c' s' p' -> pc_ok call p'.
Proof.
  intros H ST. inversion ST; subst; cbn [pc_ok] in *; auto.
  - destruct (tries_range _ _ _ _ _ H) as (A & B & C). destruct (lower_range k max c H0 A B) as (L1 & L2 & L3). apply (tries_done _ _ _ _ _ _ H); [lia|]. intros _ M. specialize (L3 M). lia.
  - replace acc with (acc + 0) by lia. apply (tries_done _ _ _ _ _ 0 H); [pose proof (tries_range _ _ _ _ _ H); lia|congruence].
  - unfold tries in H. destruct H as [(_ & _ & _ & _ & E)|[(u & -> & -> & -> & _ & E)|[(_ & _ & _ & E & _)|[(u & -> & -> & _ & E & _)|(u & _ & _ & _ & E & _)]]]]; try discriminate; injection E as <-; [left|right]; auto.
  - replace acc with (acc + 0) by lia. apply (tries_done _ _ _ _ _ 0 H); [pose proof (tries_range _ _ _ _ _ H); lia|lia].
  - destruct H as [H O]. destruct (works_range _ _ _ _ H) as (A & B). destruct (lower_range k max c O A ltac:(lia)) as (L1 & L2 & L3). apply (works_done _ _ _ _ _ H). specialize (L3 B). lia.
  - apply H.
  - now apply (got_one_ok _ _ _ t).
  - destruct t; auto.
  - now apply (got_one_ok _ _ _ Never).
  - now apply (got_one_ok _ _ _ After).
  - now apply (got_one_ok _ _ _ After).
  - destruct H as [(-> & -> & ->)|(-> & -> & M)]; cbn; lia.
  - destruct H as [-> N]. eauto.
  - destruct H as [-> N]. cbn. lia.
  - destruct H as [m ->]. cbn. lia.
Qed.

(** ** The books *)
Definition waits (p : pc) : Z := match p with Block _ _ | Sleep _ _ | Adjust _ _ | AdjustOld _ _ _ => 1 | _ => 0 end.
Definition posts (p : pc) : Z := match p with Post n => Z.max 0 n | _ => 0 end.
Definition unsent (p : pc) : Z := match p with Add n => n | _ => 0 end.
Definition holds (p : pc) : Z := match p with Load _ _ acc _ | Cas _ _ acc _ _ => acc | _ => 0 end.
Definition sum (f : pc -> Z) (ts : list (call * pc)) : Z := total (fun x => f (snd x)) ts.
Lemma sum_upd f ts i k p k' p' : nth_error ts i = Some (k, p) -> sum f (upd ts i (k', p')) = sum f ts - f p + f p'.
Proof. intros E. unfold sum. now rewrite (total_upd _ _ _ _ _ E). Qed.
Lemma sum_bounds f ts lo hi : (forall x, In x ts -> lo <= f (snd x) <= hi) -> lo * Z.of_nat (length ts) <= sum f ts <= hi * Z.of_nat (length ts).
Proof.
  unfold sum, total. induction ts as [|a ts IH]; intros H; [cbn; lia|]. cbn [fold_right length]. specialize (IH ltac:(intros x I; apply H; now right)). specialize (H a (or_introl eq_refl)). rewrite Nat2Z.inj_succ. nia.
Qed.
Lemma sum_nonneg f ts : (forall x, In x ts -> 0 <= f (snd x)) -> 0 <= sum f ts.
Proof. unfold sum, total. induction ts as [|a ts IH]; intros H; [cbn; lia|]. cbn [fold_right]. specialize (IH ltac:(intros x I; apply H; now right)). specialize (H a (or_introl eq_refl)). lia. Qed.
Lemma sum_ge f ts i k p : (forall x, In x ts -> 0 <= f (snd x)) -> nth_error ts i = Some (k, p) -> f p <= sum f ts.
Proof.
  unfold sum, total. revert i. induction ts as [|a ts IH]; intros [|i] H E; try discriminate; cbn [fold_right nth_error] in *.
  - injection E as ->. cbn [snd]. pose proof (sum_nonneg f ts ltac:(intros x I; apply H; now right)) as N. unfold sum, total in N. lia.
  - specialize (IH i ltac:(intros x I; apply H; now right) E). specialize (H a (or_introl eq_refl)). lia.
Qed.

Record inv (permits : Z) (n : nat) (a : sys) : Prop := mkInv {
  i_ok : forall x, In x (threads a) -> pc_ok (fst x) (snd x);
  i_len : length (threads a) = n;
  i_count : count a = permits + signalled a - sum unsent (threads a) - granted a - sum holds (threads a) - sum waits (threads a);
  i_waits : sema a + sum posts (threads a) + Z.max 0 (- count a) = sum waits (threads a);
  i_sema : 0 <= sema a;
  i_granted : 0 <= granted a;
  i_signalled : 0 <= signalled a }.

Lemma waits_01 p : 0 <= waits p <= 1. Proof. destruct p; cbn; lia. Qed.
Lemma posts_0 p : 0 <= posts p. Proof. destruct p; cbn; lia. Qed.
Lemma unsent_0 c p : pc_ok c p -> 0 <= unsent p. Proof. destruct p; cbn; try lia. Qed.
Lemma holds_0 c p : pc_ok c p -> 0 <= holds p.
Proof. destruct p; cbn [pc_ok holds]; try lia; intros H; apply tries_range in H; lia. Qed.
Lemma inv_sums permits n a : inv permits n a -> 0 <= sum waits (threads a) <= Z.of_nat n /\ 0 <= sum posts (threads a) /\ 0 <= sum unsent (threads a) /\ 0 <= sum holds (threads a).
Proof.
  intros [OK LEN _ _ _ _ _]. split; [|split; [|split]].
  - pose proof (sum_bounds waits (threads a) 0 1 ltac:(intros; apply waits_01)). rewrite LEN in *. lia.
  - apply sum_nonneg. intros. apply posts_0.
  - apply sum_nonneg. intros x I. eapply unsent_0. now apply OK.
  - apply sum_nonneg. intros x I. eapply holds_0. now apply OK.
Qed.
Lemma in_upd {A} (l : list A) i x y : In y (upd l i x) -> y = x \/ In y l.
Proof.
  revert i. induction l as [|a l IH]; intros [|i] H; cbn [upd] in H; [tauto|tauto| |].
  - destruct H as [<-|H]; [now left|right; now right].
  - destruct H as [<-|H]; [right; now left|]. destruct (IH _ H); [now left|right; now right].
Qed.

Lemma got_sums k max : waits (got_one k max) = 0 /\ posts (got_one k max) = 0 /\ unsent (got_one k max) = 0 /\ holds (got_one k max) + returned (got_one k max) = 1.
Proof. destruct k; cbn; auto. destruct (1 <? max); cbn; auto. Qed.
Lemma wrap64 x : - 2 ^ 31 <= x < 2 ^ 63 -> wrap 64 x = x.
Proof. intros R. apply wrap_id; [lia|]. unfold in_s, smin, smax. change (2 ^ (64 - 1)) with (2 ^ 63). change (2 ^ 31) with 2147483648 in R. change (2 ^ 63) with 9223372036854775808 in *. lia. Qed.
Lemma wrap32 x : 0 <= x < 2 ^ 31 -> wrap 32 x = x.
Proof. intros R. apply wrap_id; [lia|]. unfold in_s, smin, smax. change (2 ^ (32 - 1)) with (2 ^ 31). lia. Qed.

(** the effect of a step of one thread on the books *)
Lemma tstep_books call c s p c' s' p' W P : pc_ok call p -> tstep c s p c' s' p' -> 0 <= s -> 0 <= P -> waits p <= W < 2 ^ 31 -> posts p <= P -> s + P + Z.max 0 (- c) = W -> c + unsent p < 2 ^ 63 ->
  c' = c + unsent p - unsent p' - returned p' + holds p - holds p' + waits p - waits p' /\
  s' + (P - posts p + posts p') + Z.max 0 (- c') = W - waits p + waits p' /\ 0 <= s' /\ 0 <= returned p' /\ s < SEM_VALUE_MAX + 1.
Proof.
  intros OK ST S0 P0 W0 PP BK BD. assert (SM : s < SEM_VALUE_MAX + 1) by (unfold SEM_VALUE_MAX; lia).
  inversion ST; subst; cbn [pc_ok waits posts unsent holds returned] in *; try (destruct (got_sums k max) as (G1 & G2 & G3 & G4); rewrite ?G1, ?G2, ?G3); try (repeat split; lia).
  - destruct (tries_range _ _ _ _ _ OK) as (A & B & C). destruct (lower_range k max c H A B) as (L1 & L2 & _). repeat split; lia.
  - apply tries_range in OK. repeat split; lia.
  - apply tries_some in OK. subst acc. repeat split; lia.
  - apply tries_range in OK. repeat split; lia.
  - destruct OK as [OK O]. destruct (works_range _ _ _ _ OK) as (A & B). destruct (lower_range k max c O A ltac:(lia)) as (L1 & L2 & _). repeat split; lia.
  - rewrite wrap64 by lia. assert (0 <= returned (got_one k max)) by (destruct k; cbn; [lia|]; destruct (1 <? max); cbn; lia). repeat split; lia.
  - rewrite wrap64 by lia. destruct t; cbn; repeat split; lia.
  - assert (0 <= returned (got_one k max)) by (destruct k; cbn; [lia|]; destruct (1 <? max); cbn; lia). repeat split; lia.
  - assert (0 <= returned (got_one k max)) by (destruct k; cbn; [lia|]; destruct (1 <? max); cbn; lia). repeat split; lia.
  - assert (0 <= returned (got_one k max)) by (destruct k; cbn; [lia|]; destruct (1 <? max); cbn; lia). repeat split; lia.
  - rewrite wrap64, wrap32 by lia. repeat split; lia.
  - rewrite wrap64 by lia. repeat split; lia.
Qed.

Lemma inv_init permits n : 0 <= permits -> inv permits n (init permits n).
Proof.
  intros P. assert (S0 : forall f, f (Done 0) = 0 -> sum f (repeat (Nothing, Done 0) n) = 0) by (intros f F; unfold sum, total; induction n as [|m IH]; cbn [repeat fold_right snd]; lia).
  constructor; cbn [init threads count granted signalled sema]; rewrite ?S0 by reflexivity; try lia; [|apply repeat_length].
  intros x I. apply repeat_spec in I. subst x. cbn. lia.
Qed.
Lemma inv_step permits n a b : 0 <= permits -> Z.of_nat n < 2 ^ 31 -> permits + signalled a < 2 ^ 63 -> inv permits n a -> step a b -> inv permits n b.
Proof.
  intros P0 N BD I ST. pose proof (inv_sums permits n a I) as (SW & SP & SU & SH). destruct ST as [c s ts g r i k p c' s' p' E ST]. destruct I as [OK LEN CNT WTS SM GR SG]. cbn [threads count granted signalled sema] in *.
  pose proof (nth_error_In _ _ E) as IN. pose proof (OK _ IN) as OKP. cbn [fst snd] in OKP.
  pose proof (sum_ge waits ts i k p ltac:(intros; apply waits_01) E) as GW. pose proof (sum_ge posts ts i k p ltac:(intros; apply posts_0) E) as GP.
  pose proof (sum_ge unsent ts i k p ltac:(intros x I; eapply unsent_0; now apply OK) E) as GU. pose proof (sum_ge holds ts i k p ltac:(intros x I; eapply holds_0; now apply OK) E) as GH.
  destruct (tstep_books k c s p c' s' p' (sum waits ts) (sum posts ts) OKP ST SM SP ltac:(lia) GP WTS ltac:(lia)) as (B1 & B2 & B3 & B4 & _).
  constructor; cbn [threads count granted signalled sema]; rewrite ?(sum_upd _ _ _ _ _ _ _ E); try lia.
  - intros x I. apply in_upd in I. destruct I as [->|I]; [|auto]. cbn [fst snd]. eapply tstep_ok; eauto.
  - now rewrite upd_length.
Qed.
Lemma inv_call permits n a b : inv permits n a -> calls a b -> inv permits n b.
Proof.
  intros I ST. destruct ST as [c s ts g r i k0 res k E V]. destruct I as [OK LEN CNT WTS SM GR SG]. cbn [threads count granted signalled sema] in *. pose proof (start_ok k V) as SO.
  assert (Q : waits (start k) = 0 /\ posts (start k) = 0 /\ unsent (start k) = given k /\ holds (start k) = 0 /\ 0 <= given k) by (destruct k; cbn [valid] in V; cbn; lia).
  constructor; cbn [threads count granted signalled sema]; rewrite ?(sum_upd _ _ _ _ _ _ _ E); cbn [waits posts unsent holds]; try lia.
  - intros x I. apply in_upd in I. destruct I as [->|I]; auto.
  - now rewrite upd_length.
Qed.
Lemma signalled_mono a b : step a b -> signalled b = signalled a.
Proof. now destruct 1. Qed.
Lemma reach_inv permits n a : 0 <= permits -> Z.of_nat n < 2 ^ 31 -> reach permits n a -> permits + signalled a < 2 ^ 63 -> inv permits n a.
Proof.
  intros P0 N R. induction R as [|a b R IH ST|a b R IH ST]; intros BD.
  - now apply inv_init.
  - rewrite (signalled_mono a b ST) in BD. eapply inv_step; eauto.
  - eapply inv_call; [|exact ST]. apply IH. destruct ST as [c s ts g r i k0 res k E V]. cbn [signalled] in *. assert (0 <= given k) by (destruct k; cbn in *; lia). lia.
Qed.
