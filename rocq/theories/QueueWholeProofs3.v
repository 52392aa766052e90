(** The whole queue: counting and progress. *)

From Coq Require Import ZArith List Lia Bool.
From Verif Require Import Base Bits TextLemmas SubQueueModel SubQueueSpec SubQueueProofs SubQueueProofs2 SubQueueProofs3 SubQueueProofs4 QueueWholeModel QueueWholeSpec QueueWholeProofs QueueWholeProofs2.
Import ListNotations.
Open Scope Z_scope.

Section Whole.
Context {T : Type}.
Variables (B : Z) (nothrow : bool).
Hypothesis HB : 0 < B.
Notation state := (@state T).
Notation queue := (@queue T).
Notation step := (@step T B nothrow).
Notation ostep := (@ostep T B nothrow).
Notation orun := (@orun T B nothrow).
Notation inv := (@inv T B nothrow).
Notation whole := (@whole T B nothrow).

(** *** Counting *)
Lemma sum_app f l l' : sum f (l ++ l') = sum f l + sum f l'.
Proof. induction l as [|x l IH]; [reflexivity|]. change (f x + sum f (l ++ l') = f x + sum f l + sum f l'). lia. Qed.
Lemma sum_cons f x l : sum f (x :: l) = f x + sum f l.
Proof. reflexivity. Qed.
Lemma sum_le f g l : (forall q, In q l -> f q <= g q) -> sum f l <= sum g l.
Proof. induction l as [|x l IH]; intros H; [cbn; lia|]. rewrite !sum_cons. specialize (IH (fun q Q => H q (or_intror Q))). specialize (H x (or_introl eq_refl)). lia. Qed.
Lemma sum_nonneg f l : (forall q, 0 <= f q) -> 0 <= sum f l.
Proof. intros H. induction l as [|x l IH]; [cbn; lia|]. rewrite sum_cons. specialize (H x). lia. Qed.
Lemma sum_incl f : (forall q, 0 <= f q) -> forall l l', NoDup l -> (forall q, In q l -> f q <> 0 -> In q l') -> sum f l <= sum f l'.
Proof.
  intros N. induction l as [|x l IH]; intros l' D I; [now apply sum_nonneg|]. rewrite sum_cons. inversion D as [|? ? X D']; subst.
  destruct (Z.eq_dec (f x) 0) as [E|E].
  - rewrite E, Z.add_0_l. apply IH; auto. intros q Q. apply I. now right.
  - destruct (in_split x l' (I x (or_introl eq_refl) E)) as (l1 & l2 & ->). rewrite sum_app, sum_cons.
    specialize (IH (l1 ++ l2) D'). rewrite sum_app in IH. enough (sum f l <= sum f l1 + sum f l2) by lia. apply IH.
    intros q Q QE. specialize (I q (or_intror Q) QE). apply in_app_iff in I as [I|[I|I]]; apply in_app_iff; auto. subst. contradiction.
Qed.
Section Size.
Variables (s1 : queue) (t : nat).
Definition lower (s : queue) (q : nat) : Z := Z.max 0 (put s1 q - taken s q).
Definition upper (s : queue) (q : nat) : Z := put s q - taken s1 q.
Definition counts (s : queue) : Prop :=
  match ops s t with
  | SizeT ps acc => exists v, prods s1 = v ++ ps /\ sum (lower s) v <= acc <= sum (upper s) v
  | SizeH p tl ps acc => exists v, prods s1 = v ++ p :: ps /\ put s1 p <= tl <= put s p /\ sum (lower s) v <= acc <= sum (upper s) v
  | _ => True
  end.
Record sizes (s : queue) : Prop := mkSizes { z_whole : whole s; z_put : forall q, put s1 q <= put s q; z_taken : forall q, taken s1 q <= taken s q; z_counts : counts s }.
Lemma sizes_step s u c s' : whole s1 -> sizes s -> ostep s u c = Some s' -> c <> OSize ->
  sizes s' /\ forall z, log s' = Sized t z :: log s -> sum (lower s') (prods s1) <= z <= sum (upper s') (prods s1).
Proof.
  intros W1 [W PU TK CO] E NC. pose proof (whole_step B nothrow HB _ _ _ _ W E) as W'.
  assert (C : forall q, put s q <= put s' q /\ taken s q <= taken s' q) by (intros q; destruct (ostep_counters B nothrow HB _ _ _ _ q W E) as (X & Y & _); auto).
  assert (LO : forall v, sum (lower s') v <= sum (lower s) v) by (intros v; apply sum_le; intros q _; unfold lower; destruct (C q); lia).
  assert (UP : forall v, sum (upper s) v <= sum (upper s') v) by (intros v; apply sum_le; intros q _; unfold upper; destruct (C q); lia).
  assert (LL : forall (x : @oevent T) l, x :: l <> l) by (intros x l X; apply (f_equal (@length _)) in X; cbn in X; lia).
  assert (ONE : counts s' -> sizes s').
  { intros X. constructor; auto; intros q; destruct (C q); [specialize (PU q)|specialize (TK q)]; lia. }
  assert (ON : forall p, (forall l a, p <> SizeT l a) -> (forall q b l a, p <> SizeH q b l a) -> onward B nothrow s u c p = Some s' -> (forall x, ops s' t = SizeT x 0 -> True) -> log s' <> log s -> forall z, log s' <> Sized t z :: log s).
  { intros p _ _ X _ _ z Y. destruct (onward_spec B nothrow HB _ _ _ _ _ (w_inv _ _ _ W) X) as (c' & _ & _ & _ & [(_ & _ & _ & _ & EL)|(_ & e & _ & _ & EL & _)]); rewrite EL in Y; [now elim (LL (Sized t z) (log s))|]. destruct e; cbn in Y; try discriminate Y. now elim (LL (Sized t z) (log s)). }
  destruct (Nat.eq_dec u t) as [->|U].
  2: { split.
    - apply ONE. unfold counts in *. rewrite (ops_other B nothrow _ _ _ _ t E) by auto. destruct (ops s t); auto.
      + destruct CO as (v & V & S0). exists v. split; [assumption|]. specialize (LO v). specialize (UP v). lia.
      + destruct CO as (v & V & R & S0). exists v. split; [assumption|]. specialize (LO v). specialize (UP v). specialize (C p). lia.
    - intros z Z0. exfalso. clear - E Z0 U LL W HB. unfold QueueWholeModel.ostep in E.
      assert (ON : forall p, onward B nothrow s u c p = Some s' -> False).
      { intros p X. destruct (onward_spec B nothrow HB _ _ _ _ _ (w_inv _ _ _ W) X) as (c' & _ & _ & _ & [(_ & _ & _ & _ & EL)|(_ & e & _ & _ & EL & _)]); rewrite EL in Z0; [now elim (LL (Sized t z) (log s))|]. destruct e; cbn in Z0; try discriminate Z0. now elim (LL (Sized t z) (log s)). }
      assert (SO : forall q p, start B nothrow s u q p = Some s' -> False).
      { intros q p X. destruct (start_spec B nothrow _ _ _ _ _ X) as (_ & _ & _ & EL). rewrite EL in Z0. now elim (LL (Sized t z) (log s)). }
      destruct (ops s u); try (exact (ON _ E)); destruct c; try discriminate E.
      + destruct (step _ _ _); [|discriminate]. injection E as <-. now elim (LL (Sized t z) (log s)).
      + injection E as <-. now elim (LL (Sized t z) (log s)).
      + injection E as <-. now elim (LL (Sized t z) (log s)).
      + destruct (if Nat.ltb _ _ then _ else _); [|injection E as <-; now elim (LL (Sized t z) (log s))]. destruct count; [injection E as <-; discriminate|]. destruct best; [exact (SO _ _ E)|injection E as <-; now elim (LL (Sized t z) (log s))].
      + injection E as <-. now elim (LL (Sized t z) (log s)).
      + injection E as <-. now elim (LL (Sized t z) (log s)).
      + destruct ps; discriminate.
      + destruct ps; discriminate.
      + destruct ps; discriminate.
      + destruct ps as [|p ps]; [injection E as <-; discriminate|]. destruct (Nat.eqb p b); [injection E as <-; now elim (LL (Sized t z) (log s))|exact (SO _ _ E)].
      + destruct ps; discriminate.
      + destruct ps; discriminate.
      + destruct ps; discriminate.
      + destruct ps; discriminate.
      + destruct ps; discriminate.
      + destruct ps; injection E as <-; [cbn in Z0; injection Z0; intros; subst; now elim U|now elim (LL (Sized t z) (log s))].
      + destruct ps; discriminate.
      + destruct ps; discriminate.
      + injection E as <-. now elim (LL (Sized t z) (log s)). }
  clear ON. assert (ON : forall p, (match p with SizeT _ _ | SizeH _ _ _ _ => False | _ => True end) -> (match ops s t with SizeT _ _ | SizeH _ _ _ _ => False | _ => True end) -> onward B nothrow s t c p = Some s' -> counts s' /\ forall z, log s' <> Sized t z :: log s).
  { intros p NP NS X. destruct (onward_spec B nothrow HB _ _ _ _ _ (w_inv _ _ _ W) X) as (c' & _ & _ & _ & [(_ & _ & _ & EO & EL)|(_ & e & _ & _ & EL & EO)]).
    - split; [unfold counts; rewrite EO; destruct (ops s t); auto; contradiction|]. intros z Y. rewrite EL in Y. now elim (LL (Sized t z) (log s)).
    - split; [unfold counts; rewrite EO, fupd_same; destruct e; auto; destruct p; auto; contradiction|]. intros z Y. rewrite EL in Y. destruct e; cbn in Y; try discriminate Y. now elim (LL (Sized t z) (log s)). }
  assert (SO : forall q p, (match p with SizeT _ _ | SizeH _ _ _ _ => False | _ => True end) -> start B nothrow s t q p = Some s' -> counts s' /\ forall z, log s' <> Sized t z :: log s).
  { intros q p NP X. destruct (start_spec B nothrow _ _ _ _ _ X) as (_ & _ & EO & EL). split; [unfold counts; rewrite EO, fupd_same; destruct p; auto; contradiction|]. rewrite EL. intros z Y. now elim (LL (Sized t z) (log s)). }
  assert (FIN : (counts s' /\ forall z, log s' <> Sized t z :: log s) -> sizes s' /\ forall z, log s' = Sized t z :: log s -> sum (lower s') (prods s1) <= z <= sum (upper s') (prods s1)).
  { intros [X Y]. split; [now apply ONE|]. intros z Z0. now elim (Y z). }
  unfold counts in CO. unfold QueueWholeModel.ostep in E. destruct (ops s t) eqn:O; try (apply FIN; refine (ON _ _ _ E); exact Logic.I).
  - apply FIN. destruct c; try discriminate E; [| |now elim NC].
    + destruct (step _ _ _); [|discriminate]. injection E as <-. split; [unfold counts; cbn; now rewrite fupd_same|]. intros z Y. now elim (LL (Sized t z) (log s)).
    + injection E as <-. split; [unfold counts; cbn; now rewrite fupd_same|]. intros z Y. now elim (LL (Sized t z) (log s)).
  - apply FIN. destruct c; try discriminate E. destruct (if Nat.ltb _ _ then _ else _).
    + destruct count; [injection E as <-; split; [unfold counts; cbn; now rewrite fupd_same|discriminate]|]. destruct best; [refine (SO _ _ _ E); exact Logic.I|]. injection E as <-. split; [unfold counts; cbn; now rewrite fupd_same|]. intros z Y. now elim (LL (Sized t z) (log s)).
    + injection E as <-. split; [unfold counts; cbn; now rewrite fupd_same|]. intros z Y. now elim (LL (Sized t z) (log s)).
  - apply FIN. destruct c; try discriminate E. injection E as <-. split; [unfold counts; cbn; rewrite fupd_same|intros z Y; now elim (LL (Sized t z) (log s))]. destruct (0 <? _); [destruct (size <? _)|]; exact Logic.I.
  - apply FIN. destruct c; try discriminate E. injection E as <-. split; [unfold counts; cbn; now rewrite fupd_same|intros z Y; now elim (LL (Sized t z) (log s))].
  - apply FIN. destruct c; destruct ps as [|p ps]; try discriminate E; [injection E as <-; split; [unfold counts; cbn; now rewrite fupd_same|discriminate]|].
    destruct (Nat.eqb p b); [|refine (SO _ _ _ E); exact Logic.I]. injection E as <-. split; [unfold counts; cbn; now rewrite fupd_same|intros z Y; now elim (LL (Sized t z) (log s))].
  - destruct CO as (v & V & S0). destruct c; destruct ps as [|p ps]; try discriminate E; injection E as <-.
    + split; [apply ONE; unfold counts; cbn; now rewrite fupd_same|]. intros z Y. cbn in Y. injection Y as <-. rewrite app_nil_r in V. subst v. exact S0.
    + split; [apply ONE; unfold counts; cbn; rewrite fupd_same|intros z Y; now elim (LL (Sized t z) (log s))]. exists v. split; [assumption|]. split; [|exact S0]. split; [apply PU|apply Z.le_refl].
  - destruct CO as (v & V & R & S0). destruct c; try discriminate E. injection E as <-. split; [apply ONE; unfold counts; cbn; rewrite fupd_same|intros z Y; now elim (LL (Sized t z) (log s))].
    exists (v ++ [p]). split; [now rewrite <- app_assoc|]. rewrite !sum_app. cbn [sum fold_right].
    change (sum (lower s) v + (Z.max 0 (put s1 p - taken s p) + 0) <= acc + size_of tl (taken s p) <= sum (upper s) v + (put s p - taken s1 p + 0)).
    pose proof (TK p). pose proof (taken_le_put B nothrow s p W). unfold size_of. destruct (Z.ltb_spec (taken s p) tl); lia.
  - destruct c; discriminate E.
Qed.
Lemma sizes_run p : whole s1 -> forall s s', sizes s -> orun s p = Some s' -> forallb (fun d => match snd d with OSize => false | _ => true end) p = true -> sizes s'.
Proof.
  intros W1. induction p as [|[u c] p IH]; intros s s' H E F; cbn [QueueWholeModel.orun] in E; [now injection E as <-|].
  cbn [forallb snd] in F. apply andb_prop in F as [F1 F2]. destruct (ostep s u c) as [s2|] eqn:ST; [|discriminate].
  apply (IH s2 s'); auto. apply (sizes_step _ _ _ _ W1 H ST). intros ->. discriminate.
Qed.
End Size.

(** *** Progress *)
Definition orank (n : nat) (s : queue) (t : nat) : nat :=
  match ops s t with
  | Resting | Crash => 0
  | Adding => rank (pcs (inner s) t)
  | ScanT ps _ _ _ => 2 * length ps + 12 * n + 14
  | ScanH _ _ ps _ _ _ => 2 * length ps + 12 * n + 15
  | Best _ => rank (pcs (inner s) t) + 12 * n + 2
  | Again _ => 12 * n + 2
  | Next _ ps => 12 * length ps + 1
  | Other _ ps => rank (pcs (inner s) t) + 12 * length ps + 1
  | SizeT ps _ => 2 * length ps + 1
  | SizeH _ _ ps _ => 2 * length ps + 2
  end.
Lemma rank_pos s t : inv s -> pcs s t <> Idle -> (0 < rank (pcs s t) <= 11)%nat.
Proof. intros I N. pose proof (not_bad B nothrow s t) as NB. destruct (pcs s t); cbn; try lia; [now elim N|now elim (NB u)]. Qed.
Lemma orank_bound n s t : whole s -> (length (prods s) <= n)%nat -> (orank n s t <= 14 * n + 15)%nat.
Proof.
  intros W L. pose proof (w_fits _ _ _ W t) as F. unfold fits in F. unfold orank.
  assert (R : (rank (pcs (inner s) t) <= 11)%nat) by (destruct (pcs (inner s) t); cbn; lia).
  destruct (ops s t); try lia. 
Qed.
Lemma orank_pos n s t : whole s -> ops s t <> Resting -> (0 < orank n s t)%nat.
Proof.
  intros W N. pose proof (w_fits _ _ _ W t) as F. unfold fits in F. unfold orank. destruct (ops s t); try lia; try contradiction; try (now elim N).
  destruct F as [F _]. apply rank_pos; [exact (w_inv _ _ _ W)|]. intros X. rewrite X in F. discriminate.
Qed.
Lemma orank_step n s t c s' : whole s -> ostep s t c = Some s' -> (length (prods s') <= n)%nat -> ops s t <> Resting ->
  (ops s' t <> Resting /\ (orank n s' t < orank n s t)%nat) \/ exists e, log s' = e :: log s /\ caller e = t.
Proof.
  intros W E L N. pose proof (w_inv _ _ _ W) as I. pose proof (w_fits _ _ _ W t) as F. unfold fits in F.
  assert (ON : forall p, onward B nothrow s t c p = Some s' -> (forall r, (rank (pcs (inner s') t) < rank (pcs (inner s) t))%nat -> ops s' t = ops s t -> r = 0%nat -> True) -> prods s' = prods s /\
    ((ops s' t = ops s t /\ (rank (pcs (inner s') t) < rank (pcs (inner s) t))%nat) \/ (exists e, log s' = e :: log s /\ caller e = t) \/ (ops s' t = p /\ kind (pcs (inner s) t) <> Some None /\ (0 < rank (pcs (inner s) t))%nat))).
  { intros p X _. destruct (onward_spec B nothrow HB _ _ _ _ _ I X) as (c' & ST & EP & NI & [(N1 & K & H & EO & EL)|(ID & e & H & M & EL & EO)]); (split; [assumption|]).
    - left. split; [now rewrite EO|]. destruct (rank_step B nothrow HB _ _ _ _ I ST) as [_ [(_ & _ & R)|(e & H' & _)]]; [now apply R|]. rewrite H in H'. exfalso. apply (f_equal (@length _)) in H'. cbn in H'. lia.
    - right. pose proof (rank_pos _ _ I NI). destruct e; cbn in EL, M, EO; destruct M as [M1 <-]; try (left; eexists; split; [exact EL|reflexivity]).
      right. rewrite EO, fupd_same. split; [reflexivity|]. split; [rewrite M1; discriminate|lia]. }
  pose proof E as E0. unfold QueueWholeModel.ostep in E. destruct (ops s t) eqn:O; try (now elim N).
  - destruct (ON _ E ltac:(auto)) as (_ & [[X Y]|[X|[X [Y _]]]]); [|now right|destruct F as [F _]; contradiction]. left. rewrite X. split; [discriminate|]. unfold orank. rewrite X, O. exact Y.
  - destruct c; try discriminate E. destruct F as (ID & LL & _ & BN).
    destruct (if Nat.ltb count 3 then ps else []) as [|p r] eqn:PS.
    + destruct count; [injection E as <-; right; eexists; split; [reflexivity|reflexivity]|]. destruct best; [|now elim BN].
      destruct (start_spec B nothrow _ _ _ _ _ E) as (ST & EP & EO & EL). destruct (deq_step B nothrow _ _ _ _ _ ST) as (_ & D & _). left. unfold orank. rewrite EO, O, fupd_same, D. split; [discriminate|]. cbn [rank]. lia.
    + injection E as <-. left. unfold orank. cbn. rewrite fupd_same, O. split; [discriminate|]. destruct (Nat.ltb count 3); [|discriminate]. subst ps. cbn. lia.
  - destruct c; try discriminate E. injection E as <-. left. unfold orank. cbn. rewrite fupd_same, O. destruct (0 <? _); [destruct (size <? _)|]; (split; [discriminate|]; lia).
  - destruct (ON _ E ltac:(auto)) as (_ & [[X Y]|[X|[X [_ Y]]]]); [|now right|]; left; rewrite X; (split; [discriminate|]); unfold orank; rewrite X, O; lia.
  - destruct c; try discriminate E. injection E as <-. left. unfold orank. cbn in *. rewrite fupd_same, O. split; [discriminate|]. lia.
  - destruct c; destruct ps as [|p ps]; try discriminate E; [injection E as <-; right; eexists; split; reflexivity|]. left. destruct (Nat.eqb p b).
    + injection E as <-. unfold orank. cbn. rewrite fupd_same, O. split; [discriminate|]. cbn. lia.
    + destruct (start_spec B nothrow _ _ _ _ _ E) as (ST & EP & EO & EL). destruct (deq_step B nothrow _ _ _ _ _ ST) as (_ & D & _). unfold orank. rewrite EO, O, fupd_same, D. split; [discriminate|]. cbn [rank length]. lia.
  - destruct (ON _ E ltac:(auto)) as (_ & [[X Y]|[X|[X [_ Y]]]]); [|now right|]; left; rewrite X; (split; [discriminate|]); unfold orank; rewrite X, O; lia.
  - destruct c; destruct ps as [|p ps]; try discriminate E; injection E as <-; [right; eexists; split; reflexivity|]. left. unfold orank. cbn. rewrite fupd_same, O. split; [discriminate|]. cbn. lia.
  - destruct c; try discriminate E. injection E as <-. left. unfold orank. cbn. rewrite fupd_same, O. split; [discriminate|]. lia.
Qed.
Lemma log_step s t c s' : inv (inner s) -> ostep s t c = Some s' -> exists new, log s' = new ++ log s.
Proof.
  intros I E. assert (ON : forall p, onward B nothrow s t c p = Some s' -> exists new, log s' = new ++ log s).
  { intros p X. destruct (onward_spec B nothrow HB _ _ _ _ _ I X) as (c' & _ & _ & _ & [(_ & _ & _ & _ & EL)|(_ & e & _ & _ & EL & _)]); [now exists []|eauto]. }
  assert (SO : forall q p, start B nothrow s t q p = Some s' -> exists new, log s' = new ++ log s).
  { intros q p X. destruct (start_spec B nothrow _ _ _ _ _ X) as (_ & _ & _ & EL). now exists []. }
  unfold QueueWholeModel.ostep in E. destruct (ops s t); try (exact (ON _ E)); destruct c; try discriminate E; try (destruct ps; discriminate E); try (injection E as <-; now exists []).
  - destruct (step _ _ _); [|discriminate]. injection E as <-. now exists [].
  - destruct (if Nat.ltb _ _ then _ else _); [|injection E as <-; now exists []]. destruct count; [injection E as <-; now exists [PollNone t]|]. destruct best; [exact (SO _ _ E)|injection E as <-; now exists []].
  - destruct ps as [|p ps]; [injection E as <-; now exists [PollNone t]|]. destruct (Nat.eqb p b); [injection E as <-; now exists []|exact (SO _ _ E)].
  - destruct ps as [|p ps]; injection E as <-; [now exists [Sized t acc]|now exists []].
Qed.
Lemma log_run p : forall s s', whole s -> orun s p = Some s' -> exists new, log s' = new ++ log s.
Proof.
  induction p as [|[t c] p IH]; intros s s' W E; cbn [QueueWholeModel.orun] in E; [injection E as <-; now exists []|].
  destruct (ostep s t c) as [s1|] eqn:ST; [|discriminate]. destruct (IH _ _ (whole_step B nothrow HB _ _ _ _ W ST) E) as [n2 ->]. destruct (log_step _ _ _ _ (w_inv _ _ _ W) ST) as [n1 ->]. exists (n2 ++ n1). now rewrite app_assoc.
Qed.
Lemma prods_run p : forall s s', whole s -> orun s p = Some s' -> (length (prods s) <= length (prods s'))%nat.
Proof.
  induction p as [|[t c] p IH]; intros s s' W E; cbn [QueueWholeModel.orun] in E; [now injection E as <-|].
  destruct (ostep s t c) as [s1|] eqn:ST; [|discriminate]. pose proof (IH _ _ (whole_step B nothrow HB _ _ _ _ W ST) E).
  destruct (ostep_prods B nothrow HB _ _ _ _ (w_inv _ _ _ W) (w_nodup _ _ _ W) ST) as [_ IC]. pose proof (NoDup_incl_length (w_nodup _ _ _ W) IC). lia.
Qed.
Lemma bounded_run n t p : forall s s', whole s -> orun s p = Some s' -> (length (prods s') <= n)%nat -> ops s t <> Resting ->
  (exists new e, log s' = new ++ log s /\ In e new /\ caller e = t) \/ (ops s' t <> Resting /\ (orank n s' t + own_steps t p <= orank n s t)%nat).
Proof.
  induction p as [|[u c] p IH]; intros s s' W E L N; cbn [QueueWholeModel.orun] in E.
  - injection E as <-. right. split; [assumption|]. cbn. lia.
  - destruct (ostep s u c) as [s1|] eqn:ST; [|discriminate]. pose proof (whole_step B nothrow HB _ _ _ _ W ST) as W1. pose proof (prods_run p _ _ W1 E) as L1.
    destruct (log_step _ _ _ _ (w_inv _ _ _ W) ST) as [n1 EL1]. destruct (log_run p _ _ W1 E) as [n2 EL2]. unfold own_steps. cbn [filter fst]. destruct (Nat.eqb_spec u t) as [->|U].
    + destruct (orank_step n _ _ _ _ W ST ltac:(lia) N) as [[N1 R]|(e & EL & CE)].
      * destruct (IH _ _ W1 E L N1) as [(new & e & EL & IE & CE)|[N2 R2]]; [left|right].
        -- exists (new ++ n1), e. rewrite EL, EL1, app_assoc. split; [reflexivity|]. split; [apply in_app_iff; now left|assumption].
        -- split; [assumption|]. unfold own_steps in R2. cbn [length]. lia.
      * left. exists (n2 ++ [e]), e. rewrite EL2, EL, <- app_assoc. split; [reflexivity|]. split; [apply in_app_iff; right; now left|assumption].
    + assert (OE : ops s1 t = ops s t) by (apply (ops_other B nothrow _ _ _ _ _ ST); auto). assert (PE : pcs (inner s1) t = pcs (inner s) t) by (apply (pcs_other B nothrow HB _ _ _ _ _ (w_inv _ _ _ W) ST); auto).
      rewrite <- OE in N. destruct (IH _ _ W1 E L N) as [(new & e & EL & IE & CE)|[N2 R2]]; [left|right].
      * exists (new ++ n1), e. rewrite EL, EL1, app_assoc. split; [reflexivity|]. split; [apply in_app_iff; now left|assumption].
      * split; [assumption|]. unfold orank in *. rewrite OE, PE in R2. exact R2.
Qed.
End Whole.
