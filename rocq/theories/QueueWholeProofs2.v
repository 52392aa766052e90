(** The whole queue: one consumer, counting, progress. *)

From Coq Require Import ZArith List Lia Bool.
From Verif Require Import Base Bits TextLemmas SubQueueModel SubQueueSpec SubQueueProofs SubQueueProofs2 SubQueueProofs3 SubQueueProofs4 QueueWholeModel QueueWholeSpec QueueWholeProofs.
Import ListNotations.
Open Scope Z_scope.

Section Whole.
Context {T : Type}.
Variables (B : Z) (nothrow : bool).
Hypothesis HB : 0 < B.
Notation state := (@state T).
Notation queue := (@queue T).
Notation step := (@step T B nothrow).
Notation ostep := (@ostep T B nothrow).
Notation orun := (@orun T B nothrow).
Notation inv := (@inv T B nothrow).
Notation whole := (@whole T B nothrow).

(** *** Counters when nobody is taking *)
Lemma still_counters (s : state) q : inv s -> (forall u k, drawn (pcs s u) <> Some (q, k)) -> opt (subs s q) - over (subs s q) = head (subs s q).
Proof.
  intros [(g & G) _ _] Q. destruct (i_sub _ _ G q) as [A1 A2 A3 A4 A5 A6 A7 A8]. rewrite A4, A7.
  assert (ND : NoDup (claimed g q ++ failed g q)).
  { assert (NF : NoDup (failed g q)) by (clear -A2; induction (passed g q) as [|y m IHm]; [exact A2|apply IHm; inversion A2; assumption]). clear A7. revert A2 A5 A6. induction (claimed g q) as [|x l IH]; intros A2 A5 A6; [exact NF|]. inversion A5; subst. cbn. constructor; [|apply IH; auto; intros y Y; apply A6; right; exact Y]. intros X. apply in_app_iff in X as [X|X]; [contradiction|].
    assert (In x (passed g q)) as IP by (apply A6; left; reflexivity). apply in_split in IP as (l1 & l2 & EP). rewrite EP in A2. rewrite <- app_assoc in A2. cbn in A2. apply NoDup_remove_2 in A2. apply A2. apply in_app_iff. right. apply in_app_iff. right. exact X. }
  pose proof (i_opt _ _ G q) as OP. assert (L1 : zlen (claimed g q ++ failed g q) <= Z.max 0 (opt (subs s q))).
  { apply range_length; [exact ND|]. intros x X. apply A3. apply in_app_iff in X as [X|X]; apply in_app_iff; auto. }
  assert (L2 : (length (map Z.of_nat (seq 0 (Z.to_nat (opt (subs s q))))) <= length (claimed g q ++ failed g q))%nat).
  { apply NoDup_incl_length; [apply FinFun.Injective_map_NoDup; [intros a b; lia|apply seq_NoDup]|]. intros x X. apply in_map_iff in X as (n & <- & N). apply in_seq in N. apply in_app_iff. destruct (i_all _ _ G q (Z.of_nat n) ltac:(lia)) as [Y|[Y|(t & Y)]]; auto. now elim (Q t (Z.of_nat n)). }
  rewrite map_length, seq_length, app_length in L2. unfold zlen in *. rewrite app_length in L1. lia.
Qed.
Lemma still_count (s : state) q : inv s -> (forall u k, claims (pcs s u) <> Some (q, k)) -> count_of (T := T) q (hist s) = head (subs s q).
Proof.
  intros V Q. pose proof (head_le_tail B nothrow s q V) as HL. unfold count_of. set (l := filter _ _).
  assert (M : forall d, In d l <-> exists i, d = (q, i) /\ 0 <= i < head (subs s q)).
  { intros (q', i). unfold l. rewrite filter_In. cbn. destruct (Nat.eqb_spec q' q) as [->|N].
    - split; [intros (X & _); exists i; split; [reflexivity|apply (c_range _ (v_C _ _ _ V) q i X)]|]. intros (j & X & Y); injection X as ->. split; [|reflexivity].
      destruct (c_all _ (v_C _ _ _ V) q j Y) as [X|(t & X)]; [assumption|now elim (Q t j)].
    - split; [intros (_ & X); discriminate|intros (j & X & _); congruence]. }
  assert (ND : NoDup l) by (apply NoDup_filter; apply (c_once _ (v_C _ _ _ V))).
  assert (L1 : (length l <= length (map (fun n => (q, Z.of_nat n)) (seq 0 (Z.to_nat (head (subs s q))))))%nat).
  { apply NoDup_incl_length; [exact ND|]. intros d D. apply M in D as (i & -> & I). apply in_map_iff. exists (Z.to_nat i). split; [rewrite Z2Nat.id by lia; reflexivity|apply in_seq; lia]. }
  assert (L2 : (length (map (fun n => (q, Z.of_nat n)) (seq 0 (Z.to_nat (head (subs s q))))) <= length l)%nat).
  { apply NoDup_incl_length; [apply FinFun.Injective_map_NoDup; [intros a b X; injection X; lia|apply seq_NoDup]|]. intros d D. apply in_map_iff in D as (n & <- & N). apply in_seq in N. apply M. exists (Z.of_nat n). split; [reflexivity|lia]. }
  rewrite map_length, seq_length in *. unfold zlen. lia.
Qed.
Lemma not_polling_kind s u : whole s -> polling s u = false -> kind (pcs (inner s) u) = None \/ kind (pcs (inner s) u) = Some None.
Proof.
  intros W P. pose proof (w_fits _ _ _ W u) as F. unfold fits in F. unfold polling in P. destruct (ops s u); try discriminate.
  - left. now rewrite F. - right. tauto. - left. destruct F as [-> _]. reflexivity. - left. destruct F as [-> _]. reflexivity.
Qed.
Lemma kind_drawn (p : @pc T) q k : kind p = None \/ kind p = Some None -> drawn p <> Some (q, k).
Proof. intros [K|K]; destruct p; cbn in *; discriminate. Qed.
Lemma kind_claims (p : @pc T) q k : kind p = None \/ kind p = Some None -> claims p <> Some (q, k).
Proof. intros [K|K]; destruct p; cbn in *; discriminate. Qed.
Lemma put_added s q : whole s -> put s q = zlen (added q (log s)).
Proof. intros W. unfold put. rewrite (log_added B nothrow s q W). apply (tail_enqueued B nothrow); exact (w_inv _ _ _ W). Qed.
Lemma taken_polled s q : whole s -> (forall u, polling s u = false) -> taken s q = polled_of q (log s).
Proof.
  intros W P. unfold taken, polled_of. rewrite (log_polled B nothrow s W). symmetry. apply still_count; [exact (w_inv _ _ _ W)|]. intros u k. apply kind_claims. now apply not_polling_kind.
Qed.
Lemma taken_le_put s q : whole s -> 0 <= taken s q <= put s q.
Proof. intros W. apply (head_le_tail B nothrow); exact (w_inv _ _ _ W). Qed.
(** counters only grow; who takes is polling *)
Lemma ostep_counters s t c s' q : whole s -> ostep s t c = Some s' ->
  put s q <= put s' q /\ taken s q <= taken s' q /\
  (polling s t = false -> taken s' q = taken s q /\ opt (subs (inner s') q) = opt (subs (inner s) q) /\ over (subs (inner s') q) = over (subs (inner s) q)).
Proof.
  intros W E. unfold put, taken.
  destruct (ostep_inner B nothrow HB _ _ _ _ (w_inv _ _ _ W) E) as [[-> _]|[(v & _ & ST & _)|[(q0 & ST & _)|(c' & ST & _)]]]; [split; [lia|split; [lia|auto]]|..].
  all: destruct (counters_step B nothrow _ _ _ _ q ST) as (C1 & C2 & _ & C4); split; [assumption|split; [assumption|]]; intros P; apply C4; destruct (not_polling_kind s t W P) as [->| ->]; discriminate.
Qed.
Lemma orun_counters p q : forall s s', whole s -> orun s p = Some s' -> put s q <= put s' q /\ taken s q <= taken s' q.
Proof.
  induction p as [|[t c] p IH]; intros s s' W E; cbn [QueueWholeModel.orun] in E; [injection E as <-; lia|].
  destruct (ostep s t c) as [s1|] eqn:ST; [|discriminate]. destruct (ostep_counters _ _ _ _ q W ST) as (X & Y & _). destruct (IH _ _ (whole_step B nothrow HB _ _ _ _ W ST) E). lia.
Qed.
Lemma polling_step s t c s' u : ostep s t c = Some s' -> c <> OPoll \/ u <> t -> polling s u = false -> polling s' u = false.
Proof.
  intros E C P. destruct (Nat.eq_dec u t) as [->|U]; [|unfold polling in *; now rewrite (ops_other B nothrow _ _ _ _ _ E U)].
  destruct C as [C|C]; [|now elim C]. unfold polling in *. unfold QueueWholeModel.ostep in E. destruct (ops s t) eqn:O; try discriminate P.
  - destruct c; try discriminate E; [|now elim C|injection E as <-; cbn; now rewrite fupd_same]. destruct (step _ _ _); [|discriminate]. injection E as <-. cbn. now rewrite fupd_same.
  - unfold onward in E. destruct (inside _ _ _ _ _) as [i|]; [|discriminate]. injection E as <-. destruct (pcs i t); cbn; try (now rewrite O). destruct (hist i) as [|[]]; cbn; rewrite ?fupd_same, ?O; auto.
  - destruct c; destruct ps; try discriminate E; injection E as <-; cbn; now rewrite fupd_same.
  - destruct c; try discriminate E. injection E as <-. cbn. now rewrite fupd_same.
Qed.

(** A dequeue from a sub-queue that has an element, with no other dequeue about. *)
Definition good (i : state) (b : nat) (p : @pc T) : Prop :=
  match p with
  | D1 q t0 => q = b /\ head (subs i b) < t0 <= tail (subs i b)
  | D2 q t0 ov => q = b /\ head (subs i b) < t0 <= tail (subs i b) /\ opt (subs i b) - ov = head (subs i b)
  | D3 q ov => q = b /\ head (subs i b) < tail (subs i b) /\ opt (subs i b) - ov = head (subs i b)
  | D4 q my ov => q = b /\ head (subs i b) < tail (subs i b) /\ my - ov = head (subs i b)
  | D6 _ _ => False
  | _ => True
  end.
Lemma good_step (i i' : state) t c b : inv i -> inside B nothrow i t c = Some i' -> kind (pcs i t) = Some (Some b) ->
  (forall u, u <> t -> kind (pcs i u) = None \/ kind (pcs i u) = Some None) -> good i b (pcs i t) ->
  (pcs i' t <> Idle /\ good i' b (pcs i' t)) \/ (pcs i' t = Idle /\ exists k r, hist i' = Got t b k r :: hist i).
Proof.
  intros I IN KD AL G.
  assert (DR : (forall q k, drawn (pcs i t) <> Some (q, k)) -> opt (subs i b) - over (subs i b) = head (subs i b)).
  { intros X. apply still_counters; [assumption|]. intros u k. destruct (Nat.eq_dec u t) as [->|U]; [apply X|]. apply kind_drawn; auto. }
  pose proof (sub_nonneg B nothrow i b I) as SN.
  destruct c; cbn in IN; try discriminate IN; unfold now in IN; unfold SubQueueModel.step, free_block in IN; destruct (pcs i t) eqn:PC; try discriminate IN; try discriminate KD; cbn in G; try contradiction; cbn in KD; injection KD as KD.
  - destruct G as [-> G]. destruct (older _ _); [|discriminate]. injection IN as <-. cbn. rewrite fupd_same. left. split; [discriminate|]. cbn. split; [reflexivity|]. split; [assumption|]. apply DR. discriminate.
  - destruct G as (-> & G & PO). destruct (older _ _); [|discriminate]. destruct (Z.ltb_spec (opt (subs i b) - ov) t0); [|lia]. injection IN as <-. cbn. rewrite fupd_same. left. split; [discriminate|]. cbn. split; [reflexivity|]. split; [lia|assumption].
  - destruct G as (-> & G & PO). injection IN as <-. cbn. rewrite !fupd_same. left. split; [discriminate|]. cbn. rewrite !fupd_same. cbn. split; [reflexivity|]. split; [lia|assumption].
  - destruct G as (-> & G & PO). destruct (older _ _); [|discriminate]. destruct (Z.ltb_spec (my - ov) (tail (subs i b))); [|lia]. injection IN as <-. cbn. rewrite fupd_same. left. now split.
  - injection IN as <-. cbn. rewrite fupd_same. left. now split.
  - injection IN as <-. cbn. rewrite fupd_same. left. destruct (entry _ _); now split.
  - injection IN as <-. cbn. rewrite fupd_same. left. destruct (cell _ _); now split.
  - injection IN as <-. cbn. rewrite fupd_same. left. now split.
  - destruct (_ <? B); [destruct (_ =? _)|]; injection IN as <-; cbn; rewrite fupd_same; [left; now split| |left; now split]. right. split; [reflexivity|]. subst. eauto.
  - injection IN as <-. cbn. rewrite fupd_same. left. now split.
  - destruct (avail _ _); injection IN as <-; cbn; rewrite fupd_same; [left; now split|]. right. split; [reflexivity|]. subst. eauto.
  - injection IN as <-. cbn. rewrite fupd_same. left. destruct (cell _ _); now split.
Qed.

(** *** One consumer *)
Section One.
Variables (s1 : queue) (t : nat).
Definition full1 (q : nat) : Prop := taken s1 q < put s1 q.
Definition found (s : queue) (count : nat) (best : option nat) (size : Z) (left : nat -> Prop) : Prop :=
  (count = 0%nat -> size = 0 /\ forall q, full1 q -> left q) /\ (count <> 0%nat -> exists b, best = Some b /\ taken s b < put s b).
Definition calm (s : queue) : Prop := forall q, taken s q = taken s1 q.
Definition phase (s : queue) : Prop :=
  match ops s t with
  | ScanT ps count best size => calm s /\ found s count best size (fun q => In q ps)
  | ScanH p tl ps count best size => calm s /\ put s1 p <= tl <= put s p /\ found s count best size (fun q => q = p \/ In q ps)
  | Best b => good (inner s) b (pcs (inner s) t)
  | Again _ | Next _ _ | Other _ _ => False
  | _ => True
  end.
Record one (s : queue) : Prop := mkOne {
  o_whole : whole s;
  o_put : forall q, put s1 q <= put s q;
  o_alone : forall u, u <> t -> polling s u = false;
  o_phase : phase s }.
Lemma found_mono s s' count best size left : (forall q, taken s' q = taken s q) -> (forall q, put s q <= put s' q) -> found s count best size left -> found s' count best size left.
Proof.
  intros X Y [F1 F2]. split; [assumption|]. intros N. destruct (F2 N) as (b & -> & L). exists b. split; [reflexivity|]. rewrite X. specialize (Y b). lia.
Qed.
Lemma phase_other s u c s' : one s -> ostep s u c = Some s' -> u <> t -> phase s'.
Proof.
  intros [W PU AL PH] E U. assert (C : forall q, put s q <= put s' q /\ taken s' q = taken s q /\ opt (subs (inner s') q) = opt (subs (inner s) q) /\ over (subs (inner s') q) = over (subs (inner s) q)).
  { intros q. destruct (ostep_counters _ _ _ _ q W E) as (X & _ & Y). split; [assumption|]. now apply Y, AL. }
  assert (TK : forall q, taken s' q = taken s q) by (intros q; apply C). assert (PT : forall q, put s q <= put s' q) by (intros q; apply C).
  unfold phase in *. rewrite (ops_other B nothrow _ _ _ _ t E) by auto. rewrite (pcs_other B nothrow HB _ _ _ _ t (w_inv _ _ _ W) E) by auto.
  destruct (ops s t); auto.
  - destruct PH as [CA F]. split; [intros q; rewrite TK; apply CA|]. now apply (found_mono s).
  - destruct PH as (CA & R & F). split; [intros q; rewrite TK; apply CA|]. split; [specialize (PT p); lia|]. now apply (found_mono s).
  - pose proof (PT b) as PB. pose proof (C b) as (_ & C1 & C2 & C3). unfold good, taken, put in *. destruct (pcs (inner s) t); auto; rewrite C1, ?C2; intuition lia.
Qed.
Lemma phase_own s c s' : one s -> ostep s t c = Some s' -> polling s t = true -> phase s' /\ (forall q, log s' = PollNone t :: log s -> put s1 q <= taken s1 q).
Proof.
  intros [W PU AL PH] E PL. pose proof (w_inv _ _ _ W) as I. pose proof (w_fits _ _ _ W t) as F. unfold phase in PH. unfold fits in F. unfold polling in PL.
  assert (LL : forall (x : @oevent T) l, x :: l <> l) by (intros x l X; apply (f_equal (@length _)) in X; cbn in X; lia).
  pose proof E as E0. unfold QueueWholeModel.ostep in E. destruct (ops s t) eqn:O; try discriminate PL; try contradiction.
  - (* ScanT *) destruct c; try discriminate E. destruct PH as [CA [F1 F2]]. destruct F as (ID & _).
    destruct (Nat.ltb_spec count 3) as [C3|C3].
    + destruct ps as [|p r].
      * destruct count as [|count].
        -- injection E as <-. split; [unfold phase; cbn; now rewrite fupd_same|]. intros q _. destruct (F1 eq_refl) as [_ X]. specialize (X q). unfold full1 in X. cbn in X. pose proof (taken_le_put s1 q). destruct (Z_lt_le_dec (taken s1 q) (put s1 q)); [now elim X|lia].
        -- destruct (F2 ltac:(discriminate)) as (b & -> & L). destruct (start_spec B nothrow _ _ _ _ _ E) as (ST & EP & EO & EL). destruct (deq_step B nothrow _ _ _ _ _ ST) as (_ & D & SB & _).
           split; [|intros q X; rewrite EL in X; now elim (LL (PollNone t) (log s))]. unfold phase. rewrite EO, fupd_same, D. unfold good, taken, put in *. rewrite SB. split; [reflexivity|]. lia.
      * injection E as <-. split; [|intros q X; cbn in X; now elim (LL (PollNone t) (log s))]. unfold phase. cbn. rewrite fupd_same. split; [exact CA|]. split; [split; [apply PU|apply Z.le_refl]|].
        split; [|exact F2]. intros C0. destruct (F1 C0) as [Z0 X]. split; [assumption|]. intros q Q. destruct (X q Q); auto.
    + destruct count as [|count]; [lia|]. destruct (F2 ltac:(discriminate)) as (b & -> & L). destruct (start_spec B nothrow _ _ _ _ _ E) as (ST & EP & EO & EL). destruct (deq_step B nothrow _ _ _ _ _ ST) as (_ & D & SB & _).
      split; [|intros q X; rewrite EL in X; now elim (LL (PollNone t) (log s))]. unfold phase. rewrite EO, fupd_same, D. unfold good, taken, put in *. rewrite SB. split; [reflexivity|]. lia.
  - (* ScanH *) destruct c; try discriminate E. destruct PH as (CA & R & F1 & F2). injection E as <-. split; [|intros q X; cbn in X; now elim (LL (PollNone t) (log s))].
    unfold phase. cbn. rewrite fupd_same. fold (taken s p). unfold size_of. destruct (Z.ltb_spec (taken s p) tl) as [HT|HT].
    + destruct (Z.ltb_spec 0 (tl - taken s p)); [|lia]. destruct (Z.ltb_spec size (tl - taken s p)).
      * split; [exact CA|]. split; [discriminate|]. intros _. exists p. split; [reflexivity|]. unfold taken, put in *. cbn. lia.
      * split; [exact CA|]. split; [discriminate|]. intros _. apply F2. intros C0. destruct (F1 C0). lia.
    + cbn. split; [exact CA|]. split; [|exact F2]. intros C0. destruct (F1 C0) as [Z0 X]. split; [assumption|]. intros q Q. destruct (X q Q) as [->|Y]; [|assumption].
      unfold full1 in Q. rewrite <- (CA p) in Q. lia.
  - (* Best *) destruct (onward_spec B nothrow HB _ _ _ _ _ I E) as (c' & ST & EP & NI & D).
    assert (IN : inside B nothrow (inner s) t c = Some (inner s')).
    { unfold onward in E. destruct (inside B nothrow (inner s) t c) as [i|]; [|discriminate]. injection E as E. f_equal. rewrite <- E. destruct (pcs i t); try reflexivity. destruct (hist i) as [|[]]; reflexivity. }
    assert (AK : forall u, u <> t -> kind (pcs (inner s) u) = None \/ kind (pcs (inner s) u) = Some None) by (intros u U; apply not_polling_kind; auto).
    destruct (good_step _ _ _ _ _ I IN F AK PH) as [[N1 G]|[ID (k & r & H)]]; destruct D as [(N2 & _ & _ & EO & EL)|(ID' & e & H' & M & EL & EO)]; try contradiction.
    + split; [unfold phase; now rewrite EO, O|]. intros q X. rewrite EL in X. now elim (LL (PollNone t) (log s)).
    + rewrite H in H'. injection H' as <-. split; [unfold phase; now rewrite EO, fupd_same|]. intros q X. rewrite EL in X. discriminate X.
Qed.
Lemma one_step s u c s' : one s -> ostep s u c = Some s' -> c <> OPoll -> one s'.
Proof.
  intros H E C. pose proof H as [W PU AL PH]. constructor.
  - exact (whole_step B nothrow HB _ _ _ _ W E).
  - intros q. destruct (ostep_counters _ _ _ _ q W E) as (X & _). specialize (PU q). lia.
  - intros v V. apply (polling_step _ _ _ _ _ E); auto.
  - destruct (Nat.eq_dec u t) as [->|U]; [|exact (phase_other _ _ _ _ H E U)]. destruct (polling s t) eqn:P.
    + now destruct (phase_own _ _ _ H E P).
    + pose proof (polling_step _ _ _ _ t E (or_introl C) P) as P'. unfold polling in P'. unfold phase. destruct (ops s' t); try discriminate P'; exact Logic.I.
Qed.
Lemma one_run p : forall s s', one s -> orun s p = Some s' -> forallb (fun d => negb (is_poll (snd d))) p = true -> one s'.
Proof.
  induction p as [|[u c] p IH]; intros s s' H E F; cbn [QueueWholeModel.orun] in E; [now injection E as <-|].
  cbn [forallb snd] in F. apply andb_prop in F as [F1 F2]. destruct (ostep s u c) as [s2|] eqn:ST; [|discriminate].
  apply (IH s2 s'); auto. apply (one_step _ _ _ _ H ST). intros ->. discriminate.
Qed.
End One.
End Whole.
