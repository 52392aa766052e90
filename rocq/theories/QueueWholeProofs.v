(** The whole queue: its sub-queues are those of SubQueueModel.v. *)

From Coq Require Import ZArith List Lia Bool.
From Verif Require Import Base Bits TextLemmas SubQueueModel SubQueueSpec SubQueueProofs SubQueueProofs2 SubQueueProofs3 SubQueueProofs4 QueueWholeModel QueueWholeSpec.
Import ListNotations.
Open Scope Z_scope.

Section Whole.
Context {T : Type}.
Variables (B : Z) (nothrow : bool).
Hypothesis HB : 0 < B.
Notation state := (@state T).
Notation queue := (@queue T).
Notation step := (@step T B nothrow).
Notation ostep := (@ostep T B nothrow).
Notation inv := (@inv T B nothrow).

(** *** Steps of the sub-queues *)
Definition kind (p : @pc T) : option (option nat) :=
  match p with
  | Idle | Bad _ => None
  | E0 _ | E1 _ | E2 _ | E3 _ _ | E4 _ _ | E4x _ | E5 _ _ | E6 _ | E7 _ => Some None
  | D1 q _ | D2 q _ _ | D3 q _ | D4 q _ _ | D5 q _ | D6 q _ | D7 q _ | D8 q _ _ | D9 q _ _ _ | D10 q _ _ _ | D11 q _ _ _ | D12 q _ _ _ => Some (Some q)
  end.
Definition matches (k : option (option nat)) (t : nat) (e : @event T) : Prop :=
  match e with Sent u _ | Refused u => k = Some None /\ u = t | Got u q _ _ | Nothing u q => k = Some (Some q) /\ u = t end.
Lemma kind_step s t c s' : inv s -> step s t c = Some s' ->
  (pcs s' t <> Idle /\ hist s' = hist s /\ (pcs s t <> Idle -> kind (pcs s' t) = kind (pcs s t))) \/ (exists e, hist s' = e :: hist s /\ pcs s' t = Idle /\ matches (kind (pcs s t)) t e).
Proof.
  intros I0 E. pose proof (inv_step B nothrow HB _ _ _ _ I0 E) as I1. assert (NB : forall u, pcs s' t <> Bad u) by (intros u; apply (not_bad B nothrow); exact I1).
  unfold SubQueueModel.step, free_block in E. destruct (pcs s t) eqn:P; destruct c; try discriminate E.
  all: repeat match type of E with context [match ?x with _ => _ end] => destruct x eqn:? end; try discriminate E; injection E as <-; cbn in *; rewrite ?fupd_same in *.
  all: try (exfalso; eapply NB; reflexivity).
  all: first [left; split; [discriminate|split; [reflexivity|intros X; first [now elim X|reflexivity]]]|right; eexists; split; [reflexivity|split; [reflexivity|split; reflexivity]]].
Qed.
Lemma counters_step s t c s' q : step s t c = Some s' ->
  tail (subs s q) <= tail (subs s' q) /\ head (subs s q) <= head (subs s' q) /\
  (kind (pcs s t) <> Some None \/ q <> t -> tail (subs s' q) = tail (subs s q)) /\
  (kind (pcs s t) <> Some (Some q) -> head (subs s' q) = head (subs s q) /\ opt (subs s' q) = opt (subs s q) /\ over (subs s' q) = over (subs s q)).
Proof.
  intros E. unfold SubQueueModel.step, free_block in E. destruct (pcs s t) eqn:P; destruct c; try discriminate E.
  all: repeat match type of E with context [match ?x with _ => _ end] => destruct x eqn:? end; try discriminate E; injection E as <-; cbn in *; unfold fupd.
  all: repeat match goal with |- context[Nat.eqb ?a ?b] => destruct (Nat.eqb_spec a b); subst; cbn end.
  all: (split; [lia|split; [lia|split; [intros X; try reflexivity; destruct X as [X|X]; try (now elim X); auto|intros X; try (now elim X); auto]]]).
Qed.
Lemma others_step s t c s' u : step s t c = Some s' -> u <> t -> pcs s' u = pcs s u.
Proof.
  intros E U. unfold SubQueueModel.step, free_block in E. destruct (pcs s t) eqn:P; destruct c; try discriminate E.
  all: repeat match type of E with context [match ?x with _ => _ end] => destruct x eqn:? end; try discriminate E; injection E as <-; cbn in *; now rewrite fupd_other.
Qed.
Lemma enq_step s t v s' : step s t (CEnq v) = Some s' -> pcs s t = Idle /\ kind (pcs s' t) = Some None /\ subs s' = subs s /\ hist s' = hist s.
Proof.
  unfold SubQueueModel.step. destruct (pcs s t); try discriminate. intros E. injection E as <-. cbn. rewrite fupd_same. now destruct (slot B _ =? 0).
Qed.
Lemma deq_step s t q z s' : step s t (CDeq q z) = Some s' -> pcs s t = Idle /\ pcs s' t = D1 q z /\ subs s' = subs s /\ hist s' = hist s.
Proof.
  unfold SubQueueModel.step. destruct (pcs s t); try discriminate. destruct (older _ _); [|discriminate]. intros E. injection E as <-. cbn. now rewrite fupd_same.
Qed.
Lemma inside_step s t c s' : inside B nothrow s t c = Some s' -> exists c', step s t c' = Some s'.
Proof. destruct c; cbn; try discriminate; eauto. Qed.

(** *** The invariant *)
Definition to_log (e : @event T) : list (@oevent T) :=
  match e with Sent t v => [Added t v] | Refused t => [NotAdded t] | Got t q i r => [Polled t q i r] | Nothing _ _ => [] end.
Definition of_subs (e : @oevent T) : bool := match e with PollNone _ | Sized _ _ => false | _ => true end.
Definition fits (s : queue) (t : nat) : Prop :=
  match ops s t with
  | Adding => kind (pcs (inner s) t) = Some None /\ In t (prods s)
  | Best b => kind (pcs (inner s) t) = Some (Some b)
  | Other b ps => (exists q, kind (pcs (inner s) t) = Some (Some q)) /\ (length ps <= length (prods s))%nat
  | ScanT ps n b z | ScanH _ _ ps n b z => pcs (inner s) t = Idle /\ (length ps <= length (prods s))%nat /\ (n = 0%nat -> z = 0) /\ (n <> 0%nat -> b <> None)
  | Next _ ps | SizeT ps _ | SizeH _ _ ps _ => pcs (inner s) t = Idle /\ (length ps <= length (prods s))%nat
  | Resting | Again _ => pcs (inner s) t = Idle
  | Crash => False
  end.
Record whole (s : queue) : Prop := mkW {
  w_inv : inv (inner s);
  w_fits : forall t, fits s t;
  w_log : filter of_subs (log s) = flat_map to_log (hist (inner s));
  w_nodup : NoDup (prods s);
  w_prods : forall q, tail (subs (inner s) q) <> 0 -> In q (prods s) }.
Lemma whole_start : whole start_queue.
Proof.
  constructor; cbn; try reflexivity; try constructor; try (now intros q H).
  all: apply (reach_inv B nothrow HB init (ex_intro _ [] eq_refl)).
Qed.

Lemma fits_other s s' u : ops s' u = ops s u -> pcs (inner s') u = pcs (inner s) u -> incl (prods s) (prods s') -> NoDup (prods s) -> fits s u -> fits s' u.
Proof.
  intros O P I N F. pose proof (NoDup_incl_length N I) as L. unfold fits in *. rewrite O, P. destruct (ops s u); intuition (try lia); eauto.
Qed.
Lemma onward_spec s t c p s' : inv (inner s) -> onward B nothrow s t c p = Some s' -> exists c', step (inner s) t c' = Some (inner s') /\ prods s' = prods s /\ pcs (inner s) t <> Idle /\ ((pcs (inner s') t <> Idle /\ kind (pcs (inner s') t) = kind (pcs (inner s) t) /\ hist (inner s') = hist (inner s) /\ ops s' = ops s /\ log s' = log s) \/
   (pcs (inner s') t = Idle /\ exists e, hist (inner s') = e :: hist (inner s) /\ matches (kind (pcs (inner s) t)) t e /\ log s' = to_log e ++ log s /\ ops s' = fupd (ops s) t (match e with Nothing _ _ => p | _ => Resting end))).
Proof.
  intros I E. unfold onward in E. destruct (inside B nothrow (inner s) t c) as [i|] eqn:IN; [|discriminate].
  assert (NI : pcs (inner s) t <> Idle).
  { intros X. destruct c; cbn in IN; try discriminate; unfold now in IN; unfold SubQueueModel.step in IN; rewrite X in IN; discriminate. }
  destruct (inside_step _ _ _ _ IN) as [c' ST]. exists c'. injection E as E.
  assert (EI : inner s' = i /\ prods s' = prods s).
  { rewrite <- E. destruct (pcs i t); try (now split). destruct (hist i) as [|[] ]; now split. }
  destruct EI as [-> ->]. split; [assumption|]. split; [reflexivity|]. split; [assumption|].
  destruct (kind_step _ _ _ _ I ST) as [(N & H & K)|(e & H & P & M)].
  - left. split; [assumption|]. split; [now apply K|]. split; [assumption|]. destruct (pcs i t); rewrite <- E; try (now split).
  - right. split; [assumption|]. exists e. split; [assumption|]. split; [assumption|]. rewrite P, H in E. rewrite <- E. destruct e; cbn in M |- *; destruct M as [_ <-]; now split.
Qed.
Lemma start_spec s t q p s' : start B nothrow s t q p = Some s' -> step (inner s) t (CDeq q (tail (subs (inner s) q))) = Some (inner s') /\ prods s' = prods s /\ ops s' = fupd (ops s) t p /\ log s' = log s.
Proof. unfold start. destruct (step _ _ _) as [i|]; [|discriminate]. intros E. injection E as <-. now repeat split. Qed.
Lemma ops_other s t c s' u : ostep s t c = Some s' -> u <> t -> ops s' u = ops s u.
Proof.
  intros E U. assert (O : forall p s', onward B nothrow s t c p = Some s' -> ops s' u = ops s u).
  { intros p s1 X. unfold onward in X. destruct (inside _ _ _ _ _) as [i|]; [|discriminate]. injection X as <-. destruct (pcs i t); try reflexivity. destruct (hist i) as [|[]]; cbn; try reflexivity; now rewrite fupd_other. }
  assert (S0 : forall q p s', start B nothrow s t q p = Some s' -> ops s' u = ops s u).
  { intros q p s1 X. destruct (start_spec _ _ _ _ _ X) as (_ & _ & -> & _). now rewrite fupd_other. }
  unfold QueueWholeModel.ostep in E. destruct (ops s t) eqn:P; try (exact (O _ _ E)); destruct c; try discriminate E; try (destruct ps; discriminate E); try (injection E as <-; cbn; now rewrite fupd_other).
  - destruct (step _ _ _) as [i|]; [|discriminate]. injection E as <-. cbn. now rewrite fupd_other.
  - destruct (if Nat.ltb _ _ then _ else _); [|injection E as <-; cbn; now rewrite fupd_other].
    destruct count; [injection E as <-; cbn; now rewrite fupd_other|]. destruct best; [exact (S0 _ _ _ E)|injection E as <-; cbn; now rewrite fupd_other].
  - destruct ps as [|p ps]; [injection E as <-; cbn; now rewrite fupd_other|]. destruct (Nat.eqb p b); [injection E as <-; cbn; now rewrite fupd_other|exact (S0 _ _ _ E)].
  - destruct ps; injection E as <-; cbn; now rewrite fupd_other.
Qed.
(** What a step does inside. *)
Lemma ostep_inner s t c s' : inv (inner s) -> ostep s t c = Some s' ->
  (inner s' = inner s /\ prods s' = prods s) \/
  (exists v, ops s t = Resting /\ step (inner s) t (CEnq v) = Some (inner s') /\ prods s' = (if existsb (Nat.eqb t) (prods s) then prods s else t :: prods s)) \/
  (exists q, step (inner s) t (CDeq q (tail (subs (inner s) q))) = Some (inner s') /\ prods s' = prods s /\ polling s t = true) \/
  (exists c', step (inner s) t c' = Some (inner s') /\ prods s' = prods s /\ pcs (inner s) t <> Idle).
Proof.
  intros I E.
  assert (O : forall p s', onward B nothrow s t c p = Some s' -> exists c', step (inner s) t c' = Some (inner s') /\ prods s' = prods s /\ pcs (inner s) t <> Idle).
  { intros p s1 X. destruct (onward_spec _ _ _ _ _ I X) as (c' & S1 & S2 & S3 & _). eauto. }
  assert (S0 : polling s t = true -> forall q p s', start B nothrow s t q p = Some s' -> exists q, step (inner s) t (CDeq q (tail (subs (inner s) q))) = Some (inner s') /\ prods s' = prods s /\ polling s t = true).
  { intros PT q p s1 X. destruct (start_spec _ _ _ _ _ X) as (S1 & S2 & _). eauto. }
  unfold polling in S0 |- *. unfold QueueWholeModel.ostep in E. destruct (ops s t) eqn:P; try (right; right; right; exact (O _ _ E)); destruct c; try discriminate E; try (destruct ps; discriminate E); try (injection E as <-; left; now split).
  - destruct (step _ _ (CEnq v)) as [i|] eqn:ST; [|discriminate]. injection E as <-. right. left. exists v. now repeat split.
  - destruct (if Nat.ltb _ _ then _ else _); [|injection E as <-; left; now split].
    destruct count; [injection E as <-; left; now split|]. destruct best; [right; right; left; exact (S0 eq_refl _ _ _ E)|injection E as <-; left; now split].
  - destruct ps as [|p ps]; [injection E as <-; left; now split|]. destruct (Nat.eqb p b); [injection E as <-; left; now split|right; right; left; exact (S0 eq_refl _ _ _ E)].
  - destruct ps; injection E as <-; left; now split.
Qed.
Lemma ostep_prods s t c s' : inv (inner s) -> NoDup (prods s) -> ostep s t c = Some s' -> NoDup (prods s') /\ incl (prods s) (prods s').
Proof.
  intros I N E. destruct (ostep_inner _ _ _ _ I E) as [[_ ->]|[(v & _ & _ & ->)|[(q & _ & -> & _)|(c' & _ & -> & _)]]]; try (split; [assumption|apply incl_refl]).
  destruct (existsb (Nat.eqb t) (prods s)) eqn:X; [split; [assumption|apply incl_refl]|]. split; [|apply incl_tl, incl_refl]. constructor; [|assumption].
  intros Y. assert (Z0 : existsb (Nat.eqb t) (prods s) = true) by (apply existsb_exists; exists t; split; [assumption|apply Nat.eqb_refl]). congruence.
Qed.
Lemma inv_ostep s t c s' : inv (inner s) -> ostep s t c = Some s' -> inv (inner s').
Proof.
  intros I E. destruct (ostep_inner _ _ _ _ I E) as [[-> _]|[(v & _ & ST & _)|[(q & ST & _)|(c' & ST & _)]]]; [assumption|exact (inv_step B nothrow HB _ _ _ _ I ST)..].
Qed.
Lemma pcs_other s t c s' u : inv (inner s) -> ostep s t c = Some s' -> u <> t -> pcs (inner s') u = pcs (inner s) u.
Proof.
  intros I E U. destruct (ostep_inner _ _ _ _ I E) as [[-> _]|[(v & _ & ST & _)|[(q & ST & _)|(c' & ST & _)]]]; [reflexivity|exact (others_step _ _ _ _ _ ST U)..].
Qed.
(** The thread that moves. *)
Lemma whole_moves s t c s' : whole s -> ostep s t c = Some s' -> fits s' t /\ filter of_subs (log s') = flat_map to_log (hist (inner s')) /\ (forall q, tail (subs (inner s') q) <> 0 -> In q (prods s')).
Proof.
  intros [I F L N P0] E. pose proof (F t) as Ft. unfold fits in Ft.
  assert (LOG : forall e, log s' = to_log e ++ log s -> hist (inner s') = e :: hist (inner s) -> filter of_subs (log s') = flat_map to_log (hist (inner s'))).
  { intros e -> ->. rewrite filter_app, L. cbn [flat_map]. f_equal. now destruct e. }
  assert (TL : forall c', step (inner s) t c' = Some (inner s') -> prods s' = prods s -> (kind (pcs (inner s) t) = Some None -> In t (prods s)) -> forall q, tail (subs (inner s') q) <> 0 -> In q (prods s')).
  { intros c' ST EP K q Q. rewrite EP. destruct (counters_step _ _ _ _ q ST) as (_ & _ & X & _).
    destruct (Nat.eq_dec q t) as [->|NQ]; [|apply P0; rewrite <- X; auto].
    destruct (kind (pcs (inner s) t)) as [[k|]|] eqn:KE; [apply P0; rewrite <- X; [assumption|left; discriminate]|now apply K|apply P0; rewrite <- X; [assumption|left; discriminate]]. }
  unfold QueueWholeModel.ostep in E. unfold fits. destruct (ops s t) eqn:P.
  - (* Resting *) destruct c; try discriminate E.
    + destruct (step _ _ (CEnq v)) as [i|] eqn:ST; [|discriminate]. injection E as <-. cbn. rewrite fupd_same. destruct (enq_step _ _ _ _ ST) as (_ & K & SB & H).
      rewrite SB, H. split; [split; [assumption|]|split; [assumption|]].
      * destruct (existsb (Nat.eqb t) (prods s)) eqn:X; [|now left]. apply existsb_exists in X as (y & Y1 & Y2). apply Nat.eqb_eq in Y2. now subst.
      * intros q Q. destruct (existsb _ _); [|right]; now apply P0.
    + injection E as <-. cbn. rewrite fupd_same. repeat split; auto; intros X; now elim X.
    + injection E as <-. cbn. rewrite fupd_same. repeat split; auto.
  - (* Adding *) destruct (onward_spec _ _ _ _ _ I E) as (c' & ST & EP & NI & [(N1 & K & H & EO & EL)|(ID & e & H & M & EL & EO)]).
    + rewrite EO, P, EP, K, EL, H. split; [assumption|]. split; [assumption|]. intros q. rewrite <- EP. apply (TL c' ST EP). now intros _.
    + rewrite EO, fupd_same. split; [|split; [now apply (LOG e)|apply (TL c' ST EP); now intros _]]. destruct e; exact ID.
  - (* ScanT *) destruct c; try discriminate E. destruct Ft as (ID & LL & Z0 & B0). destruct (if Nat.ltb count 3 then ps else []) as [|p r] eqn:PS.
    + destruct count as [|count]; [injection E as <-; cbn; rewrite fupd_same; now repeat split|]. destruct best as [b|]; [|now elim B0].
      destruct (start_spec _ _ _ _ _ E) as (ST & EP & EO & EL). destruct (deq_step _ _ _ _ _ ST) as (_ & D & SB & H). rewrite EO, fupd_same, D, EL, EP, SB, H. now repeat split.
    + injection E as <-. cbn. rewrite fupd_same. destruct (Nat.ltb count 3); [|discriminate]. subst ps. cbn in LL. repeat split; auto; lia.
  - (* ScanH *) destruct c; try discriminate E. destruct Ft as (ID & LL & Z0 & B0). injection E as <-. cbn. rewrite fupd_same. split; [|now split].
    destruct (0 <? size_of _ _) eqn:Z1; [|now repeat split]. destruct (size <? size_of _ _) eqn:Z2; repeat split; auto; try discriminate. intros _.
    destruct count; [|apply B0; discriminate]. rewrite (Z0 eq_refl) in Z2. congruence.
  - (* Best *) destruct (onward_spec _ _ _ _ _ I E) as (c' & ST & EP & NI & [(N1 & K & H & EO & EL)|(ID & e & H & M & EL & EO)]).
    + rewrite EO, P, EP, K, EL, H. split; [assumption|]. split; [assumption|]. intros q. rewrite <- EP. apply (TL c' ST EP). rewrite Ft. discriminate.
    + rewrite EO, fupd_same. split; [|split; [now apply (LOG e)|apply (TL c' ST EP); rewrite Ft; discriminate]]. destruct e; exact ID.
  - (* Again *) destruct c; try discriminate E. injection E as <-. cbn. rewrite fupd_same. now repeat split.
  - (* Next *) destruct c; destruct ps as [|p r]; try discriminate E.
    + injection E as <-. cbn. rewrite fupd_same. now repeat split.
    + destruct Ft as (ID & LL). cbn in LL. destruct (Nat.eqb p b).
      * injection E as <-. cbn. rewrite fupd_same. repeat split; auto. lia.
      * destruct (start_spec _ _ _ _ _ E) as (ST & EP & EO & EL). destruct (deq_step _ _ _ _ _ ST) as (_ & D & SB & H). rewrite EO, fupd_same, D, EL, EP, SB, H.
        split; [|now split]. split; [now exists p|lia].
  - (* Other *) destruct Ft as ((q0 & KQ) & LL). destruct (onward_spec _ _ _ _ _ I E) as (c' & ST & EP & NI & [(N1 & K & H & EO & EL)|(ID & e & H & M & EL & EO)]).
    + rewrite EO, P, EP, K, EL, H. split; [eauto|]. split; [assumption|]. intros q. rewrite <- EP. apply (TL c' ST EP). rewrite KQ. discriminate.
    + rewrite EO, fupd_same. split; [|split; [now apply (LOG e)|apply (TL c' ST EP); rewrite KQ; discriminate]]. rewrite EP. destruct e; try exact ID. now split.
  - (* SizeT *) destruct c; destruct ps as [|p r]; try discriminate E; injection E as <-; cbn; rewrite fupd_same; destruct Ft as (ID & LL); cbn in LL; repeat split; auto; lia.
  - (* SizeH *) destruct c; try discriminate E. injection E as <-. cbn. rewrite fupd_same. now repeat split.
  - (* Crash *) destruct c; discriminate E.
Qed.
Lemma whole_step s t c s' : whole s -> ostep s t c = Some s' -> whole s'.
Proof.
  intros W E. destruct (whole_moves _ _ _ _ W E) as (Ft & L & P). destruct W as [I F _ N _]. destruct (ostep_prods _ _ _ _ I N E) as [N' INC].
  constructor; auto; [exact (inv_ostep _ _ _ _ I E)|]. intros u. destruct (Nat.eq_dec u t) as [->|U]; [assumption|].
  apply (fits_other s s' u); auto; [exact (ops_other _ _ _ _ _ E U)|exact (pcs_other _ _ _ _ _ I E U)].
Qed.
Lemma whole_run p : forall s s', whole s -> orun B nothrow s p = Some s' -> whole s'.
Proof.
  induction p as [|[t c] p IH]; intros s s' W E; cbn [orun] in E; [now injection E as <-|].
  destruct (ostep s t c) as [s1|] eqn:ST; [|discriminate]. exact (IH _ _ (whole_step _ _ _ _ W ST) E).
Qed.
Lemma possible_whole s : possible B nothrow s -> whole s.
Proof. intros [p E]. exact (whole_run p _ _ whole_start E). Qed.

(** *** Logs *)
Lemma added_filter q h : added q (filter of_subs h) = added (T := T) q h.
Proof. induction h as [|[] h IH]; cbn; rewrite ?IH; auto. Qed.
Lemma polled_filter h : polled (filter of_subs h) = polled (T := T) h.
Proof. induction h as [|[] h IH]; cbn; rewrite ?IH; auto. Qed.
Lemma added_hist q h : added (T := T) q (flat_map to_log h) = enqueued q h.
Proof. induction h as [|[] h IH]; cbn; rewrite ?IH; auto. Qed.
Lemma polled_hist h : polled (T := T) (flat_map to_log h) = handed_out h.
Proof. induction h as [|[] h IH]; cbn; rewrite ?IH; auto. Qed.
Lemma log_added s q : whole s -> added q (log s) = enqueued q (hist (inner s)).
Proof. intros W. now rewrite <- added_filter, (w_log _ W), added_hist. Qed.
Lemma log_polled s : whole s -> polled (log s) = handed_out (hist (inner s)).
Proof. intros W. now rewrite <- polled_filter, (w_log _ W), polled_hist. Qed.
Lemma log_got s t q i r : whole s -> In (Polled t q i r) (log s) -> In (Got t q i r) (hist (inner s)).
Proof.
  intros W X. assert (Y : In (Polled t q i r) (filter of_subs (log s))) by (apply filter_In; now split). rewrite (w_log _ W) in Y. apply in_flat_map in Y as (e & E1 & E2).
  destruct e; cbn in E2; try contradiction; destruct E2 as [E2|[]]; try discriminate. now injection E2 as <- <- <- <-.
Qed.
End Whole.
