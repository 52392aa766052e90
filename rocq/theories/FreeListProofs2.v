(** Every step keeps the invariant of the free list. *)

From Coq Require Import ZArith List Bool Lia Arith.
From Verif Require Import Base Bits FreeListModel FreeListSpec FreeListProofs.
Import ListNotations.
Open Scope Z_scope.

Definition next_ok (nx : node -> option node) (p : pc) : Prop :=
  match p with G5 h x => nx h = x | A3 n hd _ | A4 n hd _ => nx n = hd | _ => True end.

Lemma inv_move T ph L P s i p p' x q m' c' L' P' :
  inv T ph L P s -> nth_error (threads s) i = Some p ->
  (forall m, m <> x -> hold m p = hold m p') -> (forall m, work p = Some m -> m = x) -> (forall m, work p' = Some m -> m = x) ->
  (work p' = Some x -> q = Call i /\ (work p = Some x \/ forall j, ph x <> Call j)) ->
  (work p' <> Some x -> (work p <> Some x /\ q = ph x) \/ (forall j, q <> Call j) /\ (work p = Some x \/ forall j, ph x <> Call j)) ->
  (forall n, refs m' n = fupd (refs (memory s)) x (base (upd (threads s) i p') q + holders (upd (threads s) i p') x) n) ->
  (q = Waiting -> 1 <= holders (upd (threads s) i p') x) ->
  (unseen p' x -> holders (upd (threads s) i p') x = 0) ->
  (forall j r, j <> i -> nth_error (threads s) j = Some r -> unseen r x -> holders (upd (threads s) i p') x = 0) ->
  linked (next m') (head m') L' -> NoDup L' -> (forall n, In n L' <-> fupd ph x q n = Listed) ->
  (forall n, c' n = true <-> fupd ph x q n = Client) ->
  NoDup P' -> (forall n, In n P' <-> fupd ph x q n = Waiting) ->
  next_ok (next m') p' -> (forall j r, j <> i -> nth_error (threads s) j = Some r -> next_ok (next (memory s)) r -> next_ok (next m') r) ->
  inv T (fupd ph x q) L' P' (mkSys m' (upd (threads s) i p') c').
Proof.
  intros I E HO W1 W2 C1 C2 R WT U1 U2 CH ND LI CL NDP PW N1 N2. constructor; cbn [threads memory client]; auto.
  - rewrite upd_length. exact (i_len _ _ _ _ _ I).
  - apply (call_move _ _ _ _ _ I _ _ _ _ _ E W1 W2 C1 C2).
  - intros n. rewrite R. apply (refs_move _ _ _ _ _ I _ _ _ _ _ E HO W1). reflexivity.
  - apply (wait_move _ _ _ _ _ I _ _ _ _ _ E HO WT).
  - apply (unseen_move _ _ _ _ _ I _ _ _ _ E HO U1 U2). intros m U. apply W2, unseen_work, U.
  - intros j r ER. destruct (Nat.eq_dec j i) as [->|NJ].
    + rewrite (at_i _ _ _ _ E) in ER. injection ER as <-. exact N1.
    + rewrite (at_j _ _ _ _ E j NJ) in ER. exact (N2 j r NJ ER (i_next _ _ _ _ _ I j r ER)).
Qed.

Lemma keep {A} (ph : node -> place) (x : node) (q c : place) (In' : node -> A -> Prop) (L : A) :
  (forall n, In' n L <-> ph n = c) -> (ph x = c <-> q = c) -> forall n, In' n L <-> fupd ph x q n = c.
Proof. intros H K n. rewrite H. node_cases n x; tauto. Qed.
Lemma keep_in (ph : node -> place) (x : node) (q c : place) (L : list node) :
  (forall n, In n L <-> ph n = c) -> (ph x = c <-> q = c) -> forall n, In n L <-> fupd ph x q n = c.
Proof. intros H K. exact (keep ph x q c (fun n L => In n L) L H K). Qed.
Lemma keep_bool (ph : node -> place) (x : node) (q c : place) (f : node -> bool) :
  (forall n, f n = true <-> ph n = c) -> (ph x = c <-> q = c) -> forall n, f n = true <-> fupd ph x q n = c.
Proof. intros H K. exact (keep ph x q c (fun n f => f n = true) f H K). Qed.
Lemma add_in (ph : node -> place) (x : node) (c : place) (L : list node) :
  (forall n, In n L <-> ph n = c) -> forall n, In n (x :: L) <-> fupd ph x c n = c.
Proof.
  intros H n. cbn [In]. rewrite H. node_cases n x; [tauto|]. split; [intros [K|K]; [congruence|exact K]|tauto].
Qed.
Lemma remove_in (ph : node -> place) (x : node) (q c : place) (L : list node) :
  (forall n, In n L <-> ph n = c) -> q <> c -> forall n, In n (remove Nat.eq_dec x L) <-> fupd ph x q n = c.
Proof.
  intros H Q n. node_cases n x.
  - split; [intros K; now apply remove_In in K|congruence].
  - rewrite <- H. split; [apply in_remove|intros K; apply in_in_remove; auto].
Qed.
Lemma nodup_remove x (L : list node) : NoDup L -> NoDup (remove Nat.eq_dec x L).
Proof.
  induction 1 as [|y r N D IH]; [constructor|]. cbn. destruct (Nat.eq_dec x y); [exact IH|]. constructor; [|exact IH]. intros K. now apply in_remove in K.
Qed.
Lemma resume_hold k m : hold m (fst (resume k)) = 0.
Proof. destruct k as [|[|]]; reflexivity. Qed.
Lemma resume_work k : work (fst (resume k)) = None.
Proof. destruct k as [|[|]]; reflexivity. Qed.
Lemma resume_unseen k m : ~ unseen (fst (resume k)) m.
Proof. destruct k as [|[|]]; cbn; auto. Qed.
Lemma resume_next nx k : next_ok nx (fst (resume k)).
Proof. destruct k as [|[|]]; exact Logic.I. Qed.
Lemma resume_take c k : take c (snd (resume k)) = c.
Proof. destruct k as [|[|]]; reflexivity. Qed.
Lemma uwrap_small v : 0 <= v < 2 * FLAG -> uwrap 32 v = v.
Proof. intros H. unfold uwrap. apply Z.mod_small. unfold FLAG in H. lia. Qed.

(** ** Work left: the nodes still to be put on the list, the calls of try_get under way *)
Definition wk (k : kont) : Z := match k with KAdd => 0 | KGet _ => 1 end.
Definition weight (p : pc) : Z :=
  match p with Idle | G6 _ => 0 | A0 _ => 1 | A1 _ k | A2 _ _ k | A3 _ _ k | A4 _ _ k | A5 _ _ k => 1 + wk k | _ => 1 end.
(** the step changes freeListHead *)
Definition change (p p' : pc) : Z := match p, p' with A4 _ _ _, A5 _ _ _ => 0 | A4 _ _ _, _ => 1 | G5 _ _, G6 _ => 1 | _, _ => 0 end.
Lemma resume_weight k : 0 <= weight (fst (resume k)) <= wk k.
Proof. destruct k as [|[|]]; cbn; lia. Qed.
Lemma resume_change n hd k : change (A4 n hd k) (fst (resume k)) = 1.
Proof. destruct k as [|[|]]; reflexivity. Qed.
Lemma remove_length x (P : list node) : NoDup P -> In x P -> (S (length (remove Nat.eq_dec x P)) = length P)%nat.
Proof.
  induction 1 as [|y r N D IH]; cbn; [contradiction|]. intros [->|K].
  - destruct (Nat.eq_dec x x) as [_|]; [|congruence]. now rewrite notin_remove.
  - destruct (Nat.eq_dec x y) as [->|]; [contradiction|]. cbn. now rewrite IH.
Qed.
Ltac weigh := match goal with
  | |- context[resume ?k] => pose proof (resume_weight k); rewrite ?resume_change; cbn [weight wk change length] in *; try lia
  | _ => idtac end; cbn [weight wk change length]; lia.
Ltac same I RF UZ HU BO h :=
  first [ let j := fresh "j" in intros j; rewrite BO by (cbn [work]; congruence); rewrite HU; cbn [hold]; rewrite ?Nat.eqb_refl; unfold fupd; destruct (Nat.eqb_spec j h) as [->|]; [rewrite (RF h); lia|reflexivity]
        | let Q := fresh "Q" in intros Q; rewrite HU; cbn [hold]; rewrite ?Nat.eqb_refl; pose proof (i_wait _ _ _ _ _ I h Q) as K; cbn [threads] in K; lia
        | solve [intros []]
        | let j := fresh "j" in let r := fresh "r" in let ER := fresh in let U := fresh in intros j r _ ER U; rewrite HU; cbn [hold]; rewrite ?Nat.eqb_refl; rewrite (UZ j r h ER U); lia
        | reflexivity ].

Section Step.
Variables (stale : bool) (T : nat).
Hypothesis BD : Z.of_nat T < 2 ^ 30 - 1.


Lemma inv_tstep ph L P s i p m' p' l : inv T ph L P s -> nth_error (threads s) i = Some p -> tstep stale (memory s) p m' p' l ->
  exists ph' L' P', inv T ph' L' P' (mkSys m' (upd (threads s) i p') (take (client s) l)) /\
    Z.of_nat (length P') + weight p' + change p p' <= Z.of_nat (length P) + weight p.
Proof.
  intros I E ST. destruct s as [m ts c]. cbn [memory threads client] in *.
  pose proof (holders_small _ _ _ _ _ I BD) as SM. pose proof (worker _ _ _ _ _ I i p) as WK. pose proof (refs_range _ _ _ _ _ I BD) as RG. pose proof (fun n => holding (mkSys m ts c) i p n E) as HG. cbn [memory threads] in SM, WK, RG, HG.
  assert (HU : forall p' n, holders (upd ts i p') n = holders ts n - hold n p + hold n p') by (intros q0 n0; apply (holders_upd (mkSys m ts c) i p q0 E)).
  assert (BI : forall p', base (upd ts i p') (Call i) = own p') by (intros; cbn [base]; rewrite (nth_upd _ _ _ _ _ E), Nat.eqb_refl; reflexivity).
  assert (BO : forall p' n, work p <> Some n -> base (upd ts i p') (ph n) = base ts (ph n)).
  { intros q0 n0 W. destruct (ph n0) as [| | |j] eqn:PJ; auto. cbn [base]. rewrite (nth_upd _ _ _ _ _ E). destruct (Nat.eqb_spec j i) as [->|]; [|reflexivity].
    exfalso. apply (i_call _ _ _ _ _ I) in PJ. destruct PJ as (r & R & WR). cbn [threads] in R. rewrite E in R. injection R as <-. auto. }
  pose proof (i_refs _ _ _ _ _ I) as RF. cbn [memory threads] in RF.
  pose proof (not_unseen _ _ _ _ _ I) as NU. cbn [memory threads] in NU.
  pose proof (fun n j r => unseen_none _ _ _ _ _ I i p n j r E) as UN. cbn [memory threads] in UN.
  pose proof (i_unseen _ _ _ _ _ I) as UZ. cbn [threads] in UZ.
  pose proof (fun j r n => worker_unique _ _ _ _ _ I i p j r n E) as WU. cbn [threads] in WU.
  destruct ST.
  Ltac start I E := eapply (fun p' x q m' c' L' P' => inv_move _ _ _ _ _ _ _ p' x q m' c' L' P' I E); cbn [work memory threads client head next refs set_refs set_head set_next take hold]; try congruence; auto.
  Ltac lists I PN := try exact Logic.I; try exact (i_chain _ _ _ _ _ I); try exact (i_nodup _ _ _ _ _ I); try exact (i_pend _ _ _ _ _ I);
    try (apply keep_in; [exact (i_listed _ _ _ _ _ I)|rewrite ?PN; split; (discriminate || auto)]);
    try (apply keep_bool; [exact (i_client _ _ _ _ _ I)|rewrite ?PN; split; (discriminate || auto)]);
    try (apply keep_in; [exact (i_waiting _ _ _ _ _ I)|rewrite ?PN; split; (discriminate || auto)]).
  Ltac quietly I := try exact Logic.I; try exact (i_chain _ _ _ _ _ I); try exact (i_nodup _ _ _ _ _ I); try exact (i_pend _ _ _ _ _ I);
    try (intros ?n; rewrite fupd_id; apply (i_listed _ _ _ _ _ I)); try (intros ?n; rewrite fupd_id; apply (i_client _ _ _ _ _ I)); try (intros ?n; rewrite fupd_id; apply (i_waiting _ _ _ _ _ I));
    try (intros _; left; split; congruence).
  - (* add0 *)
    destruct (WK n E eq_refl) as [PN RN]. cbn [own] in RN. exists (fupd ph n (Call i)), L, P. split; [|weigh].
    start I E; lists I PN.
    + intros k. rewrite BI, HU. cbn [own hold]. rewrite H. rewrite uwrap_small by (unfold FLAG, SHOULD_BE_ON_FREELIST; lia). unfold SHOULD_BE_ON_FREELIST. fold FLAG. f_equal. lia.
    + intros _. rewrite HU. cbn [hold]. lia.
    + intros j r NJ ER U. rewrite HU. cbn [hold]. lia.
  - (* add *)
    destruct (WK n E eq_refl) as [PN RN]. cbn [own] in RN. exists (fupd ph n Waiting), L, (n :: P). split; [|weigh]. specialize (SM n).
    start I E; lists I PN.
    + intros _. right. split; [intros j; discriminate|auto].
    + intros k. cbn [base]. rewrite HU. cbn [hold]. rewrite uwrap_small by (unfold FLAG, SHOULD_BE_ON_FREELIST in *; lia). unfold SHOULD_BE_ON_FREELIST. fold FLAG. f_equal. lia.
    + intros _. rewrite HU. cbn [hold]. lia.
    + intros [].
    + intros j r NJ ER U. elim NJ. exact (WU j r n eq_refl ER (unseen_work _ _ U)).
    + constructor; [|exact (i_pend _ _ _ _ _ I)]. intros K. apply (i_waiting _ _ _ _ _ I) in K. congruence.
    + apply add_in. exact (i_waiting _ _ _ _ _ I).
  - (* load *)
    destruct (WK n E eq_refl) as [PN RN]. cbn [own] in RN. exists (fupd ph n (Call i)), L, P. split; [|weigh].
    start I E; lists I PN.
    + intros j. rewrite BI, HU. cbn [own hold]. unfold fupd. destruct (Nat.eqb_spec j n) as [->|]; [lia|reflexivity].
    + intros _. rewrite HU. cbn [hold]. rewrite (UZ i _ n E eq_refl). lia.
    + intros j r NJ ER U. rewrite HU. cbn [hold]. rewrite (UZ i _ n E eq_refl). lia.
  - (* next *)
    destruct (WK n E eq_refl) as [PN RN]. cbn [own] in RN. exists (fupd ph n (Call i)), L, P. split; [|weigh]. pose proof (UZ i _ n E eq_refl) as Z0.
    start I E; lists I PN.
    + intros j. rewrite BI, HU. cbn [own hold]. unfold fupd. destruct (Nat.eqb_spec j n) as [->|]; [lia|reflexivity].
    + intros _. rewrite HU. cbn [hold]. lia.
    + intros j r NJ ER U. rewrite HU. cbn [hold]. lia.
    + apply linked_ext with (next m); [|exact (i_chain _ _ _ _ _ I)]. intros j K. apply (i_listed _ _ _ _ _ I) in K. apply fupd_other. congruence.
    + cbn [next_ok]. apply fupd_same.
    + intros j r NJ ER K. destruct r; cbn [next_ok] in *; auto; (rewrite fupd_other; [exact K|]); intros ->.
      * apply NJ. eapply WU; [reflexivity|exact ER|reflexivity].
      * apply NJ. eapply WU; [reflexivity|exact ER|reflexivity].
      * pose proof (holding (mkSys m ts c) j _ n ER) as Q. cbn [threads hold] in Q. rewrite Nat.eqb_refl in Q. lia.
  - (* one *)
    destruct (WK n E eq_refl) as [PN RN]. cbn [own] in RN. exists (fupd ph n (Call i)), L, P. split; [|weigh]. pose proof (UZ i _ n E eq_refl) as Z0.
    start I E; lists I PN.
    + intros j. rewrite BI, HU. cbn [own hold]. unfold fupd. destruct (Nat.eqb_spec j n) as [->|]; [lia|reflexivity].
    + intros [].
    + intros j r NJ ER U. rewrite HU. cbn [hold]. lia.
    + exact (i_next _ _ _ _ _ I i _ E).
  - (* push *)
    destruct (WK n E eq_refl) as [PN RN]. cbn [own] in RN. exists (fupd ph n Listed), (n :: L), P. split; [|weigh]. rewrite resume_take. specialize (SM n).
    eapply (fun p' x q m' c' L' P' => inv_move _ _ _ _ _ _ _ p' x q m' c' L' P' I E); cbn [memory threads client head next refs set_head]; rewrite ?resume_work.
    + intros k0 N0. rewrite resume_hold. reflexivity.
    + cbn [work]. congruence.
    + congruence.
    + congruence.
    + intros _. right. split; [intros j; discriminate|auto].
    + intros j. cbn [base]. rewrite HU, resume_hold. cbn [hold]. unfold fupd. destruct (Nat.eqb_spec j n) as [->|]; [lia|reflexivity].
    + congruence.
    + intros U. elim (resume_unseen _ _ U).
    + intros j r NJ ER U. elim NJ. exact (WU j r n eq_refl ER (unseen_work _ _ U)).
    + cbn [linked]. split; [reflexivity|]. pose proof (i_next _ _ _ _ _ I i _ E) as NX. cbn [memory] in NX. rewrite NX. rewrite <- H. exact (i_chain _ _ _ _ _ I).
    + constructor; [|exact (i_nodup _ _ _ _ _ I)]. intros K. apply (i_listed _ _ _ _ _ I) in K. congruence.
    + apply add_in. exact (i_listed _ _ _ _ _ I).
    + lists I PN.
    + lists I PN.
    + lists I PN.
    + apply resume_next.
    + auto.
  - (* push fails *)
    destruct (WK n E eq_refl) as [PN RN]. cbn [own] in RN. exists (fupd ph n (Call i)), L, P. split; [|weigh].
    start I E; lists I PN.
    + intros j. rewrite BI, HU. cbn [own hold]. unfold fupd. destruct (Nat.eqb_spec j n) as [->|]; [lia|reflexivity].
    + intros [].
    + intros j r NJ ER U. elim NJ. exact (WU j r n eq_refl ER (unseen_work _ _ U)).
  - (* again *)
    destruct (WK n E eq_refl) as [PN RN]. cbn [own] in RN. exists (fupd ph n (Call i)), L, P. split; [|weigh].
    start I E; lists I PN.
    + intros j. rewrite BI, HU. cbn [own hold]. rewrite H. rewrite uwrap_small by (unfold FLAG, SHOULD_BE_ON_FREELIST; lia). unfold SHOULD_BE_ON_FREELIST. fold FLAG. f_equal. lia.
    + intros _. rewrite HU. cbn [hold]. lia.
    + intros j r NJ ER U. rewrite HU. cbn [hold]. lia.
  - (* leave *)
    destruct (WK n E eq_refl) as [PN RN]. cbn [own] in RN. exists (fupd ph n Waiting), L, (n :: P). split; [|weigh]. rewrite resume_take. specialize (SM n).
    eapply (fun p' x q m' c' L' P' => inv_move _ _ _ _ _ _ _ p' x q m' c' L' P' I E); cbn [memory threads client head next refs set_refs]; rewrite ?resume_work.
    + intros k0 N0. rewrite resume_hold. reflexivity.
    + cbn [work]. congruence.
    + congruence.
    + congruence.
    + intros _. right. split; [intros j; discriminate|auto].
    + intros j. cbn [base]. rewrite HU, resume_hold. cbn [hold]. rewrite uwrap_small by (unfold FLAG, SHOULD_BE_ON_FREELIST in *; lia). unfold SHOULD_BE_ON_FREELIST. fold FLAG. f_equal. lia.
    + intros _. rewrite HU, resume_hold. cbn [hold]. lia.
    + intros U. elim (resume_unseen _ _ U).
    + intros j r NJ ER U. elim NJ. exact (WU j r n eq_refl ER (unseen_work _ _ U)).
    + lists I PN.
    + lists I PN.
    + lists I PN.
    + lists I PN.
    + constructor; [|exact (i_pend _ _ _ _ _ I)]. intros K. apply (i_waiting _ _ _ _ _ I) in K. congruence.
    + apply add_in. exact (i_waiting _ _ _ _ _ I).
    + apply resume_next.
    + auto.
  - (* head *)
    exists (fupd ph O (ph O)), L, P. split; [|weigh]. rewrite resume_take.
    eapply (fun p' x q m' c' L' P' => inv_move _ _ _ _ _ _ _ p' x q m' c' L' P' I E); cbn [memory threads client head next refs]; rewrite ?resume_work; cbn [work]; try congruence; auto.
    + intros k0 N0. rewrite resume_hold. reflexivity.
    + intros j. rewrite BO by (cbn [work]; congruence). rewrite HU, resume_hold. cbn [hold]. unfold fupd. destruct (Nat.eqb_spec j 0) as [->|]; [rewrite (RF O); lia|reflexivity].
    + intros Q. rewrite HU, resume_hold. cbn [hold]. pose proof (i_wait _ _ _ _ _ I O Q) as K. cbn [threads] in K. lia.
    + intros U. elim (resume_unseen _ _ U).
    + intros j r NJ ER U. rewrite HU, resume_hold. cbn [hold]. rewrite (UZ j r O ER U). lia.
    + lists I I.
    + lists I I.
    + intros n. rewrite fupd_id. apply (i_listed _ _ _ _ _ I).
    + intros n. rewrite fupd_id. apply (i_client _ _ _ _ _ I).
    + lists I I.
    + intros n. rewrite fupd_id. apply (i_waiting _ _ _ _ _ I).
    + apply resume_next.
  - (* refs *)
    exists (fupd ph h (ph h)), L, P. split; [|weigh]. start I E; quietly I; same I RF UZ HU BO h.
  - (* zero *)
    exists (fupd ph h (ph h)), L, P. split; [|weigh]. start I E; quietly I; same I RF UZ HU BO h.
  - (* changed *)
    exists (fupd ph h (ph h)), L, P. split; [|weigh]. start I E; quietly I; same I RF UZ HU BO h.
  - (* ref *)
    exists (fupd ph h (ph h)), L, P. split; [|weigh]. assert (RR : refs_of (refs m h) <> 0) by congruence. specialize (SM h). specialize (RG h).
    start I E; quietly I.
    + intros j N. destruct (Nat.eqb_spec h j); congruence.
    + intros j. rewrite BO by (cbn [work]; congruence). rewrite HU. cbn [hold]. rewrite Nat.eqb_refl. rewrite uwrap_small by lia. unfold fupd. destruct (Nat.eqb_spec j h) as [->|]; [|reflexivity].
      rewrite <- H0, RF. lia.
    + intros Q. rewrite HU. cbn [hold]. rewrite Nat.eqb_refl. lia.
    + intros [].
    + intros j r0 NJ ER U. elim (NU h j r0 RR ER U).
  - (* read *)
    exists (fupd ph h (ph h)), L, P. split; [|weigh]. start I E; quietly I; same I RF UZ HU BO h.
  - (* pop *)
    destruct L as [|y L]; [pose proof (i_chain _ _ _ _ _ I) as C; cbn in C; congruence|]. pose proof (i_chain _ _ _ _ _ I) as C. cbn [linked head next memory] in C. destruct C as [C1 C2]. rewrite H in C1. injection C1 as <-.
    assert (PN : ph h = Listed) by (apply (i_listed _ _ _ _ _ I); left; reflexivity). pose proof (i_nodup _ _ _ _ _ I) as ND. inversion ND as [|? ? NI ND']; subst.
    exists (fupd ph h (Call i)), L, P. split; [|weigh]. start I E; lists I PN.
    + intros j N. destruct (Nat.eqb_spec h j); congruence.
    + intros _. split; [reflexivity|]. right. intros j. rewrite PN. discriminate.
    + intros j. rewrite BI, HU. cbn [own hold]. rewrite Nat.eqb_refl. pose proof (RF h) as Rh. rewrite PN in Rh. cbn [base] in Rh. unfold fupd. destruct (Nat.eqb_spec j h) as [->|]; [lia|reflexivity].
    + intros [].
    + intros j r NJ ER U. apply unseen_work in U. assert (Q : ph h = Call j) by (apply (i_call _ _ _ _ _ I); eauto). congruence.
    + pose proof (i_next _ _ _ _ _ I i _ E) as NX. cbn [memory] in NX. rewrite <- NX. exact C2.
    + intros n. pose proof (i_listed _ _ _ _ _ I n) as LI. cbn [In] in LI. node_cases n h; [split; [contradiction|discriminate]|]. rewrite <- LI. split; [auto|intros [K|K]; [congruence|exact K]].
  - (* pop fails *)
    exists (fupd ph h (ph h)), L, P. split; [|weigh]. start I E; quietly I; same I RF UZ HU BO h.
  - (* got *)
    destruct (WK h E eq_refl) as [PN RN]. cbn [own] in RN. exists (fupd ph h Client), L, P. split; [|weigh]. specialize (RG h). specialize (HG h). cbn [hold] in HG. rewrite Nat.eqb_refl in HG.
    start I E; lists I PN.
    + intros j N. destruct (Nat.eqb_spec h j); congruence.
    + intros _. right. split; [intros j; discriminate|auto].
    + intros j. cbn [base]. rewrite HU. cbn [hold]. rewrite Nat.eqb_refl. rewrite uwrap_small by lia. unfold fupd. destruct (Nat.eqb_spec j h) as [->|]; [lia|reflexivity].
    + intros [].
    + intros j r NJ ER U. elim NJ. exact (WU j r h eq_refl ER (unseen_work _ _ U)).
    + intros n. node_cases n h; [tauto|]. apply (i_client _ _ _ _ _ I).
  - (* last *)
    specialize (HG h). cbn [hold] in HG. rewrite Nat.eqb_refl in HG. pose proof (SM h) as SMh.
    assert (PN : ph h = Waiting /\ holders ts h = 1).
    { pose proof (RF h) as Rh. destruct (ph h) as [| | |j] eqn:PH; cbn [base] in Rh; try (unfold FLAG, SHOULD_BE_ON_FREELIST in *; lia); [split; [reflexivity|unfold FLAG, SHOULD_BE_ON_FREELIST in *; lia]|].
      exfalso. apply (i_call _ _ _ _ _ I) in PH. destruct PH as (r & R & WR). cbn [threads] in R. rewrite R in Rh.
      assert (U : unseen r h). { destruct r; cbn [own work] in *; try discriminate; try (injection WR as ->); try reflexivity; unfold FLAG, SHOULD_BE_ON_FREELIST in *; lia. }
      pose proof (UZ j r h R U). lia. }
    destruct PN as [PN HN]. exists (fupd ph h (Call i)), L, (remove Nat.eq_dec h P). split; [|cbn [weight wk change]; pose proof (remove_length h P (i_pend _ _ _ _ _ I) (proj2 (i_waiting _ _ _ _ _ I h) PN)) as RL; unfold node in *; lia].
    start I E; lists I PN.
    + intros j N. destruct (Nat.eqb_spec h j); congruence.
    + intros _. split; [reflexivity|]. right. intros j. rewrite PN. discriminate.
    + intros j. rewrite BI, HU. cbn [own hold]. rewrite Nat.eqb_refl. rewrite uwrap_small by (unfold FLAG, SHOULD_BE_ON_FREELIST in *; lia). unfold fupd. destruct (Nat.eqb_spec j h) as [->|]; [|reflexivity]. unfold FLAG, SHOULD_BE_ON_FREELIST in *; lia.
    + intros _. rewrite HU. cbn [hold]. rewrite Nat.eqb_refl. lia.
    + intros j r NJ ER U. rewrite HU. cbn [hold]. rewrite Nat.eqb_refl. lia.
    + apply nodup_remove. exact (i_pend _ _ _ _ _ I).
    + apply remove_in; [exact (i_waiting _ _ _ _ _ I)|discriminate].
  - (* unref *)
    specialize (HG h). cbn [hold] in HG. rewrite Nat.eqb_refl in HG. specialize (RG h). pose proof (base_cases ph (mkSys m ts c) h : base ts (ph h) = 0 \/ base ts (ph h) = 1 \/ base ts (ph h) = FLAG) as BC.
    exists (fupd ph h (ph h)), L, P. split; [|weigh]. rewrite resume_take.
    eapply (fun p' x q m' c' L' P' => inv_move _ _ _ _ _ _ _ p' x q m' c' L' P' I E); cbn [memory threads client head next refs set_refs]; rewrite ?resume_work; cbn [work]; try congruence; auto; quietly I.
    + intros j N. rewrite resume_hold. cbn [hold]. destruct (Nat.eqb_spec h j); congruence.
    + intros j. rewrite BO by (cbn [work]; congruence). rewrite HU, resume_hold. cbn [hold]. rewrite Nat.eqb_refl. pose proof (RF h) as Rh.
      rewrite uwrap_small by (unfold FLAG in *; lia). unfold fupd. destruct (Nat.eqb_spec j h) as [->|]; [lia|reflexivity].
    + intros Q. rewrite HU, resume_hold. cbn [hold]. rewrite Nat.eqb_refl. pose proof (RF h) as Rh. rewrite Q in Rh. cbn [base] in Rh. unfold FLAG, SHOULD_BE_ON_FREELIST in *. lia.
    + intros U. elim (resume_unseen _ _ U).
    + intros j r NJ ER U. pose proof (UZ j r h ER U). lia.
    + apply resume_next.
Qed.

Lemma inv_calls ph L P a i b : inv T ph L P a -> calls i a b -> exists ph' L' P', inv T ph' L' P' b.
Proof.
  intros I C. destruct C as [m ts c n E N|m ts c E].
  - assert (PN : ph n = Client) by (apply (i_client _ _ _ _ _ I); exact N). exists (fupd ph n (Call i)), L, P.
    assert (HU : holders (upd ts i (A0 n)) n = holders ts n) by (unfold holders; rewrite (sum_upd _ _ _ _ _ E); cbn [hold]; lia).
    start I E; lists I PN.
    + intros _. split; [reflexivity|]. right. intros j. rewrite PN. discriminate.
    + intros j. cbn [base]. rewrite (nth_upd _ _ _ _ _ E), Nat.eqb_refl, HU. cbn [own]. pose proof (i_refs _ _ _ _ _ I n) as R. cbn [memory threads] in R. rewrite PN in R. cbn [base] in R.
      unfold fupd. destruct (Nat.eqb_spec j n) as [->|]; [exact R|reflexivity].
    + intros [].
    + intros j r NJ ER U. apply unseen_work in U. assert (Q : ph n = Call j) by (apply (i_call _ _ _ _ _ I); eauto). congruence.
    + intros k. node_cases k n; [split; discriminate|]. apply (i_client _ _ _ _ _ I).
  - exists (fupd ph O (ph O)), L, P.
    assert (HU : forall n, holders (upd ts i G1) n = holders ts n) by (intros; unfold holders; rewrite (sum_upd _ _ _ _ _ E); cbn [hold]; lia).
    assert (BO : base (upd ts i G1) (ph O) = base ts (ph O)).
    { destruct (ph O) as [| | |j] eqn:PJ; auto. cbn [base]. rewrite (nth_upd _ _ _ _ _ E). destruct (Nat.eqb_spec j i) as [->|]; [|reflexivity].
      exfalso. apply (i_call _ _ _ _ _ I) in PJ. destruct PJ as (r & R & WR). cbn [threads] in R. rewrite E in R. injection R as <-. discriminate WR. }
    start I E; quietly I.
    + intros j. rewrite BO, HU. pose proof (i_refs _ _ _ _ _ I O) as R. cbn [memory threads] in R. unfold fupd. destruct (Nat.eqb_spec j 0) as [->|]; [exact R|reflexivity].
    + intros Q. rewrite HU. exact (i_wait _ _ _ _ _ I O Q).
    + intros [].
    + intros j r NJ ER U. rewrite HU. exact (i_unseen _ _ _ _ _ I j r O ER U).
Qed.
Lemma inv_step ph L P a i l b : inv T ph L P a -> step stale i l a b -> exists ph' L' P', inv T ph' L' P' b.
Proof. intros I S0. destruct S0 as [m ts c p m' p' l E ST]. destruct (inv_tstep ph L P (mkSys m ts c) i p m' p' l I E ST) as (ph' & L' & P' & I' & _). eauto. Qed.
Lemma inv_init : inv T (fun _ => Client) [] [] (init T).
Proof.
  assert (NTH : forall i p, nth_error (repeat Idle T) i = Some p -> p = Idle).
  { intros i p E. apply nth_error_In in E. now apply repeat_spec in E. }
  constructor; cbn [init threads memory client head next refs linked]; try (constructor; fail); try tauto.
  - apply repeat_length.
  - intros n. split; [contradiction|discriminate].
  - intros n. split; [contradiction|discriminate].
  - intros n i. split; [discriminate|]. intros (p & E & W). rewrite (NTH _ _ E) in W. discriminate W.
  - intros n. cbn [base]. unfold holders. clear NTH. induction T as [|k IH]; cbn; [reflexivity|lia].
  - discriminate.
  - intros i p n E U. rewrite (NTH _ _ E) in U. destruct U.
  - intros i p E. rewrite (NTH _ _ E). exact Logic.I.
Qed.
Lemma reach_inv s : reach stale T s -> exists ph L P, inv T ph L P s.
Proof.
  induction 1 as [|i l a b R (ph & L & P & I) S0|i a b R (ph & L & P & I) C]; [eauto using inv_init|exact (inv_step ph L P a i l b I S0)|exact (inv_calls ph L P a i b I C)].
Qed.
End Step.
