(** The invariant of the free list. *)

From Coq Require Import ZArith List Bool Lia Arith.
From Verif Require Import Base Bits FreeListModel FreeListSpec.
Import ListNotations.
Open Scope Z_scope.

Definition FLAG : Z := 0x80000000.
Lemma fupd_same {A} (f : node -> A) n x : fupd f n x n = x.
Proof. unfold fupd. now rewrite Nat.eqb_refl. Qed.
Lemma fupd_other {A} (f : node -> A) n x k : k <> n -> fupd f n x k = f k.
Proof. unfold fupd. intros H. apply Nat.eqb_neq in H. now rewrite H. Qed.
Ltac node_cases k n := destruct (Nat.eq_dec k n) as [->|?NE]; [rewrite ?fupd_same in *|rewrite ?fupd_other in * by assumption].

(** ** Sums over the threads *)
Fixpoint sum (f : pc -> Z) (ts : list pc) : Z := match ts with [] => 0 | p :: r => f p + sum f r end.
Lemma sum_upd f ts i p q : nth_error ts i = Some p -> sum f (upd ts i q) = sum f ts - f p + f q.
Proof. revert i. induction ts as [|x r IH]; intros [|i] E; cbn in *; try discriminate; [injection E as ->; lia|]. rewrite (IH _ E). lia. Qed.
Lemma sum_nonneg f ts : (forall p, 0 <= f p) -> 0 <= sum f ts.
Proof. intros H. induction ts as [|x r IH]; cbn; [lia|]. specialize (H x). lia. Qed.
Lemma sum_ge f ts i p : (forall p, 0 <= f p) -> nth_error ts i = Some p -> f p <= sum f ts.
Proof.
  intros H. revert i. induction ts as [|x r IH]; intros [|i] E; cbn in *; try discriminate.
  - injection E as ->. pose proof (sum_nonneg f r H). lia.
  - specialize (IH _ E). specialize (H x). lia.
Qed.
Lemma sum_le f c ts : (forall p, f p <= c) -> sum f ts <= c * Z.of_nat (length ts).
Proof. intros H. induction ts as [|x r IH]; [cbn; lia|]. cbn [sum length]. specialize (H x). lia. Qed.
Lemma sum_pos_ex f ts : (forall p, 0 <= f p) -> 0 < sum f ts -> exists i p, nth_error ts i = Some p /\ 0 < f p.
Proof.
  intros H. induction ts as [|x r IH]; cbn; [lia|]. intros P. destruct (Z.ltb_spec 0 (f x)) as [L|L]; [exists O, x; split; [reflexivity|exact L]|].
  assert (f x = 0) by (specialize (H x); lia). destruct IH as (i & p & E & G); [lia|]. exists (S i), p. split; [exact E|exact G].
Qed.
Lemma sum_ext f g ts : (forall p, f p = g p) -> sum f ts = sum g ts.
Proof. intros H. induction ts as [|x r IH]; [reflexivity|]. cbn. now rewrite H, IH. Qed.
Lemma nth_upd {A} (ts : list A) i j p q : nth_error ts i = Some p -> nth_error (upd ts i q) j = if Nat.eqb j i then Some q else nth_error ts j.
Proof.
  intros E. assert (i < length ts)%nat as L by (apply nth_error_Some; congruence). rewrite nth_error_upd. apply Nat.ltb_lt in L.
  destruct (Nat.eqb_spec j i) as [->|N]; rewrite ?Nat.eqb_refl, ?L; auto.
Qed.

(** ** Where a node is *)
Inductive place : Type := Client | Listed | Waiting | Call (i : nat).
(** the node a call works on *)
Definition work (p : pc) : option node :=
  match p with A0 x | A1 x _ | A2 x _ _ | A3 x _ _ | A4 x _ _ | A5 x _ _ | G6 x => Some x | _ => None end.
(** the references a call has counted *)
Definition hold (n : node) (p : pc) : Z :=
  match p with G4 x | G5 x _ | G7 x _ => if Nat.eqb x n then 1 else 0 | G6 x => if Nat.eqb x n then 2 else 0 | _ => 0 end.
Definition own (p : pc) : Z := match p with A1 _ _ | A2 _ _ _ | A3 _ _ _ => FLAG | A4 _ _ _ | A5 _ _ _ => 1 | _ => 0 end.
Definition base (ts : list pc) (q : place) : Z :=
  match q with Client => 0 | Listed => 1 | Waiting => FLAG | Call i => match nth_error ts i with Some p => own p | None => 0 end end.
Definition holders (ts : list pc) (n : node) : Z := sum (hold n) ts.
Definition unseen (p : pc) (n : node) : Prop := match p with A1 x _ | A2 x _ _ | A3 x _ _ => x = n | _ => False end.

Record inv (T : nat) (ph : node -> place) (L P : list node) (s : sys) : Prop := mkInv {
  i_len : length (threads s) = T;
  i_chain : linked (next (memory s)) (head (memory s)) L;
  i_nodup : NoDup L;
  i_listed : forall n, In n L <-> ph n = Listed;
  i_client : forall n, client s n = true <-> ph n = Client;
  i_pend : NoDup P;
  i_waiting : forall n, In n P <-> ph n = Waiting;
  i_call : forall n i, ph n = Call i <-> exists p, nth_error (threads s) i = Some p /\ work p = Some n;
  i_refs : forall n, refs (memory s) n = base (threads s) (ph n) + holders (threads s) n;
  i_wait : forall n, ph n = Waiting -> 1 <= holders (threads s) n;
  i_unseen : forall i p n, nth_error (threads s) i = Some p -> unseen p n -> holders (threads s) n = 0;
  i_next : forall i p, nth_error (threads s) i = Some p ->
           match p with G5 h nx => next (memory s) h = nx | A3 n hd _ | A4 n hd _ => next (memory s) n = hd | _ => True end }.

Lemma option_eq_dec_nat (a b : option nat) : {a = b} + {a <> b}.
Proof. decide equality. apply Nat.eq_dec. Qed.
Lemma hold_range n p : 0 <= hold n p <= 2.
Proof. destruct p; cbn; try lia; destruct (Nat.eqb _ _); lia. Qed.
Lemma holders_range n ts : 0 <= holders ts n <= 2 * Z.of_nat (length ts).
Proof. split; [apply sum_nonneg; intros; apply hold_range|apply sum_le; intros; apply hold_range]. Qed.
Lemma linked_ext nx nx' p l : (forall n, In n l -> nx' n = nx n) -> linked nx p l -> linked nx' p l.
Proof.
  revert p. induction l as [|x r IH]; cbn; intros p H; [auto|]. intros [-> K]. split; [reflexivity|]. rewrite H by auto. apply IH; [intros; apply H; auto|exact K].
Qed.
Lemma linked_fun nx p l l' : linked nx p l -> linked nx p l' -> l = l'.
Proof.
  revert p l'. induction l as [|x r IH]; intros p [|y r']; cbn; auto; try (intros; destruct H; congruence); try (intros -> [K _]; discriminate).
  intros [-> K] [E K']. injection E as <-. f_equal. eapply IH; eauto.
Qed.

(** ** The general step: only node [x] changes its place and its counter *)
Section Move.
Variables (T : nat) (ph : node -> place) (L P : list node) (s : sys) (I : inv T ph L P s).
Variables (i : nat) (p p' : pc) (x : node) (q : place).
Hypothesis E : nth_error (threads s) i = Some p.
Hypothesis HO : forall m, m <> x -> hold m p = hold m p'.
Hypothesis W1 : forall m, work p = Some m -> m = x.
Hypothesis W2 : forall m, work p' = Some m -> m = x.
Let ts' := upd (threads s) i p'.

Lemma at_i : nth_error ts' i = Some p'.
Proof. unfold ts'. rewrite (nth_upd _ _ _ _ _ E). now rewrite Nat.eqb_refl. Qed.
Lemma at_j j : j <> i -> nth_error ts' j = nth_error (threads s) j.
Proof. intros N. unfold ts'. rewrite (nth_upd _ _ _ _ _ E). apply Nat.eqb_neq in N. now rewrite N. Qed.
Lemma holders_upd n : holders ts' n = holders (threads s) n - hold n p + hold n p'.
Proof. unfold holders, ts'. now rewrite (sum_upd _ _ _ _ _ E). Qed.
Lemma holders_other n : n <> x -> holders ts' n = holders (threads s) n.
Proof. intros N. rewrite holders_upd, (HO n N). lia. Qed.
Lemma call_move :
  (work p' = Some x -> q = Call i /\ (work p = Some x \/ forall j, ph x <> Call j)) ->
  (work p' <> Some x -> (work p <> Some x /\ q = ph x) \/ (forall j, q <> Call j) /\ (work p = Some x \/ forall j, ph x <> Call j)) ->
  forall n j, fupd ph x q n = Call j <-> exists r, nth_error ts' j = Some r /\ work r = Some n.
Proof.
  intros C1 C2 n j.
  assert (OLD : forall m, work p = Some m -> ph m = Call i) by (intros m W; apply (i_call _ _ _ _ _ I); eauto).
  destruct (Nat.eq_dec n x) as [->|N].
  - rewrite fupd_same. destruct (option_eq_dec_nat (work p') (Some x)) as [W|W].
    + destruct (C1 W) as [-> D]. split.
      * intros K. injection K as <-. exists p'. split; [apply at_i|exact W].
      * intros (r & R & WR). destruct (Nat.eq_dec j i) as [->|NJ]; [reflexivity|]. rewrite (at_j j NJ) in R.
        assert (PJ : ph x = Call j) by (apply (i_call _ _ _ _ _ I); eauto). destruct D as [D|D]; [rewrite (OLD _ D) in PJ; congruence|now elim (D j)].
    + assert (NI : forall r, nth_error ts' i = Some r -> work r <> Some x) by (intros r R; rewrite at_i in R; injection R as <-; exact W).
      destruct (C2 W) as [[D ->]|[D1 D2]].
      * rewrite (i_call _ _ _ _ _ I). destruct (Nat.eq_dec j i) as [->|NJ].
        -- split; intros (r & R & WR); exfalso; [rewrite E in R; injection R as <-; auto|exact (NI r R WR)].
        -- now rewrite (at_j j NJ).
      * split; [intros K; now elim (D1 j)|]. intros (r & R & WR). exfalso. destruct (Nat.eq_dec j i) as [->|NJ]; [exact (NI r R WR)|].
        rewrite (at_j j NJ) in R. assert (PJ : ph x = Call j) by (apply (i_call _ _ _ _ _ I); eauto). destruct D2 as [D2|D2]; [rewrite (OLD _ D2) in PJ; congruence|now elim (D2 j)].
  - rewrite fupd_other by exact N. rewrite (i_call _ _ _ _ _ I). destruct (Nat.eq_dec j i) as [->|NJ]; [|now rewrite (at_j j NJ)].
    split; intros (r & R & WR); exfalso; [rewrite E in R|rewrite at_i in R]; injection R as <-; [apply N, W1, WR|apply N, W2, WR].
Qed.
Lemma refs_move r :
  r = base ts' q + holders ts' x -> forall n, fupd (refs (memory s)) x r n = base ts' (fupd ph x q n) + holders ts' n.
Proof.
  intros R n. destruct (Nat.eq_dec n x) as [->|N]; [now rewrite !fupd_same|]. rewrite !fupd_other by exact N. rewrite (i_refs _ _ _ _ _ I n), (holders_other n N). f_equal.
  destruct (ph n) as [| | |j] eqn:PN; cbn [base]; auto. destruct (Nat.eq_dec j i) as [->|NJ]; [|now rewrite (at_j j NJ)].
  exfalso. apply (i_call _ _ _ _ _ I) in PN. destruct PN as (r0 & R0 & WR). rewrite E in R0. injection R0 as <-. apply N, W1, WR.
Qed.
Lemma wait_move : (q = Waiting -> 1 <= holders ts' x) -> forall n, fupd ph x q n = Waiting -> 1 <= holders ts' n.
Proof. intros H n. node_cases n x; [exact H|]. rewrite (holders_other n NE). apply (i_wait _ _ _ _ _ I). Qed.
Lemma unseen_move : (unseen p' x -> holders ts' x = 0) -> (forall j r, j <> i -> nth_error (threads s) j = Some r -> unseen r x -> holders ts' x = 0) ->
  (forall m, unseen p' m -> m = x) -> forall j r n, nth_error ts' j = Some r -> unseen r n -> holders ts' n = 0.
Proof.
  intros H1 H2 H3 j r n R U. destruct (Nat.eq_dec j i) as [->|NJ].
  - rewrite at_i in R. injection R as <-. pose proof (H3 n U). subst n. auto.
  - rewrite (at_j j NJ) in R. destruct (Nat.eq_dec n x) as [->|N]; [eauto|]. rewrite (holders_other n N). exact (i_unseen _ _ _ _ _ I j r n R U).
Qed.
End Move.

Lemma refs_of_range r : 0 <= r -> refs_of r = r mod FLAG.
Proof. intros H. unfold refs_of, FLAG. change 0x7FFFFFFF with (Z.ones 31). rewrite Z.land_ones by lia. reflexivity. Qed.
(** ** Facts about one node *)
Section Facts.
Variables (T : nat) (ph : node -> place) (L P : list node) (s : sys) (I : inv T ph L P s).
Hypothesis BD : Z.of_nat T < 2 ^ 30 - 1.
Lemma holders_small n : 0 <= holders (threads s) n < FLAG - 2.
Proof. pose proof (holders_range n (threads s)) as H. rewrite (i_len _ _ _ _ _ I) in H. unfold FLAG. lia. Qed.
Lemma worker i p n : nth_error (threads s) i = Some p -> work p = Some n -> ph n = Call i /\ refs (memory s) n = own p + holders (threads s) n.
Proof.
  intros E W. assert (C : ph n = Call i) by (apply (i_call _ _ _ _ _ I); eauto). split; [exact C|]. rewrite (i_refs _ _ _ _ _ I n), C. cbn [base]. now rewrite E.
Qed.
Lemma holding i p n : nth_error (threads s) i = Some p -> hold n p <= holders (threads s) n.
Proof. intros E. unfold holders. apply (sum_ge (hold n) (threads s) i p); [intros; apply hold_range|exact E]. Qed.
Lemma base_cases n : base (threads s) (ph n) = 0 \/ base (threads s) (ph n) = 1 \/ base (threads s) (ph n) = FLAG.
Proof. destruct (ph n) as [| | |i]; cbn [base]; auto. destruct (nth_error _ i) as [p|]; auto. destruct p; cbn; auto. Qed.
Lemma refs_range n : 0 <= refs (memory s) n < 2 * FLAG - 2.
Proof. rewrite (i_refs _ _ _ _ _ I n). pose proof (holders_small n). destruct (base_cases n) as [-> |[-> | ->]]; unfold FLAG in *; lia. Qed.
(** nobody looks at a node whose count is zero *)
Lemma not_unseen n j r : refs_of (refs (memory s) n) <> 0 -> nth_error (threads s) j = Some r -> ~ unseen r n.
Proof.
  intros H E U. assert (W : work r = Some n) by (destruct r; cbn in U |- *; try contradiction; congruence).
  destruct (worker j r n E W) as [_ R]. rewrite (i_unseen _ _ _ _ _ I j r n E U) in R.
  assert (O : own r = FLAG) by (destruct r; cbn in U |- *; try contradiction; reflexivity). rewrite O in R. apply H. rewrite R. reflexivity.
Qed.
Lemma unseen_none i p n j r : nth_error (threads s) i = Some p -> 0 < hold n p -> nth_error (threads s) j = Some r -> ~ unseen r n.
Proof. intros E HP ER U. pose proof (i_unseen _ _ _ _ _ I j r n ER U). pose proof (holding i p n E). lia. Qed.
(** one worker at most *)
Lemma worker_unique i p j r n : nth_error (threads s) i = Some p -> work p = Some n -> nth_error (threads s) j = Some r -> work r = Some n -> j = i.
Proof. intros E W E' W'. destruct (worker i p n E W) as [A _]. destruct (worker j r n E' W') as [B _]. congruence. Qed.
Lemma unseen_work r n : unseen r n -> work r = Some n.
Proof. destruct r; cbn; intros U; try contradiction; congruence. Qed.
End Facts.
Lemma fupd_id {A} (f : node -> A) n k : fupd f n (f n) k = f k.
Proof. unfold fupd. destruct (Nat.eqb_spec k n) as [->|]; reflexivity. Qed.
