(** Proofs about the sub-queues: the memory of the elements. *)

From Coq Require Import ZArith List Lia Bool.
From Verif Require Import Base Bits TextLemmas SubQueueModel SubQueueProofs.
Import ListNotations.
Open Scope Z_scope.

Section Queue.
Context {T : Type}.
Variables (B : Z) (nothrow : bool).
Hypothesis HB : 0 < B.
Notation state := (@state T).
Notation pc := (@pc T).
Notation step := (@step T B nothrow).
Notation slot := (SubQueueModel.slot B).
Notation bnum := (SubQueueModel.bnum B).

(** What has become of an element, and who has a block. *)
Inductive stage : Type := Full | Empty | Gone.
Inductive owner : Type := Avail | Held (t : nat) | At (q : nat) (j : Z) | Closing (q : nat) (j : Z) (t : nat).
Record ghostB : Type := mkGB { st : nat -> Z -> stage; own : nat -> owner }.
Definition is_gone (x : stage) : bool := match x with Gone => true | _ => false end.

Definition zrange : list Z := map Z.of_nat (seq 0 (Z.to_nat B)).
Definition gcount (g : ghostB) (q : nat) (j : Z) : Z := zlen (filter (fun r => is_gone (st g q (j * B + r))) zrange).
Definition content (s : state) (g : ghostB) (q : nat) (i : Z) : option T :=
  if i <? tail (subs s q) then match st g q i with Full => znth (sent (subs s q)) i | _ => None end
  else if i =? tail (subs s q) then match pcs s q with E7 v => Some v | _ => None end
  else None.
Definition clean (s : state) (b : nat) : Prop := forall r, 0 <= r < B -> cell (blocks s b) r = None.
Definition writing (p : pc) : Prop := match p with E6 _ | E7 _ => True | _ => False end.
Definition right_value (s : state) (q : nat) (i : Z) (r : option T) : Prop := r = None \/ exists v, r = Some v /\ znth (sent (subs s q)) i = Some v.
Definition claims (p : pc) : option (nat * Z) :=
  match p with D7 q i | D8 q i _ | D9 q i _ _ | D10 q i _ _ | D11 q i _ _ | D12 q i _ _ => Some (q, i) | _ => None end.
Definition okB (s : state) (g : ghostB) (t : nat) (p : pc) : Prop :=
  match p with
  | E0 _ | E1 _ | E2 _ => slot (tail (subs s t)) = 0
  | E3 _ b => slot (tail (subs s t)) = 0 /\ own g b = Held t /\ clean s b
  | E4 _ b => slot (tail (subs s t)) = 0 /\ own g b = Held t /\ clean s b /\ emptied (blocks s b) = 0 /\ nothrow = false
  | E4x b => own g b = Held t /\ clean s b
  | E5 v b => slot (tail (subs s t)) = 0 /\ own g b = Held t /\ emptied (blocks s b) = 0 /\
              forall r, 0 <= r < B -> cell (blocks s b) r = if (r =? 0) && negb nothrow then Some v else None
  | E6 _ => nothrow = true \/ slot (tail (subs s t)) <> 0
  | D7 q i => 0 <= i < head (subs s q) /\ st g q i = Full
  | D8 q i b => 0 <= i < head (subs s q) /\ st g q i = Full /\ own g b = At q (bnum i)
  | D9 q i b r => 0 <= i < head (subs s q) /\ st g q i = Full /\ own g b = At q (bnum i) /\ right_value s q i r
  | D10 q i b r => 0 <= i < head (subs s q) /\ st g q i = Empty /\ own g b = At q (bnum i) /\ right_value s q i r
  | D11 q i b r => 0 <= i < head (subs s q) /\ own g b = Closing q (bnum i) t /\ right_value s q i r
  | D12 q i b r => 0 <= i < head (subs s q) /\ own g b = Held t /\ clean s b /\ right_value s q i r
  | Bad _ => False
  | _ => True
  end.
Definition in_range (s : state) (q : nat) (j : Z) : Prop := j * B < tail (subs s q) \/ (j * B = tail (subs s q) /\ writing (pcs s q)).
Definition blockB (s : state) (g : ghostB) (b : nat) : Prop :=
  match own g b with
  | Avail => avail s b = true /\ clean s b
  | Held t => avail s b = false
  | At q j => avail s b = false /\ entry (subs s q) j = Some b /\ 0 <= j /\ (forall r, 0 <= r < B -> cell (blocks s b) r = content s g q (j * B + r)) /\
              emptied (blocks s b) = gcount g q j /\ in_range s q j
  | Closing q j t => avail s b = false /\ entry (subs s q) j = Some b /\ 0 <= j /\ clean s b /\ (forall r, 0 <= r < B -> st g q (j * B + r) = Gone) /\ j * B < tail (subs s q)
  end.
Record invB (s : state) (g : ghostB) : Prop := mkInvB {
  b_block : forall b, blockB s g b;
  b_ok : forall t, okB s g t (pcs s t);
  b_uniq : forall t u d, claims (pcs s t) = Some d -> claims (pcs s u) = Some d -> t = u;
  b_live : forall q i, 0 <= i < tail (subs s q) -> st g q i <> Gone -> exists b, own g b = At q (bnum i);
  b_fresh : forall q i, head (subs s q) <= i -> st g q i = Full;
  b_tail : forall q, slot (tail (subs s q)) <> 0 \/ writing (pcs s q) -> exists b, tailBlock (subs s q) = Some b /\ own g b = At q (bnum (tail (subs s q))) }.

(** ** Arithmetic of blocks *)
Lemma split_index i : bnum i * B + slot i = i.
Proof. unfold SubQueueModel.bnum, SubQueueModel.slot. pose proof (Z.div_mod i B ltac:(lia)). lia. Qed.
Lemma slot_range i : 0 <= slot i < B.
Proof. apply Z.mod_pos_bound. exact HB. Qed.
Lemma bnum_of j r : 0 <= r < B -> bnum (j * B + r) = j.
Proof. intros R. unfold SubQueueModel.bnum. rewrite Z.add_comm, Z.div_add, Z.div_small by lia. lia. Qed.
Lemma slot_of j r : 0 <= r < B -> slot (j * B + r) = r.
Proof. intros R. unfold SubQueueModel.slot. rewrite Z.add_comm, Z.mod_add, Z.mod_small by lia. reflexivity. Qed.
Lemma bnum_0 i : slot i = 0 -> bnum i * B = i.
Proof. intros H. pose proof (split_index i). lia. Qed.
Lemma bnum_nonneg i : 0 <= i -> 0 <= bnum i.
Proof. intros H. unfold SubQueueModel.bnum. apply Z.div_pos; lia. Qed.
Lemma in_zrange r : In r zrange <-> 0 <= r < B.
Proof. unfold zrange. rewrite in_map_iff. split; [intros (n & <- & N); apply in_seq in N; lia|]. intros H. exists (Z.to_nat r). split; [lia|apply in_seq; lia]. Qed.
Lemma zrange_nodup : NoDup zrange.
Proof. unfold zrange. apply FinFun.Injective_map_NoDup; [intros a b; lia|apply seq_NoDup]. Qed.
Lemma zrange_len : zlen zrange = B.
Proof. unfold zrange, zlen. rewrite map_length, seq_length. lia. Qed.
Lemma filter_len_le {A} (f : A -> bool) l : zlen (filter f l) <= zlen l.
Proof. induction l as [|x l IH]; [reflexivity|]. cbn [filter]. destruct (f x); rewrite !zlen_cons in *; lia. Qed.
Lemma filter_all {A} (f : A -> bool) l : zlen (filter f l) = zlen l -> forall x, In x l -> f x = true.
Proof.
  induction l as [|y l IH]; [intros _ x []|]. cbn [filter]. pose proof (filter_len_le f l). destruct (f y) eqn:F; rewrite !zlen_cons; intros H' x [<-|X]; auto; try lia. apply IH; [lia|exact X].
Qed.
Lemma filter_ext_len {A} (f h : A -> bool) l : (forall x, In x l -> f x = h x) -> zlen (filter f l) = zlen (filter h l).
Proof. intros E. rewrite (filter_ext_in f h l E). reflexivity. Qed.
Lemma filter_one (f h : Z -> bool) l r : NoDup l -> In r l -> f r = false -> h r = true -> (forall x, In x l -> x <> r -> h x = f x) -> zlen (filter h l) = zlen (filter f l) + 1.
Proof.
  induction l as [|y l IH]; intros N I F H E; [destruct I|]. inversion N as [|? ? N1 N2]; subst. cbn [filter]. destruct (Z.eq_dec y r) as [->|D].
  - rewrite F, H, zlen_cons. rewrite (filter_ext_len h f l); [lia|]. intros x X. apply E; [right; exact X|]. intros ->. contradiction.
  - destruct I as [->|I]; [contradiction|]. rewrite (E y (or_introl eq_refl) D). specialize (IH N2 I F H (fun x X => E x (or_intror X))). destruct (f y); rewrite ?zlen_cons; lia.
Qed.
Lemma gcount_ext g g' q j : (forall r, 0 <= r < B -> is_gone (st g' q (j * B + r)) = is_gone (st g q (j * B + r))) -> gcount g' q j = gcount g q j.
Proof. intros E. apply filter_ext_len. intros x X. apply E. apply in_zrange. exact X. Qed.
Lemma gcount_lt g q i : st g q i <> Gone -> gcount g q (bnum i) < B.
Proof.
  intros N. pose proof (filter_len_le (fun r => is_gone (st g q (bnum i * B + r))) zrange) as L. rewrite zrange_len in L. fold (gcount g q (bnum i)) in L. destruct (Z.eq_dec (gcount g q (bnum i)) B) as [E|]; [|lia]. exfalso. apply N.
  pose proof (filter_all (fun r => is_gone (st g q (bnum i * B + r))) zrange) as A. cbv beta in A. fold (gcount g q (bnum i)) in A. rewrite zrange_len in A. specialize (A E (slot i) (proj2 (in_zrange _) (slot_range i))). rewrite split_index in A. destruct (st g q i); [discriminate..|reflexivity].
Qed.
Lemma gcount_full g q j : gcount g q j = B -> forall r, 0 <= r < B -> st g q (j * B + r) = Gone.
Proof.
  intros E r R. pose proof (filter_all (fun r => is_gone (st g q (j * B + r))) zrange) as A. cbv beta in A. fold (gcount g q j) in A. rewrite zrange_len in A. specialize (A E r (proj2 (in_zrange _) R)). destruct (st g q (j * B + r)); [discriminate..|reflexivity].
Qed.

(** ** Frames *)
Lemma block_frame s g s' g' b : own g' b = own g b -> avail s' b = avail s b -> blocks s' b = blocks s b ->
  (forall q j, own g b = At q j \/ (exists t, own g b = Closing q j t) -> entry (subs s' q) j = entry (subs s q) j) ->
  (forall q j, own g b = At q j -> (forall r, 0 <= r < B -> content s' g' q (j * B + r) = content s g q (j * B + r)) /\ gcount g' q j = gcount g q j /\ (in_range s q j -> in_range s' q j)) ->
  (forall q j t, own g b = Closing q j t -> (forall r, 0 <= r < B -> st g' q (j * B + r) = st g q (j * B + r)) /\ tail (subs s q) <= tail (subs s' q)) ->
  blockB s g b -> blockB s' g' b.
Proof.
  intros O A K E F C H. unfold blockB, clean in *. rewrite O, A, K. destruct (own g b) as [|u|q j|q j u] eqn:W; [exact H|exact H|..].
  - destruct (F q j eq_refl) as (F1 & F2 & F3). rewrite (E q j (or_introl eq_refl)). destruct H as (H1 & H2 & H3 & H4 & H5 & H6). repeat split; try assumption; [|congruence|apply F3; exact H6]. intros r R. rewrite F1 by exact R. apply H4. exact R.
  - destruct (C q j u eq_refl) as (C1 & C2). rewrite (E q j (or_intror (ex_intro _ u eq_refl))). destruct H as (H1 & H2 & H3 & H4 & H5 & H6). repeat split; try assumption; [|lia]. intros r R. rewrite C1 by exact R. apply H5. exact R.
Qed.
Lemma ok_frame s g s' g' u p : tail (subs s' u) = tail (subs s u) ->
  (forall b, own g b = Held u -> own g' b = Held u /\ blocks s' b = blocks s b) ->
  (forall q, head (subs s q) <= head (subs s' q)) ->
  (forall q i, claims p = Some (q, i) -> st g' q i = st g q i) ->
  (forall q i v, znth (sent (subs s q)) i = Some v -> znth (sent (subs s' q)) i = Some v) ->
  (forall b q i, claims p = Some (q, i) -> st g q i <> Gone -> own g b = At q (bnum i) -> own g' b = At q (bnum i)) ->
  (forall b q j, own g b = Closing q j u -> own g' b = Closing q j u) ->
  okB s g u p -> okB s' g' u p.
Proof.
  intros TL HE HD S0 SE AT CL H.
  assert (RV : forall q i r, right_value s q i r -> right_value s' q i r) by (intros q i r [->|(v & -> & V)]; [left; reflexivity|right; exists v; split; [reflexivity|apply SE; exact V]]).
  destruct p; cbn [okB claims] in *; rewrite ?TL; try exact H.
  - destruct H as (H1 & H2 & H3). destruct (HE b H2) as (E1 & E2). repeat split; auto. unfold clean in *. rewrite E2. exact H3.
  - destruct H as (H1 & H2 & H3 & H4 & H5). destruct (HE b H2) as (E1 & E2). unfold clean in *. rewrite E2. repeat split; auto.
  - destruct H as (H2 & H3). destruct (HE b H2) as (E1 & E2). unfold clean in *. rewrite E2. repeat split; auto.
  - destruct H as (H1 & H2 & H3 & H4). destruct (HE b H2) as (E1 & E2). rewrite E2. repeat split; auto.
  - specialize (HD q). rewrite (S0 q i eq_refl). split; [lia|tauto].
  - specialize (HD q). rewrite (S0 q i eq_refl). destruct H as (H1 & H2 & H3). split; [lia|]. split; [exact H2|]. apply (AT b q i eq_refl); [congruence|exact H3].
  - specialize (HD q). rewrite (S0 q i eq_refl). destruct H as (H1 & H2 & H3 & H4). split; [lia|]. split; [exact H2|]. split; [apply (AT b q i eq_refl); [congruence|exact H3]|auto].
  - specialize (HD q). rewrite (S0 q i eq_refl). destruct H as (H1 & H2 & H3 & H4). split; [lia|]. split; [exact H2|]. split; [apply (AT b q i eq_refl); [congruence|exact H3]|auto].
  - specialize (HD q). destruct H as (H1 & H2 & H3). split; [lia|]. split; auto.
  - specialize (HD q). destruct H as (H1 & H2 & H3 & H4). destruct (HE b H2) as (E1 & E2). unfold clean in *. rewrite E2. split; [lia|]. auto.
Qed.

(** steps that change only where the thread is, and counters *)
Definition e7 (p : pc) : option T := match p with E7 v => Some v | _ => None end.
Definition same_memory (x y : @sub T) : Prop := tail x = tail y /\ head x = head y /\ entry x = entry y /\ tailBlock x = tailBlock y /\ sent x = sent y.
Lemma content_e7 s g q i : content s g q i = if i <? tail (subs s q) then match st g q i with Full => znth (sent (subs s q)) i | _ => None end else if i =? tail (subs s q) then e7 (pcs s q) else None.
Proof. unfold content, e7. destruct (pcs s q); reflexivity. Qed.
Lemma range_slot q j (s : state) : slot (tail (subs s q)) <> 0 -> j * B <> tail (subs s q).
Proof. intros N E. apply N. rewrite <- E. replace (j * B) with (j * B + 0) by lia. apply slot_of. lia. Qed.
Lemma frameB s g s' t p : invB s g -> (forall q, same_memory (subs s' q) (subs s q)) -> blocks s' = blocks s -> avail s' = avail s -> (forall u, u <> t -> pcs s' u = pcs s u) -> pcs s' t = p ->
  e7 p = e7 (pcs s t) -> (writing p <-> writing (pcs s t)) \/ slot (tail (subs s t)) <> 0 -> claims p = claims (pcs s t) -> okB s' g t p -> invB s' g.
Proof.
  intros H M K A O P W W2 C V.
  assert (CE : forall u, claims (pcs s' u) = claims (pcs s u)) by (intros u; destruct (Nat.eq_dec u t) as [->|N]; [rewrite P; exact C|rewrite O by exact N; reflexivity]).
  assert (WE : forall u, e7 (pcs s' u) = e7 (pcs s u)) by (intros u; destruct (Nat.eq_dec u t) as [->|N]; [rewrite P; exact W|rewrite O by exact N; reflexivity]).
  assert (WR : forall u, (writing (pcs s' u) <-> writing (pcs s u)) \/ slot (tail (subs s u)) <> 0) by (intros u; destruct (Nat.eq_dec u t) as [->|N]; [rewrite P; exact W2|rewrite O by exact N; left; tauto]).
  assert (CO : forall q i, content s' g q i = content s g q i) by (intros q i; rewrite !content_e7; destruct (M q) as (M1 & M2 & M3 & M4 & M5); rewrite M1, M5, WE; reflexivity).
  constructor.
  - intros b. apply (block_frame s g s' g b); [reflexivity|rewrite A; reflexivity|rewrite K; reflexivity|..|apply (b_block _ _ H)].
    + intros q j _. destruct (M q) as (M1 & M2 & M3 & M4 & M5). rewrite M3. reflexivity.
    + intros q j _. split; [intros; apply CO|]. split; [reflexivity|]. unfold in_range. destruct (M q) as (M1 & _). rewrite M1. destruct (WR q) as [->|N]; [tauto|]. pose proof (range_slot q j s N). tauto.
    + intros q j u _. split; [reflexivity|]. destruct (M q) as (M1 & _). lia.
  - intros u. destruct (Nat.eq_dec u t) as [->|N]; [rewrite P; exact V|]. rewrite O by exact N. apply (ok_frame s g); try (intros; assumption); [apply M|intros b; rewrite K; auto|intros q; destruct (M q) as (_ & M2 & _); lia|reflexivity|intros q i v; destruct (M q) as (_ & _ & _ & _ & M5); rewrite M5; auto|apply (b_ok _ _ H)].
  - intros u w d. rewrite !CE. apply (b_uniq _ _ H).
  - intros q i. destruct (M q) as (M1 & _). rewrite M1. apply (b_live _ _ H).
  - intros q i. destruct (M q) as (_ & M2 & _). rewrite M2. apply (b_fresh _ _ H).
  - intros q. destruct (M q) as (M1 & _ & _ & M4 & _). rewrite M1, M4. intros X. apply (b_tail _ _ H). destruct (WR q) as [Y|N]; [rewrite <- Y; exact X|left; exact N].
Qed.
(** steps on a block that the thread holds, takes from the pool or gives back *)
Definition mine (t : nat) (w : owner) : Prop := w = Avail \/ w = Held t.
Lemma heldB s g s' t p b w : invB s g -> subs s' = subs s -> (forall b', b' <> b -> blocks s' b' = blocks s b' /\ avail s' b' = avail s b') -> (forall u, u <> t -> pcs s' u = pcs s u) -> pcs s' t = p ->
  mine t (own g b) -> mine t w -> e7 p = e7 (pcs s t) -> (writing p <-> writing (pcs s t)) -> claims p = claims (pcs s t) \/ claims p = None ->
  blockB s' (mkGB (st g) (fupd (own g) b w)) b -> okB s' (mkGB (st g) (fupd (own g) b w)) t p -> invB s' (mkGB (st g) (fupd (own g) b w)).
Proof.
  intros H M K O P MI MW W W2 C HBK V. set (g' := mkGB (st g) (fupd (own g) b w)) in *.
  assert (OT : forall b', b' <> b -> own g' b' = own g b') by (intros b' N; apply fupd_other; exact N).
  assert (CE : forall u d, claims (pcs s' u) = Some d -> claims (pcs s u) = Some d) by (intros u d; destruct (Nat.eq_dec u t) as [->|N]; [rewrite P; destruct C as [->| ->]; [auto|discriminate]|rewrite O by exact N; auto]).
  assert (WE : forall u, e7 (pcs s' u) = e7 (pcs s u)) by (intros u; destruct (Nat.eq_dec u t) as [->|N]; [rewrite P; exact W|rewrite O by exact N; reflexivity]).
  assert (WR : forall u, (writing (pcs s' u) <-> writing (pcs s u))) by (intros u; destruct (Nat.eq_dec u t) as [->|N]; [rewrite P; exact W2|rewrite O by exact N; tauto]).
  assert (CO : forall q i, content s' g' q i = content s g q i) by (intros q i; rewrite !content_e7, M, WE; reflexivity).
  assert (NA : forall q j, own g b <> At q j) by (intros q j X; destruct MI as [Y|Y]; congruence).
  assert (NC : forall q j u, own g b <> Closing q j u) by (intros q j u X; destruct MI as [Y|Y]; congruence).
  assert (AB : forall b' q j, own g b' = At q j -> own g' b' = At q j) by (intros b' q j X; rewrite OT; [exact X|]; intros ->; apply (NA q j X)).
  constructor.
  - intros b'. destruct (Nat.eq_dec b' b) as [->|N]; [exact HBK|]. destruct (K b' N) as (K1 & K2). apply (block_frame s g s' g' b'); [apply OT; exact N|exact K2|exact K1|..|apply (b_block _ _ H)].
    + intros q j _. rewrite M. reflexivity.
    + intros q j _. split; [intros; apply CO|]. split; [reflexivity|]. unfold in_range. rewrite M, WR. tauto.
    + intros q j u _. split; [reflexivity|]. rewrite M. lia.
  - intros u. destruct (Nat.eq_dec u t) as [->|N]; [rewrite P; exact V|]. rewrite O by exact N. apply (ok_frame s g); try (intros; assumption); [rewrite M; reflexivity|..|apply (b_ok _ _ H)].
    + intros b' X. assert (b' <> b) as NB by (intros ->; destruct MI as [Y|Y]; congruence). rewrite OT by exact NB. split; [exact X|apply K; exact NB].
    + intros q. rewrite M. lia.
    + reflexivity.
    + intros q i v. rewrite M. auto.
    + intros b' q i _ _ X. apply AB. exact X.
    + intros b' q j X. rewrite OT; [exact X|]. intros ->. apply (NC q j u X).
  - intros u v d X Y. apply (b_uniq _ _ H u v d); apply CE; assumption.
  - intros q i. rewrite M. intros X Y. destruct (b_live _ _ H q i X Y) as (b' & B'). exists b'. apply AB. exact B'.
  - intros q i. rewrite M. apply (b_fresh _ _ H).
  - intros q. rewrite M, WR. intros X. destruct (b_tail _ _ H q X) as (b' & B1 & B2). exists b'. split; [exact B1|apply AB; exact B2].
Qed.
Lemma at_inj s g b b' q j : invB s g -> own g b = At q j -> own g b' = At q j -> b = b'.
Proof. intros H X Y. pose proof (b_block _ _ H b) as P. pose proof (b_block _ _ H b') as Q. unfold blockB in *. rewrite X in P. rewrite Y in Q. destruct P as (_ & P & _), Q as (_ & Q & _). congruence. Qed.
Lemma memory_refl x : same_memory x x.
Proof. repeat split. Qed.

Lemma invB_init : exists g, invB init g.
Proof.
  exists (mkGB (fun _ _ => Full) (fun _ => Avail)). constructor; cbn.
  - intros b. unfold blockB, clean. cbn. auto.
  - intros t. exact Logic.I.
  - discriminate.
  - intros q i H. lia.
  - reflexivity.
  - intros q [H|[]]. destruct H. unfold SubQueueModel.slot. reflexivity.
Qed.

Ltac split_step E := repeat match type of E with
  | context [match ?x with _ => _ end] => destruct x eqn:?
  end; try discriminate E; injection E as <-.
Ltac other_sub q' q := unfold fupd; destruct (Nat.eqb_spec q' q); [subst q'|]; repeat split.
Lemma content_same s s' g g' q i : tail (subs s' q) = tail (subs s q) -> e7 (pcs s' q) = e7 (pcs s q) -> sent (subs s' q) = sent (subs s q) -> st g' q i = st g q i -> content s' g' q i = content s g q i.
Proof. intros A D C E. rewrite !content_e7, A, D, C, E. reflexivity. Qed.
Lemma gcount_zero g q j : (forall r, 0 <= r < B -> st g q (j * B + r) = Full) -> gcount g q j = 0.
Proof. intros H. unfold gcount. rewrite (filter_ext_len _ (fun _ => false)); [induction zrange; [reflexivity|assumption]|]. intros x X. rewrite H by (apply in_zrange; exact X). reflexivity. Qed.
Lemma next_block i : slot (i + 1) <> 0 -> bnum (i + 1) = bnum i.
Proof.
  intros N. pose proof (split_index i) as E. pose proof (slot_range i) as R. assert (slot i + 1 <> B) as D.
  { intros X. apply N. replace (i + 1) with ((bnum i + 1) * B + 0) by lia. apply slot_of. lia. }
  replace (i + 1) with (bnum i * B + (slot i + 1)) by lia. rewrite bnum_of by lia. reflexivity.
Qed.
Lemma index_inj j r i : 0 <= r < B -> j * B + r = i -> j = bnum i /\ r = slot i.
Proof. intros R <-. rewrite bnum_of, slot_of by exact R. auto. Qed.
Definition set_st (g : ghostB) (q : nat) (i : Z) (x : stage) : nat -> Z -> stage := fupd (st g) q (zfupd (st g q) i x).
Lemma set_st_same g q i x : set_st g q i x q i = x.
Proof. unfold set_st. rewrite fupd_same, zfupd_same. reflexivity. Qed.
Lemma set_st_other g q i x q' i' : (q', i') <> (q, i) -> set_st g q i x q' i' = st g q' i'.
Proof. intros N. unfold set_st, fupd. destruct (Nat.eqb_spec q' q) as [->|]; [|reflexivity]. apply zfupd_other. congruence. Qed.

Lemma znth_app1 {A} (l l' : list A) i : i < zlen l -> znth (l ++ l') i = znth l i.
Proof. intros L. unfold znth. destruct (i <? 0) eqn:E; [reflexivity|]. apply nth_error_app1. apply Z.ltb_ge in E. unfold zlen in L. lia. Qed.
Lemma znth_app_last {A} (l : list A) x : znth (l ++ [x]) (zlen l) = Some x.
Proof. rewrite znth_nth by apply zlen_nonneg. unfold zlen. rewrite Nat2Z.id, nth_error_app2, Nat.sub_diag by lia. reflexivity. Qed.
(** an element is gone; its block stays or is about to be given back *)
Lemma goneB s g gA t q i b r0 p w s' : invA s gA -> invB s g -> pcs s t = D10 q i b r0 -> subs s' = subs s -> avail s' = avail s -> (forall b', b' <> b -> blocks s' b' = blocks s b') ->
  (forall u, u <> t -> pcs s' u = pcs s u) -> pcs s' t = p -> e7 p = None -> ~ writing p -> claims p = None \/ claims p = Some (q, i) ->
  w = At q (bnum i) \/ (forall i', bnum i' = bnum i -> set_st g q i Gone q i' = Gone) ->
  blockB s' (mkGB (set_st g q i Gone) (fupd (own g) b w)) b -> okB s' (mkGB (set_st g q i Gone) (fupd (own g) b w)) t p -> invB s' (mkGB (set_st g q i Gone) (fupd (own g) b w)).
Proof.
  intros HA H P M AV K O Q W W2 C KEEP HBK V. set (g' := mkGB (set_st g q i Gone) (fupd (own g) b w)) in *. pose proof (b_ok _ _ H t) as OK. rewrite P in OK. cbn in OK. destruct OK as (K1 & K2 & K3 & K4). pose proof (head_tail s gA q HA) as HT.
  assert (WE : forall u, e7 (pcs s' u) = e7 (pcs s u)) by (intros u; destruct (Nat.eq_dec u t) as [->|N]; [rewrite Q, P; exact W|rewrite O by exact N; reflexivity]).
  assert (WR : forall u, writing (pcs s' u) <-> writing (pcs s u)) by (intros u; destruct (Nat.eq_dec u t) as [->|N]; [rewrite Q, P; cbn; tauto|rewrite O by exact N; tauto]).
  assert (CE : forall u d, claims (pcs s' u) = Some d -> claims (pcs s u) = Some d) by (intros u d; destruct (Nat.eq_dec u t) as [->|N]; [rewrite Q, P; destruct C as [->| ->]; [discriminate|auto]|rewrite O by exact N; auto]).
  assert (CO : forall q' i', (q', i') <> (q, i) -> content s' g' q' i' = content s g q' i') by (intros q' i' N; apply content_same; rewrite ?M; auto; apply set_st_other; exact N).
  assert (AB : forall b' q' i', own g b' = At q' (bnum i') -> st g' q' i' <> Gone -> own g' b' = At q' (bnum i')).
  { intros b' q' i' X Y. cbn. destruct (Nat.eq_dec b' b) as [->|N]; [rewrite fupd_same|rewrite fupd_other by exact N; exact X]. rewrite K3 in X. injection X as <- X. destruct KEEP as [->|KP]; [congruence|]. exfalso. apply Y. apply KP. auto. }
  assert (ST : forall q' i', st g' q' i' <> Gone -> st g q' i' <> Gone).
  { intros q' i' X Y. apply X. cbn. destruct (Nat.eq_dec q' q) as [->|D]; [destruct (Z.eq_dec i' i) as [->|D]; [apply set_st_same|]|]; rewrite set_st_other by congruence; exact Y. }
  assert (FR : forall q' i', head (subs s q') <= i' -> st g' q' i' = Full).
  { intros q' i' X. cbn. rewrite set_st_other; [apply (b_fresh _ _ H); exact X|]. intros Y. injection Y as -> ->. lia. }
  constructor.
  - intros b'. destruct (Nat.eq_dec b' b) as [->|N]; [exact HBK|]. apply (block_frame s g _ _ b'); [cbn; apply fupd_other; exact N|rewrite AV; reflexivity|apply K; exact N|..|apply (b_block _ _ H)].
    + intros q' j _. rewrite M. reflexivity.
    + intros q' j X. assert (NE : (q', j) <> (q, bnum i)) by (intros Y; injection Y as -> ->; apply N; apply (at_inj s g b' b _ _ H X K3)).
      assert (NI : forall r, 0 <= r < B -> (q', j * B + r) <> (q, i)) by (intros r R Y; injection Y as -> Y; destruct (index_inj _ _ _ R Y) as (-> & _); congruence).
      split; [intros r R; apply CO, NI, R|]. split; [apply gcount_ext; intros r R; cbn; rewrite set_st_other by (apply NI; exact R); reflexivity|]. unfold in_range. rewrite M, WR. auto.
    + intros q' j u X. split; [|rewrite M; lia]. intros r R. cbn. apply set_st_other. intros Y. injection Y as -> Y. pose proof (b_block _ _ H b') as V'. unfold blockB in V'. rewrite X in V'. destruct V' as (_ & _ & _ & _ & V' & _). specialize (V' r R). rewrite Y in V'. congruence.
  - intros u. destruct (Nat.eq_dec u t) as [->|N]; [rewrite Q; exact V|]. rewrite O by exact N.
    assert (NC : forall q' i', claims (pcs s u) = Some (q', i') -> (q', i') <> (q, i)) by (intros q' i' X Y; apply N; apply (b_uniq _ _ H u t (q', i') X); rewrite P, Y; reflexivity).
    apply (ok_frame s g); rewrite ?M; auto; [..|apply (b_ok _ _ H)].
    + intros b' X. assert (b' <> b) by congruence. cbn. rewrite fupd_other by assumption. auto.
    + lia.
    + intros q' i' X. cbn. apply set_st_other. apply NC. exact X.
    + intros b' q' i' X Y Z0. apply AB; [exact Z0|]. cbn. rewrite set_st_other by (apply NC; exact X). exact Y.
    + intros b' q' j X. cbn. rewrite fupd_other; [exact X|]. congruence.
  - intros u v d X Y. apply (b_uniq _ _ H u v d); apply CE; assumption.
  - intros q' i'. rewrite M. intros X Y. destruct (b_live _ _ H q' i' X (ST _ _ Y)) as (b' & B'). exists b'. apply AB; assumption.
  - intros q' i'. rewrite M. apply FR.
  - intros q'. rewrite M, WR. intros X. destruct (b_tail _ _ H q' X) as (b' & B1 & B2). exists b'. split; [exact B1|]. apply AB; [exact B2|]. rewrite FR; [discriminate|]. apply (head_tail s gA q' HA).
Qed.

Lemma stepB s g gA t c s' : invA s gA -> invB s g -> step s t c = Some s' -> exists g', invB s' g'.
Proof.
  intros HA H E. unfold SubQueueModel.step, free_block in E. pose proof (b_ok _ _ H t) as K.
  destruct (pcs s t) eqn:P; destruct c; try discriminate E; cbn [okB] in K.
  all: try solve [split_step E; exists g; (eapply (frameB s g _ t); [exact H|intros q'; cbn; first [apply memory_refl|other_sub q' t; fail|other_sub q' q; fail]|reflexivity|reflexivity|intros u U; cbn; apply fupd_other; exact U|cbn; apply fupd_same|rewrite P; reflexivity|rewrite P; cbn; tauto|rewrite P; reflexivity|cbn; first [exact Logic.I|exact K|tauto]])].
  - (* Idle: enqueue *)
    injection E as <-. exists g. eapply (frameB s g _ t); [exact H|intros q'; apply memory_refl|reflexivity|reflexivity|intros u U; cbn; apply fupd_other; exact U|cbn; apply fupd_same|..]; destruct (Z.eqb_spec (slot (tail (subs s t))) 0); rewrite ?P; cbn; tauto.
  - (* E0: the assertion holds *)
    destruct (older z (head (subs s t))) eqn:O; [|discriminate]. injection E as <-. unfold older in O. pose proof (head_tail s gA t HA) as HT. destruct (Z.ltb_spec (tail (subs s t)) z); [lia|]. destruct (Z.ltb_spec z (tail (subs s t) + B)); [|lia]. cbn [negb].
    exists g. eapply (frameB s g _ t); [exact H|intros q'; apply memory_refl|reflexivity|reflexivity|intros u U; cbn; apply fupd_other; exact U|cbn; apply fupd_same|..]; rewrite ?P; cbn; tauto.
  - (* E2: a block from the pool *)
    destruct (avail s b) eqn:A; [|discriminate]. injection E as <-. pose proof (b_block _ _ H b) as Bb. unfold blockB in Bb.
    assert (OW : own g b = Avail) by (destruct (own g b); [reflexivity|exfalso..]; [congruence|destruct Bb as (? & _)..]; congruence). rewrite OW in Bb.
    exists (mkGB (st g) (fupd (own g) b (Held t))). eapply (heldB s g _ t); [exact H|reflexivity|..].
    + intros b' N. cbn. rewrite fupd_other by exact N. auto.
    + intros u U. cbn. apply fupd_other. exact U.
    + cbn. apply fupd_same.
    + left. exact OW.
    + right. reflexivity.
    + rewrite P. reflexivity.
    + rewrite P. reflexivity.
    + right. reflexivity.
    + unfold blockB. cbn. rewrite !fupd_same. reflexivity.
    + cbn. rewrite fupd_same. repeat split; [exact K|]. intros r R. apply Bb. exact R.
  - (* E3 *)
    injection E as <-. destruct K as (K1 & K2 & K3). exists (mkGB (st g) (fupd (own g) b (Held t))). pose proof (b_block _ _ H b) as Bb. unfold blockB in Bb. rewrite K2 in Bb. eapply (heldB s g _ t); [exact H|reflexivity|..].
    + intros b' N. cbn. rewrite fupd_other by exact N. auto.
    + intros u U. cbn. apply fupd_other. exact U.
    + cbn. apply fupd_same.
    + right. exact K2.
    + right. reflexivity.
    + rewrite P. destruct nothrow; reflexivity.
    + rewrite P. destruct nothrow; reflexivity.
    + right. destruct nothrow; reflexivity.
    + unfold blockB. cbn. rewrite !fupd_same. exact Bb.
    + destruct nothrow eqn:NT; cbn; rewrite !fupd_same; cbn; repeat split; auto.
      * intros r R. rewrite K3, NT by exact R. destruct (r =? 0); reflexivity.
      * intros r R. cbn. rewrite fupd_same. cbn. apply K3. exact R.
  - (* E4 *)
    destruct K as (K1 & K2 & K3 & K4 & K5). rewrite K1 in E. rewrite (K3 0) in E by lia. injection E as <-. pose proof (b_block _ _ H b) as Bb. unfold blockB in Bb. rewrite K2 in Bb.
    exists (mkGB (st g) (fupd (own g) b (Held t))). eapply (heldB s g _ t); [exact H|reflexivity|..].
    + intros b' N. cbn. rewrite fupd_other by exact N. auto.
    + intros u U. cbn. apply fupd_other. exact U.
    + cbn. apply fupd_same.
    + right. exact K2.
    + right. reflexivity.
    + rewrite P. reflexivity.
    + rewrite P. reflexivity.
    + right. reflexivity.
    + unfold blockB. cbn. rewrite !fupd_same. exact Bb.
    + cbn. rewrite !fupd_same. cbn. repeat split; auto. intros r R. rewrite K5. unfold zfupd. destruct (r =? 0); cbn; [reflexivity|]. apply K3. exact R.
  - (* E4x *)
    destruct K as (K2 & K3). pose proof (b_block _ _ H b) as Bb. unfold blockB in Bb. rewrite K2 in Bb. rewrite Bb in E. injection E as <-.
    exists (mkGB (st g) (fupd (own g) b Avail)). eapply (heldB s g _ t); [exact H|reflexivity|..].
    + intros b' N. cbn. rewrite fupd_other by exact N. auto.
    + intros u U. cbn. apply fupd_other. exact U.
    + cbn. apply fupd_same.
    + right. exact K2.
    + left. reflexivity.
    + rewrite P. reflexivity.
    + rewrite P. reflexivity.
    + right. reflexivity.
    + unfold blockB. cbn. rewrite !fupd_same. split; [reflexivity|exact K3].
    + exact Logic.I.
  - (* E5 *)
    injection E as <-. destruct K as (K1 & K2 & K3 & K4). pose proof (head_tail s gA t HA) as HT. pose proof (bnum_0 _ K1) as TB. pose proof (b_block _ _ H b) as Bb. unfold blockB in Bb. rewrite K2 in Bb.
    set (p := if nothrow then E6 v else E7 v). assert (WP : writing p) by (unfold p; destruct nothrow; exact Logic.I).
    assert (T0 : 0 <= tail (subs s t)) by (rewrite (a_tail _ _ _ _ (i_sub _ _ HA t)); apply zlen_nonneg).
    exists (mkGB (st g) (fupd (own g) b (At t (bnum (tail (subs s t)))))).
    assert (NJ : forall b' j, own g b' = At t j \/ (exists u, own g b' = Closing t j u) -> j <> bnum (tail (subs s t))).
    { intros b' j [X|(u & X)] ->; pose proof (b_block _ _ H b') as Y; unfold blockB in Y; rewrite X in Y.
      - destruct Y as (_ & _ & _ & _ & _ & [Y|(_ & Y)]); [lia|]. rewrite P in Y. exact Y.
      - destruct Y as (_ & _ & _ & _ & _ & Y). lia. }
    constructor.
    + intros b'. destruct (Nat.eq_dec b' b) as [->|N].
      * unfold blockB. cbn. rewrite !fupd_same. cbn. rewrite zfupd_same. split; [exact Bb|]. split; [reflexivity|]. split; [apply bnum_nonneg; exact T0|]. split; [|split].
        -- intros r R. rewrite K4 by exact R. rewrite content_e7. cbn. rewrite !fupd_same. cbn. rewrite TB. destruct (Z.ltb_spec (tail (subs s t) + r) (tail (subs s t))); [lia|].
           destruct (Z.eqb_spec r 0) as [->|R0]; [rewrite Z.add_0_r, Z.eqb_refl; unfold p; destruct nothrow; reflexivity|]. destruct (Z.eqb_spec (tail (subs s t) + r) (tail (subs s t))); [lia|reflexivity].
        -- rewrite K3. symmetry. apply gcount_zero. intros r R. cbn. apply (b_fresh _ _ H). lia.
        -- right. cbn. rewrite !fupd_same. cbn. split; [exact TB|exact WP].
      * apply (block_frame s g _ _ b'); [cbn; apply fupd_other; exact N|reflexivity|reflexivity|..|apply (b_block _ _ H)].
        -- intros q j X. cbn. destruct (Nat.eq_dec q t) as [->|Q]; [|rewrite fupd_other by exact Q; reflexivity]. rewrite fupd_same. cbn. apply zfupd_other. apply (NJ b'). exact X.
        -- intros q j X. cbn. split; [|split; [reflexivity|]].
           ++ intros r R. rewrite !content_e7. cbn. destruct (Nat.eq_dec q t) as [->|Q]; [|rewrite !fupd_other by exact Q; reflexivity]. rewrite !fupd_same. cbn. rewrite P. cbn.
              destruct (j * B + r <? tail (subs s t)); [reflexivity|]. destruct (Z.eqb_spec (j * B + r) (tail (subs s t))) as [Y|]; [|reflexivity]. destruct (index_inj _ _ _ R Y) as (-> & _). exfalso. apply (NJ b' _ (or_introl X)). reflexivity.
           ++ unfold in_range. cbn. destruct (Nat.eq_dec q t) as [->|Q]; [|rewrite !fupd_other by exact Q; auto]. rewrite !fupd_same. cbn. rewrite P. cbn. tauto.
        -- intros q j u X. split; [reflexivity|]. cbn. destruct (Nat.eq_dec q t) as [->|Q]; [rewrite fupd_same|rewrite fupd_other by exact Q]; cbn; lia.
    + intros u. cbn. destruct (Nat.eq_dec u t) as [->|N].
      * rewrite fupd_same. unfold p. destruct nothrow eqn:NT; cbn; [left; exact NT|exact Logic.I].
      * rewrite fupd_other by exact N. apply (ok_frame s g); cbn; [rewrite fupd_other by exact N; reflexivity|..|apply (b_ok _ _ H)].
        -- intros b' X. rewrite fupd_other; [auto|]. intros ->. congruence.
        -- intros q. destruct (Nat.eq_dec q t) as [->|Q]; [rewrite fupd_same|rewrite fupd_other by exact Q]; cbn; lia.
        -- reflexivity.
        -- intros q i w X. destruct (Nat.eq_dec q t) as [->|Q]; [rewrite fupd_same|rewrite fupd_other by exact Q]; exact X.
        -- intros b' q i _ _ X. rewrite fupd_other; [exact X|]. intros ->. congruence.
        -- intros b' q j X. rewrite fupd_other; [exact X|]. intros ->. congruence.
    + assert (CE : forall u d, claims (fupd (pcs s) t p u) = Some d -> claims (pcs s u) = Some d) by (intros u d; destruct (Nat.eq_dec u t) as [->|N]; [rewrite fupd_same; unfold p; destruct nothrow; discriminate|rewrite fupd_other by exact N; auto]).
      intros u w d X Y. apply (b_uniq _ _ H u w d); apply CE; assumption.
    + intros q i X Y. cbn in *. assert (X' : 0 <= i < tail (subs s q)) by (destruct (Nat.eq_dec q t) as [->|Q]; [rewrite fupd_same in X|rewrite fupd_other in X by exact Q]; exact X).
      destruct (b_live _ _ H q i X' Y) as (b' & B'). exists b'. rewrite fupd_other; [exact B'|]. intros ->. congruence.
    + intros q i X. cbn in *. apply (b_fresh _ _ H). destruct (Nat.eq_dec q t) as [->|Q]; [rewrite fupd_same in X|rewrite fupd_other in X by exact Q]; exact X.
    + intros q X. cbn in *. destruct (Nat.eq_dec q t) as [->|Q].
      * rewrite !fupd_same. cbn. exists b. rewrite fupd_same. auto.
      * rewrite !(fupd_other (subs s)) in X by exact Q. rewrite !(fupd_other (pcs s)) in X by exact Q. rewrite !(fupd_other (subs s)) by exact Q. destruct (b_tail _ _ H q X) as (b' & B1 & B2). exists b'. split; [exact B1|]. rewrite fupd_other; [exact B2|]. intros ->. congruence.
  - (* E6 throws *)
    destruct nothrow eqn:NT; [discriminate|]. destruct K as [K|K]; [discriminate|]. injection E as <-.
    exists g. eapply (frameB s g _ t); [exact H|intros q'; apply memory_refl|reflexivity|reflexivity|intros u U; cbn; apply fupd_other; exact U|cbn; apply fupd_same|..]; rewrite ?P; cbn; tauto.
  - (* E6 *)
    destruct (b_tail _ _ H t) as (b & B1 & B2); [right; rewrite P; exact Logic.I|]. rewrite B1 in E. pose proof (b_block _ _ H b) as Bb. unfold blockB in Bb. rewrite B2 in Bb. destruct Bb as (Ba & Be & Bj & Bc & Bn & Br).
    pose proof (Bc (slot (tail (subs s t))) (slot_range _)) as CT. rewrite split_index, content_e7, Z.ltb_irrefl, Z.eqb_refl, P in CT. cbn in CT. rewrite CT in E. injection E as <-. exists g.
    assert (CO : forall q i, (q, i) <> (t, tail (subs s t)) -> content (at_pc (set_cell s b (slot (tail (subs s t))) (Some v)) t (E7 v)) g q i = content s g q i).
    { intros q i N. rewrite !content_e7. cbn. destruct (Nat.eq_dec q t) as [->|Q]; [|rewrite fupd_other by exact Q; reflexivity]. destruct (i <? tail (subs s t)); [reflexivity|]. destruct (Z.eqb_spec i (tail (subs s t))) as [->|]; [congruence|reflexivity]. }
    assert (IR : forall q j, in_range s q j -> in_range (at_pc (set_cell s b (slot (tail (subs s t))) (Some v)) t (E7 v)) q j).
    { intros q j. unfold in_range. cbn. destruct (Nat.eq_dec q t) as [->|Q]; [|rewrite fupd_other by exact Q; auto]. rewrite fupd_same. cbn. tauto. }
    constructor.
    + intros b'. destruct (Nat.eq_dec b' b) as [->|N].
      * unfold blockB. rewrite B2. split; [exact Ba|]. split; [exact Be|]. split; [exact Bj|]. split; [|split; [|apply IR; exact Br]].
        -- intros r R. destruct (Z.eq_dec r (slot (tail (subs s t)))) as [->|D].
           ++ rewrite split_index, content_e7. cbn. rewrite !fupd_same. cbn. rewrite zfupd_same, Z.ltb_irrefl, Z.eqb_refl. reflexivity.
           ++ rewrite CO; [cbn; rewrite fupd_same; cbn; rewrite zfupd_other by exact D; apply Bc; exact R|]. intros X. injection X as X. destruct (index_inj _ _ _ R X) as (_ & Y). congruence.
        -- cbn. rewrite fupd_same. exact Bn.
      * apply (block_frame s g _ _ b'); [reflexivity|reflexivity|cbn; apply fupd_other; exact N|reflexivity|..|apply (b_block _ _ H)].
        -- intros q j X. split; [|split; [reflexivity|apply IR]]. intros r R. apply CO. intros Y. injection Y as -> Y. destruct (index_inj _ _ _ R Y) as (-> & _). apply N. apply (at_inj s g b' b _ _ H X B2).
        -- intros q j u X. cbn. split; [reflexivity|lia].
    + intros u. cbn. destruct (Nat.eq_dec u t) as [->|N]; [rewrite fupd_same; exact Logic.I|]. rewrite fupd_other by exact N. apply (ok_frame s g); cbn; auto; [|lia|apply (b_ok _ _ H)]. intros b' X. split; [exact X|]. apply fupd_other. intros ->. congruence.
    + assert (CE : forall u d, claims (fupd (pcs s) t (E7 v) u) = Some d -> claims (pcs s u) = Some d) by (intros u d; destruct (Nat.eq_dec u t) as [->|N]; [rewrite fupd_same; discriminate|rewrite fupd_other by exact N; auto]).
      intros u w d X Y. apply (b_uniq _ _ H u w d); apply CE; assumption.
    + apply (b_live _ _ H).
    + apply (b_fresh _ _ H).
    + intros q X. cbn in *. apply (b_tail _ _ H). destruct (Nat.eq_dec q t) as [->|Q]; [right; rewrite P; exact Logic.I|rewrite fupd_other in X by exact Q; exact X].
  - (* E7 *)
    injection E as <-. pose proof (head_tail s gA t HA) as HT. pose proof (a_tail _ _ _ _ (i_sub _ _ HA t)) as TS. assert (T0 : 0 <= tail (subs s t)) by (rewrite TS; apply zlen_nonneg). exists g.
    destruct (b_tail _ _ H t) as (b & B1 & B2); [right; rewrite P; exact Logic.I|].
    set (s' := ret _ _ _).
    assert (SE : forall q i w, znth (sent (subs s q)) i = Some w -> znth (sent (subs s' q)) i = Some w).
    { intros q i w X. unfold s'. cbn. destruct (Nat.eq_dec q t) as [->|Q]; [rewrite fupd_same|rewrite fupd_other by exact Q; exact X]. cbn. rewrite znth_app1; [exact X|]. assert (R := znth_Some_lt _ _ _ X). lia. }
    assert (CO : forall q i, 0 <= i -> content s' g q i = content s g q i).
    { intros q i I0. rewrite !content_e7. unfold s'. cbn. destruct (Nat.eq_dec q t) as [->|Q]; [|rewrite !fupd_other by exact Q; reflexivity]. rewrite !fupd_same. cbn. rewrite P. cbn.
      destruct (Z.ltb_spec i (tail (subs s t))) as [L|L].
      - destruct (Z.ltb_spec i (tail (subs s t) + 1)); [|lia]. destruct (st g t i); try reflexivity. apply znth_app1. lia.
      - destruct (Z.eqb_spec i (tail (subs s t))) as [->|D].
        + destruct (Z.ltb_spec (tail (subs s t)) (tail (subs s t) + 1)); [|lia]. rewrite (b_fresh _ _ H) by lia. rewrite TS. apply znth_app_last.
        + destruct (Z.ltb_spec i (tail (subs s t) + 1)); [lia|]. destruct (i =? tail (subs s t) + 1); reflexivity. }
    constructor.
    + intros b'. apply (block_frame s g _ _ b'); [reflexivity|reflexivity|reflexivity|..|apply (b_block _ _ H)].
      * intros q j _. unfold s'. cbn. destruct (Nat.eq_dec q t) as [->|Q]; [rewrite fupd_same|rewrite fupd_other by exact Q]; reflexivity.
      * intros q j X. split; [|split; [reflexivity|]].
        -- intros r R. apply CO. pose proof (b_block _ _ H b') as Y. unfold blockB in Y. rewrite X in Y. destruct Y as (_ & _ & Y & _). nia.
        -- unfold in_range, s'. cbn. destruct (Nat.eq_dec q t) as [->|Q]; [rewrite !fupd_same|rewrite !fupd_other by exact Q; auto]. cbn. lia.
      * intros q j u X. split; [reflexivity|]. unfold s'. cbn. destruct (Nat.eq_dec q t) as [->|Q]; [rewrite fupd_same|rewrite fupd_other by exact Q]; cbn; lia.
    + intros u. unfold s'. cbn. destruct (Nat.eq_dec u t) as [->|N]; [rewrite fupd_same; exact Logic.I|]. rewrite fupd_other by exact N. apply (ok_frame s g); auto; [..|apply (b_ok _ _ H)]; cbn.
      * rewrite fupd_other by exact N. reflexivity.
      * intros q. destruct (Nat.eq_dec q t) as [->|Q]; [rewrite fupd_same|rewrite fupd_other by exact Q]; cbn; lia.
    + assert (CE : forall u d, claims (fupd (pcs s) t Idle u) = Some d -> claims (pcs s u) = Some d) by (intros u d; destruct (Nat.eq_dec u t) as [->|N]; [rewrite fupd_same; discriminate|rewrite fupd_other by exact N; auto]).
      intros u w d X Y. apply (b_uniq _ _ H u w d); apply CE; assumption.
    + intros q i X Y. destruct (Z.eq_dec i (tail (subs s q))) as [->|D].
      * unfold s' in X. cbn in X. destruct (Nat.eq_dec q t) as [->|Q]; [exists b; exact B2|rewrite fupd_other in X by exact Q; lia].
      * apply (b_live _ _ H); [|exact Y]. unfold s' in X. cbn in X. destruct (Nat.eq_dec q t) as [->|Q]; [rewrite fupd_same in X; cbn in X; lia|rewrite fupd_other in X by exact Q; lia].
    + intros q i X. apply (b_fresh _ _ H). unfold s' in X. cbn in X. destruct (Nat.eq_dec q t) as [->|Q]; [rewrite fupd_same in X|rewrite fupd_other in X by exact Q]; exact X.
    + intros q X. unfold s' in *. cbn in *. destruct (Nat.eq_dec q t) as [->|Q].
      * rewrite !(@fupd_same (@sub T)) in X. rewrite (@fupd_same pc) in X. rewrite !fupd_same. cbn in *. destruct X as [X|[]]. exists b. split; [exact B1|]. rewrite next_block by exact X. exact B2.
      * rewrite !(fupd_other (subs s)) in X by exact Q. rewrite !(fupd_other (pcs s)) in X by exact Q. rewrite !(fupd_other (subs s)) by exact Q. apply (b_tail _ _ H q X).
  - (* D5 *)
    injection E as <-. pose proof (head_lt s gA q t my HA P) as HL. assert (H0 : 0 <= head (subs s q)) by (rewrite (a_head _ _ _ _ (i_sub _ _ HA q)); apply zlen_nonneg). exists g. set (s' := at_pc _ _ _).
    assert (ME : forall q', tail (subs s' q') = tail (subs s q') /\ sent (subs s' q') = sent (subs s q') /\ entry (subs s' q') = entry (subs s q') /\ tailBlock (subs s' q') = tailBlock (subs s q') /\ head (subs s q') <= head (subs s' q')).
    { intros q'. unfold s'. cbn. destruct (Nat.eq_dec q' q) as [->|Q]; [rewrite fupd_same|rewrite fupd_other by exact Q]; cbn; repeat split; lia. }
    assert (WE : forall u, e7 (pcs s' u) = e7 (pcs s u)) by (intros u; unfold s'; cbn; destruct (Nat.eq_dec u t) as [->|N]; [rewrite fupd_same, P; reflexivity|rewrite fupd_other by exact N; reflexivity]).
    assert (WR : forall u, writing (pcs s' u) <-> writing (pcs s u)) by (intros u; unfold s'; cbn; destruct (Nat.eq_dec u t) as [->|N]; [rewrite fupd_same, P; reflexivity|rewrite fupd_other by exact N; reflexivity]).
    assert (CB : forall u q' i, claims (pcs s u) = Some (q', i) -> i < head (subs s q')).
    { intros u q' i X. pose proof (b_ok _ _ H u) as Y. destruct (pcs s u); try discriminate X; injection X as -> ->; cbn in Y; lia. }
    constructor.
    + intros b'. apply (block_frame s g _ _ b'); [reflexivity|reflexivity|reflexivity|..|apply (b_block _ _ H)].
      * intros q' j _. destruct (ME q') as (M1 & M2 & M3 & M4 & M5). rewrite M3. reflexivity.
      * intros q' j X. destruct (ME q') as (M1 & M2 & M3 & M4 & M5). split; [|split; [reflexivity|]]; [intros r R; apply content_same; auto|]. unfold in_range. rewrite M1, WR. tauto.
      * intros q' j u X. destruct (ME q') as (M1 & M2 & M3 & M4 & M5). split; [reflexivity|lia].
    + intros u. destruct (Nat.eq_dec u t) as [->|N].
      * unfold s'. cbn. rewrite !fupd_same. cbn. rewrite !fupd_same. cbn. split; [lia|]. apply (b_fresh _ _ H). lia.
      * replace (pcs s' u) with (pcs s u) by (symmetry; apply fupd_other; exact N). apply (ok_frame s g); auto; [..|apply (b_ok _ _ H)]; try (intros; apply ME).
        intros q' i w X. destruct (ME q') as (M1 & M2 & M3 & M4 & M5). rewrite M2. exact X.
    + assert (CE : forall u, claims (pcs s' u) = if Nat.eqb u t then Some (q, head (subs s q)) else claims (pcs s u)) by (intros u; unfold s'; cbn; unfold fupd; destruct (Nat.eqb_spec u t) as [->|N]; reflexivity).
      intros u w d. rewrite !CE. destruct (Nat.eqb_spec u t), (Nat.eqb_spec w t); subst; auto; try apply (b_uniq _ _ H).
      * intros X Y. injection X as <-. specialize (CB _ _ _ Y). lia.
      * intros Y X. injection X as <-. specialize (CB _ _ _ Y). lia.
    + intros q' i. destruct (ME q') as (M1 & M2 & M3 & M4 & M5). rewrite M1. apply (b_live _ _ H).
    + intros q' i X. apply (b_fresh _ _ H). destruct (ME q') as (M1 & M2 & M3 & M4 & M5). lia.
    + intros q'. destruct (ME q') as (M1 & M2 & M3 & M4 & M5). rewrite M1, M4, WR. apply (b_tail _ _ H).
  - (* D7 *)
    destruct K as (K1 & K2). pose proof (head_tail s gA q HA) as HT. destruct (b_live _ _ H q i ltac:(lia) ltac:(congruence)) as (b & B'). pose proof (b_block _ _ H b) as Bb. unfold blockB in Bb. rewrite B' in Bb. destruct Bb as (_ & Be & _). rewrite Be in E. injection E as <-.
    exists g. eapply (frameB s g _ t); [exact H|intros q'; apply memory_refl|reflexivity|reflexivity|intros u U; cbn; apply fupd_other; exact U|cbn; apply fupd_same|..]; rewrite ?P; cbn; tauto.
  - (* D8 throws *)
    destruct K as (K1 & K2 & K3). pose proof (head_tail s gA q HA) as HT. pose proof (b_block _ _ H b) as Bb. unfold blockB in Bb. rewrite K3 in Bb. destruct Bb as (_ & _ & _ & Bc & _). specialize (Bc (slot i) (slot_range i)). rewrite split_index, content_e7, K2 in Bc. destruct (Z.ltb_spec i (tail (subs s q))); [|lia].
    destruct (cell (blocks s b) (slot i)) as [w|]; [|exfalso; destruct (znth_ex (sent (subs s q)) i) as (w & W); [rewrite <- (a_tail _ _ _ _ (i_sub _ _ HA q)); lia|congruence]]. injection E as <-.
    exists g. eapply (frameB s g _ t); [exact H|intros q'; apply memory_refl|reflexivity|reflexivity|intros u U; cbn; apply fupd_other; exact U|cbn; apply fupd_same|..]; rewrite ?P; cbn; try tauto. unfold right_value. tauto.
  - (* D8 *)
    destruct K as (K1 & K2 & K3). pose proof (head_tail s gA q HA) as HT. pose proof (b_block _ _ H b) as Bb. unfold blockB in Bb. rewrite K3 in Bb. destruct Bb as (_ & _ & _ & Bc & _). specialize (Bc (slot i) (slot_range i)). rewrite split_index, content_e7, K2 in Bc. destruct (Z.ltb_spec i (tail (subs s q))); [|lia].
    destruct (cell (blocks s b) (slot i)) as [w|]; [|exfalso; destruct (znth_ex (sent (subs s q)) i) as (w & W); [rewrite <- (a_tail _ _ _ _ (i_sub _ _ HA q)); lia|congruence]]. injection E as <-.
    exists g. eapply (frameB s g _ t); [exact H|intros q'; apply memory_refl|reflexivity|reflexivity|intros u U; cbn; apply fupd_other; exact U|cbn; apply fupd_same|..]; rewrite ?P; cbn; try tauto. unfold right_value. cbn. repeat split; try tauto. right. exists w. auto.
  - (* D9 *)
    injection E as <-. destruct K as (K1 & K2 & K3 & K4). pose proof (head_tail s gA q HA) as HT. pose proof (b_block _ _ H b) as Bb. unfold blockB in Bb. rewrite K3 in Bb. destruct Bb as (Ba & Be & Bj & Bc & Bn & Br).
    set (s' := at_pc _ _ _). set (g' := mkGB (set_st g q i Empty) (own g)). exists g'.
    assert (WE : forall u, e7 (pcs s' u) = e7 (pcs s u)) by (intros u; unfold s'; cbn; destruct (Nat.eq_dec u t) as [->|N]; [rewrite fupd_same, P; reflexivity|rewrite fupd_other by exact N; reflexivity]).
    assert (WR : forall u, writing (pcs s' u) <-> writing (pcs s u)) by (intros u; unfold s'; cbn; destruct (Nat.eq_dec u t) as [->|N]; [rewrite fupd_same, P; reflexivity|rewrite fupd_other by exact N; reflexivity]).
    assert (CE : forall u, claims (pcs s' u) = claims (pcs s u)) by (intros u; unfold s'; cbn; destruct (Nat.eq_dec u t) as [->|N]; [rewrite fupd_same, P; reflexivity|rewrite fupd_other by exact N; reflexivity]).
    assert (SG : forall q' i', is_gone (st g' q' i') = is_gone (st g q' i')).
    { intros q' i'. destruct (Nat.eq_dec q' q) as [->|Q]; [destruct (Z.eq_dec i' i) as [->|D]|]; [cbn; rewrite set_st_same, K2; reflexivity|cbn; rewrite set_st_other by congruence; reflexivity..]. }
    assert (CO : forall q' i', (q', i') <> (q, i) -> content s' g' q' i' = content s g q' i') by (intros q' i' N; apply content_same; auto; apply set_st_other; exact N).
    constructor.
    + intros b'. destruct (Nat.eq_dec b' b) as [->|N].
      * unfold blockB. cbn [own g']. rewrite K3. split; [exact Ba|]. split; [exact Be|]. split; [exact Bj|]. split; [|split].
        -- intros r1 R. destruct (Z.eq_dec r1 (slot i)) as [->|D].
           ++ rewrite split_index, content_e7. cbn. rewrite !fupd_same. cbn. rewrite zfupd_same, set_st_same. destruct (Z.ltb_spec i (tail (subs s q))); [reflexivity|lia].
           ++ rewrite CO; [cbn; rewrite fupd_same; cbn; rewrite zfupd_other by exact D; apply Bc; exact R|]. intros X. injection X as X. destruct (index_inj _ _ _ R X) as (_ & Y). congruence.
        -- cbn. rewrite fupd_same. cbn. rewrite Bn. symmetry. apply gcount_ext. intros r1 R. apply SG.
        -- unfold in_range. rewrite WR. exact Br.
      * apply (block_frame s g _ _ b'); [reflexivity|reflexivity|unfold s'; cbn; apply fupd_other; exact N|reflexivity|..|apply (b_block _ _ H)].
        -- intros q' j X. split; [|split; [apply gcount_ext; intros; apply SG|unfold in_range; rewrite WR; auto]]. intros r1 R. apply CO. intros Y. injection Y as -> Y. destruct (index_inj _ _ _ R Y) as (-> & _). apply N. apply (at_inj s g b' b _ _ H X K3).
        -- intros q' j u X. split; [|cbn; lia]. intros r1 R. apply set_st_other. intros Y. injection Y as -> Y. pose proof (b_block _ _ H b') as V. unfold blockB in V. rewrite X in V. destruct V as (_ & _ & _ & _ & V & _). specialize (V r1 R). rewrite Y in V. congruence.
    + intros u. destruct (Nat.eq_dec u t) as [->|N].
      * unfold s'. cbn. rewrite !fupd_same. cbn. rewrite set_st_same. tauto.
      * replace (pcs s' u) with (pcs s u) by (symmetry; apply fupd_other; exact N). apply (ok_frame s g); auto; [..|apply (b_ok _ _ H)]; cbn; try lia.
        -- intros b' X. split; [exact X|]. apply fupd_other. intros ->. congruence.
        -- intros q' i' X. apply set_st_other. intros Y. apply N. apply (b_uniq _ _ H u t (q', i') X). rewrite P, Y. reflexivity.
    + intros u w d. rewrite !CE. apply (b_uniq _ _ H).
    + intros q' i' X Y. apply (b_live _ _ H); [exact X|]. intros Z0. specialize (SG q' i'). rewrite Z0 in SG. destruct (st g' q' i'); try discriminate SG. congruence.
    + intros q' i' X. cbn in *. rewrite set_st_other; [apply (b_fresh _ _ H); exact X|]. intros Y. injection Y as -> ->. lia.
    + intros q'. rewrite WR. apply (b_tail _ _ H).
  - (* D10 *)
    destruct K as (K1 & K2 & K3 & K4). pose proof (head_tail s gA q HA) as HT. pose proof (b_block _ _ H b) as Bb. unfold blockB in Bb. rewrite K3 in Bb. destruct Bb as (Ba & Be & Bj & Bc & Bn & Br).
    pose proof (gcount_lt g q i ltac:(congruence)) as GL. rewrite Bn in E. destruct (Z.ltb_spec (gcount g q (bnum i)) B); [|lia].
    assert (GC : gcount (mkGB (set_st g q i Gone) (own g)) q (bnum i) = gcount g q (bnum i) + 1).
    { unfold gcount. apply (filter_one _ _ _ (slot i)); [apply zrange_nodup|apply in_zrange, slot_range|..].
      - rewrite split_index, K2. reflexivity.
      - cbn. rewrite split_index, set_st_same. reflexivity.
      - intros x X D. cbn. rewrite set_st_other; [reflexivity|]. intros Y. injection Y as Y. apply in_zrange in X. destruct (index_inj _ _ _ X Y). congruence. }
    destruct (Z.eqb_spec (gcount g q (bnum i)) (B - 1)) as [LAST|NL]; injection E as <-.
    + (* the last one: the block is to be given back *)
      assert (ALL : forall r, 0 <= r < B -> set_st g q i Gone q (bnum i * B + r) = Gone) by (apply (gcount_full (mkGB (set_st g q i Gone) (own g)) q (bnum i)); lia).
      assert (ALLB : forall i', bnum i' = bnum i -> set_st g q i Gone q i' = Gone) by (intros i' X; rewrite <- (split_index i'), X; apply ALL, slot_range).
      exists (mkGB (set_st g q i Gone) (fupd (own g) b (Closing q (bnum i) t))). eapply (goneB s g gA t q i b r); [exact HA|exact H|exact P|reflexivity|reflexivity|intros b' N; cbn; apply fupd_other; exact N|intros u U; cbn; apply fupd_other; exact U|cbn; apply fupd_same|reflexivity|cbn; tauto|right; reflexivity|right; exact ALLB|..].
      * unfold blockB. cbn. rewrite !fupd_same. cbn. split; [exact Ba|]. split; [exact Be|]. split; [exact Bj|].
        assert (LT : bnum i * B <= i) by (pose proof (split_index i); pose proof (slot_range i); lia).
        split; [|split; [exact ALL|lia]]. intros r0 R. cbn. rewrite fupd_same. cbn. rewrite Bc by exact R. rewrite content_e7. destruct (Z.ltb_spec (bnum i * B + r0) (tail (subs s q))) as [L|L].
        -- destruct (Z.eq_dec (bnum i * B + r0) i) as [X|X]; [rewrite X, K2; reflexivity|]. specialize (ALL r0 R). rewrite set_st_other in ALL by congruence. rewrite ALL. reflexivity.
        -- exfalso. specialize (ALL r0 R). rewrite set_st_other in ALL by (intros Y; injection Y as Y; lia). rewrite (b_fresh _ _ H) in ALL by lia. discriminate.
      * cbn. rewrite fupd_same. auto.
    + exists (mkGB (set_st g q i Gone) (fupd (own g) b (At q (bnum i)))). eapply (goneB s g gA t q i b r); [exact HA|exact H|exact P|reflexivity|reflexivity|intros b' N; cbn; apply fupd_other; exact N|intros u U; cbn; apply fupd_other; exact U|cbn; apply fupd_same|reflexivity|cbn; tauto|left; reflexivity|left; reflexivity|..].
      * unfold blockB. cbn. rewrite !fupd_same. cbn. split; [exact Ba|]. split; [exact Be|]. split; [exact Bj|]. split; [|split].
        -- intros r0 R. rewrite Bc by exact R. destruct (Z.eq_dec (bnum i * B + r0) i) as [X|X].
           ++ rewrite !content_e7, X. cbn. rewrite set_st_same, K2. destruct (Z.ltb_spec i (tail (subs s q))); [reflexivity|lia].
           ++ symmetry. apply content_same; [reflexivity| |reflexivity|cbn; apply set_st_other; congruence]. cbn. destruct (Nat.eq_dec q t) as [->|D]; [rewrite fupd_same, P; reflexivity|rewrite fupd_other by exact D; reflexivity].
        -- symmetry. exact GC.
        -- destruct Br as [Br|(Br & Bw)]; [left; exact Br|]. right. split; [exact Br|]. cbn. destruct (Nat.eq_dec q t) as [->|D]; [rewrite P in Bw; destruct Bw|rewrite fupd_other by exact D; exact Bw].
      * exact Logic.I.
  - (* D11 *)
    injection E as <-. destruct K as (K1 & K2 & K3). pose proof (b_block _ _ H b) as Bb. unfold blockB in Bb. rewrite K2 in Bb. destruct Bb as (Ba & Be & Bj & Bc & Bn & Br).
    set (s' := at_pc _ _ _). set (g' := mkGB (st g) (fupd (own g) b (Held t))). exists g'.
    assert (ME : forall q', tail (subs s' q') = tail (subs s q') /\ sent (subs s' q') = sent (subs s q') /\ tailBlock (subs s' q') = tailBlock (subs s q') /\ head (subs s' q') = head (subs s q')).
    { intros q'. unfold s'. cbn. destruct (Nat.eq_dec q' q) as [->|Q]; [rewrite fupd_same|rewrite fupd_other by exact Q]; cbn; repeat split; lia. }
    assert (WE : forall u, e7 (pcs s' u) = e7 (pcs s u)) by (intros u; unfold s'; cbn; destruct (Nat.eq_dec u t) as [->|N]; [rewrite fupd_same, P; reflexivity|rewrite fupd_other by exact N; reflexivity]).
    assert (WR : forall u, writing (pcs s' u) <-> writing (pcs s u)) by (intros u; unfold s'; cbn; destruct (Nat.eq_dec u t) as [->|N]; [rewrite fupd_same, P; reflexivity|rewrite fupd_other by exact N; reflexivity]).
    assert (CE : forall u, claims (pcs s' u) = claims (pcs s u)) by (intros u; unfold s'; cbn; destruct (Nat.eq_dec u t) as [->|N]; [rewrite fupd_same, P; reflexivity|rewrite fupd_other by exact N; reflexivity]).
    assert (AB : forall b' q' j, own g b' = At q' j -> own g' b' = At q' j) by (intros b' q' j X; cbn; rewrite fupd_other; [exact X|congruence]).
    constructor.
    + intros b'. destruct (Nat.eq_dec b' b) as [->|N].
      * unfold blockB. cbn. rewrite fupd_same. exact Ba.
      * apply (block_frame s g _ _ b'); [cbn; apply fupd_other; exact N|reflexivity|reflexivity|..|apply (b_block _ _ H)].
        -- intros q' j X. unfold s'. cbn. destruct (Nat.eq_dec q' q) as [->|Q]; [rewrite fupd_same; cbn|rewrite fupd_other by exact Q; reflexivity]. apply zfupd_other. intros ->. apply N. pose proof (b_block _ _ H b') as Y. unfold blockB in Y. destruct X as [X|(u & X)]; rewrite X in Y; destruct Y as (_ & Y & _); congruence.
        -- intros q' j X. destruct (ME q') as (M1 & M2 & M3 & M4). split; [intros r0 R; apply content_same; auto|]. split; [reflexivity|]. unfold in_range. rewrite M1, WR. auto.
        -- intros q' j u X. destruct (ME q') as (M1 & M2 & M3 & M4). split; [reflexivity|lia].
    + intros u. destruct (Nat.eq_dec u t) as [->|N].
      * unfold s'. cbn. rewrite !fupd_same. cbn. rewrite !fupd_same. cbn. repeat split; try lia; [exact Bc|]. destruct K3 as [->|(v & -> & X)]; [left; reflexivity|right; exists v; split; [reflexivity|]]. cbn. rewrite fupd_same. exact X.
      * replace (pcs s' u) with (pcs s u) by (symmetry; apply fupd_other; exact N). apply (ok_frame s g); auto; [..|apply (b_ok _ _ H)]; try (intros; apply ME).
        -- intros b' X. split; [cbn; rewrite fupd_other; [exact X|congruence]|reflexivity].
        -- intros q'. destruct (ME q') as (M1 & M2 & M3 & M4). lia.
        -- intros q' i' w X. destruct (ME q') as (M1 & M2 & M3 & M4). rewrite M2. exact X.
        -- intros b' q' j X. cbn. rewrite fupd_other; [exact X|congruence].
    + intros u w d. rewrite !CE. apply (b_uniq _ _ H).
    + intros q' i'. destruct (ME q') as (M1 & M2 & M3 & M4). rewrite M1. intros X Y. destruct (b_live _ _ H q' i' X Y) as (b' & B'). exists b'. apply AB. exact B'.
    + intros q' i'. destruct (ME q') as (M1 & M2 & M3 & M4). rewrite M4. apply (b_fresh _ _ H).
    + intros q'. destruct (ME q') as (M1 & M2 & M3 & M4). rewrite M1, M3, WR. intros X. destruct (b_tail _ _ H q' X) as (b' & B1 & B2). exists b'. split; [exact B1|apply AB; exact B2].
  - (* D12 *)
    destruct K as (K1 & K2 & K3 & K4). pose proof (b_block _ _ H b) as Bb. unfold blockB in Bb. rewrite K2 in Bb. rewrite Bb in E. injection E as <-.
    exists (mkGB (st g) (fupd (own g) b Avail)). eapply (heldB s g _ t); [exact H|reflexivity|..].
    + intros b' N. cbn. rewrite fupd_other by exact N. auto.
    + intros u U. cbn. apply fupd_other. exact U.
    + cbn. apply fupd_same.
    + right. exact K2.
    + left. reflexivity.
    + rewrite P. reflexivity.
    + rewrite P. reflexivity.
    + right. reflexivity.
    + unfold blockB. cbn. rewrite !fupd_same. split; [reflexivity|exact K3].
    + exact Logic.I.
Qed.

Lemma reach_invB s : reachable B nothrow s -> (exists g, invA s g) /\ exists g, invB s g.
Proof.
  apply (reach_ind B nothrow (fun s => (exists g, invA s g) /\ exists g, invB s g)); [split; [apply invA_init|apply invB_init]|].
  intros s0 t c s1 _ ((gA & GA) & (g & G)) E. split; [eapply stepA; eauto|eapply stepB; eauto].
Qed.
End Queue.
