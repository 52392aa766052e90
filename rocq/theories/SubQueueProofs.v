(** Proofs about the sub-queues: the counters. *)

From Coq Require Import ZArith List Lia Bool Permutation.
From Verif Require Import Base Bits TextLemmas SubQueueModel.
Import ListNotations.
Open Scope Z_scope.

Lemma fupd_same {A} (f : nat -> A) k v : fupd f k v k = v.
Proof. unfold fupd. rewrite Nat.eqb_refl. reflexivity. Qed.
Lemma fupd_other {A} (f : nat -> A) k v x : x <> k -> fupd f k v x = f x.
Proof. intros H. unfold fupd. destruct (Nat.eqb_spec x k); [contradiction|reflexivity]. Qed.
Lemma zfupd_same {A} (f : Z -> A) k v : zfupd f k v k = v.
Proof. unfold zfupd. rewrite Z.eqb_refl. reflexivity. Qed.
Lemma zfupd_other {A} (f : Z -> A) k v x : x <> k -> zfupd f k v x = f x.
Proof. intros H. unfold zfupd. destruct (Z.eqb_spec x k); [contradiction|reflexivity]. Qed.

(** ** Counting *)
Definition below (l : list Z) (k : Z) : Z := zlen (filter (fun x => x <? k) l).
Lemma below_cons x l k : below (x :: l) k = (if x <? k then 1 else 0) + below l k.
Proof. unfold below. cbn [filter]. destruct (x <? k); [rewrite zlen_cons; lia|lia]. Qed.
Lemma below_all l k : (forall x, In x l -> x < k) -> below l k = zlen l.
Proof. unfold below. induction l as [|x l IH]; intros H; [reflexivity|]. cbn [filter]. destruct (Z.ltb_spec x k); [|specialize (H x (or_introl eq_refl)); lia]. rewrite !zlen_cons, IH; [reflexivity|]. intros y Y. apply H. right. exact Y. Qed.
Lemma range_length (l : list Z) n : NoDup l -> (forall x, In x l -> 0 <= x < n) -> zlen l <= Z.max 0 n.
Proof.
  intros N R. assert (I : incl l (map Z.of_nat (seq 0 (Z.to_nat n)))).
  { intros x X. apply R in X. apply in_map_iff. exists (Z.to_nat x). split; [lia|]. apply in_seq. lia. }
  pose proof (NoDup_incl_length N I) as L. rewrite map_length, seq_length in L. unfold zlen. lia.
Qed.
Lemma maximum (l : list Z) : l <> [] -> exists m, In m l /\ forall x, In x l -> x <= m.
Proof.
  induction l as [|x l IH]; [congruence|]. intros _. destruct l as [|y l].
  - exists x. split; [left; reflexivity|]. intros z [->|[]]. lia.
  - destruct IH as (m & M & H); [discriminate|]. destruct (Z_le_gt_dec x m).
    + exists m. split; [right; exact M|]. intros z [<-|Z0]; [lia|apply H; exact Z0].
    + exists x. split; [left; reflexivity|]. intros z [<-|Z0]; [lia|]. specialize (H z Z0). lia.
Qed.
(** The heart of the protocol: if everybody who was let through saw that its
    number, less the failures below it, is less than [n], then at most [n]
    were let through. *)
Lemma let_through passed failed n : NoDup (passed ++ failed) -> (forall k, In k (passed ++ failed) -> 0 <= k) -> 0 <= n ->
  (forall k, In k passed -> k - below failed k < n) -> zlen passed <= n.
Proof.
  intros N P N0 H. destruct passed as [|p0 ps]; [exact N0|]. destruct (maximum (p0 :: ps)) as (m & M & Mx); [discriminate|]. set (passed := p0 :: ps) in *.
  assert (L : zlen (passed ++ filter (fun x => x <? m) failed) <= Z.max 0 (m + 1)).
  { apply range_length.
    - clear -N. induction passed as [|x l IH]; cbn [app] in *.
      + apply NoDup_filter. exact N.
      + inversion N as [|? ? N1 N2]; subst. constructor; [|apply IH; exact N2]. intros C. apply N1. apply in_app_iff in C as [C|C]; apply in_app_iff; [left; exact C|right]. apply filter_In in C. tauto.
    - intros x X. apply in_app_iff in X as [X|X].
      + specialize (Mx x X). specialize (P x ltac:(apply in_app_iff; auto)). lia.
      + apply filter_In in X as (X & Y). specialize (P x ltac:(apply in_app_iff; auto)). lia. }
  rewrite zlen_app in L. specialize (H m M). unfold below in H. specialize (P m ltac:(apply in_app_iff; auto)). lia.
Qed.

Section Queue.
Context {T : Type}.
Variables (B : Z) (nothrow : bool).
Notation state := (@state T).
Notation pc := (@pc T).
Notation step := (@step T B nothrow).

(** ** The invariant of the counters *)
Record ghostA : Type := mkG { passed : nat -> list Z; claimed : nat -> list Z; failed : nat -> list Z }.
(** the number a thread has drawn and not yet accounted for *)
Definition drawn (p : pc) : option (nat * Z) :=
  match p with D4 q my _ | D5 q my | D6 q my => Some (q, my) | _ => None end.
Definition okA (s : state) (g : ghostA) (p : pc) : Prop :=
  match p with
  | D2 q _ ov | D3 q ov => ov <= over (subs s q)
  | D4 q my ov => 0 <= my < opt (subs s q) /\ ov <= below (failed g q) my /\ ~ In my (passed g q) /\ ~ In my (failed g q)
  | D5 q my => In my (passed g q) /\ ~ In my (claimed g q)
  | D6 q my => 0 <= my < opt (subs s q) /\ ~ In my (passed g q) /\ ~ In my (failed g q)
  | _ => True
  end.
Record subA (x : @sub T) (ps cl fl : list Z) : Prop := mkSubA {
  a_tail : tail x = zlen (sent x);
  a_nodup : NoDup (ps ++ fl);
  a_range : forall k, In k (ps ++ fl) -> 0 <= k < opt x;
  a_over : over x = zlen fl;
  a_cnd : NoDup cl;
  a_cin : incl cl ps;
  a_head : head x = zlen cl;
  a_pass : forall k, In k ps -> k - below fl k < tail x }.
Record invA (s : state) (g : ghostA) : Prop := mkInvA {
  i_sub : forall q, subA (subs s q) (passed g q) (claimed g q) (failed g q);
  i_ok : forall t, okA s g (pcs s t);
  i_uniq : forall t u d, drawn (pcs s t) = Some d -> drawn (pcs s u) = Some d -> t = u;
  i_all : forall q k, 0 <= k < opt (subs s q) -> In k (claimed g q) \/ In k (failed g q) \/ exists t, drawn (pcs s t) = Some (q, k);
  i_opt : forall q, 0 <= opt (subs s q) }.

Lemma invA_init : exists g, invA init g.
Proof.
  exists (mkG (fun _ => []) (fun _ => []) (fun _ => [])). constructor.
  - intros q. constructor; cbn; try reflexivity; try (intros k []); try constructor; try lia.
  - intros t. exact Logic.I.
  - intros t u d H. discriminate.
  - intros q k H. cbn in H. lia.
  - intros q. cbn. lia.
Qed.

(** what the counters need: head is at most tail, and a thread let through
    finds an element *)
Lemma head_tail s g q : invA s g -> head (subs s q) <= tail (subs s q).
Proof.
  intros H. destruct (i_sub _ _ H q) as [A1 A2 A3 A4 A5 A6 A7 A8]. pose proof (NoDup_incl_length A5 A6) as L. rewrite A7.
  pose proof (let_through (passed g q) (failed g q) (tail (subs s q)) A2 (fun k K => proj1 (A3 k K)) ltac:(rewrite A1; apply zlen_nonneg) A8). unfold zlen in *. lia.
Qed.
Lemma head_lt s g q t my : invA s g -> pcs s t = D5 q my -> head (subs s q) < tail (subs s q).
Proof.
  intros H P. destruct (i_sub _ _ H q) as [A1 A2 A3 A4 A5 A6 A7 A8]. pose proof (i_ok _ _ H t) as K. rewrite P in K. cbn in K. destruct K as (K1 & K2). 
  assert (L : (length (my :: claimed g q) <= length (passed g q))%nat).
  { apply NoDup_incl_length; [constructor; assumption|]. intros x [<-|X]; [exact K1|apply A6; exact X]. }
  pose proof (let_through (passed g q) (failed g q) (tail (subs s q)) A2 (fun k K => proj1 (A3 k K)) ltac:(rewrite A1; apply zlen_nonneg) A8). cbn [length] in L. unfold zlen in *. lia.
Qed.

(** ** It is kept *)
(** steps that leave the four counters alone *)
Definition same_counters (x y : @sub T) : Prop := tail x = tail y /\ head x = head y /\ opt x = opt y /\ over x = over y /\ sent x = sent y.
Lemma frame s g s' t p : invA s g -> (forall q, same_counters (subs s' q) (subs s q)) -> (forall u, u <> t -> pcs s' u = pcs s u) -> pcs s' t = p ->
  drawn p = drawn (pcs s t) -> okA s' g p -> invA s' g.
Proof.
  intros H S0 O P D K. constructor.
  - intros q. destruct (S0 q) as (E1 & E2 & E3 & E4 & E5). destruct (i_sub _ _ H q) as [A1 A2 A3 A4 A5 A6 A7 A8]. constructor; rewrite ?E1, ?E2, ?E3, ?E4, ?E5; assumption.
  - intros u. destruct (Nat.eq_dec u t) as [->|N]; [rewrite P; exact K|]. rewrite O by exact N. pose proof (i_ok _ _ H u) as V. unfold okA in *.
    destruct (pcs s u); try exact Logic.I; destruct (S0 q) as (E1 & E2 & E3 & E4 & E5); rewrite ?E1, ?E2, ?E3, ?E4; exact V.
  - assert (DE : forall u, drawn (pcs s' u) = drawn (pcs s u)) by (intros u; destruct (Nat.eq_dec u t) as [->|N]; [rewrite P; exact D|rewrite O by exact N; reflexivity]).
    intros u v d. rewrite !DE. apply (i_uniq _ _ H).
  - assert (DE : forall u, drawn (pcs s' u) = drawn (pcs s u)) by (intros u; destruct (Nat.eq_dec u t) as [->|N]; [rewrite P; exact D|rewrite O by exact N; reflexivity]).
    intros q k R. destruct (S0 q) as (E1 & E2 & E3 & E4 & E5). rewrite E3 in R. destruct (i_all _ _ H q k R) as [?|[?|(u & U)]]; auto. right; right. exists u. rewrite DE. exact U.
  - intros q. destruct (S0 q) as (E1 & E2 & E3 & E4 & E5). rewrite E3. apply (i_opt _ _ H).
Qed.
Lemma same_refl x : same_counters x x.
Proof. repeat split. Qed.


Ltac split_step E := repeat match type of E with
  | context [match ?x with _ => _ end] => destruct x eqn:?
  end; try discriminate E; injection E as <-.
Ltac other_sub q' q := unfold fupd; destruct (Nat.eqb_spec q' q); [subst q'|]; repeat split.
Lemma stepA s g t c s' : invA s g -> step s t c = Some s' -> exists g', invA s' g'.
Proof.
  intros H E. unfold SubQueueModel.step, free_block in E. pose proof (i_ok _ _ H t) as K.
  destruct (pcs s t) eqn:P; destruct c; try discriminate E; cbn [okA] in K.
  all: try solve [split_step E; exists g; (eapply (frame s g _ t); [exact H|intros q'; cbn; first [apply same_refl|other_sub q' t; fail|other_sub q' q; fail|idtac]|intros u U; cbn; apply fupd_other; exact U|cbn; apply fupd_same|rewrite P; reflexivity|cbn; exact Logic.I])].
  - (* E7: tail grows *)
    injection E as <-. exists g. constructor.
    + intros q. cbn. pose proof (i_sub _ _ H q) as [A1 A2 A3 A4 A5 A6 A7 A8]. unfold fupd. destruct (Nat.eqb_spec q t) as [->|N]; [|constructor; assumption].
      constructor; cbn; try assumption; [rewrite zlen_app, A1; reflexivity|]. intros k X. specialize (A8 k X). lia.
    + intros u. cbn. destruct (Nat.eq_dec u t) as [->|N]; [rewrite fupd_same; exact Logic.I|rewrite fupd_other by exact N]. pose proof (i_ok _ _ H u) as V. unfold okA in *. destruct (pcs s u); try exact Logic.I; cbn; unfold fupd; destruct (Nat.eqb_spec q t) as [->|]; cbn; exact V.
    + intros u w d. cbn. unfold fupd. destruct (Nat.eqb_spec u t), (Nat.eqb_spec w t); try discriminate. apply (i_uniq _ _ H).
    + intros q k R. cbn in *. assert (R' : 0 <= k < opt (subs s q)) by (unfold fupd in R; destruct (Nat.eqb_spec q t) as [->|]; exact R).
      destruct (i_all _ _ H q k R') as [?|[?|(u & U)]]; auto. right; right. exists u. unfold fupd. destruct (Nat.eqb_spec u t) as [->|]; [rewrite P in U; discriminate|exact U].
    + intros q. cbn. pose proof (i_opt _ _ H q). unfold fupd. destruct (Nat.eqb_spec q t) as [->|]; assumption.
  - (* D1 *)
    destruct (older z (over (subs s q))) eqn:O; [|discriminate]. injection E as <-. exists g. unfold older in O.
    eapply (frame s g _ t); [exact H|intros q'; cbn; apply same_refl|intros u U; cbn; apply fupd_other; exact U|cbn; apply fupd_same|rewrite P; reflexivity|cbn; lia].
  - (* D2 *)
    destruct (older z (opt (subs s q))) eqn:O; [|discriminate]. destruct (z - ov <? t0); injection E as <-; exists g;
    (eapply (frame s g _ t); [exact H|intros q'; cbn; apply same_refl|intros u U; cbn; apply fupd_other; exact U|cbn; apply fupd_same|rewrite P; reflexivity|cbn; first [exact K|exact Logic.I]]).
  - (* D3: a number is drawn *)
    injection E as <-. exists g. pose proof (i_sub _ _ H q) as Q. pose proof Q as [A1 A2 A3 A4 A5 A6 A7 A8]. pose proof (i_opt _ _ H q) as O.
    assert (NP : ~ In (opt (subs s q)) (passed g q ++ failed g q)) by (intros C; apply A3 in C; lia).
    assert (NP1 : ~ In (opt (subs s q)) (passed g q)) by (intros C; apply NP, in_app_iff; auto). assert (NP2 : ~ In (opt (subs s q)) (failed g q)) by (intros C; apply NP, in_app_iff; auto).
    assert (FR : forall u, drawn (pcs s u) <> Some (q, opt (subs s q))).
    { intros u U. pose proof (i_ok _ _ H u) as V. unfold okA, drawn in *. destruct (pcs s u); try discriminate; injection U as -> ->; try lia. apply NP1. tauto. }
    constructor.
    + intros r. cbn. unfold fupd. destruct (Nat.eqb_spec r q) as [->|N]; [|apply (i_sub _ _ H)]. constructor; cbn; try assumption. intros k X. apply A3 in X. lia.
    + intros u. cbn. destruct (Nat.eq_dec u t) as [->|N]; [rewrite fupd_same|rewrite fupd_other by exact N].
      * cbn. rewrite fupd_same. cbn. split; [lia|]. split; [|split; assumption]. rewrite below_all; [lia|]. intros x X. apply (A3 x). apply in_app_iff. auto.
      * pose proof (i_ok _ _ H u) as V. unfold okA in *. destruct (pcs s u); try exact Logic.I; cbn; unfold fupd; destruct (Nat.eqb_spec q0 q) as [->|]; cbn; try exact V; (split; [lia|tauto]).
    + intros u w d. cbn. unfold fupd. destruct (Nat.eqb_spec u t) as [->|], (Nat.eqb_spec w t) as [->|]; try reflexivity; cbn [drawn].
      * intros [= <-] X. destruct (FR _ X).
      * intros X [= <-]. destruct (FR _ X).
      * apply (i_uniq _ _ H).
    + intros r k R. cbn in *. destruct (Nat.eq_dec r q) as [->|N].
      * rewrite fupd_same in R. cbn in R. destruct (Z.eq_dec k (opt (subs s q))) as [->|NK]; [right; right; exists t; rewrite fupd_same; reflexivity|].
        destruct (i_all _ _ H q k ltac:(lia)) as [?|[?|(u & U)]]; auto. right; right. exists u. unfold fupd. destruct (Nat.eqb_spec u t) as [->|]; [rewrite P in U; discriminate|exact U].
      * rewrite fupd_other in R by exact N. destruct (i_all _ _ H r k R) as [?|[?|(u & U)]]; auto. right; right. exists u. unfold fupd. destruct (Nat.eqb_spec u t) as [->|]; [rewrite P in U; discriminate|exact U].
    + intros r. cbn. unfold fupd. destruct (Nat.eqb_spec r q) as [->|]; cbn; [lia|apply (i_opt _ _ H)].
  - (* D4: let through or not *)
    destruct (older z (tail (subs s q))) eqn:O; [|discriminate]. unfold older in O. destruct K as (K1 & K2 & K3 & K4). destruct (Z.ltb_spec (my - ov) z) as [L|L]; injection E as <-.
    + exists (mkG (fupd (passed g) q (my :: passed g q)) (claimed g) (failed g)). pose proof (i_sub _ _ H q) as [A1 A2 A3 A4 A5 A6 A7 A8]. constructor.
      * intros r. cbn. unfold fupd. destruct (Nat.eqb_spec r q) as [->|N]; [|apply (i_sub _ _ H)]. constructor; cbn; try assumption.
        -- constructor; [|exact A2]. intros C. apply in_app_iff in C. tauto.
        -- intros k [<-|X]; [lia|apply A3; exact X].
        -- intros x X. right. apply A6. exact X.
        -- intros k [<-|X]; [lia|apply A8; exact X].
      * intros u. cbn. destruct (Nat.eq_dec u t) as [->|N]; [rewrite fupd_same|rewrite fupd_other by exact N].
        -- cbn. rewrite fupd_same. split; [left; reflexivity|]. intros C. apply K3, A6. exact C.
        -- pose proof (i_ok _ _ H u) as V. assert (U : drawn (pcs s u) <> Some (q, my)) by (intros U; apply N; apply (i_uniq _ _ H u t (q, my) U); rewrite P; reflexivity).
           unfold okA, drawn in *. destruct (pcs s u); try exact Logic.I; cbn; try exact V; unfold fupd; destruct (Nat.eqb_spec q0 q) as [->|]; try exact V.
           ++ split; [lia|]. split; [tauto|]. split; [|tauto]. intros [<-|C]; [apply U; reflexivity|tauto].
           ++ split; [right|]; tauto.
           ++ split; [lia|]. split; [|tauto]. intros [<-|C]; [apply U; reflexivity|tauto].
      * intros u w d. cbn. unfold fupd. destruct (Nat.eqb_spec u t) as [->|], (Nat.eqb_spec w t) as [->|]; try reflexivity; cbn [drawn]; intros X Y; [apply (i_uniq _ _ H t w d)|apply (i_uniq _ _ H u t d)|apply (i_uniq _ _ H u w d)]; try rewrite P; assumption.
      * intros r k R. cbn in *. destruct (i_all _ _ H r k R) as [?|[?|(u & U)]]; auto. right; right. exists u. unfold fupd. destruct (Nat.eqb_spec u t) as [->|]; [rewrite P in U; exact U|exact U].
      * intros r. apply (i_opt _ _ H).
    + exists g. eapply (frame s g _ t); [exact H|intros q'; cbn; apply same_refl|intros u U; cbn; apply fupd_other; exact U|cbn; apply fupd_same|rewrite P; reflexivity|cbn; tauto].
  - (* D5: an element is claimed *)
    injection E as <-. exists (mkG (passed g) (fupd (claimed g) q (my :: claimed g q)) (failed g)). destruct K as (K1 & K2). pose proof (i_sub _ _ H q) as [A1 A2 A3 A4 A5 A6 A7 A8]. constructor.
    + intros r. cbn. unfold fupd. destruct (Nat.eqb_spec r q) as [->|N]; [|apply (i_sub _ _ H)]. constructor; cbn; try assumption.
      * constructor; assumption.
      * intros x [<-|X]; [exact K1|apply A6; exact X].
      * rewrite A7. unfold zlen. lia.
    + intros u. cbn. destruct (Nat.eq_dec u t) as [->|N]; [rewrite fupd_same; exact Logic.I|rewrite fupd_other by exact N]. pose proof (i_ok _ _ H u) as V. assert (U : drawn (pcs s u) <> Some (q, my)) by (intros U; apply N; apply (i_uniq _ _ H u t (q, my) U); rewrite P; reflexivity).
      unfold okA, drawn in *. destruct (pcs s u); try exact Logic.I; cbn; unfold fupd; destruct (Nat.eqb_spec q0 q) as [->|]; cbn; try exact V.
      split; [tauto|]. intros [<-|C]; [apply U; reflexivity|tauto].
    + intros u w d. cbn. unfold fupd. destruct (Nat.eqb_spec u t), (Nat.eqb_spec w t); try discriminate. apply (i_uniq _ _ H).
    + intros r k R. cbn in *. assert (R' : 0 <= k < opt (subs s r)) by (unfold fupd in R; destruct (Nat.eqb_spec r q) as [->|]; exact R).
      destruct (i_all _ _ H r k R') as [C|[?|(u & U)]]; auto; [left|].
      * unfold fupd. destruct (Nat.eqb_spec r q) as [->|]; [right|]; exact C.
      * destruct (Nat.eq_dec u t) as [->|N]; [|right; right; exists u; rewrite fupd_other by exact N; exact U]. left. rewrite P in U. injection U as <- <-. rewrite fupd_same. left. reflexivity.
    + intros r. cbn. pose proof (i_opt _ _ H r). unfold fupd. destruct (Nat.eqb_spec r q) as [->|]; assumption.
  - (* D6: a failure is accounted for *)
    injection E as <-. exists (mkG (passed g) (claimed g) (fupd (failed g) q (my :: failed g q))). destruct K as (K1 & K2 & K3). pose proof (i_sub _ _ H q) as [A1 A2 A3 A4 A5 A6 A7 A8].
    assert (BE : forall k, below (failed g q) k <= below (my :: failed g q) k) by (intros k; rewrite below_cons; destruct (my <? k); lia).
    constructor.
    + intros r. cbn. unfold fupd. destruct (Nat.eqb_spec r q) as [->|N]; [|apply (i_sub _ _ H)]. constructor; cbn; try assumption.
      * apply NoDup_Add with (a := my) (l := passed g q ++ failed g q); [apply Add_app|]. split; [exact A2|]. intros C. apply in_app_iff in C. tauto.
      * intros k X. apply in_app_iff in X as [X|[<-|X]]; [apply A3, in_app_iff; auto|lia|apply A3, in_app_iff; auto].
      * rewrite A4. unfold zlen. lia.
      * intros k X. specialize (A8 k X). specialize (BE k). lia.
    + intros u. cbn. destruct (Nat.eq_dec u t) as [->|N]; [rewrite fupd_same; exact Logic.I|rewrite fupd_other by exact N]. pose proof (i_ok _ _ H u) as V. assert (U : drawn (pcs s u) <> Some (q, my)) by (intros U; apply N; apply (i_uniq _ _ H u t (q, my) U); rewrite P; reflexivity).
      unfold okA, drawn in *. destruct (pcs s u); try exact Logic.I; cbn; unfold fupd; destruct (Nat.eqb_spec q0 q) as [->|]; cbn; try exact V; try lia.
      * specialize (BE my0). split; [lia|]. split; [lia|]. split; [tauto|]. intros [<-|C]; [apply U; reflexivity|tauto].
      * split; [lia|]. split; [tauto|]. intros [<-|C]; [apply U; reflexivity|tauto].
    + intros u w d. cbn. unfold fupd. destruct (Nat.eqb_spec u t), (Nat.eqb_spec w t); try discriminate. apply (i_uniq _ _ H).
    + intros r k R. cbn in *. assert (R' : 0 <= k < opt (subs s r)) by (unfold fupd in R; destruct (Nat.eqb_spec r q) as [->|]; exact R).
      destruct (i_all _ _ H r k R') as [?|[C|(u & U)]]; auto; [right; left|].
      * unfold fupd. destruct (Nat.eqb_spec r q) as [->|]; [right|]; exact C.
      * destruct (Nat.eq_dec u t) as [->|N]; [|right; right; exists u; rewrite fupd_other by exact N; exact U]. right; left. rewrite P in U. injection U as <- <-. rewrite fupd_same. left. reflexivity.
    + intros r. cbn. pose proof (i_opt _ _ H r). unfold fupd. destruct (Nat.eqb_spec r q) as [->|]; assumption.
Qed.

Lemma reach_ind (P : state -> Prop) : P init -> (forall s t c s', reachable B nothrow s -> P s -> step s t c = Some s' -> P s') -> forall s, reachable B nothrow s -> P s.
Proof.
  intros I0 St s (p & R). revert R. 
  assert (G : forall p s0, reachable B nothrow s0 -> P s0 -> run B nothrow s0 p = Some s -> P s).
  { clear p. induction p as [|(t, c) p IH]; intros s0 R0 P0 R; cbn [run] in R; [injection R as <-; exact P0|]. destruct (step s0 t c) as [s1|] eqn:E; [|discriminate].
    apply (IH s1); [|eapply St; eauto|exact R]. destruct R0 as (p0 & R0). exists (p0 ++ [(t, c)]).
    assert (RA : forall l a b, run B nothrow a l = Some b -> run B nothrow a (l ++ [(t, c)]) = step b t c).
    { induction l as [|(u, d) l IHl]; intros a b X; cbn [run app] in *; [injection X as ->; destruct (step b t c); reflexivity|]. destruct (step a u d); [|discriminate]. apply IHl. exact X. }
    rewrite (RA _ _ _ R0). exact E. }
  intros R. apply (G p init); [exists []; reflexivity|exact I0|exact R].
Qed.
Lemma reach_invA s : reachable B nothrow s -> exists g, invA s g.
Proof. apply (reach_ind (fun s => exists g, invA s g)); [apply invA_init|]. intros s0 t c s1 _ (g & G) E. eapply stepA; eauto. Qed.
End Queue.
