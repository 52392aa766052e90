(** C111: ConcurrentLinkedQueue, calls that do not overlap. *)

From Coq Require Import ZArith List Lia Bool Permutation.
From Verif Require Import Base LinkedQueueModel LinkedQueueSpec LinkedQueueProofs.
Import ListNotations.
Open Scope Z_scope.

Section Props.
Context {T : Type}.

(** *** One thread: what keeps Java's contract *)
(** add, isEmpty, poll of a queue that has an element, size up to Integer.MAX_VALUE. *)
Theorem C111_one_thread_partial : forall (default : option T) v,
  contract default (Add v) anything /\ contract default IsEmpty anything /\
  contract default Poll (fun l => l <> []) /\ contract default Size (fun l => Z.of_nat (length l) <= int_max).
Proof.
  intros default v. split; [|split; [|split]]; intros t m l H F.
  - exists (l ++ [v]), (JBool true). split; [constructor|]. cbn [exec]. split; [reflexivity|]. intros L. now apply holds_add.
  - exists l, (JBool (Z.of_nat (length l) =? 0)). split.
    + constructor. rewrite Z.eqb_eq. destruct l; cbn; split; auto; try discriminate; lia.
    + cbn [exec]. rewrite (holds_size _ _ _ H). split; [reflexivity|]. now intros _.
  - destruct l as [|x l]; [now elim F|]. exists l, (JValue x). split; [constructor|]. destruct (holds_take _ _ _ _ H) as [E H']. cbn [exec]. rewrite E. split; [reflexivity|]. now intros _.
  - exists l, (JInt (Z.min (Z.of_nat (length l)) int_max)). split; [constructor|]. cbn [exec]. rewrite (holds_size _ _ _ H). split; [|now intros _].
    cbn [agrees]. unfold int_max in *. rewrite Z.min_l by lia. unfold wrap. change (2 ^ (32 - 1)) with 2147483648. change (2 ^ 32) with 4294967296. rewrite Z.mod_small by lia. lia.
Qed.

(** *** What breaks it *)
Lemma holds_one (t : nat) (v : T) : holds t (mkM [t] (fun u => if Nat.eqb u t then [v] else [])) [v].
Proof. split; [cbn; now rewrite Nat.eqb_refl|]. split; [reflexivity|]. now left. Qed.
Lemma holds_empty (t : nat) : holds t (@empty T) [].
Proof. split; [reflexivity|]. split; [reflexivity|]. now right. Qed.
(** offer says that it added the element and did not. *)
Theorem C111_offer_refuted : forall (default : option T) v, ~ contract default (Offer v) anything.
Proof.
  intros default v C. destruct (C 0%nat empty [] (holds_empty 0) I) as (l' & a & J & X). inversion J; subst. cbn in X. destruct X as [_ H].
  destruct (H eq_refl) as (E & _). discriminate.
Qed.
(** clear leaves the elements. *)
Theorem C111_clear_refuted : forall (default : option T) (v : T), ~ contract default Clear anything.
Proof.
  intros default v C. destruct (C 0%nat _ [v] (holds_one 0 v) I) as (l' & a & J & X). inversion J; subst. cbn in X. destruct X as [_ H].
  destruct (H eq_refl) as (E & _). discriminate.
Qed.
(** The empty queue contains everything. *)
Theorem C111_contains_refuted : forall (default : option T) v, ~ contract default (Contains v) anything.
Proof.
  intros default v C. destruct (C 0%nat empty [] (holds_empty 0) I) as (l' & a & J & X). inversion J as [| | | | | | | | | | |l0 v0 b B| | | | |]; subst. cbn in X. destruct X as [<- _].
  now apply (proj1 B).
Qed.
(** remove(x) and removeAll(c) remove nothing. *)
Theorem C111_remove_object_refuted : forall (default : option T) v, ~ contract default (RemoveObject v) anything.
Proof.
  intros default v C. destruct (C 0%nat _ [v] (holds_one 0 v) I) as (l' & a & J & X). inversion J as [| | | | | | | | | | | | | |l1 v1 l2 N|l0 v0 N|]; subst.
  - cbn in X. destruct X as [X _]. discriminate.
  - apply N. now left.
Qed.
Theorem C111_remove_all_refuted : forall (default : option T) v, ~ contract default (RemoveAll [v]) anything.
Proof.
  intros default v C. destruct (C 0%nat _ [v] (holds_one 0 v) I) as (l' & a & J & X). inversion J as [| | | | | | | | | | | | | | | |l0 x0 l1 b B1 B2]; subst.
  cbn in X. destruct X as [<- _]. assert (false = true) by (apply B2; exists v; split; now left). discriminate.
Qed.
(** peek, element and remove() throw, whatever is in the queue. *)
Theorem C111_peek_refuted : forall (default : option T) c, In c [Peek; Element; Remove] ->
  ~ contract default c anything /\ forall a t m, exec default a t m c = Throw UnsupportedOperationException.
Proof.
  intros default c I. split.
  - intros C. destruct (C 0%nat empty [] (holds_empty 0) Logic.I) as (l' & a & J & X). destruct I as [<-|[<-|[<-|[]]]]; exact X.
  - destruct I as [<-|[<-|[<-|[]]]]; reflexivity.
Qed.
(** poll of an empty queue answers with an element: the default one, which may
    also be in the queue, or an indeterminate one. *)
Theorem C111_poll_empty_refuted : forall (default : option T), ~ contract default Poll anything.
Proof.
  intros default C. destruct (C 0%nat empty [] (holds_empty 0) I) as (l' & a & J & X). inversion J; subst. cbn in X. destruct default; [now destruct X|exact X].
Qed.
Theorem C111_poll_ambiguous_refuted : forall d : T, exists m, holds 0 m [d] /\
  option_map snd (match exec (Some d) Enough 0 m Poll with Ok x => Some x | _ => None end) = option_map snd (match exec (Some d) Enough 0 empty Poll with Ok x => Some x | _ => None end).
Proof. intros d. exists (mkM [0%nat] (fun u => if Nat.eqb u 0 then [d] else [])). split; [apply (holds_one 0 d)|reflexivity]. Qed.
Theorem C111_poll_primitive_refuted : forall a t, exec (@None T) a t empty Poll = UB Uninitialised.
Proof. reflexivity. Qed.
(** size of 2^31 elements is negative. *)
Theorem C111_size_refuted : forall (default : option T) (v : T), ~ contract default Size anything /\
  forall t m l, holds t m l -> Z.of_nat (length l) = 2 ^ 31 -> exec default Enough t m Size = Ok (m, RInt (- 2 ^ 31)).
Proof.
  assert (X : forall (default : option T) t m l, holds t m l -> Z.of_nat (length l) = 2 ^ 31 -> exec default Enough t m Size = Ok (m, RInt (- 2 ^ 31))).
  { intros default t m l H L. cbn [exec]. now rewrite (holds_size _ _ _ H), L. }
  intros default v. split; [|apply X]. intros C.
  set (l := repeat v (Z.to_nat (2 ^ 31))). assert (L : Z.of_nat (length l) = 2 ^ 31) by (unfold l; rewrite repeat_length; lia). clearbody l.
  assert (H : holds 0 (mkM [0%nat] (fun _ => l)) l) by (split; [reflexivity|]; split; [rewrite L; reflexivity|now left]).
  destruct (C 0%nat _ l H I) as (l' & a & J & Y). inversion J; subst. rewrite (X default _ _ _ H L), L in Y. now destruct Y.
Qed.
(** add says that it added the element, although there was no memory for it. *)
Theorem C111_add_lost_refuted : forall (default : option T) v t a, a <> Enough ->
  exists m', exec default a t empty (Add v) = Ok (m', RBool true) /\ all_empty (items m').
Proof. intros default v t a A. destruct a; [now elim A| |]; eexists; (split; [reflexivity|intros u; reflexivity]). Qed.

(** *** Many threads *)
(** Each thread has a queue of its own; a poll takes the oldest element of one of
    them if there is one; isEmpty and size speak of all of them. *)
Theorem C111_threads : forall (default : option T) l m rs, Z.of_nat (length l) < 2 ^ 64 -> exec_all default empty l = Ok (m, rs) ->
  follows (fun _ => []) l rs (items m).
Proof. intros default l m rs L E. now apply (exec_all_follows default l empty m rs wf_empty). Qed.
(** Nothing undefined happens, but for a poll of an empty queue of primitives. *)
Theorem C111_safe : forall (default : option T) l m rs t a c, exec_all default empty l = Ok (m, rs) ->
  (exists x, exec default a t m c = Ok x) \/ (In c [Peek; Element; Remove] /\ exec default a t m c = Throw UnsupportedOperationException) \/
  (c = Poll /\ default = None /\ all_empty (items m) /\ exec default a t m c = UB Uninitialised).
Proof.
  intros default l m rs t a c E. pose proof (exec_all_wf default _ _ _ _ wf_empty E) as W.
  destruct c; cbn [exec]; eauto; try (right; left; split; [cbn; auto|reflexivity]).
  destruct (dequeue_spec m) as [(q & v & l0 & _ & _ & D)|[A D]]; rewrite D; [eauto|]. destruct default; [eauto|].
  right. right. repeat split. intros u. destruct (items m u) eqn:U; [reflexivity|]. rewrite <- U. apply A, W. rewrite U. discriminate.
Qed.
(** When no more is added, as many polls as there are elements return each of
    them once. *)
Theorem C111_drained : forall (default : option T) l m rs n ts, exec_all default empty l = Ok (m, rs) -> total (items m) (Z.of_nat n) -> length ts = n ->
  exists m' vs, exec_all default m (map (fun t => (t, Enough, Poll)) ts) = Ok (m', map RValue vs) /\ all_empty (items m') /\
    exists us, NoDup us /\ (forall u, items m u <> [] -> In u us) /\ Permutation vs (concat (map (items m) us)).
Proof.
  intros default l m rs n ts E (us & N & I & C) LT. pose proof (exec_all_wf default _ _ _ _ wf_empty E) as W.
  assert (PC : Permutation (concat (map (items m) us)) (contents m)).
  { assert (X : forall ps, NoDup ps -> concat (map (items m) ps) = concat (map (items m) (filter (fun u => match items m u with [] => false | _ => true end) ps))).
    { intros ps _. induction ps as [|p ps IH]; [reflexivity|]. cbn. destruct (items m p) eqn:P; cbn; [exact IH|]. rewrite P, IH. reflexivity. }
    unfold contents. rewrite (X us N), (X (prods m) (proj1 W)). rewrite <- !flat_map_concat_map. apply Permutation_flat_map.
    apply NoDup_Permutation; [now apply NoDup_filter|apply NoDup_filter, W|]. intros u. rewrite !filter_In. split; intros [_ P]; split; auto; [apply W|apply I]; destruct (items m u); discriminate. }
  assert (LC : length (contents m) = n) by (rewrite <- (Permutation_length PC); lia).
  destruct (drain default n m W LC ts LT) as (m' & vs & X & P & A). exists m', vs. split; [assumption|]. split; [assumption|].
  exists us. split; [assumption|]. split; [assumption|]. now rewrite PC.
Qed.
(** First in is not first out, of two threads. *)
Theorem C111_fifo_refuted : forall (default : option T) x y, exists m,
  exec_all default empty [(0%nat, Enough, Add x); (1%nat, Enough, Add y); (2%nat, Enough, Poll); (2%nat, Enough, Poll)] = Ok (m, [RBool true; RBool true; RValue y; RValue x]).
Proof. intros. eexists. reflexivity. Qed.
(** An element that was there first may wait for ever. *)
Definition busy_script (x y : T) (n : nat) : list (nat * alloc * call T) :=
  [(0%nat, Enough, Add x); (1%nat, Enough, Add y); (1%nat, Enough, Add y)] ++ concat (repeat [(2%nat, Enough, Poll); (1%nat, Enough, Add y)] n).
Theorem C111_starved_refuted : forall (default : option T) x y n, exists m,
  exec_all default empty (busy_script x y n) = Ok (m, [RBool true; RBool true; RBool true] ++ concat (repeat [RValue y; RBool true] n)) /\ items m 0%nat = [x].
Proof.
  intros default x y n.
  assert (X : forall n m, prods m = [1%nat; 0%nat] -> items m 0%nat = [x] -> items m 1%nat = [y; y] ->
    exists m', exec_all default m (concat (repeat [(2%nat, Enough, Poll); (1%nat, Enough, Add y)] n)) = Ok (m', concat (repeat [RValue y; RBool true] n)) /\ items m' 0%nat = [x]).
  { clear n. induction n as [|n IH]; intros m P I0 I1; [now exists m|]. cbn [repeat concat app exec_all].
    assert (D : try_dequeue m = Ok (Some (y, set_items m 1 [y]))) by (unfold try_dequeue; rewrite P; cbn [scan]; unfold len, take; rewrite I0, I1; cbn; unfold take; now rewrite I1).
    cbn [exec]. rewrite D. cbn [bind fst snd]. unfold enqueue, registered, listed. cbn [prods set_items]. rewrite P. cbn [existsb Nat.eqb orb fst snd bind].
    match goal with |- context[exec_all _ ?q _] => destruct (IH q) as (m' & E & I'); [exact P|cbn; assumption|reflexivity|] end.
    rewrite E. cbn. exists m'. split; [reflexivity|assumption]. }
  unfold busy_script. cbn [app exec_all exec enqueue registered listed existsb prods empty bind fst snd].
  match goal with |- context[exec_all _ ?q (concat _)] => destruct (X n q) as (m' & E & I'); try reflexivity end.
  exists m'. cbn in E |- *. rewrite E. cbn. split; [reflexivity|assumption].
Qed.
End Props.

(** Three threads; memory runs out once. *)
Example C111_ex : exists m, exec_all (Some 0) empty
  [(0%nat, Enough, Add 10); (1%nat, Enough, Add 20); (0%nat, Enough, Add 11); (2%nat, NoBlock, Add 30); (2%nat, Enough, Size); (2%nat, Enough, Poll); (1%nat, Enough, Poll);
   (1%nat, Enough, IsEmpty); (0%nat, Enough, Poll); (0%nat, Enough, IsEmpty); (0%nat, Enough, Poll)] =
  Ok (m, [RBool true; RBool true; RBool true; RBool true; RInt 3; RValue 10; RValue 20; RBool false; RValue 11; RBool true; RValue 0]).
Proof. eexists. vm_compute. reflexivity. Qed.
Example C111_ex_holds : holds 0 (fst (enqueue Enough 0 5 (@empty Z))) [5].
Proof. split; [reflexivity|]. split; [reflexivity|]. now left. Qed.

Print Assumptions C111_one_thread_partial.
Print Assumptions C111_threads.
Print Assumptions C111_safe.
Print Assumptions C111_drained.
Print Assumptions C111_starved_refuted.
Print Assumptions C111_size_refuted.
