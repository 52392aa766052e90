(** The invariant of the pool of blocks. *)
From Coq Require Import ZArith List Bool Lia Permutation.
From Verif Require Import Base BlockPoolModel BlockPoolSpec.
Import ListNotations.
Open Scope Z_scope.

Lemma take_perm b l l' : take b l = Some l' -> Permutation l (b :: l').
Proof.
  revert l'. induction l as [|x l IH]; cbn [take]; intros l' E; [discriminate|].
  destruct (Z.eqb_spec x b) as [->|N]; [injection E as <-; reflexivity|].
  destruct (take b l) as [m|]; [|discriminate]. injection E as <-.
  rewrite (IH m eq_refl). apply perm_swap.
Qed.
Lemma call_of_in t l c : call_of t l = Some c -> In c l /\ who c = t.
Proof.
  induction l as [|d l IH]; cbn [call_of]; intros E; [discriminate|].
  destruct (Nat.eqb_spec (who d) t) as [<-|N].
  - injection E as <-. split; [left; reflexivity|reflexivity].
  - destruct (IH E). split; [right|]; assumption.
Qed.
Lemma call_of_none t l : call_of t l = None -> forall c, In c l -> who c <> t.
Proof.
  induction l as [|d l IH]; cbn [call_of]; intros E c I; [destruct I|].
  destruct (Nat.eqb_spec (who d) t) as [<-|N]; [discriminate|].
  destruct I as [<-|I]; [assumption|auto].
Qed.
Lemma drop_in t l c : In c (drop_call t l) <-> In c l /\ who c <> t.
Proof.
  unfold drop_call. rewrite filter_In. destruct (Nat.eqb_spec (who c) t); cbn [negb]; intuition congruence.
Qed.
Lemma drop_absent t l : (forall c, In c l -> who c <> t) -> drop_call t l = l.
Proof.
  induction l as [|d l IH]; intros H; [reflexivity|].
  unfold drop_call in *. cbn [filter]. destruct (Nat.eqb_spec (who d) t) as [E|N].
  - exfalso. apply (H d); [left; reflexivity|assumption].
  - cbn [negb]. f_equal. apply IH. intros c I. apply H. right. exact I.
Qed.
Lemma drop_perm t l c : NoDup (map who l) -> call_of t l = Some c -> Permutation l (c :: drop_call t l).
Proof.
  induction l as [|d l IH]; cbn [map call_of]; intros N E; [discriminate|].
  inversion N as [|? ? N1 N2]; subst.
  unfold drop_call. cbn [filter]. destruct (Nat.eqb_spec (who d) t) as [<-|D]; cbn [negb].
  - injection E as <-. fold (drop_call (who d) l). rewrite drop_absent; [reflexivity|].
    intros c I Q. apply N1. rewrite <- Q. apply in_map. exact I.
  - fold (drop_call t l). rewrite (IH N2 E) at 1. apply perm_swap.
Qed.
Lemma drop_nodup t l : NoDup (map who l) -> NoDup (map who (drop_call t l)).
Proof.
  induction l as [|d l IH]; cbn [map]; intros N; [constructor|].
  inversion N as [|? ? N1 N2]; subst. unfold drop_call. cbn [filter].
  destruct (Nat.eqb (who d) t); cbn [negb map]; [apply IH; assumption|].
  constructor; [|apply IH; assumption].
  intros I. apply in_map_iff in I as (c & Q & I). apply N1. rewrite <- Q. apply in_map.
  apply drop_in in I. tauto.
Qed.

(** ** The history *)
Lemma in_use_app h1 h2 b : in_use (h1 ++ h2) b = in_use h1 b + in_use h2 b.
Proof. induction h1 as [|[t|t x|t|x] h1 IH]; cbn [app in_use]; try rewrite IH; lia. Qed.
Lemma demand_app h1 h2 : demand (h1 ++ h2) = demand h1 + demand h2.
Proof. induction h1 as [|[t|t x|t|x] h1 IH]; cbn [app demand]; try rewrite IH; lia. Qed.
Lemma within_app h e d : demand_within (h ++ e) d -> demand_within h d.
Proof. intros W h1 h2 ->. apply (W h1 (h2 ++ e)). rewrite app_assoc. reflexivity. Qed.

Definition zl {A} (l : list A) : Z := Z.of_nat (length l).
Lemma zl_perm {A} (l l' : list A) : Permutation l l' -> zl l = zl l'.
Proof. intros P. unfold zl. rewrite (Permutation_length P). reflexivity. Qed.


Lemma filter_perm {A} (f : A -> bool) l l' : Permutation l l' -> Permutation (filter f l) (filter f l').
Proof.
  induction 1 as [|x l l' P IH|x y l|l l2 l3 P1 IH1 P2 IH2]; cbn [filter].
  - constructor.
  - destruct (f x); [constructor|]; assumption.
  - destruct (f x), (f y); try reflexivity. apply perm_swap.
  - etransitivity; eassumption.
Qed.

Lemma forallb_app' {A} (f : A -> bool) l l' : forallb f l = true -> forallb f l' = true -> forallb f (l ++ l') = true.
Proof. intros H H'. rewrite forallb_app, H, H'. reflexivity. Qed.
Lemma way_app t h e : under_way t h -> forallb (fun x => negb (of_thread t x)) e = true -> under_way t (h ++ e).
Proof.
  intros (a & b & -> & Q) E. exists a, (b ++ e). rewrite <- app_assoc. split; [reflexivity|].
  apply forallb_app'; assumption.
Qed.
Lemma free_app size t h e : none_free_during_call size t h -> forallb (fun x => negb (of_thread t x)) e = true ->
  none_free_during_call size t (h ++ e).
Proof.
  intros (a & b & -> & W & U & Q) E. exists a, (b ++ e). rewrite <- app_assoc. repeat split; try assumption; try apply U.
  apply forallb_app'; assumption.
Qed.

Section Inv.
Variables (size : Z) (threads : nat).
Hypothesis sizes : 0 <= size.
Hypothesis fits : size + Z.of_nat threads < 2 ^ 64.
Notation step := (step size threads).
Notation access := (access size threads).
Notation run := (run size threads).

(** Threads that have advanced the counter beyond the array *)
Definition beyond (f : nat -> Z) : list nat := filter (fun t => size <? f t) (seq 0 threads).
Definition pending (p : place) : bool := match p with AtList e => e | AtNew => true | _ => false end.
Definition committed (l : list call) : list call := filter (fun c => pending (place_of c)) l.

(** The part about the blocks *)
Record inv_b (nx : Z) (sp ou : list Z) (md : Z) (h : list event) : Prop := {
  i_nodup : NoDup (sp ++ ou);
  i_all : forall b, In b (sp ++ ou) <-> 0 <= b < Z.min nx size \/ size <= b < size + md;
  i_made : 0 <= md /\ (0 < md -> size <= nx);
  i_use : forall b, (In b ou -> in_use h b = 1) /\ (~ In b ou -> in_use h b = 0);
  i_took : forall b, In b (sp ++ ou) <-> exists t, In (Took t b) h
}.
(** The part about the counter *)
Record inv_n (nx : Z) (sn : nat -> Z) (l : list call) : Prop := {
  i_next : 0 <= nx /\ nx <= size + zl (beyond sn);
  i_seen : forall t, 0 <= sn t <= nx;
  i_calls : NoDup (map who l);
  i_who : forall c, In c l -> (who c < threads)%nat;
  i_place : forall c, In c l ->
    match place_of c with AtLoad => True | AtAdd => sn (who c) < size | _ => size <= nx end
}.
(** The part about the calls *)
Record inv_c (ou : list Z) (md : Z) (l : list call) (h : list event) : Prop := {
  i_new : forall c, In c l -> place_of c = AtNew -> can c = true;
  i_demand : demand h = zl ou + zl l;
  i_peak : forall d, demand_within h d -> size + md + zl (committed l) <= Z.max size d;
  i_way : forall c, In c l -> under_way (who c) h;
  i_since : forall c, In c l -> pending (place_of c) = true -> none_free_during_call size (who c) h
}.
Record inv (s : pool) (h : list event) : Prop := {
  i_b : inv_b (next s) (spare s) (out s) (made s) h;
  i_n : inv_n (next s) (seen s) (calls s);
  i_c : inv_c (out s) (made s) (calls s) h
}.

Lemma beyond_le f : zl (beyond f) <= Z.of_nat threads.
Proof.
  unfold beyond, zl. apply Nat2Z.inj_le.
  rewrite <- (seq_length threads 0) at 2.
  generalize (seq 0 threads). intros l. induction l as [|x l IH]; cbn [filter length]; [lia|].
  destruct (size <? f x); cbn [length]; lia.
Qed.
Lemma beyond_mono f g : (forall t, f t <= g t) -> zl (beyond f) <= zl (beyond g).
Proof.
  intros H. unfold beyond, zl. apply Nat2Z.inj_le.
  generalize (seq 0 threads). intros l. induction l as [|x l IH]; cbn [filter length]; [lia|].
  specialize (H x). destruct (Z.ltb_spec size (f x)), (Z.ltb_spec size (g x)); cbn [length]; lia.
Qed.
Lemma beyond_more f t v : (t < threads)%nat -> f t <= size -> size < v -> zl (beyond (see f t v)) = zl (beyond f) + 1.
Proof.
  intros L F V. unfold beyond, zl.
  assert (I : In t (seq 0 threads)) by (apply in_seq; lia).
  pose proof (seq_NoDup threads 0) as N. revert I N.
  generalize (seq 0 threads). intros l. induction l as [|x l IH]; intros I N; [destruct I|].
  inversion N as [|? ? N1 N2]; subst. cbn [filter]. unfold see at 1.
  destruct (Nat.eqb_spec x t) as [->|D].
  - rewrite (proj2 (Z.ltb_lt size v) V), (proj2 (Z.ltb_ge size (f t)) F). cbn [length].
    replace (length (filter (fun t0 => size <? see f t v t0) l)) with (length (filter (fun t0 => size <? f t0) l)); [lia|].
    clear - N1. induction l as [|y l IH]; [reflexivity|]. cbn [filter]. unfold see at 1.
    destruct (Nat.eqb_spec y t) as [->|D]; [exfalso; apply N1; left; reflexivity|].
    assert (~ In t l) by (intros I; apply N1; right; exact I).
    destruct (size <? f y); cbn [length]; rewrite IH by assumption; reflexivity.
  - destruct I as [E|I]; [congruence|].
    destruct (size <? f x); cbn [length]; specialize (IH I N2); lia.
Qed.
(** a call that may still advance has not been beyond *)
Lemma beyond_lt f t : (t < threads)%nat -> f t <= size -> zl (beyond f) < Z.of_nat threads.
Proof.
  intros L F. pose proof (beyond_more f t (size + 1) L F ltac:(lia)). pose proof (beyond_le (see f t (size + 1))). lia.
Qed.

(** the counter never comes back to zero *)
Lemma stored_id nx sn l v : inv_n nx sn l -> 0 <= v <= nx -> stored v = v.
Proof.
  intros I V. destruct (i_next _ _ _ I) as [_ N]. pose proof (beyond_le sn). apply Z.mod_small. lia.
Qed.

(** ** Blocks *)
Lemma b_took nx sp ou md h t b nx' sp' md' : inv_b nx sp ou md h ->
  0 <= md' -> (0 < md' -> size <= nx') ->
  (forall x, In x (sp' ++ b :: ou) <-> x = b \/ In x (sp ++ ou)) -> NoDup (sp' ++ b :: ou) ->
  (forall x, x = b \/ In x (sp ++ ou) <-> 0 <= x < Z.min nx' size \/ size <= x < size + md') ->
  inv_b nx' sp' (b :: ou) md' (h ++ [Took t b]).
Proof.
  intros [N A M U T] M1 M2 E N' A'. split.
  - exact N'.
  - intros x. rewrite E. apply A'.
  - split; assumption.
  - intros x. rewrite in_use_app. cbn [in_use]. destruct (U x) as [U1 U2].
    assert (NB : ~ In b ou).
    { apply NoDup_remove_2 in N'. intros I. apply N'. apply in_or_app. right. exact I. }
    destruct (Z.eqb_spec b x) as [<-|D].
    + rewrite (U2 NB). split; [reflexivity|]. intros H. exfalso. apply H. left. reflexivity.
    + cbn [In]. split.
      * intros [Q|I]; [contradiction|]. rewrite (U1 I). reflexivity.
      * intros Q. rewrite U2 by tauto. reflexivity.
  - intros x. rewrite E, T. split.
    + intros [->|(t' & I)]; [exists t; apply in_or_app; right; left; reflexivity|exists t'; apply in_or_app; left; exact I].
    + intros (t' & I). apply in_app_or in I as [I|[Q|[]]]; [right; exists t'; exact I|left; congruence].
Qed.
Lemma b_silent nx nx' sp ou md h e : inv_b nx sp ou md h -> Z.min nx' size = Z.min nx size -> nx <= nx' ->
  (forall b, in_use e b = 0) -> (forall t b, ~ In (Took t b) e) -> inv_b nx' sp ou md (h ++ e).
Proof.
  intros [N A M U T] Q L E1 E2. split.
  - exact N.
  - intros x. rewrite Q. apply A.
  - destruct M. split; [assumption|]. intros. specialize (H0 H1). lia.
  - intros x. rewrite in_use_app, E1, Z.add_0_r. apply U.
  - intros x. rewrite T. split; intros (t & I); exists t; [apply in_or_app; left; exact I|].
    apply in_app_or in I as [I|I]; [exact I|]. destruct (E2 _ _ I).
Qed.
Lemma b_gave nx sp ou md h b l : inv_b nx sp ou md h -> Permutation ou (b :: l) ->
  inv_b nx (b :: sp) l md (h ++ [Gave b]).
Proof.
  intros [N A M U T] P.
  assert (PP : Permutation (sp ++ ou) ((b :: sp) ++ l)).
  { rewrite P. cbn [app]. symmetry. apply Permutation_middle. }
  assert (NB : ~ In b l).
  { rewrite PP in N. inversion N as [|? ? N1 N2]; subst. intros I. apply N1. apply in_or_app. right. exact I. }
  split.
  - rewrite <- PP. exact N.
  - intros x. rewrite <- A. split; apply Permutation_in; [symmetry|]; exact PP.
  - exact M.
  - intros x. rewrite in_use_app. cbn [in_use]. destruct (U x) as [U1 U2].
    destruct (Z.eqb_spec b x) as [<-|D].
    + split; [contradiction|]. intros _. rewrite U1; [reflexivity|]. rewrite P. left. reflexivity.
    + split; intros Q.
      * rewrite U1; [reflexivity|]. rewrite P. right. exact Q.
      * rewrite U2; [reflexivity|]. rewrite P. intros [E|I]; contradiction.
  - intros x. transitivity (In x (sp ++ ou)); [split; apply Permutation_in; [symmetry|]; exact PP|].
    rewrite T. split; intros (t & I); exists t; [apply in_or_app; left; exact I|].
    apply in_app_or in I as [I|[Q|[]]]; [exact I|discriminate].
Qed.

(** ** Calls *)
Lemma c_drop ou ou' md md' l h t c e : inv_c ou md l h -> NoDup (map who l) -> call_of t l = Some c ->
  demand e = zl ou' - zl ou - 1 -> (md' = md \/ md' = md + 1 /\ pending (place_of c) = true) ->
  (forall t', t' <> t -> forallb (fun x => negb (of_thread t' x)) e = true) ->
  inv_c ou' md' (drop_call t l) (h ++ e).
Proof.
  intros [W D P Y S] N C E M O. pose proof (drop_perm t l c N C) as Q.
  assert (Z1 : zl l = 1 + zl (drop_call t l)) by (rewrite (zl_perm _ _ Q); unfold zl; cbn [length]; lia).
  assert (Z2 : zl (committed l) = (if pending (place_of c) then 1 else 0) + zl (committed (drop_call t l))).
  { unfold committed. rewrite (zl_perm _ _ (filter_perm _ _ _ Q)). cbn [filter]. destruct (pending (place_of c)); unfold zl; cbn [length]; lia. }
  split.
  - intros d I. apply drop_in in I as [I _]. apply W. exact I.
  - rewrite demand_app, D, E. lia.
  - intros d H. specialize (P d (within_app _ _ _ H)). rewrite Z2 in P.
    destruct M as [->|[-> R]]; [destruct (pending (place_of c)); lia|rewrite R in P; lia].
  - intros d I. apply drop_in in I as [I J]. apply way_app; [apply Y; exact I|apply O; exact J].
  - intros d I R. apply drop_in in I as [I J]. apply free_app; [apply S; assumption|apply O; exact J].
Qed.
Lemma c_move ou md l h t c p : inv_c ou md l h -> NoDup (map who l) -> call_of t l = Some c ->
  (pending p = true -> pending (place_of c) = true) -> (p = AtNew -> can c = true) ->
  inv_c ou md (move c p l) h.
Proof.
  intros [W D P Y S] N C M V. destruct (call_of_in _ _ _ C) as [I1 I2].
  rewrite <- I2 in C. pose proof (drop_perm _ l c N C) as Q.
  unfold move.
  assert (Z1 : zl l = 1 + zl (drop_call (who c) l)) by (rewrite (zl_perm _ _ Q); unfold zl; cbn [length]; lia).
  assert (Z2 : zl (committed l) = (if pending (place_of c) then 1 else 0) + zl (committed (drop_call (who c) l))).
  { unfold committed. rewrite (zl_perm _ _ (filter_perm _ _ _ Q)). cbn [filter]. destruct (pending (place_of c)); unfold zl; cbn [length]; lia. }
  split.
  - intros d [<-|I]; [exact V|]. apply drop_in in I as [I _]. apply W. exact I.
  - rewrite D. unfold zl in *. cbn [length]. lia.
  - intros d H. specialize (P d H). rewrite Z2 in P. unfold committed. cbn [filter place_of].
    fold (committed (drop_call (who c) l)).
    destruct (pending p); [rewrite M in P by reflexivity; unfold zl in *; cbn [length]; lia|destruct (pending (place_of c)); lia].
  - intros d [<-|I]; [exact (Y c I1)|]. apply drop_in in I as [I _]. apply Y. exact I.
  - intros d [<-|I] R; [cbn [who place_of] in *; exact (S c I1 (M R))|]. apply drop_in in I as [I _]. apply S; assumption.
Qed.

(** ** The counter *)
Lemma n_drop nx sn l t nx' sn' : inv_n nx sn l -> nx <= nx' -> nx' <= size + zl (beyond sn') ->
  (forall x, 0 <= sn' x <= nx') -> (forall x, x <> t -> sn' x = sn x) -> inv_n nx' sn' (drop_call t l).
Proof.
  intros [A S C W P] L L' S' E. split.
  - lia.
  - exact S'.
  - apply drop_nodup. exact C.
  - intros c I. apply drop_in in I as [I _]. apply W. exact I.
  - intros c I. apply drop_in in I as [I J]. specialize (P c I). rewrite E by exact J. destruct (place_of c); lia || exact P.
Qed.
Lemma n_move nx sn l t nx' sn' c p : inv_n nx sn l -> call_of t l = Some c -> nx <= nx' -> nx' <= size + zl (beyond sn') ->
  (forall x, 0 <= sn' x <= nx') -> (forall x, x <> t -> sn' x = sn x) ->
  match p with AtLoad => True | AtAdd => sn' t < size | _ => size <= nx' end -> inv_n nx' sn' (move c p l).
Proof.
  intros I C L L' S' E V. destruct (call_of_in _ _ _ C) as [I1 I2]. subst t.
  pose proof (n_drop nx sn l (who c) nx' sn' I L L' S' E) as [A S N W P]. unfold move. split; try assumption.
  - cbn [map]. constructor; [|exact N]. intros J. apply in_map_iff in J as (d & Q & J). apply drop_in in J. tauto.
  - intros d [<-|J]; [exact (i_who _ _ _ I c I1)|apply W; exact J].
  - intros d [<-|J]; [exact V|apply P; exact J].
Qed.
End Inv.
