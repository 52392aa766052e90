(** Proofs about ConcMapModel.v. *)

From Coq Require Import ZArith List Lia Bool.
From Verif Require Import Base Bits TextLemmas ConcMapSpec ConcMapModel ConcMapJava SemaphoreProofs.
Import ListNotations.
Open Scope Z_scope.

Section Proofs.
Context {K V : Type} (keq : K -> K -> bool) (veq : V -> V -> bool) (dflt : option V) (stripes : nat) (stripe : K -> nat).
Context (KEQ : forall a b, keq a b = true <-> a = b) (VEQ : forall a b, veq a b = true <-> a = b).
Let find := t_find (K := K) (V := V) keq.
Let tab := @table K V.
Let cd := code (K := K) (V := V) keq veq dflt stripes stripe.
Let jv := java (K := K) (V := V) (dval dflt).

Lemma keq_refl k : keq k k = true.
Proof. apply KEQ. reflexivity. Qed.
Lemma keq_neq a b : a <> b -> keq a b = false.
Proof. intros N. destruct (keq a b) eqn:E; [|reflexivity]. apply KEQ in E. contradiction. Qed.
Lemma K_dec (a b : K) : a = b \/ a <> b.
Proof. destruct (keq a b) eqn:E; [left; apply KEQ; exact E | right; intros ->; rewrite keq_refl in E; discriminate]. Qed.

Lemma find_in (m : tab) k v : find k m = Some v -> In (k, v) m.
Proof. induction m as [|[k' v'] m IH]; cbn; [discriminate|]. destruct (keq k' k) eqn:E; [intros [= ->]; apply KEQ in E; subst; auto | auto]. Qed.
Lemma find_none (m : tab) k : find k m = None <-> ~ In k (map fst m).
Proof.
  induction m as [|[k' v'] m IH]; cbn; [tauto|]. destruct (keq k' k) eqn:E.
  - apply KEQ in E. split; [discriminate|]. intros N. exfalso. apply N. auto.
  - rewrite IH. split; [intros N [X|X]; [subst; rewrite keq_refl in E; discriminate | auto] | tauto].
Qed.
Lemma in_find (m : tab) k v : NoDup (map fst m) -> In (k, v) m -> find k m = Some v.
Proof.
  induction m as [|[k' v'] m IH]; cbn; intros N I; [contradiction|]. inversion N as [|? ? N1 N2]; subst. destruct I as [[= -> ->]|I]; [rewrite keq_refl; reflexivity|].
  rewrite keq_neq; [auto|]. intros ->. apply N1. apply in_map_iff. exists (k, v). auto.
Qed.
Lemma find_assign (m : tab) k v k' : find k' (t_assign keq k v m) = if keq k k' then Some v else find k' m.
Proof.
  unfold t_assign. fold (find k m). destruct (find k m) as [w|] eqn:F; [|cbn; fold (find k' m); reflexivity].
  assert (A : forall m : tab, (keq k k' = true -> find k' m <> None) -> find k' (map (fun p => if keq (fst p) k then (fst p, v) else p) m) = if keq k k' then Some v else find k' m).
  { clear m F. induction m as [|[a b] m IH]; cbn [map fst]; intros H.
    - cbn in *. destruct (keq k k'); [exfalso; apply H; reflexivity | reflexivity].
    - destruct (keq a k) eqn:E1.
      + cbn. fold (find k' (map (fun p => if keq (fst p) k then (fst p, v) else p) m)). apply KEQ in E1. subst a. destruct (keq k k') eqn:E2; [reflexivity|]. fold (find k' m). rewrite IH; [reflexivity|]. congruence.
      + cbn. fold (find k' (map (fun p => if keq (fst p) k then (fst p, v) else p) m)). fold (find k' m). destruct (keq a k') eqn:E2.
        * apply KEQ in E2. subst a. destruct (keq k k') eqn:E3; [apply KEQ in E3; subst k'; rewrite keq_refl in E1; discriminate | reflexivity].
        * apply IH. intros X. specialize (H X). cbn in H. rewrite E2 in H. exact H. }
  apply A. intros E. apply KEQ in E. subst k'. congruence.
Qed.
Lemma find_erase (m : tab) k k' : find k' (t_erase keq k m) = if keq k k' then None else find k' m.
Proof.
  unfold t_erase. induction m as [|[a b] m IH]; cbn [filter fst]; [cbn; destruct (keq k k'); reflexivity|].
  destruct (keq a k) eqn:E1; cbn [negb].
  - rewrite IH. apply KEQ in E1. subst a. destruct (keq k k') eqn:E2; [reflexivity|]. cbn. rewrite E2. reflexivity.
  - cbn. fold (find k' (filter (fun p => negb (keq (fst p) k)) m)). fold (find k' m). destruct (keq a k') eqn:E2; [|exact IH].
    apply KEQ in E2. subst a. destruct (keq k k') eqn:E3; [apply KEQ in E3; subst k'; rewrite keq_refl in E1; discriminate | reflexivity].
Qed.
Lemma NoDup_assign (m : tab) k v : NoDup (map fst m) -> NoDup (map fst (t_assign keq k v m)).
Proof.
  intros N. unfold t_assign. fold (find k m). destruct (find k m) eqn:F.
  - rewrite map_map. replace (map _ m) with (map fst m); [exact N|]. apply map_ext. intros [a b]. cbn. destruct (keq a k); reflexivity.
  - cbn. constructor; [apply find_none; exact F | exact N].
Qed.
Lemma NoDup_erase (m : tab) k : NoDup (map fst m) -> NoDup (map fst (t_erase keq k m)).
Proof.
  unfold t_erase. induction m as [|[a b] m IH]; cbn; intros N; [constructor|]. inversion N as [|? ? N1 N2]; subst. destruct (negb (keq a k)); cbn; [|auto]. constructor; [|auto].
  intros I. apply N1. apply in_map_iff in I. destruct I as (x & <- & I). apply filter_In in I. apply in_map. tauto.
Qed.

(** ** Who writes which keys *)
(** [owner k = Some t]: only thread [t] changes the key [k]; [None]: anyone may put. *)
Context (owner : K -> option nat).
Definition allowed (t : nat) (c : @call K V) : Prop :=
  match c with
  | Get _ | GetOrDefault _ _ | ContainsKey _ | ContainsValue _ => True
  | Put k _ => owner k = None \/ owner k = Some t
  | PutIfAbsent k _ | Remove k | RemoveIf k _ => owner k = Some t
  | Clear => forall k, owner k = None
  | Size => False
  end.
Definition mid (c : @call K V) (b : body) (m : tab) : Prop :=
  match c with
  | PutIfAbsent k v => find k m = None /\ b = Act (fun m' => (t_assign keq k v m', Ret (RVal (Ok v))))
  | Remove k => exists v, find k m = Some v /\ b = Act (fun m' => (t_erase keq k m', Ret (RVal (Ok v))))
  | RemoveIf k v => find k m = Some v /\ b = Act (fun m' => (t_erase keq k m', Ret (RBool true)))
  | _ => False
  end.
Definition related (t : nat) (b : body) (x : @status (@call K V) reply) (m : tab) : Prop :=
  match x with
  | NoCall => False
  | Called c => allowed t c /\ (b = cd c \/ mid c b m)
  | Answered r => b = Ret r
  end.
Definition agree (m : tab) (s : K -> option V) : Prop := forall k, find k m = s k.
Definition sim (m0 : tab) (c : config) : Prop := exists s f,
  atomic jv (fun k => find k m0) (history c) s f /\ agree (table_of c) s /\ NoDup (map fst (table_of c)) /\
  forall t, match nth_error (threads c) t with
            | Some (Between, r) => Forall (allowed t) r /\ f t = NoCall
            | Some (Within b, r) => Forall (allowed t) r /\ related t b (f t) (table_of c)
            | None => f t = NoCall
            end.

(** What an access of an allowed call does: it is a read after which the call goes on, or its effect. *)
Lemma act_ok t c f m m' b s : allowed t c -> (cd c = Act f \/ mid c (Act f) m) -> f m = (m', b) -> agree m s -> NoDup (map fst m) ->
  NoDup (map fst m') /\ (forall k, owner k <> None -> owner k <> Some t -> find k m' = find k m) /\
  ((m' = m /\ mid c b m) \/ exists r, b = Ret r /\ exists s', jv s c s' r /\ agree m' s').
Proof.
  intros AL H E AG ND.
  assert (SAME : forall r, jv s c s r -> NoDup (map fst m) /\ (forall k, owner k <> None -> owner k <> Some t -> find k m = find k m) /\ ((m = m /\ mid c (Ret r) m) \/ exists r0, @Ret K V r = Ret r0 /\ exists s', jv s c s' r0 /\ agree m s')).
  { intros r J. split; [exact ND|]. split; [reflexivity|]. right. exists r. split; [reflexivity|]. exists s. auto. }
  assert (CH : forall m2 r, NoDup (map fst m2) -> (forall k, owner k <> None -> owner k <> Some t -> find k m2 = find k m) -> jv s c (fun k => find k m2) r ->
     NoDup (map fst m2) /\ (forall k, owner k <> None -> owner k <> Some t -> find k m2 = find k m) /\ ((m2 = m /\ mid c (Ret r) m) \/ exists r0, @Ret K V r = Ret r0 /\ exists s', jv s c s' r0 /\ agree m2 s')).
  { intros m2 r N2 O2 J. split; [exact N2|]. split; [exact O2|]. right. exists r. split; [reflexivity|]. exists (fun k => find k m2). split; [exact J | intros k; reflexivity]. }
  destruct c as [k|k d|k|v|k v|k v|k|k v| |]; cbn [code] in H; cbn [allowed] in AL; unfold cd in H.
  - destruct H as [[= <-]|[]]. injection E as <- <-. apply SAME. split; [intros ?; reflexivity|]. fold (find k m). rewrite (AG k). reflexivity.
  - destruct H as [[= <-]|[]]. injection E as <- <-. apply SAME. split; [intros ?; reflexivity|]. fold (find k m). rewrite (AG k). reflexivity.
  - destruct H as [[= <-]|[]]. injection E as <- <-. apply SAME. split; [intros ?; reflexivity|]. fold (find k m). rewrite (AG k). eexists. split; [reflexivity|]. destruct (s k); split; congruence.
  - destruct H as [[= <-]|[]]. injection E as <- <-. apply SAME. split; [intros ?; reflexivity|]. eexists. split; [reflexivity|]. rewrite existsb_exists. split.
    + intros ([k w] & I & X). cbn in X. apply VEQ in X. subst w. exists k. rewrite <- AG. apply in_find; assumption.
    + intros (k & X). rewrite <- AG in X. exists (k, v). split; [apply find_in; exact X | apply VEQ; reflexivity].
  - destruct H as [[= <-]|[]]. injection E as <- <-. apply CH; [apply NoDup_assign; exact ND | |].
    + intros k' O1 O2. rewrite find_assign, keq_neq; [reflexivity|]. intros <-. destruct AL; contradiction.
    + split; [split|reflexivity]; [rewrite find_assign, keq_refl; reflexivity|]. intros k' N. rewrite find_assign, keq_neq by congruence. apply AG.
  - destruct H as [[= <-]|(F & [= ->])]; injection E as <- <-.
    + fold (find k m). destruct (find k m) as [w|] eqn:F; [apply SAME; cbn; rewrite <- (AG k), F; split; [intros ?; reflexivity|reflexivity]|].
      split; [exact ND|]. split; [reflexivity|]. left. split; [reflexivity|]. cbn. auto.
    + apply CH; [apply NoDup_assign; exact ND | |].
      * intros k' O1 O2. rewrite find_assign, keq_neq; [reflexivity|]. intros <-. contradiction.
      * cbn. rewrite <- (AG k), F. split; [split|reflexivity]; [rewrite find_assign, keq_refl; reflexivity|]. intros k' N. rewrite find_assign, keq_neq by congruence. apply AG.
  - destruct H as [[= <-]|(v & F & [= ->])]; injection E as <- <-.
    + fold (find k m). destruct (find k m) as [w|] eqn:F.
      * split; [exact ND|]. split; [reflexivity|]. left. split; [reflexivity|]. cbn. exists w. auto.
      * apply SAME. cbn. rewrite <- (AG k), F. split; [split; [rewrite <- AG; exact F|reflexivity] | reflexivity].
    + apply CH; [apply NoDup_erase; exact ND | |].
      * intros k' O1 O2. rewrite find_erase, keq_neq; [reflexivity|]. intros <-. contradiction.
      * cbn. rewrite <- (AG k), F. split; [split|reflexivity]; [rewrite find_erase, keq_refl; reflexivity|]. intros k' N. rewrite find_erase, keq_neq by congruence. apply AG.
  - destruct H as [[= <-]|(F & [= ->])]; injection E as <- <-.
    + fold (find k m). destruct (find k m) as [w|] eqn:F.
      * destruct (veq w v) eqn:X.
        -- apply VEQ in X. subst w. split; [exact ND|]. split; [reflexivity|]. left. split; [reflexivity|]. cbn. auto.
        -- apply SAME. right. rewrite <- (AG k), F. split; [|split; [intros ?; reflexivity|reflexivity]]. intros [= ->]. rewrite (proj2 (VEQ v v) eq_refl) in X. discriminate.
      * apply SAME. right. rewrite <- (AG k), F. split; [discriminate | split; [intros ?; reflexivity|reflexivity]].
    + apply CH; [apply NoDup_erase; exact ND | |].
      * intros k' O1 O2. rewrite find_erase, keq_neq; [reflexivity|]. intros <-. contradiction.
      * left. rewrite <- (AG k). split; [exact F|]. split; [split|reflexivity]; [rewrite find_erase, keq_refl; reflexivity|]. intros k' N. rewrite find_erase, keq_neq by congruence. apply AG.
  - destruct H as [[= <-]|[]]. injection E as <- <-. apply CH; [constructor | |].
    + intros k' O1. rewrite AL in O1. contradiction.
    + split; [intros k; reflexivity|reflexivity].
  - contradiction.
Qed.
Lemma cd_not_ret t c r : allowed t c -> cd c <> Ret r.
Proof. destruct c; cbn; intros A; try discriminate. contradiction. Qed.

Lemma sim_step m0 t c c' : sim m0 c -> step keq veq dflt stripes stripe t c c' -> sim m0 c'.
Proof.
  intros (s & f & AT & AG & ND & TH) ST. destruct ST as [c r cf E|g r m b cf E G|x r cf E]; pose proof (TH t) as Tt; rewrite E in Tt.
  - destruct Tt as (AL & F). exists s, (set_status f t (Called c)). split; [|split; [exact AG|split; [exact ND|]]].
    + eapply at_call; [exact AT | exact F | intros; reflexivity].
    + intros u. cbn [threads table_of]. rewrite (nth_upd _ _ _ _ _ E). unfold set_status. destruct (Nat.eqb_spec u t) as [->|N].
      * inversion AL; subst. split; [assumption|]. cbn. auto.
      * exact (TH u).
  - destruct Tt as (AL & REL). destruct (f t) as [|c|y] eqn:F; cbn in REL; [contradiction| |discriminate]. destruct REL as (AC & REL).
    assert (REL' : cd c = Act g \/ mid c (Act g) (table_of cf)) by (destruct REL; auto).
    destruct (act_ok t c g (table_of cf) m b s AC REL' G AG ND) as (ND' & OTHER & [(-> & M)|(y & -> & s' & J & AG')]).
    + exists s, f. split; [exact AT|]. split; [exact AG|]. split; [exact ND|]. intros u. cbn [threads table_of]. rewrite (nth_upd _ _ _ _ _ E). destruct (Nat.eqb_spec u t) as [->|N]; [|exact (TH u)]. split; [exact AL|]. rewrite F. cbn. auto.
    + exists s', (set_status f t (Answered y)). split; [|split; [exact AG'|split; [exact ND'|]]].
      * eapply at_effect; [exact AT | exact F | exact J | intros; reflexivity].
      * intros u. cbn [threads table_of]. rewrite (nth_upd _ _ _ _ _ E). unfold set_status. destruct (Nat.eqb_spec u t) as [->|N]; [split; [exact AL|reflexivity]|].
        pose proof (TH u) as Tu. destruct (nth_error (threads cf) u) as [[[|b] r0]|]; [exact Tu| |exact Tu]. destruct Tu as (AU & RU). split; [exact AU|]. destruct (f u) as [|c0|]; cbn in *; auto. destruct RU as (A0 & [R0|R0]); split; auto. right.
        assert (OW : forall k, owner k = Some u -> find k m = find k (table_of cf)) by (intros k O; apply OTHER; congruence).
        destruct c0; cbn in R0 |- *; auto; cbn in A0; rewrite (OW _ A0); exact R0.
  - destruct Tt as (AL & REL). destruct (f t) as [|c|y] eqn:F; cbn in REL; [contradiction| |].
    + exfalso. destruct REL as (AC & [REL|REL]); [exact (cd_not_ret t c x AC (eq_sym REL))|]. destruct c; cbn in REL; try contradiction; [destruct REL; discriminate | destruct REL as (? & ? & ?); discriminate | destruct REL; discriminate].
    + injection REL as ->. exists s, (set_status f t NoCall). split; [|split; [exact AG|split; [exact ND|]]].
      * eapply at_return; [exact AT | exact F | intros; reflexivity].
      * intros u. cbn [threads table_of]. rewrite (nth_upd _ _ _ _ _ E). unfold set_status. destruct (Nat.eqb_spec u t) as [->|N]; [auto | exact (TH u)].
Qed.
Lemma sim_reach m0 programs c : NoDup (map fst m0) -> (forall t p, nth_error programs t = Some p -> Forall (allowed t) p) ->
  reach keq veq dflt stripes stripe (start m0 programs) c -> sim m0 c.
Proof.
  intros ND AL R. induction R as [|t c c' R IH ST]; [|eapply sim_step; eassumption]. exists (fun k => find k m0), (fun _ => NoCall). split; [apply at_start; reflexivity|]. split; [intros k; reflexivity|]. split; [exact ND|].
  intros t. cbn [start threads]. rewrite nth_error_map. destruct (nth_error programs t) eqn:E; cbn; [split; [eapply AL; eauto|reflexivity] | reflexivity].
Qed.

(** ** size *)
Lemma size_from_ok (m : tab) n : forall j s, run_body (size_from stripe j n s) m = (m, RSize (s + zlen (filter (fun p => (j <=? stripe (fst p))%nat && (stripe (fst p) <? j + n)%nat) m))).
Proof.
  induction n as [|n IH]; intros j s; cbn [size_from run_body].
  - do 2 f_equal. replace (filter _ m) with (@nil (K * V)); [cbn; lia|]. symmetry. induction m as [|x m IHm]; [reflexivity|]. cbn [filter]. rewrite IHm. destruct (Nat.leb_spec j (stripe (fst x))), (Nat.ltb_spec (stripe (fst x)) (j + 0)); cbn; auto; lia.
  - rewrite IH. do 2 f_equal. unfold t_counter. rewrite <- Z.add_assoc. f_equal. clear IH. induction m as [|x m IHm]; [reflexivity|]. cbn [filter].
    destruct (Nat.eqb_spec (stripe (fst x)) j), (Nat.leb_spec j (stripe (fst x))), (Nat.leb_spec (S j) (stripe (fst x))), (Nat.ltb_spec (stripe (fst x)) (S j + n)), (Nat.ltb_spec (stripe (fst x)) (j + S n)); cbn [andb]; rewrite ?zlen_cons; lia.
Qed.
End Proofs.
