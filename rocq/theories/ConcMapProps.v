(** C57: atomicity of ConcurrentHashMap. *)

From Coq Require Import ZArith List Lia Bool.
From Verif Require Import Base Bits TextLemmas ConcMapSpec ConcMapModel ConcMapJava ConcMapProofs.
Import ListNotations.
Open Scope Z_scope.

Section C57.
Context {K V : Type} (keq : K -> K -> bool) (veq : V -> V -> bool) (dflt : option V) (stripes : nat) (stripe : K -> nat).
Context (KEQ : forall a b, keq a b = true <-> a = b) (VEQ : forall a b, veq a b = true <-> a = b).

(** get, getOrDefault, containsKey, containsValue, put from any number of threads are atomic. The model has
    clear() as one step; in the program it is not (C106_clear_refuted), so no theorem here is about several
    threads one of which clears the map. *)
Theorem C57_linearizable : forall m0 programs c, NoDup (map fst m0) ->
  Forall (Forall (fun c => match c with Get _ | GetOrDefault _ _ | ContainsKey _ | ContainsValue _ | Put _ _ => True | _ => False end)) programs ->
  reach keq veq dflt stripes stripe (start m0 programs) c ->
  linearizable (java (dval dflt)) (fun k => t_find keq k m0) (history c).
Proof.
  intros m0 programs c ND F R. destruct (sim_reach keq veq dflt stripes stripe KEQ VEQ (fun _ => None) m0 programs c ND) as (s & f & A & _); [|exact R|exists s, f; exact A].
  intros t p E. rewrite Forall_forall in F. specialize (F p (nth_error_In _ _ E)). eapply Forall_impl; [|exact F]. intros x. destruct x; cbn; auto; contradiction.
Qed.
(** So are putIfAbsent and both forms of remove, as long as each key is changed by one thread only. *)
Theorem C57_single_writer_partial : forall owner m0 programs c, NoDup (map fst m0) ->
  (forall t p, nth_error programs t = Some p -> Forall (fun c => match c with
     | Get _ | GetOrDefault _ _ | ContainsKey _ | ContainsValue _ => True
     | Put k _ => owner k = None \/ owner k = Some t
     | PutIfAbsent k _ | Remove k | RemoveIf k _ => owner k = Some t
     | Clear | Size => False end) p) ->
  reach keq veq dflt stripes stripe (start m0 programs) c ->
  linearizable (java (dval dflt)) (fun k => t_find keq k m0) (history c).
Proof.
  intros owner m0 programs c ND F R. destruct (sim_reach keq veq dflt stripes stripe KEQ VEQ owner m0 programs c ND) as (s & f & A & _); [|exact R|exists s, f; exact A].
  intros t p E. eapply Forall_impl; [|exact (F t p E)]. intros x. destruct x; cbn; auto; contradiction.
Qed.
(** In a finished run, the table is that of a sequential order of the calls. *)
Theorem C57_final_table : forall owner m0 programs c, NoDup (map fst m0) ->
  (forall t p, nth_error programs t = Some p -> Forall (fun x => x <> Clear /\ allowed owner t x) p) ->
  reach keq veq dflt stripes stripe (start m0 programs) c -> finished c ->
  exists s f, atomic (java (dval dflt)) (fun k => t_find keq k m0) (history c) s f /\ (forall t, f t = NoCall) /\ forall k, t_find keq k (table_of c) = s k.
Proof.
  intros owner m0 programs c ND F R FI. destruct (sim_reach keq veq dflt stripes stripe KEQ VEQ owner m0 programs c ND (fun t p E => Forall_impl _ (fun x H => proj2 H) (F t p E)) R) as (s & f & A & AG & _ & TH). exists s, f. split; [exact A|]. split; [|exact AG].
  intros t. specialize (TH t). destruct (nth_error (threads c) t) as [[b r]|] eqn:E; [|exact TH]. unfold finished in FI. rewrite Forall_forall in FI. specialize (FI _ (nth_error_In _ _ E)). injection FI as -> ->. tauto.
Qed.
(** A call that runs alone does what Java's does (size included). *)
Theorem C57_sequential : forall m c m' r, NoDup (map fst m) -> (forall k, (stripe k < stripes)%nat) ->
  run_body (code keq veq dflt stripes stripe c) m = (m', r) -> java (dval dflt) (fun k => t_find keq k m) c (fun k => t_find keq k m') r /\ NoDup (map fst m').
Proof.
  intros m c m' r ND ST E. set (s := fun k => t_find keq k m).
  assert (MK : allowed (K := K) (V := V) (fun k => match c with PutIfAbsent k' _ | Remove k' | RemoveIf k' _ => if keq k k' then Some O else None | _ => None end) O c \/ c = Size).
  { destruct c; cbn; auto; left; rewrite (keq_refl keq KEQ); reflexivity. }
  destruct MK as [AL| ->].
  - assert (ND0 : forall (a b : @table K V) x, (forall k, t_find keq k b = x k) -> java (dval dflt) s c x r -> java (dval dflt) s c (fun k => t_find keq k b) r).
    { intros a b x AG. assert (S1 : same s x -> same s (fun k => t_find keq k b)) by (intros S k; rewrite AG; apply S). assert (S2 : forall k o, changed s x k o -> changed s (fun k => t_find keq k b) k o) by (intros k o (C1 & C2); split; [rewrite AG; exact C1 | intros; rewrite AG; auto]).
      destruct c; cbn [java]; try (intros (J1 & J2); auto; fail).
      - destruct (s k); intros (J1 & J2); auto.
      - intros [(J1 & J2 & J3)|(J1 & J2 & J3)]; [left; auto|right; auto].
      - intros (J1 & J2). split; [intros; rewrite AG; auto|auto]. }
    assert (A1 : exists g, code keq veq dflt stripes stripe c = Act g) by (destruct c; cbn; eauto; destruct AL). destruct A1 as (g & G). rewrite G in E. cbn [run_body] in E. destruct (g m) as [m1 b1] eqn:GM.
    destruct (act_ok keq veq dflt stripes stripe KEQ VEQ _ O c g m m1 b1 s AL (or_introl G) GM (fun k => eq_refl) ND) as (ND1 & _ & [(-> & M)|(y & -> & s' & J & AG)]).
    + assert (A2 : exists g2, b1 = Act g2) by (destruct c; cbn in M; try contradiction; [destruct M as (_ & ->) | destruct M as (? & _ & ->) | destruct M as (_ & ->)]; eauto). destruct A2 as (g2 & ->). cbn [run_body] in E. destruct (g2 m) as [m2 b2] eqn:GM2.
      destruct (act_ok keq veq dflt stripes stripe KEQ VEQ _ O c g2 m m2 b2 s AL (or_intror M) GM2 (fun k => eq_refl) ND) as (ND2 & _ & [(-> & M2)|(y & -> & s' & J & AG)]).
      * exfalso. destruct c; cbn in M, M2; try contradiction.
        -- destruct M as (_ & M). injection M as ->. injection GM2 as E1 E2. destruct M2 as (_ & M2). rewrite M2 in E2. discriminate.
        -- destruct M as (v & _ & M). injection M as ->. injection GM2 as E1 E2. destruct M2 as (? & _ & M2). rewrite M2 in E2. discriminate.
        -- destruct M as (_ & M). injection M as ->. injection GM2 as E1 E2. destruct M2 as (_ & M2). rewrite M2 in E2. discriminate.
      * cbn in E. injection E as <- <-. split; [apply (ND0 m m2 s'); assumption | exact ND2].
    + cbn in E. injection E as <- <-. split; [apply (ND0 m m1 s'); assumption | exact ND1].
  - cbn [code] in E. rewrite size_from_ok in E. injection E as <- <-. split; [|exact ND]. cbn. split; [intros ?; reflexivity|]. exists (map fst m). split; [exact ND|]. split.
    + intros k. unfold s. destruct (t_find keq k m) eqn:F; [|apply (find_none keq KEQ) in F; split; [contradiction|congruence]]. split; [discriminate|]. intros _. apply (find_in keq KEQ) in F. apply in_map_iff. exists (k, v). auto.
    + rewrite zlen_map. do 2 f_equal. clear - ST. induction m as [|x m IH]; [reflexivity|]. cbn [filter]. rewrite IH. specialize (ST (fst x)). destruct stripes as [|n]; [lia|]. destruct (Nat.leb_spec (stripe (fst x)) n); [reflexivity|lia].
Qed.
End C57.
Print Assumptions C57_linearizable.
Print Assumptions C57_single_writer_partial.
Print Assumptions C57_final_table.
Print Assumptions C57_sequential.

(** ** Counterexamples: integer keys and values, two stripes *)
Definition zc := @config Z Z.
Lemma exec1_step (t : nat) (c c' : zc) d n s : exec1 Z.eqb Z.eqb d n s t c = Some c' -> step Z.eqb Z.eqb d n s t c c'.
Proof.
  unfold exec1. destruct (nth_error (threads c) t) as [[[|[x|f]] [|o r]]|] eqn:E; intros H; try discriminate.
  - injection H as <-. constructor. exact E.
  - injection H as <-. apply s_return. exact E.
  - injection H as <-. apply s_return. exact E.
  - destruct (f (table_of c)) as [m b] eqn:F. injection H as <-. eapply s_act; eauto.
  - destruct (f (table_of c)) as [m b] eqn:F. injection H as <-. eapply s_act; eauto.
Qed.
Lemma exec_reach d n s : forall l (c0 c c' : zc), reach Z.eqb Z.eqb d n s c0 c -> exec Z.eqb Z.eqb d n s l c = Some c' -> reach Z.eqb Z.eqb d n s c0 c'.
Proof.
  induction l as [|t l IH]; intros c0 c c' R E; cbn in E; [congruence|]. destruct (exec1 _ _ _ _ _ t c) as [c1|] eqn:X; [|discriminate]. eapply IH; [|exact E]. eapply reach_step; [exact R|]. apply exec1_step. exact X.
Qed.
Definition str2 (k : Z) : nat := if Z.even k then 0%nat else 1%nat.
Ltac conc d m progs acts :=
  let r := eval vm_compute in (exec Z.eqb Z.eqb d 2 str2 acts (start m progs)) in
  match r with Some ?c => exists c; split; [apply (exec_reach d 2 str2 acts _ _ _ (reach_0 _ _ _ _ _ _)); vm_compute; reflexivity|] end.

(** Two concurrent putIfAbsent on an absent key: both insert, both say so, the second overwrites the first. *)
Theorem C57_putIfAbsent_refuted : exists c, reach Z.eqb Z.eqb (Some 0) 2 str2 (start [] [[PutIfAbsent 1 10]; [PutIfAbsent 1 20]]) c /\ finished c /\
  history c = [Inv 0 (PutIfAbsent 1 10); Inv 1 (PutIfAbsent 1 20); Res 0 (RVal (Ok 10)); Res 1 (RVal (Ok 20))] /\
  t_find Z.eqb 1 (table_of c) = Some 20 /\ ~ linearizable (java (dval (Some 0))) (fun k => t_find Z.eqb k []) (history c).
Proof.
  conc (Some 0) (@nil (Z * Z)) [[PutIfAbsent 1 10]; [PutIfAbsent 1 20]] [0; 1; 0; 1; 0; 0; 1; 1]%nat.
  split; [repeat constructor|]. split; [reflexivity|]. split; [reflexivity|]. cbn [history]. intros (s & f & A).
  assert (K : forall s0 h s f, atomic (call := @call Z Z) (reply := reply) (java (dval (Some 0))) s0 h s f -> (forall k, s0 k = None) -> Forall (fun e => match e with Inv _ c => exists v, c = PutIfAbsent 1 v | Res _ _ => True end) h ->
     (forall t c, f t = Called c -> exists v, c = PutIfAbsent 1 v) /\
     exists o, s 1 = o /\ forall t r, (f t = Answered r \/ In (Res t r) h) -> exists w, o = Some w /\ r = RVal (Ok w)).
  { clear. intros s0 h s f A Z0. induction A as [f F|h s f t c f' A IH F EX|h s f t c f' s' r A IH F J EX|h s f t r f' A IH F EX]; intros H.
    - split; [intros t c E; rewrite F in E; discriminate|]. exists None. split; [apply Z0|]. intros t r [E|[]]. rewrite F in E. discriminate.
    - apply Forall_app in H. destruct H as (H1 & H2). destruct (IH H1) as (I1 & o & I2 & I3). split.
      + intros u c0. rewrite EX. unfold set_status. destruct (Nat.eqb u t); [|apply I1]. intros [= <-]. inversion H2; assumption.
      + exists o. split; [exact I2|]. intros u r. rewrite EX, in_app_iff. unfold set_status. intros [E|[E|[E|[]]]]; [|apply (I3 u); auto|discriminate]. destruct (Nat.eqb u t); [discriminate|]. apply (I3 u). auto.
    - destruct (IH H) as (I1 & o & I2 & I3). split.
      + intros u c0. rewrite EX. unfold set_status. destruct (Nat.eqb u t); [discriminate|apply I1].
      + destruct (I1 _ _ F) as (v & ->). cbn in J. rewrite I2 in J. destruct o as [w|].
        * destruct J as (SM & ->). exists (Some w). split; [rewrite <- SM; exact I2|]. intros u r. rewrite EX. unfold set_status. intros [E|E]; [|apply (I3 u); auto]. destruct (Nat.eqb u t); [injection E as <-; eauto | apply (I3 u); auto].
        * destruct J as ((C1 & C2) & ->). exists (Some v). split; [exact C1|]. intros u r. rewrite EX. unfold set_status. intros [E|E].
          -- destruct (Nat.eqb u t); [injection E as <-; eauto|]. destruct (I3 u r) as (w & X & _); [auto|discriminate].
          -- destruct (I3 u r) as (w & X & _); [auto|discriminate].
    - apply Forall_app in H. destruct H as (H1 & H2). destruct (IH H1) as (I1 & o & I2 & I3). split.
      + intros u c0. rewrite EX. unfold set_status. destruct (Nat.eqb u t); [discriminate|apply I1].
      + exists o. split; [exact I2|]. intros u r0. rewrite EX, in_app_iff. unfold set_status. intros [E|[E|[E|[]]]].
        * destruct (Nat.eqb u t); [discriminate|]. apply (I3 u). auto.
        * apply (I3 u). auto.
        * injection E as <- <-. apply (I3 t). auto. }
  destruct (K _ _ _ _ A (fun _ => eq_refl)) as (_ & o & _ & I3); [repeat (constructor; eauto)|].
  destruct (I3 0%nat (RVal (Ok 10))) as (w & E1 & E2); [cbn; auto 10|]. destruct (I3 1%nat (RVal (Ok 20))) as (w' & E3 & E4); [cbn; auto 10|]. congruence.
Qed.
Print Assumptions C57_putIfAbsent_refuted.
(** Two concurrent removes of one key both return its value. *)
Theorem C57_remove_refuted : exists c, reach Z.eqb Z.eqb (Some 0) 2 str2 (start [(1, 10)] [[Remove 1]; [Remove 1]]) c /\ finished c /\
  history c = [Inv 0 (Remove 1); Inv 1 (Remove 1); Res 0 (RVal (Ok 10)); Res 1 (RVal (Ok 10))] /\
  ~ linearizable (java (dval (Some 0))) (fun k => t_find Z.eqb k [(1, 10)]) (history c).
Proof.
  conc (Some 0) [(1, 10)] [[Remove 1]; [@Remove Z Z 1]] [0; 1; 0; 1; 0; 0; 1; 1]%nat.
  split; [repeat constructor|]. split; [reflexivity|]. cbn [history]. intros (s & f & A).
  assert (K : forall s0 h s f, atomic (call := @call Z Z) (reply := reply) (java (dval (Some 0))) s0 h s f -> s0 1 = Some 10 -> Forall (fun e => match e with Inv _ c => c = Remove 1 | Res _ _ => True end) h ->
     (forall t c, f t = Called c -> c = Remove 1) /\
     ((s 1 = Some 10 /\ forall t r, (f t = Answered r \/ In (Res t r) h) -> False) \/
      (s 1 = None /\ exists t0, forall t r, (f t = Answered r \/ In (Res t r) h) -> r = RVal (Ok 10) -> t = t0))).
  { clear. intros s0 h s f A Z0. induction A as [f F|h s f t c f' A IH F EX|h s f t c f' s' r A IH F J EX|h s f t r f' A IH F EX]; intros H.
    - split; [intros t c E; rewrite F in E; discriminate|]. left. split; [exact Z0|]. intros t r [E|[]]. rewrite F in E. discriminate.
    - apply Forall_app in H. destruct H as (H1 & H2). destruct (IH H1) as (I1 & I2). split.
      + intros u c0. rewrite EX. unfold set_status. destruct (Nat.eqb u t); [|apply I1]. intros [= <-]. inversion H2; assumption.
      + assert (Y : forall u r, f' u = Answered r \/ In (Res u r) (h ++ [Inv t c]) -> f u = Answered r \/ In (Res u r) h).
        { intros u r. rewrite EX, in_app_iff. unfold set_status. intros [E|[E|[E|[]]]]; [|auto|discriminate]. destruct (Nat.eqb u t); [discriminate|auto]. }
        destruct I2 as [(I2 & I3)|(I2 & t0 & I3)]; [left; split; [exact I2|]; intros u r X; apply (I3 u r); auto | right; split; [exact I2|]; exists t0; intros u r X; apply (I3 u r); auto].
    - destruct (IH H) as (I1 & I2). split.
      + intros u c0. rewrite EX. unfold set_status. destruct (Nat.eqb u t); [discriminate|apply I1].
      + rewrite (I1 _ _ F) in J. cbn in J. destruct J as ((C1 & C2) & ->). right. split; [exact C1|]. destruct I2 as [(I2 & I3)|(I2 & t0 & I3)].
        * exists t. intros u r. rewrite EX. unfold set_status. destruct (Nat.eqb_spec u t) as [->|N]; [auto|]. intros X _. destruct (I3 u r X).
        * exists t0. intros u r. rewrite EX. unfold set_status. rewrite I2. cbn. intros [E|E] R; [|apply (I3 u r); auto]. destruct (Nat.eqb u t); [subst r; discriminate|]. apply (I3 u r); auto.
    - apply Forall_app in H. destruct H as (H1 & H2). destruct (IH H1) as (I1 & I2). split.
      + intros u c0. rewrite EX. unfold set_status. destruct (Nat.eqb u t); [discriminate|apply I1].
      + assert (Y : forall u r0, f' u = Answered r0 \/ In (Res u r0) (h ++ [Res t r]) -> f u = Answered r0 \/ In (Res u r0) h).
        { intros u r0. rewrite EX, in_app_iff. unfold set_status. intros [E|[E|[E|[]]]]; [destruct (Nat.eqb u t); [discriminate|auto] | auto | injection E as <- <-; auto]. }
        destruct I2 as [(I2 & I3)|(I2 & t0 & I3)]; [left; split; [exact I2|]; intros u r0 X; apply (I3 u r0); auto | right; split; [exact I2|]; exists t0; intros u r0 X; apply (I3 u r0); auto]. }
  destruct (K _ _ _ _ A eq_refl) as (_ & [(_ & I3)|(_ & t0 & I3)]); [repeat (constructor; eauto)| |].
  - apply (I3 0%nat (RVal (Ok 10))). cbn. auto 10.
  - assert (E0 : 0%nat = t0) by (apply (I3 0%nat (RVal (Ok 10))); [cbn; auto 10|reflexivity]). assert (E1 : 1%nat = t0) by (apply (I3 1%nat (RVal (Ok 10))); [cbn; auto 10|reflexivity]). congruence.
Qed.
Print Assumptions C57_remove_refuted.
(** remove(key, value) may remove another value, put meanwhile: the update is lost.  In either order of the
    two calls the key would have had the new value in the end. *)
Theorem C57_removeIf_refuted : exists c, reach Z.eqb Z.eqb (Some 0) 2 str2 (start [(1, 10)] [[RemoveIf 1 10]; [Put 1 20]]) c /\ finished c /\
  In (Res 0 (RBool true)) (history c) /\ t_find Z.eqb 1 (table_of c) = None /\
  forall s1 s2 r1 r2, (forall k, s1 k = t_find Z.eqb k [(1, 10)]) ->
    (forall s, java (dval (Some 0)) s1 (RemoveIf 1 10) s r1 -> java (dval (Some 0)) s (Put 1 20) s2 r2 -> s2 1 = Some 20) /\
    (forall s, java (dval (Some 0)) s1 (Put 1 20) s r2 -> java (dval (Some 0)) s (RemoveIf 1 10) s2 r1 -> s2 1 = Some 20).
Proof.
  conc (Some 0) [(1, 10)] [[RemoveIf 1 10]; [Put 1 20]] [0; 0; 1; 1; 1; 0; 0]%nat.
  split; [repeat constructor|]. split; [cbn; auto 10|]. split; [reflexivity|]. intros s1 s2 r1 r2 S1. split.
  - intros s _ ((C & _) & _). exact C.
  - intros s ((C & _) & _) [(X & _)|(_ & X & _)]; [congruence | rewrite <- X; exact C].
Qed.
Print Assumptions C57_removeIf_refuted.
(** size may return a number of keys that the map never had: it had at most one. *)
Theorem C57_size_refuted : exists c, reach Z.eqb Z.eqb (Some 0) 2 str2 (start [(0, 5)] [[Size]; [Remove 0; Put 1 6]]) c /\ finished c /\ In (Res 0 (RSize 2)) (history c).
Proof.
  conc (Some 0) [(0, 5)] [[Size]; [Remove 0; Put 1 6]] [0; 0; 1; 1; 1; 1; 1; 1; 1; 0; 0]%nat. split; [repeat constructor|cbn; auto 10].
Qed.
Print Assumptions C57_size_refuted.
(** get and remove of an absent key in a map of scalars return an indeterminate value. *)
Theorem C57_get_scalar_refuted : forall k : Z, run_body (code Z.eqb Z.eqb None 2 str2 (Get k)) [] = ([], RVal (UB Uninitialised)) /\ run_body (code Z.eqb Z.eqb None 2 str2 (Remove k)) [] = ([], RVal (UB Uninitialised)).
Proof. intros k. split; reflexivity. Qed.
Print Assumptions C57_get_scalar_refuted.
Example C57_ex : exists c, reach Z.eqb Z.eqb (Some 0) 2 str2 (start [(0, 5)] [[Put 1 7; Get 0]; [Get 1; ContainsValue 7]]) c /\ finished c /\
  history c = [Inv 0 (Put 1 7); Inv 1 (Get 1); Res 0 RVoid; Res 1 (RVal (Ok 7)); Inv 0 (Get 0); Inv 1 (ContainsValue 7); Res 0 (RVal (Ok 5)); Res 1 (RBool true)].
Proof. conc (Some 0) [(0, 5)] [[Put 1 7; Get 0]; [Get 1; ContainsValue 7]] [0; 1; 0; 1; 0; 1; 0; 1; 0; 1; 0; 1]%nat. split; [repeat constructor|reflexivity]. Qed.
