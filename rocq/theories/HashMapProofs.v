(** Proofs about HashMapModel.v. *)

From Coq Require Import ZArith List Lia Bool Permutation.
From Verif Require Import Base Bits TextLemmas HashMapSpec HashMapModel.
Import ListNotations.
Open Scope Z_scope.

Section P.
Context {K V : Type} (K_dec : forall a b : K, {a = b} + {a <> b}) (V_dec : forall a b : V, {a = b} + {a <> b}).
Context (keq : K -> K -> bool) (veq : V -> V -> bool) (dflt : option V) (reorder : list (K * V) -> list (K * V)).
Context (Hk : forall a b, keq a b = true <-> a = b) (Hv : forall a b, veq a b = true <-> a = b).
Context (Hr : forall l, Permutation l (reorder l)).
Notation find := (um_find keq).
Definition wf (m : list (K * V)) : Prop := NoDup (map fst m).

Lemma keq_refl k : keq k k = true.
Proof using Hk. apply Hk; auto. Qed.
Lemma keq_neq a b : a <> b -> keq a b = false.
Proof using Hk. intros. destruct (keq a b) eqn:E; auto. apply Hk in E. congruence. Qed.

Lemma find_In m k v : wf m -> find k m = Some v <-> In (k, v) m.
Proof using Hk.
  unfold wf. induction m as [|(k', v') m IH]; cbn; intros N; [split; [discriminate|tauto]|]. inversion N as [|? ? N1 N2]; subst. destruct (keq k' k) eqn:E.
  - apply Hk in E. subst. split; [intros H; injection H as ->; auto|]. intros [H|H]; [congruence|]. exfalso. apply N1. apply in_map_iff. exists (k, v). auto.
  - rewrite (IH N2). split; auto. intros [H|H]; auto. injection H as -> ->. rewrite keq_refl in E. discriminate.
Qed.
Lemma find_None (m : list (K * V)) k : find k m = None <-> ~ In k (map fst m).
Proof using Hk.
  induction m as [|(k', v') m IH]; cbn; [tauto|]. destruct (keq k' k) eqn:E.
  - apply Hk in E. split; [discriminate|]. intros H. exfalso. apply H. auto.
  - rewrite IH. split; [|tauto]. intros H [H1|H1]; auto. subst. rewrite keq_refl in E. discriminate.
Qed.
Lemma wf_perm m m' : Permutation m m' -> wf m -> wf m'.
Proof using. unfold wf. intros P N. apply (Permutation_NoDup (Permutation_map fst P) N). Qed.
Lemma find_perm m m' k : wf m -> Permutation m m' -> find k m' = find k m.
Proof using Hk.
  intros W P. pose proof (wf_perm _ _ P W) as W'. destruct (find k m) eqn:E.
  - apply find_In; auto. apply find_In in E; auto. eapply Permutation_in; eauto.
  - apply find_None. apply find_None in E. intros H. apply E. eapply Permutation_in; [apply Permutation_sym, (Permutation_map fst P)|auto].
Qed.

Lemma wf_add m k v : wf m -> find k m = None -> wf (reorder ((k, v) :: m)).
Proof using Hk Hr. intros W F. apply (wf_perm ((k, v) :: m)); auto. unfold wf. cbn. constructor; auto. apply find_None; auto. Qed.
Lemma find_add m k v k' : wf m -> find k m = None -> find k' (reorder ((k, v) :: m)) = set_at K_dec (fun x => find x m) k (Some v) k'.
Proof using Hk Hr.
  intros W F. rewrite (find_perm ((k, v) :: m)); auto. 2: { unfold wf. cbn. constructor; auto. apply find_None; auto. }
  cbn. unfold set_at. destruct (K_dec k k') as [->|N]; [now rewrite keq_refl|now rewrite keq_neq].
Qed.
Lemma map_upd_keys k v m : map fst (map (fun p : K * V => if keq (fst p) k then (fst p, v) else p) m) = map fst m.
Proof using. induction m as [|(k', v') m IH]; cbn; auto. rewrite IH. destruct (keq k' k); auto. Qed.
Lemma wf_assign m k v : wf m -> wf (um_assign keq reorder k v m).
Proof using Hk Hr.
  intros W. unfold um_assign. destruct (find k m) eqn:E; [|now apply wf_add]. unfold wf. now rewrite map_upd_keys.
Qed.
Lemma find_assign m k v k' : wf m -> find k' (um_assign keq reorder k v m) = set_at K_dec (fun x => find x m) k (Some v) k'.
Proof using Hk Hr.
  intros W. unfold um_assign. destruct (find k m) eqn:E; [|now apply find_add]. clear W. revert E. unfold set_at. induction m as [|(k1, v1) m IH]; cbn; [discriminate|].
  destruct (keq k1 k) eqn:E1; intros E; cbn.
  - apply Hk in E1. subst. destruct (K_dec k k') as [->|N]; [now rewrite keq_refl|]. rewrite keq_neq by auto. clear IH E.
    induction m as [|(k2, v2) m IH2]; cbn; auto. destruct (keq k2 k) eqn:E2; cbn; [|destruct (keq k2 k'); auto]. apply Hk in E2. subst. rewrite keq_neq by auto. auto.
  - destruct (keq k1 k') eqn:E3; cbn; [|auto]. apply Hk in E3. subst. destruct (K_dec k k') as [->|N]; auto. rewrite keq_refl in E1. discriminate.
Qed.
Lemma wf_erase m k : wf m -> wf (um_erase keq k m).
Proof using.
  unfold wf, um_erase. induction m as [|(k', v') m IH]; cbn; auto. intros N. inversion N as [|? ? N1 N2]; subst. destruct (negb _); auto. cbn. constructor; auto.
  intros H. apply N1. apply in_map_iff in H. destruct H as (p & E & I). apply filter_In in I. apply in_map_iff. exists p. tauto.
Qed.
Lemma find_erase (m : list (K * V)) k k' : find k' (um_erase keq k m) = set_at K_dec (fun x => find x m) k None k'.
Proof using Hk.
  unfold um_erase, set_at. induction m as [|(k1, v1) m IH]; cbn; [destruct (K_dec k k'); auto|].
  destruct (keq k1 k) eqn:E1; cbn; rewrite IH.
  - apply Hk in E1. subst. destruct (K_dec k k') as [->|N]; auto. rewrite keq_neq; auto.
  - destruct (keq k1 k') eqn:E3; [|auto]. apply Hk in E3. subst. destruct (K_dec k k') as [->|N]; auto. rewrite keq_refl in E1. discriminate.
Qed.
Lemma find_put m k v k' : wf m -> find k' (put keq reorder m k v) = match find k m with Some _ => find k' m | None => set_at K_dec (fun x => find x m) k (Some v) k' end.
Proof using Hk Hr. intros W. unfold put, um_insert. destruct (find k m) eqn:E; auto. now apply find_add. Qed.
Lemma wf_put m k v : wf m -> wf (put keq reorder m k v).
Proof using Hk Hr. intros W. unfold put, um_insert. destruct (find k m) eqn:E; auto. now apply wf_add. Qed.
Lemma putAll_ok l : forall m, wf m -> wf (putAll keq reorder m l) /\
  forall k, find k (putAll keq reorder m l) = match find k m with Some v => Some v | None => find k l end.
Proof using Hk Hr K_dec.
  unfold putAll. induction l as [|(k1, v1) l IH]; cbn; intros m W; [split; auto; intros; destruct (find k m); auto|].
  destruct (IH _ (wf_put m k1 v1 W)) as (W1 & F). split; auto. intros k. rewrite F, (find_put m k1 v1 k W). destruct (find k1 m) eqn:E.
  - destruct (find k m) eqn:E2; auto. destruct (keq k1 k) eqn:E3; auto. apply Hk in E3. congruence.
  - unfold set_at. destruct (K_dec k1 k) as [->|N]; [rewrite E, keq_refl; auto|]. destruct (find k m); auto. rewrite keq_neq; auto.
Qed.

Definition same (m : list (K * V)) (f : amap) : Prop := forall k, find k m = f k.

Lemma step_ok d m f o : dflt = Some d -> wf m -> same m f ->
  exists m', step keq veq dflt reorder m o = Ok (m', reply_of d o (snd (java_step K_dec V_dec f (first_put_wins1 o)))) /\ wf m' /\ same m' (fst (java_step K_dec V_dec f (first_put_wins1 o))).
Proof using Hk Hr Hv.
  intros D W S. assert (SA : forall k x, set_at K_dec (fun x => find x m) k x = fun k' => if K_dec k k' then x else find k' m) by auto.
  assert (VV : forall a b, veq a b = if V_dec a b then true else false). { intros a b. destruct (V_dec a b) as [->|N]; [now apply Hv|]. destruct (veq a b) eqn:E; auto. apply Hv in E. congruence. }
  destruct o as [k v|k v|k|k v|k v|k a b|]; cbn [step first_put_wins1 java_step fst snd reply_of].
  - exists (put keq reorder m k v). split; auto. split; [now apply wf_put|]. intros k'. rewrite find_put by auto. rewrite <- (S k). destruct (find k m); auto. unfold set_at. destruct (K_dec k k'); auto.
  - unfold putIfAbsent. rewrite <- (S k). destruct (find k m) eqn:E.
    + exists m. cbn [bind]. split; auto.
    + unfold dval. rewrite D. cbn [bind]. exists (um_assign keq reorder k v m). split; auto. split; [now apply wf_assign|]. intros k'. rewrite find_assign by auto. unfold set_at. destruct (K_dec k k'); auto.
  - unfold remove. rewrite <- (S k). destruct (find k m) eqn:E.
    + exists (um_erase keq k m). cbn [bind]. split; auto. split; [now apply wf_erase|]. intros k'. rewrite find_erase. unfold set_at. destruct (K_dec k k'); auto.
    + unfold dval. rewrite D. cbn [bind]. exists m. split; auto. split; auto. intros k'. unfold set_at. destruct (K_dec k k'); auto. congruence.
  - unfold remove2. rewrite <- (S k). destruct (find k m) eqn:E; [|exists m; auto]. rewrite VV. destruct (V_dec v0 v); cbn [negb fst snd]; [|exists m; auto].
    exists (um_erase keq k m). split; auto. split; [now apply wf_erase|]. intros k'. rewrite find_erase. unfold set_at. destruct (K_dec k k'); auto.
  - unfold replace. rewrite <- (S k). destruct (find k m) eqn:E.
    + exists (um_assign keq reorder k v m). cbn [bind]. split; auto. split; [now apply wf_assign|]. intros k'. rewrite find_assign by auto. unfold set_at. destruct (K_dec k k'); auto.
    + unfold dval. rewrite D. cbn [bind]. exists m. split; auto.
  - unfold replace3. rewrite <- (S k). destruct (find k m) eqn:E; [|exists m; auto]. rewrite VV. destruct (V_dec v a); cbn [negb fst snd]; [|exists m; auto].
    exists (um_assign keq reorder k b m). split; auto. split; [now apply wf_assign|]. intros k'. rewrite find_assign by auto. unfold set_at. destruct (K_dec k k'); auto.
  - exists []. split; auto. split; [constructor|]. intros k. reflexivity.
Qed.

Lemma run_ok d : dflt = Some d -> forall ops m f, wf m -> same m f ->
  exists m', run keq veq dflt reorder m ops = Ok (m', replies d ops (snd (java_run K_dec V_dec f (map first_put_wins1 ops)))) /\ wf m' /\ same m' (fst (java_run K_dec V_dec f (map first_put_wins1 ops))).
Proof using Hk Hr Hv.
  intros D ops. induction ops as [|o ops IH]; intros m f W S; cbn [run map java_run]; [exists m; auto|].
  destruct (step_ok d m f o D W S) as (m1 & E & W1 & S1). rewrite E. cbn [bind]. destruct (java_step K_dec V_dec f (first_put_wins1 o)) as (f1, a). cbn [fst snd] in *.
  destruct (IH m1 f1 W1 S1) as (m2 & E2 & W2 & S2). rewrite E2. cbn [bind]. destruct (java_run K_dec V_dec f1 (map first_put_wins1 ops)) as (f2, l). cbn [fst snd] in *. exists m2. auto.
Qed.

Lemma size_ok m f : wf m -> same m f -> has_size f (Z.to_nat (size m)).
Proof using Hk.
  intros W S. exists (map fst m). split; [exact W|]. split; [unfold size, zlen; rewrite map_length; lia|]. intros k. rewrite <- S. destruct (find k m) eqn:E.
  - split; [discriminate|]. intros _. apply find_In in E; auto. apply in_map_iff. exists (k, v). auto.
  - apply find_None in E. tauto.
Qed.

(** Extensional equality of abstract maps is preserved by steps. *)
Lemma java_step_ext f g o : (forall k, f k = g k) -> snd (java_step K_dec V_dec f o) = snd (java_step K_dec V_dec g o) /\
  forall k, fst (java_step K_dec V_dec f o) k = fst (java_step K_dec V_dec g o) k.
Proof using.
  intros E. destruct o; cbn [java_step]; try rewrite <- (E k); unfold set_at;
    repeat match goal with |- context [match ?x with _ => _ end] => destruct x eqn:? end; cbn [fst snd]; split; auto; intros; repeat match goal with |- context [match ?x with _ => _ end] => destruct x end; auto.
Qed.
Lemma java_run_ext ops : forall f g, (forall k, f k = g k) -> snd (java_run K_dec V_dec f ops) = snd (java_run K_dec V_dec g ops) /\
  forall k, fst (java_run K_dec V_dec f ops) k = fst (java_run K_dec V_dec g ops) k.
Proof using.
  induction ops as [|o ops IH]; cbn [java_run]; intros f g E; [auto|]. pose proof (java_step_ext f g o E) as (E1 & E2).
  destruct (java_step K_dec V_dec f o) as (f1, a), (java_step K_dec V_dec g o) as (g1, b). cbn [fst snd] in *. subst. destruct (IH f1 g1 E2) as (E3 & E4).
  destruct (java_run K_dec V_dec f1 ops), (java_run K_dec V_dec g1 ops). cbn [fst snd] in *. subst. auto.
Qed.
Lemma fresh_relabel d ops : forall f, fresh_puts K_dec V_dec f ops ->
  replies d ops (snd (java_run K_dec V_dec f (map first_put_wins1 ops))) = replies d ops (snd (java_run K_dec V_dec f ops)) /\
  forall k, fst (java_run K_dec V_dec f (map first_put_wins1 ops)) k = fst (java_run K_dec V_dec f ops) k.
Proof using.
  induction ops as [|o ops IH]; cbn [fresh_puts map java_run]; intros f H; [auto|]. destruct H as (H1 & H2).
  destruct (java_step K_dec V_dec f o) as (f1, a) eqn:E. cbn [fst] in H2.
  assert (Q : fst (java_step K_dec V_dec f (first_put_wins1 o)) = f1 /\ reply_of d o (snd (java_step K_dec V_dec f (first_put_wins1 o))) = reply_of d o a).
  { destruct o; cbn [first_put_wins1]; rewrite ?E; auto. cbn [java_step] in *. rewrite H1. injection E as <- <-. auto. }
  destruct (java_step K_dec V_dec f (first_put_wins1 o)) as (f1', a') eqn:E'. cbn [fst snd] in Q. destruct Q as (-> & Q). specialize (IH f1 H2).
  destruct (java_run K_dec V_dec f1 (map first_put_wins1 ops)), (java_run K_dec V_dec f1 ops). cbn [fst snd replies] in *. destruct IH as (-> & IH). rewrite Q. auto.
Qed.

(** equals *)
Lemma equals_loop_ok d l another : dflt = Some d -> exists b, equals_loop keq veq dflt l another = Ok b /\
  (b = true <-> forall k v, In (k, v) l -> match find k another with Some w => v = w | None => v = d end).
Proof using Hv.
  intros D. induction l as [|(k, v) l IH]; cbn [equals_loop]; [exists true; split; auto; split; auto; intros _ k v []|].
  destruct IH as (b & E & Hb). rewrite E. unfold get, dval. rewrite D.
  assert (Q : match find k another with None => Ok d | Some w => Ok w end = Ok (match find k another with Some w => w | None => d end)) by (destruct (find k another); auto).
  rewrite Q. cbn [bind]. set (w := match find k another with Some w => w | None => d end). assert (VW : match find k another with Some w => v = w | None => v = d end <-> v = w) by (unfold w; destruct (find k another); tauto).
  destruct (veq v w) eqn:EV; cbn [negb].
  - exists b. split; auto. rewrite Hb. apply Hv in EV. split; intros H k' v' H'; [destruct H' as [H'|H']; [injection H' as <- <-; exact (proj2 VW EV)|exact (H k' v' H')]|exact (H k' v' (or_intror H'))].
  - exists false. split; auto. split; [discriminate|]. intros H. specialize (H k v (or_introl eq_refl)). apply VW in H. apply Hv in H. congruence.
Qed.
Lemma wf_size_eq m1 m2 : wf m1 -> wf m2 -> (forall k, find k m1 = find k m2) -> size m1 = size m2.
Proof using Hk.
  intros W1 W2 E. unfold size, zlen. f_equal. rewrite <- (map_length fst m1), <- (map_length fst m2). apply Permutation_length.
  apply NoDup_Permutation; auto. intros k. pose proof (find_None m1 k) as N1. pose proof (find_None m2 k) as N2. rewrite (E k) in N1.
  destruct (find k m2) eqn:Q.
  - apply find_In in Q as I2; auto. pose proof Q as Q1. rewrite <- (E k) in Q1. apply find_In in Q1; auto. split; intros _; apply in_map_iff; exists (k, v); auto.
  - destruct N1 as [N1 _], N2 as [N2 _]. specialize (N1 eq_refl). specialize (N2 eq_refl). tauto.
Qed.
(** If every entry of [m1] is in [m2] and the sizes agree the maps are equal. *)
Lemma incl_size_eq m1 m2 : wf m1 -> wf m2 -> size m1 = size m2 -> (forall k v, find k m1 = Some v -> find k m2 = Some v) -> forall k, find k m1 = find k m2.
Proof using Hk.
  intros W1 W2 E H k. destruct (find k m1) eqn:E1; [symmetry; auto|]. destruct (find k m2) eqn:E2; auto. exfalso. apply find_None in E1. apply E1.
  assert (I : incl (map fst m2) (map fst m1)).
  { apply NoDup_length_incl; auto; [unfold size, zlen in E; rewrite !map_length; lia|]. intros x Hx. destruct (find x m1) eqn:Q; [|apply find_None in Q; tauto].
    apply H in Q. apply find_In in Q; auto. apply in_map_iff. exists (x, v0). auto. }
  apply I. apply find_In in E2; auto. apply in_map_iff. exists (k, v). auto.
Qed.
End P.
