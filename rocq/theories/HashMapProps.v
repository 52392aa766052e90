(** Property theorems C29, C30: java.util.HashMap. *)

From Coq Require Import ZArith List Lia Bool Permutation.
From Verif Require Import Base Bits TextLemmas HashMapSpec HashMapModel HashMapProofs.
Import ListNotations.
Open Scope Z_scope.

(** The assumptions on a key/value type pair: [==] decides equality, and the
    container may order its elements in any way. *)
Definition faithful {K V} (keq : K -> K -> bool) (veq : V -> V -> bool) (reorder : list (K * V) -> list (K * V)) : Prop :=
  (forall a b, keq a b = true <-> a = b) /\ (forall a b, veq a b = true <-> a = b) /\ (forall l, Permutation l (reorder l)).

(** What the read-only methods show of map [m] is exactly the abstract map [f]. *)
Definition shows {K V} (keq : K -> K -> bool) (veq : V -> V -> bool) (d : V) (m : list (K * V)) (f : K -> option V) : Prop :=
  (forall k, containsKey keq m k = true <-> f k <> None) /\
  (forall k, get keq (Some d) m k = Ok (match f k with Some v => v | None => d end)) /\
  (forall k v, getOrDefault keq m k v = match f k with Some v' => v' | None => v end) /\
  (forall v, containsValue veq m v = true <-> exists k, f k = Some v) /\
  has_size f (Z.to_nat (size m)) /\ 0 <= size m /\ (isEmpty m = true <-> forall k, f k = None).

Lemma shows_ok {K V} (K_dec : forall a b : K, {a = b} + {a <> b}) keq veq reorder (d : V) m f : faithful keq veq reorder -> wf m -> same keq m f -> @shows K V keq veq d m f.
Proof.
  intros (Hk & Hv & Hr) W S. repeat split.
  - unfold containsKey. rewrite (S k). destruct (f k); intros; congruence.
  - unfold containsKey. rewrite (S k). destruct (f k); intros; congruence.
  - intros k. unfold get. rewrite (S k). destruct (f k); auto.
  - intros k v. unfold getOrDefault. rewrite (S k). auto.
  - unfold containsValue. intros H. apply existsb_exists in H. destruct H as ((k, v') & I & E). cbn in E. apply Hv in E. subst. exists k. rewrite <- (S k). apply (find_In keq Hk); auto.
  - intros (k & H). unfold containsValue. apply existsb_exists. exists (k, v). split; [apply (find_In keq Hk); auto; rewrite (S k); auto|]. apply Hv. auto.
  - apply (size_ok keq); auto.
  - unfold size. apply zlen_nonneg.
  - unfold isEmpty, size. intros H k. rewrite <- (S k). destruct m as [|p m]; auto. rewrite zlen_cons in H. pose proof (zlen_nonneg m). lia.
  - intros H. unfold isEmpty, size. destruct m as [|(k, v) m]; auto. exfalso. specialize (H k). rewrite <- (S k) in H. cbn in H. rewrite (proj2 (Hk k k) eq_refl) in H. discriminate.
Qed.

(** ** C29 *)

(** Every history from the empty map, for every class-type value [V] with
    default [d]: answers and observations are those of java.util.Map for the
    history in which every [put] is a [putIfAbsent]. *)
Theorem C29_history_partial : forall (K V : Type) (K_dec : forall a b : K, {a = b} + {a <> b}) (V_dec : forall a b : V, {a = b} + {a <> b})
  keq veq reorder (d : V) (ops : list (@op K V)), faithful keq veq reorder ->
  exists m, run keq veq (Some d) reorder [] ops = Ok (m, replies d ops (snd (java_run K_dec V_dec empty (first_put_wins ops)))) /\
  shows keq veq d m (fst (java_run K_dec V_dec empty (first_put_wins ops))).
Proof.
  intros K V K_dec V_dec keq veq reorder d ops F. pose proof F as (Hk & Hv & Hr).
  destruct (run_ok K_dec V_dec keq veq (Some d) reorder Hk Hv Hr d eq_refl ops [] empty) as (m & E & W & S); [constructor|intros k; reflexivity|].
  exists m. split; auto. eapply shows_ok; eauto.
Qed.
Print Assumptions C29_history_partial.

(** Hence histories that never [put] onto a present key (updates go through
    [replace]) behave exactly as java.util.Map. *)
Theorem C29_history_fresh_puts : forall (K V : Type) (K_dec : forall a b : K, {a = b} + {a <> b}) (V_dec : forall a b : V, {a = b} + {a <> b})
  keq veq reorder (d : V) (ops : list (@op K V)), faithful keq veq reorder -> fresh_puts K_dec V_dec empty ops ->
  exists m, run keq veq (Some d) reorder [] ops = Ok (m, replies d ops (snd (java_run K_dec V_dec empty ops))) /\
  shows keq veq d m (fst (java_run K_dec V_dec empty ops)).
Proof.
  intros K V K_dec V_dec keq veq reorder d ops F P. pose proof F as (Hk & Hv & Hr).
  destruct (run_ok K_dec V_dec keq veq (Some d) reorder Hk Hv Hr d eq_refl ops [] empty) as (m & E & W & S); [constructor|intros k; reflexivity|].
  destruct (fresh_relabel K_dec V_dec d ops empty P) as (E1 & E2). exists m. rewrite E, E1. split; auto. eapply shows_ok; eauto. intros k. rewrite (S k). apply E2.
Qed.
Print Assumptions C29_history_fresh_puts.

(** [put] on a present key is lost: after any history, putting [w] for a key
    that has value [v] leaves the map as it was. *)
Theorem C29_put_overwrites_refuted : forall (K V : Type) keq reorder (m : list (K * V)) k v w, containsKey keq m k = true ->
  get keq (Some v) (put keq reorder m k w) k = get keq (Some v) m k /\ put keq reorder m k w = m.
Proof. intros K V keq reorder m k v w H. unfold put, um_insert, containsKey in *. destruct (um_find keq k m) eqn:E; [auto|discriminate]. Qed.
Print Assumptions C29_put_overwrites_refuted.

(** For a scalar value type, asking for (or removing, replacing, putting if
    absent) a missing key reads an indeterminate value. *)
Theorem C29_scalar_missing_key_refuted : forall (K V : Type) keq reorder (m : list (K * V)) k v, containsKey keq m k = false ->
  get keq None m k = UB Uninitialised /\ remove keq None m k = UB Uninitialised /\
  replace keq None reorder m k v = UB Uninitialised /\ putIfAbsent keq None reorder m k v = UB Uninitialised.
Proof. intros K V keq reorder m k v H. unfold containsKey in H. unfold get, remove, replace, putIfAbsent, dval. destruct (um_find keq k m); [discriminate|auto]. Qed.
Print Assumptions C29_scalar_missing_key_refuted.

(** putAll keeps the entries of the receiver and adds the others; copy
    construction and clone give the same map; clear gives the empty one.  The
    hypothesis is what every reachable map satisfies (C29_reachable_wf). *)
Theorem C29_bulk : forall (K V : Type) (K_dec : forall a b : K, {a = b} + {a <> b}) keq veq reorder (d : V) m1 m2 f1 f2, @faithful K V keq veq reorder -> wf m1 -> wf m2 ->
  (forall k, um_find keq k m1 = f1 k) -> (forall k, um_find keq k m2 = f2 k) ->
  shows keq veq d (putAll keq reorder m1 m2) (fun k => match f1 k with Some v => Some v | None => f2 k end) /\
  shows keq veq d (copy keq reorder m1) f1 /\ shows keq veq d (clone keq reorder m1) f1 /\ shows keq veq d (clear m1) (fun _ => None).
Proof.
  intros K V K_dec keq veq reorder d m1 m2 f1 f2 F W1 W2 S1 S2. pose proof F as (Hk & Hv & Hr).
  destruct (putAll_ok K_dec keq reorder Hk Hr m2 m1 W1) as (P1 & P2). destruct (putAll_ok K_dec keq reorder Hk Hr m1 [] (NoDup_nil _)) as (P3 & P4).
  split; [|split; [|split]]; eapply shows_ok; eauto; try (intros k; rewrite ?P2, ?S1, ?S2; auto; fail).
  - intros k. unfold copy. rewrite P4. cbn. apply S1.
  - intros k. change (clone keq reorder m1) with (putAll keq reorder [] m1). rewrite P4. cbn. apply S1.
  - constructor.
Qed.
Print Assumptions C29_bulk.

(** forEach with a callback that never stops calls it once per entry. *)
Theorem C29_forEach : forall (K V S : Type) keq veq reorder (m : list (K * V)) (d : V) f (act : S -> K -> V -> S), @faithful K V keq veq reorder -> wf m ->
  (forall k, um_find keq k m = f k) -> forall s,
  exists visited, forEach (fun s k v => (act s k v, true)) m s = fold_left (fun s p => act s (fst p) (snd p)) visited s /\
  NoDup (map fst visited) /\ forall k v, In (k, v) visited <-> f k = Some v.
Proof.
  intros K V S keq veq reorder m d f act (Hk & Hv & Hr) W E s. exists m. split; [|split; auto].
  - revert s. clear. induction m as [|(k, v) m IH]; cbn; auto.
  - intros k v. rewrite <- E. symmetry. apply (find_In keq Hk); auto.
Qed.
Print Assumptions C29_forEach.

(** Every reachable map has pairwise different keys. *)
Theorem C29_reachable_wf : forall (K V : Type) (K_dec : forall a b : K, {a = b} + {a <> b}) (V_dec : forall a b : V, {a = b} + {a <> b})
  keq veq reorder (d : V) (ops : list (@op K V)) m l, faithful keq veq reorder -> run keq veq (Some d) reorder [] ops = Ok (m, l) -> wf m.
Proof.
  intros K V K_dec V_dec keq veq reorder d ops m l (Hk & Hv & Hr) R.
  destruct (run_ok K_dec V_dec keq veq (Some d) reorder Hk Hv Hr d eq_refl ops [] empty) as (m' & E & W & S); [constructor|intros k; reflexivity|]. congruence.
Qed.
Print Assumptions C29_reachable_wf.

Example C29_example :
  faithful Z.eqb Z.eqb (@rev (Z * Z)) /\
  fresh_puts Z.eq_dec Z.eq_dec empty [OPut 1 10; OPut 2 20; OReplace 1 11; ORemove 2; OPut 2 21] /\
  run Z.eqb Z.eqb (Some 0) (@rev _) [] [OPut 1 10; OPut 2 20; OReplace 1 11; ORemove 2; OPut 2 21; OPutIfAbsent 5 7; ORemove2 5 8] =
    Ok ([(2, 21); (1, 11); (5, 7)], [RNone; RNone; RVal 10; RVal 20; RNone; RVal 0; RBool false]) /\
  run Z.eqb Z.eqb (Some 0) (@rev _) [] [OPut 1 10; OPut 1 99] = Ok ([(1, 10)], [RNone; RNone]).
Proof.
  split; [|split; [|vm_compute; auto]].
  - split; [apply Z.eqb_eq|split; [apply Z.eqb_eq|apply Permutation_rev]].
  - vm_compute. auto 10.
Qed.

(** ** C30 *)

(** What equals computes: same size and every entry of the receiver has the
    same value in the argument, where a missing key counts as the default. *)
Theorem C30_equals_exact : forall (K V : Type) keq veq reorder (d : V) m1 m2, @faithful K V keq veq reorder -> wf m1 ->
  exists b, equals keq veq (Some d) m1 m2 = Ok b /\
  (b = true <-> size m1 = size m2 /\ forall k v, containsKey keq m1 k = true -> get keq (Some d) m1 k = Ok v -> get keq (Some d) m2 k = Ok v).
Proof.
  intros K V keq veq reorder d m1 m2 (Hk & Hv & Hr) W. unfold equals. destruct (size m1 =? size m2) eqn:E; cbn [negb].
  - destruct (equals_loop_ok keq veq (Some d) Hv d m1 m2 eq_refl) as (b & E1 & H). exists b. split; auto. rewrite H. split.
    + intros Q. split; [lia|]. intros k v C G. unfold containsKey, get, dval in *. destruct (um_find keq k m1) eqn:F; [|discriminate]. injection G as ->. apply (find_In keq Hk) in F; auto.
      specialize (Q k v F). destruct (um_find keq k m2); congruence.
    + intros (_ & Q) k v I. apply (find_In keq Hk) in I; auto. specialize (Q k v). unfold containsKey, get, dval in Q. rewrite I in Q. specialize (Q eq_refl eq_refl). destruct (um_find keq k m2); congruence.
  - exists false. split; auto. split; [discriminate|]. intros (Q & _). lia.
Qed.
Print Assumptions C30_equals_exact.

(** If no value of the receiver is the default value, equals is equality of maps. *)
Theorem C30_equals_partial : forall (K V : Type) keq veq reorder (d : V) m1 m2, @faithful K V keq veq reorder -> wf m1 -> wf m2 ->
  containsValue veq m1 d = false ->
  exists b, equals keq veq (Some d) m1 m2 = Ok b /\ (b = true <-> forall k, um_find keq k m1 = um_find keq k m2).
Proof.
  intros K V keq veq reorder d m1 m2 F W1 W2 N. pose proof F as (Hk & Hv & Hr). destruct (C30_equals_exact K V keq veq reorder d m1 m2 F W1) as (b & E & H). exists b. split; auto. rewrite H. split.
  - intros (S & Q). apply incl_size_eq; auto. intros k v G. specialize (Q k v). unfold containsKey, get, dval in Q. rewrite G in Q. specialize (Q eq_refl eq_refl).
    destruct (um_find keq k m2); [congruence|]. injection Q as ->. apply (find_In keq Hk) in G; auto. exfalso. assert (containsValue veq m1 v = true); [|congruence].
    apply existsb_exists. exists (k, v). split; auto. apply Hv. auto.
  - intros Q. split; [apply (wf_size_eq keq Hk); auto|]. intros k v C G. unfold get in *. rewrite <- Q. auto.
Qed.
Print Assumptions C30_equals_partial.

(** Equal maps always compare equal, in particular every map equals itself (class-type values). *)
Theorem C30_equal_maps : forall (K V : Type) keq veq reorder (d : V) m1 m2, @faithful K V keq veq reorder -> wf m1 -> wf m2 ->
  (forall k, um_find keq k m1 = um_find keq k m2) -> equals keq veq (Some d) m1 m2 = Ok true.
Proof.
  intros K V keq veq reorder d m1 m2 F W1 W2 Q. pose proof F as (Hk & Hv & Hr). destruct (C30_equals_exact K V keq veq reorder d m1 m2 F W1) as (b & E & H). rewrite E. f_equal. apply H.
  split; [apply (wf_size_eq keq Hk); auto|]. intros k v C G. unfold get in *. rewrite <- Q. auto.
Qed.
Print Assumptions C30_equal_maps.

(** Maps with different keys compare equal when the value is the default one. *)
Theorem C30_different_keys_refuted : forall (K V : Type) keq veq reorder (d : V) k1 k2, @faithful K V keq veq reorder -> k1 <> k2 ->
  equals keq veq (Some d) (ofList keq reorder [(k1, d)]) (ofList keq reorder [(k2, d)]) = Ok true /\
  containsKey keq (ofList keq reorder [(k1, d)]) k1 = true /\ containsKey keq (ofList keq reorder [(k2, d)]) k1 = false.
Proof.
  intros K V keq veq reorder d k1 k2 (Hk & Hv & Hr) N. unfold ofList, putAll. cbn. unfold put, um_insert. cbn.
  assert (forall p : K * V, reorder [p] = [p]) as R by (intros p; pose proof (Hr [p]) as P; apply Permutation_length_1_inv in P; auto). rewrite !R.
  unfold equals, containsKey. cbn. unfold get, um_find. rewrite (proj2 (Hk k1 k1) eq_refl). replace (keq k2 k1) with false by (symmetry; destruct (keq k2 k1) eqn:E; auto; apply Hk in E; congruence).
  cbn. rewrite (proj2 (Hv d d) eq_refl). auto.
Qed.
Print Assumptions C30_different_keys_refuted.

(** equals is not symmetric. *)
Theorem C30_asymmetric_refuted : exists m1 m2 : list (Z * Z), wf m1 /\ wf m2 /\ equals Z.eqb Z.eqb (Some 0) m1 m2 = Ok true /\ equals Z.eqb Z.eqb (Some 0) m2 m1 = Ok false.
Proof.
  exists [(1, 0); (2, 5)], [(2, 5); (3, 7)]. split; [|split; [|vm_compute; auto]]; unfold wf; cbn; repeat constructor; cbn; intuition lia.
Qed.
Print Assumptions C30_asymmetric_refuted.

(** For scalar values a missing key makes the comparison undefined. *)
Theorem C30_scalar_undefined_refuted : equals Z.eqb Z.eqb None [(1, 10)] [(2, 10)] = UB Uninitialised.
Proof. reflexivity. Qed.
Print Assumptions C30_scalar_undefined_refuted.

Example C30_example : wf [(1, 10); (2, 20)] /\ containsValue Z.eqb [(1, 10); (2, 20)] 0 = false /\
  equals Z.eqb Z.eqb (Some 0) [(1, 10); (2, 20)] [(2, 20); (1, 10)] = Ok true /\ equals Z.eqb Z.eqb (Some 0) [(1, 10); (2, 20)] [(2, 20); (1, 11)] = Ok false.
Proof. split; [unfold wf; cbn; repeat constructor; cbn; intuition lia|vm_compute; auto]. Qed.
