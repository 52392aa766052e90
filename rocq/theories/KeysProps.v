(** C120: Integer and Long objects as keys of HashMap. *)
From Coq Require Import ZArith List Bool Lia String.
From Verif Require Import Base CppText TextSpec IntegerModel IntegerProofs IntegerProofs2 LongModel LongProofs2 LongProps ShortProps KeysSpec KeysModel.
From Verif Require ShortModel ShortSpec.
Import ListNotations.
Open Scope string_scope. Open Scope list_scope. Open Scope Z_scope.

Section Generic.
Context {K V : Type} (keq : K -> K -> bool) (text : K -> str) (copy : K -> K) (h : str -> Z) (number : K -> Z).
Context (EQ : forall a b, keq a b = true <-> number a = number b).
Context (CN : forall a, number (copy a) = number a) (CT : forall a, text (copy a) = itoa (number a)).
Definition fresh (k : K) : Prop := text k = itoa (number k).
Definition sound (t : list (@node K V)) (m : @nmap V) : Prop :=
  (forall c k v, In (c, (k, v)) t -> c = h (itoa (number k))) /\ (forall k, fresh k -> find keq text h k t = m (number k)).
Lemma fresh_copy a : fresh (copy a). Proof. unfold fresh. rewrite CT, CN. reflexivity. Qed.
Lemma matches_spec k c x (v : V) : fresh k -> c = h (itoa (number x)) -> matches keq text h k (c, (x, v)) = true <-> number x = number k.
Proof.
  intros F ->. unfold matches, code. cbn [fst snd]. rewrite F, andb_true_iff, EQ, Z.eqb_eq. split; [tauto|]. intros ->. auto.
Qed.
Lemma sound_add t m k v : sound t m -> fresh k -> m (number k) = None -> sound ((code text h k, (copy k, v)) :: t) (change m (number k) (Some v)).
Proof.
  intros (S1 & S2) F N. assert (C : code text h k = h (itoa (number (copy k)))) by (unfold code; rewrite F, CN; reflexivity). split.
  - intros c x w [E|I]; [injection E as <- <- <-; exact C|eauto].
  - intros x FX. cbn [find]. destruct (matches keq text h x (code text h k, (copy k, v))) eqn:E.
    + apply matches_spec in E; [|exact FX|exact C]. rewrite CN in E. unfold change. rewrite <- E, Z.eqb_refl. reflexivity.
    + unfold change. destruct (Z.eqb_spec (number x) (number k)) as [G|G]; [|now apply S2].
      rewrite (proj2 (matches_spec x _ (copy k) v FX C)) in E by (rewrite CN; congruence). discriminate.
Qed.
Lemma find_erase (t : list (@node K V)) : (forall c k v, In (c, (k, v)) t -> c = h (itoa (number k))) -> forall k x, fresh k -> fresh x ->
  find keq text h x (erase keq text h k t) = if number x =? number k then None else find keq text h x t.
Proof.
  induction t as [|[c [y v]] t IH]; intros S k x F FX; [cbn; destruct (_ =? _); reflexivity|].
  assert (C : c = h (itoa (number y))) by (eapply S; left; reflexivity).
  pose proof (matches_spec k c y v F C) as M1. pose proof (matches_spec x c y v FX C) as M2.
  assert (IH' := IH (fun c k v I => S c k v (or_intror I)) k x F FX).
  unfold erase in *. cbn [filter find]. destruct (matches keq text h k (c, (y, v))); cbn [negb].
  - rewrite IH'. destruct (Z.eqb_spec (number x) (number k)) as [G|G]; [reflexivity|].
    destruct (matches keq text h x (c, (y, v))); [|reflexivity]. exfalso. apply G. rewrite <- (proj1 M2 eq_refl). now apply M1.
  - cbn [find]. rewrite IH'. destruct (Z.eqb_spec (number x) (number k)) as [G|G]; [|reflexivity].
    destruct (matches keq text h x (c, (y, v))); [|reflexivity]. exfalso. pose proof (proj1 M2 eq_refl) as Q. rewrite G in Q. apply M1 in Q. discriminate.
Qed.
Lemma sound_step t m o : sound t m -> fresh (key_of o) ->
  snd (kstep keq text copy h t o) = snd (answer_of number m o) /\ sound (fst (kstep keq text copy h t o)) (fst (answer_of number m o)).
Proof.
  intros S F. pose proof S as (S1 & S2). destruct o as [k v|k v|k|k|k d]; cbn [key_of] in F; cbn [kstep answer_of].
  - split; [reflexivity|]. cbn [fst]. unfold insert. rewrite (S2 (copy k) (fresh_copy k)), CN. destruct (m (number k)) eqn:E; [exact S|].
    rewrite <- (CN k). apply sound_add; [exact S|apply fresh_copy|]. rewrite CN. exact E.
  - rewrite (S2 k F). destruct (m (number k)) eqn:E; cbn [fst snd]; (split; [reflexivity|]); [exact S|]. apply sound_add; assumption.
  - rewrite (S2 k F). destruct (m (number k)) eqn:E; cbn [fst snd]; (split; [reflexivity|]).
    + split.
      * intros c x w I. apply filter_In in I. destruct I as (I & _). eauto.
      * intros x FX. rewrite find_erase by assumption. unfold change. destruct (number x =? number k); [reflexivity|now apply S2].
    + split; [exact S1|]. intros x FX. rewrite (S2 x FX). unfold change. destruct (Z.eqb_spec (number x) (number k)) as [->|]; [exact E|reflexivity].
  - rewrite (S2 k F). split; [reflexivity|exact S].
  - rewrite (S2 k F). split; [reflexivity|exact S].
Qed.
Lemma sound_run ops : forall t m, sound t m -> Forall (fun o => fresh (key_of o)) ops -> krun keq text copy h t ops = answers number m ops.
Proof.
  induction ops as [|o ops IH]; intros t m S F; [reflexivity|]. inversion F as [|? ? F1 F2]; subst. cbn [krun answers].
  destruct (sound_step t m o S F1) as (E & S'). destruct (kstep keq text copy h t o) as [t' a], (answer_of number m o) as [m' a']. cbn [fst snd] in *. subst a'. f_equal. apply IH; assumption.
Qed.
Lemma sound_nil : sound [] none.
Proof. split; [intros c k v []|reflexivity]. Qed.
End Generic.

(** An Integer object as a program can make it: constructed from a number and
    then changed by any compound assignments. *)
Definition made_integer (x : integer) : Prop := exists m v l, assign_all m (mk_integer v) l = Ok x.
(** A Long object: constructed, then changed by assignments and compound assignments. *)
Definition made_long (x : long_obj) : Prop := exists m v l, long_steps m (mk_long v) l = Ok x.
(** A Long object that was changed by plain assignments only. *)
Definition assigned_long (x : long_obj) : Prop := exists m v l,
  Forall (fun s => match s with LAssign _ => True | LCompound _ _ => False end) l /\ long_steps m (mk_long v) l = Ok x.

Lemma canonical_itoa s v : canonical_signed 10 s v -> s = itoa v.
Proof. intros C. eapply canonical_signed_text; [exact C|apply itoa_canonical]. Qed.

(** A HashMap with Integer keys is a map from numbers: whatever the hash of
    texts is and however the keys were made, every history of calls gets the
    answers of the map. *)
Theorem C120_integer_keys : forall V (h : str -> Z) (ops : list (kop integer V)), Forall (fun o => made_integer (key_of o)) ops ->
  integer_map h ops = answers ival none ops.
Proof.
  intros V h ops F. apply sound_run.
  - intros a b. unfold integer_eq. apply Z.eqb_eq.
  - reflexivity.
  - reflexivity.
  - apply sound_nil.
  - eapply Forall_impl; [|exact F]. intros o (m & v & l & E). apply canonical_itoa. eapply assign_all_text; [|exact E]. apply itoa_canonical.
Qed.
Print Assumptions C120_integer_keys.
(** In particular equal Integer objects have equal hash values and equal texts, and only they have equal texts. *)
Theorem C120_integer_hash : forall x y, made_integer x -> made_integer y -> (integer_eq x y = true <-> itext x = itext y).
Proof.
  assert (Q : forall x, made_integer x -> canonical_signed 10 (itext x) (ival x)) by (intros x (m & v & l & E); eapply assign_all_text; [|exact E]; apply itoa_canonical).
  intros x y X Y. apply Q in X, Y. unfold integer_eq. rewrite Z.eqb_eq. split; intros E.
  - rewrite E in X. eapply canonical_signed_text; eassumption.
  - rewrite E in X. eapply canonical_signed_fun; [|exact X|exact Y]; lia.
Qed.
Print Assumptions C120_integer_hash.
(** With Long keys the same holds if no key was changed by a compound assignment. *)
Theorem C120_long_keys_partial : forall V (h : str -> Z) (ops : list (kop long_obj V)), Forall (fun o => assigned_long (key_of o)) ops ->
  long_map h ops = answers lval none ops.
Proof.
  intros V h ops F. apply sound_run.
  - intros a b. unfold long_eq. destruct (Z.eqb_spec (lval a) (lval b)); split; congruence.
  - reflexivity.
  - reflexivity.
  - apply sound_nil.
  - eapply Forall_impl; [|exact F]. intros o (m & v & l & G & E). apply canonical_itoa. eapply C11_object_text_partial; eassumption.
Qed.
Print Assumptions C120_long_keys_partial.
(** Short keys behave as Integer keys ([denotes]: what every constructor, copy
    and assignment makes, by C86_objects; Short has no compound assignments). *)
Theorem C120_short_keys : forall V (h : str -> Z) (ops : list (kop ShortModel.Short V)), Forall (fun o => exists x, ShortSpec.denotes (key_of o) x) ops ->
  krun ShortModel.eq ShortModel.toString ShortModel.copy h [] ops = answers ShortModel.value none ops.
Proof.
  intros V h ops F. apply sound_run.
  - intros a b. unfold ShortModel.eq. apply Z.eqb_eq.
  - reflexivity.
  - reflexivity.
  - apply sound_nil.
  - eapply Forall_impl; [|exact F]. intros o (x & _ & E & C). apply canonical_itoa. unfold ShortModel.value in E |- *. rewrite E. exact C.
Qed.
Print Assumptions C120_short_keys.
Example C120_short_ex : ShortSpec.denotes (ShortModel.new (-3)) (-3) /\
  krun ShortModel.eq ShortModel.toString ShortModel.copy (fun _ => 0) [] [KPut (ShortModel.new (-3)) 1; KContains (ShortModel.new 3); KGetOr (ShortModel.copy (ShortModel.new (-3))) 0] = [Nothing; Has false; Val 1].
Proof. split; [apply (proj1 (proj2 C86_objects)); unfold ShortSpec.is_short; lia|reflexivity]. Qed.
(** A Long key changed by += is not found by the very object it was put with:
    put() stores a copy, whose text is renewed, and the search hashes the old
    text. This happens for every hash that tells the two texts apart. *)
Theorem C120_long_put_refuted : forall (h : str -> Z), h (T "5") <> h (T "7") -> forall m, exists x,
  long_steps m (mk_long 5) [LCompound LAdd 2] = Ok x /\
  long_map h [KPut x true; KContains x; KContains (mk_long 7)] = [Nothing; Has false; Has true] /\
  answers lval none [KPut x true; KContains x; KContains (mk_long 7)] = [Nothing; Has true; Has true].
Proof.
  intros h N m. exists {| lval := 7; ltext := T "5" |}. split; [destruct m; reflexivity|]. split; [|reflexivity].
  unfold long_map. cbn [krun kstep insert find long_copy]. unfold matches, code, long_copy. cbn [fst snd ltext lval mk_long].
  change (itoa 7) with (T "7"). destruct (Z.eqb_spec (h (T "7")) (h (T "5"))) as [E|_]; [congruence|]. rewrite Z.eqb_refl. reflexivity.
Qed.
Print Assumptions C120_long_put_refuted.
(** putIfAbsent() goes wrong the other way round: another object with the same
    number does not find the key and adds it a second time. *)
Theorem C120_long_putIfAbsent_refuted : forall (h : str -> Z), h (T "5") <> h (T "7") -> forall m, exists x,
  long_steps m (mk_long 5) [LCompound LAdd 2] = Ok x /\
  long_map h [KPutIfAbsent x 1; KPutIfAbsent (mk_long 7) 2; KGetOr x 0; KGetOr (mk_long 7) 0] = [Old None; Old None; Val 1; Val 2] /\
  answers lval none [KPutIfAbsent x 1; KPutIfAbsent (mk_long 7) 2; KGetOr x 0; KGetOr (mk_long 7) 0] = [Old None; Old (Some 1); Val 1; Val 1].
Proof.
  intros h N m. exists {| lval := 7; ltext := T "5" |}. split; [destruct m; reflexivity|]. split; [|reflexivity].
  unfold long_map. cbn [krun kstep find]. unfold matches, subscript_new, code, long_copy. cbn [fst snd ltext lval mk_long find]. unfold matches, code. cbn [fst snd ltext lval mk_long find].
  change (itoa 7) with (T "7"). destruct (Z.eqb_spec (h (T "5")) (h (T "7"))) as [E|_]; [congruence|]. cbn [andb find fst snd].
  unfold matches, code. cbn [fst snd ltext lval mk_long]. change (itoa 7) with (T "7").
  destruct (Z.eqb_spec (h (T "7")) (h (T "5"))) as [E|_]; [congruence|]. rewrite !Z.eqb_refl. reflexivity.
Qed.
Print Assumptions C120_long_putIfAbsent_refuted.

Example C120_ex : (exists x, assign_all ISO (mk_integer 5) [(IAdd, 2)] = Ok x /\ made_integer x /\
    integer_map (fun s => zlen s) [KPut x 1; KPut (mk_integer 3) 2; KContains (mk_integer 7); KRemove (mk_integer 7); KContains x; KGetOr (mk_integer 3) 0] = [Nothing; Nothing; Has true; Old (Some 1); Has false; Val 2]) /\
  assigned_long (mk_long 7) /\ ~ assigned_long {| lval := 7; ltext := T "5" |} /\ made_long {| lval := 7; ltext := T "5" |}.
Proof.
  split; [eexists; split; [reflexivity|]; split; [exists ISO, 5, [(IAdd, 2)]; reflexivity|reflexivity]|]. split; [exists ISO, 7, []; split; [constructor|reflexivity]|].
  split; [|exists ISO, 5, [LCompound LAdd 2]; reflexivity].
  intros (m & v & l & F & E). pose proof (C11_object_text_partial m v l _ F E) as C. apply canonical_itoa in C. discriminate.
Qed.
