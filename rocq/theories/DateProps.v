(** Properties of Java.Util.Date: ordering (C59), field accessors (C70),
    Date.UTC (C71). The time zone has any constant offset below a day. *)

From Coq Require Import ZArith List Lia Bool.
From Verif Require Import Base Bits CppText TextSpec StringModel DateSpec DateModel DateProofs.
Import ListNotations.
Open Scope Z_scope.
Local Strategy 1000 [broken_down instant civil epoch_day].

(** ** Programs over dates *)

(** The world: the static buffer of the C library and the dates alive. *)
Definition world : Type := (fields * list Date)%type.
Definition int_fields (f : fields) : Prop :=
  is_int (f_year f) /\ is_int (f_month f) /\ is_int (f_day f) /\ is_int (f_hour f) /\ is_int (f_minute f) /\ is_int (f_second f).
(** Everything a program can do with dates, besides reading. *)
Inductive step (off : Z) : world -> world -> Prop :=
| step_new buf ds ms d b : is_long ms -> Date_ms off ms = Ok (d, b) -> step off (buf, ds) (b, ds ++ [d])
| step_fields buf ds f d b : int_fields f ->
    Date_fields off (f_year f) (f_month f) (f_day f) (f_hour f) (f_minute f) (f_second f) = Ok (d, b) ->
    step off (buf, ds) (b, ds ++ [d])
| step_string buf ds m now s d b : Date_string m off now s = Ok (d, b) -> step off (buf, ds) (b, ds ++ [d])
| step_copy buf ds i e d b : nth_error ds i = Some e -> Date_copy off e = Ok (d, b) -> step off (buf, ds) (b, ds ++ [d])
| step_assign buf ds i j e d b : nth_error ds j = Some e -> Date_copy off e = Ok (d, b) -> (i < length ds)%nat ->
    step off (buf, ds) (b, upd ds i d)
| step_setTime buf ds i ms d b : is_long ms -> Date_ms off ms = Ok (d, b) -> (i < length ds)%nat ->
    step off (buf, ds) (b, upd ds i d)
| step_set buf ds i e k v d b : nth_error ds i = Some e -> is_int v -> set_field off buf e k v = (d, b) ->
    step off (buf, ds) (b, upd ds i d)
| step_compare buf ds i j e e' r b : nth_error ds i = Some e -> nth_error ds j = Some e' ->
    before off e e' = Ok (r, b) -> step off (buf, ds) (b, ds).
Inductive reachable (off : Z) : world -> Prop :=
| reach_0 buf : reachable off (buf, [])
| reach_s w w' : reachable off w -> step off w w' -> reachable off w'.

(** The invariant: the year of every timer fits an int, and the text of a
    date shows its own timer (unless mktime had failed, giving -1). *)
Definition date_inv (off : Z) (d : Date) : Prop :=
  year_fits (broken_down off (timer d)) = true /\ (backUp d = broken_down off (timer d) \/ timer d = -1).
Definition zone (off : Z) : Prop := -86400 <= off <= 86400.

Lemma sres_range m w r v : 0 < w -> sres m w r = Ok v -> in_s w v.
Proof.
  intros W. unfold sres. destruct (in_sb w r) eqn:E.
  - intros [= <-]. now apply in_s_b in E.
  - destruct m; [discriminate|]. intros [= <-]. now apply wrap_range.
Qed.
Lemma smul_long m a b v : smul m 64 a b = Ok v -> is_long v.
Proof. intros H. apply sres_range in H; [|lia]. now apply is_long_s. Qed.
Lemma bind_ok {A B} (o : outcome A) (f : A -> outcome B) v : bind o f = Ok v -> exists a, o = Ok a /\ f a = Ok v.
Proof. destruct o; cbn [bind]; try discriminate. eauto. Qed.
Lemma if_ok {A} (b : bool) (x y : outcome A) v : (if b then x else y) = Ok v -> x = Ok v \/ y = Ok v.
Proof. destruct b; auto. Qed.
Lemma finish_long m off now p t : finish m off now p = Ok t -> is_long t.
Proof.
  unfold finish. intros H. apply if_ok in H as [H|H]; [discriminate|].
  apply bind_ok in H as (y & _ & H). apply bind_ok in H as (ty & _ & H).
  apply if_ok in H as [H|H]; [exact (smul_long _ _ _ _ H)|].
  apply bind_ok in H as (o & _ & H). apply bind_ok in H as (z & _ & H).
  apply bind_ok in H as (r1 & _ & H). apply bind_ok in H as (r2 & _ & H). exact (smul_long _ _ _ _ H).
Qed.
Lemma parse_long m off now s t : parse m off now s = Ok t -> is_long t.
Proof.
  unfold parse. intros H. apply if_ok in H as [H|H]; [discriminate|].
  apply bind_ok in H as (s1 & _ & H). apply bind_ok in H as (p & _ & H). exact (finish_long _ _ _ _ _ H).
Qed.
Lemma quot_near ms : is_long ms -> -9223372036854775 <= Z.quot ms 1000 <= 9223372036854775.
Proof.
  unfold is_long. intros H. change long_min with (-9223372036854775808) in H. change long_max with 9223372036854775807 in H.
  pose proof (Z.quot_rem' ms 1000) as Q. destruct (Z_le_gt_dec 0 ms) as [P|P].
  - pose proof (Z.rem_bound_pos ms 1000). lia.
  - pose proof (Z.rem_bound_pos_neg ms 1000). lia.
Qed.
Lemma ok_pair {A B} (a c : A) (b d : B) : Ok (a, b) = Ok (c, d) -> a = c /\ b = d.
Proof. intros H. injection H as -> ->. auto. Qed.
Lemma pair_eq {A B} (a c : A) (b d : B) : (a, b) = (c, d) -> a = c /\ b = d.
Proof. intros H. injection H as -> ->. auto. Qed.
Lemma init_near off t d b : zone off -> -60000000000000000 <= t <= 60000000000000000 -> initializeDate off t = Ok (d, b) ->
  timer d = t /\ backUp d = broken_down off t /\ b = broken_down off t /\ date_inv off d.
Proof.
  intros O H E. pose proof (fits_near off t O H) as F. rewrite initializeDate_ok in E by exact F.
  apply ok_pair in E as [<- <-].
  cbn [timer backUp]. split; [reflexivity|]. split; [reflexivity|]. split; [reflexivity|].
  split; [exact F|left; reflexivity].
Qed.
Lemma init_fits off t d b : year_fits (broken_down off t) = true -> initializeDate off t = Ok (d, b) ->
  timer d = t /\ backUp d = broken_down off t /\ b = broken_down off t /\ date_inv off d.
Proof.
  intros F E. rewrite initializeDate_ok in E by exact F. apply ok_pair in E as [<- <-].
  cbn [timer backUp]. split; [reflexivity|]. split; [reflexivity|]. split; [reflexivity|].
  split; [exact F|left; reflexivity].
Qed.
Lemma mktime_fits off f : zone off -> year_fits (broken_down off (fst (mktime off f))) = true.
Proof.
  intros O. unfold mktime. destruct (year_fits (broken_down off (instant off f))) eqn:F; cbn [fst]; [exact F|].
  apply fits_near; [exact O|lia].
Qed.
Lemma Date_ms_ok off ms d b : zone off -> is_long ms -> Date_ms off ms = Ok (d, b) ->
  timer d = Z.quot ms 1000 /\ b = broken_down off (timer d) /\ date_inv off d.
Proof.
  intros O H E. pose proof (quot_near ms H). apply init_near in E as (A & _ & B & C); [|exact O|lia]. rewrite A. auto.
Qed.
Lemma Date_copy_ok off e : zone off -> date_inv off e ->
  Date_copy off e = Ok ({| timer := timer e; backUp := broken_down off (timer e) |}, broken_down off (timer e)).
Proof. intros O [F _]. apply initializeDate_ok. exact F. Qed.
Lemma inv_fits off t : year_fits (broken_down off t) = true -> date_inv off {| timer := t; backUp := broken_down off t |}.
Proof. intros F. unfold date_inv. cbn [timer backUp]. auto. Qed.
Lemma inv_fail off f : zone off -> date_inv off {| timer := -1; backUp := f |}.
Proof. intros O. unfold date_inv. cbn [timer backUp]. split; [apply fits_near; [exact O|lia]|auto]. Qed.
Lemma update_cases off f d b : updateDateStatus off f = (d, b) ->
  (year_fits (broken_down off (instant off f)) = true /\ d = {| timer := instant off f; backUp := broken_down off (instant off f) |} /\
   b = broken_down off (instant off f)) \/ (d = {| timer := -1; backUp := f |} /\ b = f).
Proof.
  unfold updateDateStatus, mktime. generalize (instant off f). intros t.
  destruct (year_fits (broken_down off t)) eqn:F; intros E; apply pair_eq in E as [<- <-]; auto.
Qed.
Lemma set_inv off buf e k v d b : zone off -> set_field off buf e k v = (d, b) ->
  date_inv off d /\ (b = broken_down off (timer d) \/ timer d = -1).
Proof.
  intros O. unfold set_field. intros E. apply update_cases in E as [(F & -> & ->)|[-> ->]]; cbn [timer].
  - revert F. generalize (instant off (put_field buf k v)). intros t F. split; [now apply inv_fits|left; reflexivity].
  - split; [now apply inv_fail|right; reflexivity].
Qed.
Lemma Forall_upd {A} (P : A -> Prop) l i x : Forall P l -> P x -> Forall P (upd l i x).
Proof.
  intros F X. revert i. induction F; intros [|i]; cbn; constructor; auto.
Qed.
Lemma reach_inv off w : zone off -> reachable off w -> Forall (date_inv off) (snd w).
Proof.
  intros O. induction 1 as [|w w' R IH S]; [constructor|].
  assert (Q : forall i e, nth_error (snd w) i = Some e -> date_inv off e).
  { intros i e E. rewrite Forall_forall in IH. apply IH. now apply nth_error_In in E. }
  destruct S; cbn [snd] in *.
  - apply Forall_app. split; [exact IH|constructor; [|constructor]]. eapply Date_ms_ok; eauto.
  - apply Forall_app. split; [exact IH|constructor; [|constructor]].
    unfold Date_fields, initializeDate_fields in H0. eapply init_fits in H0; [apply H0|]. now apply mktime_fits.
  - apply Forall_app. split; [exact IH|constructor; [|constructor]].
    unfold Date_string in H. destruct (parse m off now s) as [t| | |] eqn:P; cbn [bind] in H; try discriminate.
    apply parse_long in P. apply quot_near in P. eapply init_near in H; [apply H|exact O|lia].
  - apply Forall_app. split; [exact IH|constructor; [|constructor]].
    rewrite Date_copy_ok in H0 by eauto. apply ok_pair in H0 as [<- <-]. split; cbn; [apply (Q _ _ H)|auto].
  - apply Forall_upd; [exact IH|]. rewrite Date_copy_ok in H0 by eauto. apply ok_pair in H0 as [<- <-]. split; cbn; [apply (Q _ _ H)|auto].
  - apply Forall_upd; [exact IH|]. eapply Date_ms_ok; eauto.
  - apply Forall_upd; [exact IH|]. eapply set_inv; eauto.
  - exact IH.
Qed.
Lemma at_inv off buf ds i d : zone off -> reachable off (buf, ds) -> nth_error ds i = Some d -> date_inv off d.
Proof.
  intros O R E. pose proof (reach_inv off _ O R) as F. cbn in F. rewrite Forall_forall in F. apply F.
  now apply nth_error_In in E.
Qed.

(** ** C59 Ordering *)

Lemma bounded off d : zone off -> date_inv off d -> -70000000000000000 <= timer d <= 70000000000000000.
Proof. intros O [F _]. now apply (fits_bound off). Qed.
Lemma compareTo_ok m off d e : zone off -> date_inv off d -> date_inv off e ->
  compareTo m d e = Ok (match timer d ?= timer e with Lt => -1 | Eq => 0 | Gt => 1 end).
Proof.
  intros O D E. pose proof (bounded off d O D). pose proof (bounded off e O E).
  unfold compareTo, ssub. rewrite sres_ok by (unfold in_s, smin, smax; cbn; lia). cbn [bind]. f_equal.
  destruct (Z.compare_spec (timer d) (timer e)); destruct (Z.ltb_spec (timer d - timer e) 0), (Z.ltb_spec 0 (timer d - timer e)); lia.
Qed.

(** In every state a program can reach, before, after and compareTo order any
    two dates by their instants, without undefined behaviour, and equals is
    equality of instants (with wrapping arithmetic). *)
Theorem C59_order : forall off w buf ds i j d e m, zone off -> reachable off w -> w = (buf, ds) ->
  nth_error ds i = Some d -> nth_error ds j = Some e ->
  (exists b, before off d e = Ok (timer d <? timer e, b)) /\
  (exists b, after off d e = Ok (timer e <? timer d, b)) /\
  compareTo m d e = Ok (match timer d ?= timer e with Lt => -1 | Eq => 0 | Gt => 1 end) /\
  (exists b, equals HW off d e = Ok (timer d =? timer e, b)).
Proof.
  intros off w buf ds i j d e m O R -> D E.
  pose proof (at_inv _ _ _ _ _ O R D) as ID. pose proof (at_inv _ _ _ _ _ O R E) as IE.
  unfold before, after, equals. rewrite Date_copy_ok by auto. cbn [bind fst snd timer].
  split; [eauto|]. split; [eauto|]. split; [now apply (compareTo_ok m off)|].
  unfold getTime, smul. rewrite !sres_HW by lia. cbn [bind timer]. eexists. do 2 f_equal.
  pose proof (bounded off d O ID). pose proof (bounded off e O IE).
  destruct (Z.eqb_spec (timer d) (timer e)) as [->|N]; [apply Z.eqb_refl|].
  apply Z.eqb_neq. intros C. apply N.
  assert (M : (timer d * 1000) mod 2 ^ 64 = (timer e * 1000) mod 2 ^ 64).
  { rewrite <- (wrap_mod 64 (timer d * 1000)), <- (wrap_mod 64 (timer e * 1000)) by lia. now rewrite C. }
  clear C. assert (K : ((timer d - timer e) * 1000) mod 2 ^ 64 = 0).
  { replace ((timer d - timer e) * 1000) with (timer d * 1000 - timer e * 1000) by lia.
    rewrite Zminus_mod, M, Z.sub_diag. reflexivity. }
  apply Z.mod_divide in K; [|lia]. destruct K as [k K].
  change (2 ^ 64) with (8 * 2305843009213693952) in K. lia.
Qed.
Print Assumptions C59_order.

(** Dates whose millisecond count fits a long (all those built from
    milliseconds or texts, and all years up to 292 million). *)
Definition near (d : Date) : Prop := -9223372036854775 <= timer d <= 9223372036854775.
(** For them the order is that of getTime, under both readings of C++. *)
Theorem C59_getTime_order_partial : forall off w buf ds i j d e m, zone off -> reachable off w -> w = (buf, ds) ->
  nth_error ds i = Some d -> nth_error ds j = Some e -> near d -> near e ->
  exists td te, getTime m d = Ok td /\ getTime m e = Ok te /\
    (exists b, before off d e = Ok (td <? te, b)) /\ (exists b, after off d e = Ok (te <? td, b)) /\
    (exists b, equals m off d e = Ok (td =? te, b)) /\
    compareTo m d e = Ok (match td ?= te with Lt => -1 | Eq => 0 | Gt => 1 end).
Proof.
  intros off w buf ds i j d e m O R -> D E ND NE. unfold near in *.
  pose proof (at_inv _ _ _ _ _ O R D) as ID. pose proof (at_inv _ _ _ _ _ O R E) as IE.
  exists (timer d * 1000), (timer e * 1000).
  assert (GD : getTime m d = Ok (timer d * 1000)) by (apply sres_ok; unfold in_s, smin, smax; cbn; lia).
  assert (GE : forall b, getTime m {| timer := timer e; backUp := b |} = Ok (timer e * 1000))
    by (intros b; apply sres_ok; unfold in_s, smin, smax; cbn; lia).
  split; [exact GD|]. split; [apply (GE (backUp e))|].
  unfold before, after, equals. rewrite Date_copy_ok by auto. cbn [bind fst snd timer]. rewrite GD, GE. cbn [bind].
  rewrite (compareTo_ok m off) by auto.
  assert (C : (timer d * 1000 ?= timer e * 1000) = (timer d ?= timer e)).
  { destruct (Z.compare_spec (timer d) (timer e)); [apply Z.compare_eq_iff|apply Z.compare_lt_iff|apply Z.compare_gt_iff]; lia. }
  assert (L1 : (timer d * 1000 <? timer e * 1000) = (timer d <? timer e)).
  { destruct (Z.ltb_spec (timer d) (timer e)); [apply Z.ltb_lt|apply Z.ltb_ge]; lia. }
  assert (L2 : (timer e * 1000 <? timer d * 1000) = (timer e <? timer d)).
  { destruct (Z.ltb_spec (timer e) (timer d)); [apply Z.ltb_lt|apply Z.ltb_ge]; lia. }
  rewrite C, L1, L2. eauto 10.
Qed.
Print Assumptions C59_getTime_order_partial.

(** setTime and the constructor keep whole seconds (truncated towards zero). *)
Theorem C59_setTime : forall off ms m, zone off -> is_long ms ->
  exists d b, Date_ms off ms = Ok (d, b) /\ near d /\ getTime m d = Ok (Z.quot ms 1000 * 1000).
Proof.
  intros off ms m O H. pose proof (quot_near ms H) as Q. unfold Date_ms. rewrite initializeDate_ok by (apply fits_near; [exact O|lia]).
  do 2 eexists. split; [reflexivity|]. split; [exact Q|]. unfold getTime. cbn [timer]. apply sres_ok.
  unfold in_s, smin, smax. cbn. lia.
Qed.
Print Assumptions C59_setTime.
(** Copies are equal to the original. *)
Theorem C59_copy : forall off w buf ds i d, zone off -> reachable off w -> w = (buf, ds) -> nth_error ds i = Some d ->
  exists c b, Date_copy off d = Ok (c, b) /\ timer c = timer d.
Proof.
  intros off w buf ds i d O R -> D. rewrite Date_copy_ok by (eauto using at_inv). eauto.
Qed.
Print Assumptions C59_copy.

(** The date of 1 January 300000000 is after the epoch, but its getTime() is
    negative (an overflow, undefined under ISO). *)
Theorem C59_getTime_refuted : exists d b e b' t,
  Date_fields 0 299998100 0 1 0 0 0 = Ok (d, b) /\ Date_ms 0 0 = Ok (e, b') /\
  (exists b, after 0 d e = Ok (true, b)) /\ getTime HW d = Ok t /\ t < 0 /\ getTime HW e = Ok 0 /\
  getTime ISO d = UB SignedOverflow.
Proof.
  do 5 eexists. split; [vm_compute; reflexivity|]. split; [vm_compute; reflexivity|].
  split; [eexists; vm_compute; reflexivity|]. split; [vm_compute; reflexivity|]. split; [lia|]. split; vm_compute; reflexivity.
Qed.
Print Assumptions C59_getTime_refuted.
Example C59_ex : reachable 3600 (broken_down 3600 5, [{| timer := 5; backUp := broken_down 3600 5 |}]) /\ zone 3600 /\
  getTime ISO {| timer := 5; backUp := broken_down 3600 5 |} = Ok 5000 /\ Date_ms 3600 (-1) = Ok ({| timer := 0; backUp := broken_down 3600 0 |}, broken_down 3600 0).
Proof.
  split.
  - apply (reach_s _ (broken_down 0 0, [])); [constructor|]. apply (step_new _ _ [] 5999); [unfold is_long, long_min, long_max; lia|reflexivity].
  - unfold zone. split; [lia|]. split; reflexivity.
Qed.

(** ** C70 Fields *)

(** Reading the fields right after a date was built from milliseconds (or by
    setTime) gives the calendar fields of its instant. *)
Theorem C70_fresh_partial : forall off ms d b, zone off -> is_long ms -> Date_ms off ms = Ok (d, b) ->
  proper (get_fields b d) /\ instant off (get_fields b d) = timer d /\
  forall f, proper f -> instant off f = timer d -> f = get_fields b d.
Proof.
  intros off ms d b O H E. destruct (Date_ms_ok off ms d b O H E) as (_ & -> & _). unfold get_fields.
  destruct (broken_down_ok off (timer d)) as [P I]. split; [exact P|]. split; [exact I|].
  intros f F G. apply (proper_unique off); congruence.
Qed.
Print Assumptions C70_fresh_partial.
(** The constructor taking fields denotes the instant of the fields, carrying
    over values outside their range, and shows them when they are proper. *)
Theorem C70_constructor_partial : forall off f, zone off -> year_fits (broken_down off (instant off f)) = true ->
  exists d b, Date_fields off (f_year f) (f_month f) (f_day f) (f_hour f) (f_minute f) (f_second f) = Ok (d, b) /\
    timer d = instant off f /\ proper (get_fields b d) /\ instant off (get_fields b d) = timer d /\
    (proper f -> get_fields b d = f).
Proof.
  intros off f O F. destruct f as [y mo da h mi s]. unfold Date_fields, initializeDate_fields, mktime. cbn [f_year f_month f_day f_hour f_minute f_second].
  rewrite F. cbn [fst]. rewrite initializeDate_ok by exact F. do 2 eexists. split; [reflexivity|]. cbn [timer]. split; [reflexivity|].
  unfold get_fields. destruct (broken_down_ok off (instant off {| f_year := y; f_month := mo; f_day := da; f_hour := h; f_minute := mi; f_second := s |})) as [P I].
  split; [exact P|]. split; [exact I|]. apply broken_down_proper.
Qed.
Print Assumptions C70_constructor_partial.
(** A setter applied while the buffer still shows the date replaces one field
    of it, carrying over. *)
Definition with_field (b : fields) (k : field) (v : Z) : fields :=
  let keep (j : field) (x : Z) := match k, j with Fyear, Fyear | Fmonth, Fmonth | Fday, Fday | Fhour, Fhour | Fminute, Fminute | Fsecond, Fsecond => v | _, _ => x end in
  {| f_year := keep Fyear (f_year b); f_month := keep Fmonth (f_month b); f_day := keep Fday (f_day b);
     f_hour := keep Fhour (f_hour b); f_minute := keep Fminute (f_minute b); f_second := keep Fsecond (f_second b) |}.
Theorem C70_set_partial : forall off d k v, zone off ->
  let f := with_field (broken_down off (timer d)) k v in
  year_fits (broken_down off (instant off f)) = true ->
  exists d' b, set_field off (broken_down off (timer d)) d k v = (d', b) /\
    timer d' = instant off f /\ proper (get_fields b d') /\ instant off (get_fields b d') = timer d'.
Proof.
  intros off d k v O f F. unfold set_field, updateDateStatus, mktime. replace (put_field (broken_down off (timer d)) k v) with f by (destruct k; reflexivity). rewrite F.
  do 2 eexists. split; [reflexivity|]. cbn [timer]. split; [reflexivity|]. unfold get_fields. apply broken_down_ok.
Qed.
Print Assumptions C70_set_partial.
(** The text of a date always shows the date's own instant (unless the C
    library had failed). *)
Theorem C70_text : forall off w buf ds i d, zone off -> reachable off w -> w = (buf, ds) -> nth_error ds i = Some d ->
  (proper (backUp d) /\ instant off (backUp d) = timer d) \/ timer d = -1.
Proof.
  intros off w buf ds i d O R -> D. destruct (at_inv _ _ _ _ _ O R D) as [_ [->|E]]; [left; apply broken_down_ok|auto].
Qed.
Print Assumptions C70_text.

(** The getters of a date show the date made last. *)
Theorem C70_getters_refuted : exists d e b, reachable 0 (b, [d; e]) /\ timer d <> timer e /\
  get_fields b d = get_fields b e /\ instant 0 (get_fields b d) = timer e.
Proof.
  exists {| timer := 0; backUp := broken_down 0 0 |}, {| timer := 86400; backUp := broken_down 0 86400 |}, (broken_down 0 86400).
  split; [|split; [discriminate|split; reflexivity]].
  apply (reach_s _ (broken_down 0 0, [{| timer := 0; backUp := broken_down 0 0 |}])).
  - apply (reach_s _ (broken_down 0 0, [])); [constructor|]. apply (step_new _ _ [] 0); [unfold is_long, long_min, long_max; lia|reflexivity].
  - apply (step_new _ _ [_] 86400000); [unfold is_long, long_min, long_max; lia|reflexivity].
Qed.
Print Assumptions C70_getters_refuted.
(** A setter on one date gives it the fields of the date made last:
    setHours(5) on 1 January 1970 yields 2 January 1970, 5 o'clock. *)
Theorem C70_setter_refuted : exists d e b d' b', reachable 0 (b, [d; e]) /\ set_field 0 b d Fhour 5 = (d', b') /\
  timer d = 0 /\ timer e = 86400 /\ timer d' = 86400 + 5 * 3600.
Proof.
  exists {| timer := 0; backUp := broken_down 0 0 |}, {| timer := 86400; backUp := broken_down 0 86400 |}, (broken_down 0 86400).
  do 2 eexists. split.
  - apply (reach_s _ (broken_down 0 0, [{| timer := 0; backUp := broken_down 0 0 |}])).
    + apply (reach_s _ (broken_down 0 0, [])); [constructor|]. apply (step_new _ _ [] 0); [unfold is_long, long_min, long_max; lia|reflexivity].
    + apply (step_new _ _ [_] 86400000); [unfold is_long, long_min, long_max; lia|reflexivity].
  - split; [vm_compute; reflexivity|]. repeat split.
Qed.
Print Assumptions C70_setter_refuted.
(** Even a comparison changes what the getters of the receiver return, for
    every pair of dates with different fields. *)
Theorem C70_compare_refuted : forall off w buf ds i j d e, zone off -> reachable off w -> w = (buf, ds) ->
  nth_error ds i = Some d -> nth_error ds j = Some e ->
  exists b, before off d e = Ok (timer d <? timer e, b) /\ instant off (get_fields b d) = timer e.
Proof.
  intros off w buf ds i j d e O R -> D E. unfold before. rewrite Date_copy_ok by (eauto using at_inv). cbn [bind fst snd timer].
  eexists. split; [reflexivity|]. apply broken_down_ok.
Qed.
Print Assumptions C70_compare_refuted.
Example C70_ex : exists d b, Date_fields 0 100 1 29 23 59 60 = Ok (d, b) /\
  get_fields b d = {| f_year := 100; f_month := 2; f_day := 1; f_hour := 0; f_minute := 0; f_second := 0 |}
  /\ proper {| f_year := 100; f_month := 1; f_day := 29; f_hour := 0; f_minute := 0; f_second := 0 |}.
Proof. do 2 eexists. split; [vm_compute; reflexivity|]. split; [reflexivity|]. unfold proper. cbn. lia. Qed.

(** ** C71 Date.UTC *)

(** What the call computes: with a zone [off] the result is [1001 * off] short
    of the milliseconds of the fields read in UTC. *)
Theorem C71_UTC_partial : forall off f m, zone off -> -60000000000000 <= instant 0 f <= 60000000000000 ->
  UTC m off (f_year f) (f_month f) (f_day f) (f_hour f) (f_minute f) (f_second f) = Ok (1000 * instant 0 f - 1001 * off).
Proof.
  intros off f m O H. unfold UTC.
  assert (I : forall z g, instant z g = instant 0 g - z) by (intros; unfold instant; lia).
  destruct (C70_constructor_partial off f O) as (d & b & E & T & _).
  { apply fits_near; [exact O|]. rewrite I. unfold zone in O. lia. }
  rewrite E. cbn [bind fst]. unfold getTime. rewrite T, I.
  unfold smul. rewrite sres_ok by (unfold zone in O; unfold in_s, smin, smax; cbn; lia). cbn [bind].
  set (t := (instant 0 f - off) * 1000). assert (B : -60000000000000000 - 86400000 <= t <= 60000000000000000 + 86400000) by (unfold zone in O; unfold t; lia).
  assert (G : year_fits (broken_down 0 t) = true).
  { unfold zone in O. unfold broken_down. pose proof (civil_ok ((t + 0) / 86400)) as C.
    destruct (civil ((t + 0) / 86400)) as [[y mo] da]. destruct C as (A1 & A2 & C).
    pose proof (year_day_bounds y mo da A1 A2) as Y. rewrite C in Y.
    assert (R : - 700000000000 <= (t + 0) / 86400 <= 700000000000) by (clear - B; clearbody t; dm).
    unfold year_fits. cbn [f_year]. apply andb_true_intro. unfold int_min, int_max.
    split; apply Z.leb_le; destruct (Z.ltb_spec y 1970); lia. }
  unfold getUTCTime, localtime. rewrite G. unfold mktime. rewrite I, (proj2 (broken_down_ok 0 t)).
  assert (F : year_fits (broken_down off (t - off)) = true).
  { replace (broken_down off (t - off)) with (broken_down 0 t); [exact G|]. unfold broken_down. now replace (t - off + off) with (t + 0) by lia. }
  rewrite F. cbn [fst]. f_equal. unfold t. lia.
Qed.
Print Assumptions C71_UTC_partial.
(** Hence it is right in UTC itself and wrong in every other zone. *)
Theorem C71_UTC_zone_refuted : forall off f m, zone off -> -60000000000000 <= instant 0 f <= 60000000000000 ->
  (UTC m off (f_year f) (f_month f) (f_day f) (f_hour f) (f_minute f) (f_second f) = Ok (1000 * instant 0 f) <-> off = 0).
Proof.
  intros off f m O H. rewrite C71_UTC_partial by auto.
  assert (K : forall a b : Z, Ok a = Ok b -> a = b) by congruence.
  split; [intros E; apply K in E; lia|intros ->; f_equal; lia].
Qed.
Print Assumptions C71_UTC_zone_refuted.
Example C71_ex : UTC ISO 0 70 0 2 0 0 0 = Ok 86400000 /\ UTC ISO 3600 70 0 2 0 0 0 = Ok (86400000 - 3603600).
Proof. split; vm_compute; reflexivity. Qed.
