(** Property theorems C15-C21, C63, C64: java.util.BitSet. *)

From Coq Require Import ZArith List Lia Bool Sorted String.
From Verif Require Import Base Bits CppText TextSpec BitSpec IntegerProofs2 BitSetModel BitSetSpec BitSetProofs BitSetProofs2 BitSetProofs3.
Import ListNotations.
Open Scope Z_scope.

(** ** The invariant behind every history *)

Definition good (s : bitset) (A : nset) : Prop := inv s /\ small s /\ forall i, 0 <= i -> mem s i = A i.
Definition meets (r : outcome bitset) (d : outcome nset) : Prop :=
  match d with Ok A => exists s, r = Ok s /\ good s A | Throw e => r = Throw e | _ => False end.

Lemma meets_bind r d (f : bitset -> outcome bitset) (g : nset -> outcome nset) :
  meets r d -> (forall s A, good s A -> meets (f s) (g A)) -> meets (bind r f) (bind d g).
Proof.
  intros M H. destruct d as [A|e|u|]; cbn in M; try contradiction.
  - destruct M as (s & -> & G). cbn. auto.
  - subst. reflexivity.
Qed.
Lemma meets_omap r d (f : bitset -> bitset) : meets r d -> (forall s A, good s A -> good (f s) A) -> meets (omap f r) d.
Proof.
  intros M H. destruct d as [A|e|u|]; cbn in M; try contradiction.
  - destruct M as (s & -> & G). cbn. eauto.
  - subst. reflexivity.
Qed.
Lemma good_intro s s' A B : good s A -> inv s' -> (forall i, 0 <= i -> mem s' i = B i) -> (forall i, int_max <= i -> A i = false -> B i = false) -> good s' B.
Proof.
  intros (I & S & M) I' M' H. split; auto. split; auto. intros i Hi. rewrite M' by (unfold int_max in *; lia).
  apply H; auto. rewrite <- M by (unfold int_max in *; lia). apply S; auto.
Qed.
Lemma span_high f t i : t <= int_max -> int_max <= i -> span f t i = false.
Proof. intros. unfold span. lia. Qed.
Lemma single_high k i : k < int_max -> int_max <= i -> single k i = false.
Proof. intros. unfold single. lia. Qed.
Lemma wd_digit l k j : 0 < 64 -> Z.testbit (wd l k) j = match znth l k with Some x => Z.testbit x j | None => false end.
Proof. intros _. unfold wd. destruct (znth l k); auto. apply Z.bits_0. Qed.

Lemma meets_index s A i (f : bitset -> outcome bitset) B : good s A ->
  (i < 0 -> f s = Throw IndexOutOfBoundsException) -> (0 <= i -> exists s', f s = Ok s' /\ good s' B) ->
  meets (f s) (index i B).
Proof. intros G H1 H2. unfold index. destruct (Z.ltb_spec i 0); cbn; auto. Qed.
Lemma meets_range s A from to (f : bitset -> outcome bitset) B : good s A ->
  (~ (0 <= from <= to) -> f s = Throw IndexOutOfBoundsException) ->
  (0 <= from <= to -> exists s', f s = Ok s' /\ good s' B) -> meets (f s) (range from to B).
Proof. intros G H1 H2. unfold range. destruct (_ && _) eqn:E; cbn; [apply H2|apply H1]; lia. Qed.
Lemma flip_end_id f t : 0 <= f < t -> t mod 64 <> 0 -> flip_end t = t.
Proof. intros. unfold flip_end. replace (_ =? 0) with false by lia. auto. Qed.

Lemma run_set s A i : good s A -> element i -> meets (set HW s i) (index i (union A (single i))).
Proof.
  unfold element. intros G H. pose proof G as (I & S & M). apply (meets_index s A i (fun s => set HW s i)); auto; intros Hi.
  - unfold set. replace (i <? 0) with true by lia. auto.
  - destruct (set_ok s i I ltac:(lia)) as (s' & E & I' & M'). exists s'. split; auto.
    apply (good_intro s s' A); auto; intros k Hk; [rewrite M', M by auto; auto|].
    intros F. unfold union. rewrite F, single_high by lia. auto.
Qed.
Lemma run_clear s A i : good s A -> element i -> meets (clear HW s i) (index i (minus A (single i))).
Proof.
  unfold element. intros G H. pose proof G as (I & S & M). apply (meets_index s A i (fun s => clear HW s i)); auto; intros Hi.
  - unfold clear. replace (i <? 0) with true by lia. auto.
  - destruct (clear_ok s i I ltac:(lia)) as (s' & E & I' & M'). exists s'. split; auto.
    apply (good_intro s s' A); auto; intros k Hk; [rewrite M', M by auto; auto|].
    intros F. unfold minus. rewrite F. auto.
Qed.
Lemma run_setRange s A f t : good s A -> is_int f -> is_int t -> meets (setRange HW s f t) (range f t (union A (span f t))).
Proof.
  unfold is_int. intros G Hf Ht. pose proof G as (I & S & M). apply (meets_range s A f t (fun s => setRange HW s f t)); auto; intros Hi.
  - unfold setRange. rewrite checkRange_bad by auto. auto.
  - destruct (setRange_ok s f t I ltac:(lia) ltac:(lia)) as (s' & E & I' & M'). exists s'. split; auto.
    apply (good_intro s s' A); auto; intros k Hk; [rewrite M', M by auto; auto|].
    intros F. unfold union. rewrite F, span_high by lia. auto.
Qed.
Lemma run_clearRange s A f t : good s A -> is_int f -> is_int t -> meets (clearRange HW s f t) (range f t (minus A (span f t))).
Proof.
  unfold is_int. intros G Hf Ht. pose proof G as (I & S & M). apply (meets_range s A f t (fun s => clearRange HW s f t)); auto; intros Hi.
  - unfold clearRange. rewrite checkRange_bad by auto. auto.
  - destruct (clearRange_ok s f t I ltac:(lia) ltac:(lia)) as (s' & E & I' & M'). exists s'. split; auto.
    apply (good_intro s s' A); auto; intros k Hk; [rewrite M', M by auto; auto|].
    intros F. unfold minus. rewrite F. auto.
Qed.

Lemma run_meets p : valid p -> meets (run HW p) (ideal p).
Proof.
  induction p; cbn [valid run ideal]; intros V.
  - cbn. eexists. split; [reflexivity|]. split; [apply (empty_inv 1); lia|].
    split; [intros i _|intros i _]; apply (empty_mem 1).
  - unfold is_int in V. destruct (Z.ltb_spec n 0).
    + cbn. unfold BitSetN. replace (n <? 0) with true by lia. auto.
    + destruct (BitSetN_ok n ltac:(lia)) as (s & E & I & M & _). cbn. exists s. split; auto. split; auto.
      split; intros i _; [|unfold empty]; apply M.
  - destruct V as [F L]. destruct (valueOfLongs_ok l F ltac:(lia)) as (s & E & I & W & _). cbn. exists s. split; auto. split; auto.
    assert (M : forall i, 0 <= i -> mem s i = digit_bits 64 l i) by (intros; unfold mem, digit_bits; rewrite W; apply wd_digit; lia).
    split; auto. intros i Hi. unfold int_max in Hi. rewrite M by lia. unfold digit_bits.
    replace (znth l (i / 64)) with (@None Z); auto. symmetry. apply znth_None. right. dm.
  - destruct V as [F L]. destruct (valueOfBytes_ok l F ltac:(lia)) as (s & E & I & W). cbn. exists s. split; auto. split; auto.
    assert (M : forall i, 0 <= i -> mem s i = digit_bits 8 l i) by (intros; rewrite W by auto; unfold byte_bit, digit_bits; apply wd_digit; lia).
    split; auto. intros i Hi. unfold int_max in Hi. rewrite M by lia. unfold digit_bits.
    replace (znth l (i / 8)) with (@None Z); auto. symmetry. apply znth_None. right. dm.
  - apply meets_omap; auto. intros s A (I & S & M). destruct (copy_inv s I) as [I' M']. split; auto.
    split; intros i Hi; rewrite M'; auto.
  - apply meets_omap; auto. intros s A (I & S & M). destruct (clone_ok s I) as (_ & I' & M'). split; auto.
    split; intros i Hi; rewrite (proj2 (M' i)); auto.
  - apply meets_omap; auto. intros s A (I & S & M). destruct (clone_ok s I) as (I' & _ & M'). split; auto.
    split; intros i Hi; rewrite (proj1 (M' i)); auto.
  - destruct V as [V E]. apply meets_bind; auto. intros s A G. apply run_set; auto.
  - destruct V as [V E]. apply meets_bind; auto. intros s A G. destruct v; cbn [setTo]; [apply run_set|apply run_clear]; auto.
  - destruct V as (V & F & T). apply meets_bind; auto. intros s A G. apply run_setRange; auto.
  - destruct V as (V & F & T). apply meets_bind; auto. intros s A G. destruct v; cbn [setRangeTo]; [apply run_setRange|apply run_clearRange]; auto.
  - destruct V as [V E]. apply meets_bind; auto. intros s A G. apply run_clear; auto.
  - destruct V as (V & F & T). apply meets_bind; auto. intros s A G. apply run_clearRange; auto.
  - apply meets_bind; auto. intros s A (I & S & M). destruct (clearAll_ok s (proj1 I)) as (s' & E & I' & M'). cbn. exists s'.
    split; auto. split; auto. split; intros i _; [|unfold empty]; apply M'.
  - destruct V as [V E]. apply meets_bind; auto. intros s A G. pose proof G as (I & S & M). unfold element in E.
    apply (meets_index s A i (fun s => flip HW s i)); auto; intros Hi.
    + unfold flip. replace (i <? 0) with true by lia. auto.
    + destruct (flip_ok s i I ltac:(lia)) as (s' & Es & I' & M'). exists s'. split; auto.
      apply (good_intro s s' A); auto; intros k Hk; [rewrite M', M by auto; auto|].
      intros F. unfold symdiff. rewrite F, single_high by lia. auto.
  - destruct V as (V & F & T & N). apply meets_bind; auto. intros s A G. pose proof G as (I & S & M). unfold is_int in F, T.
    apply (meets_range s A from to (fun s => flipRange HW s from to)); auto; intros Hi.
    + unfold flipRange. rewrite checkRange_bad by auto. auto.
    + destruct (Z.eq_dec from to) as [->|].
      * exists s. unfold flipRange. rewrite checkRange_ok, Z.eqb_refl by auto. split; auto.
        apply (good_intro s s A); auto; intros k Hk; unfold symdiff, span; replace (_ && _) with false by lia; rewrite xorb_false_r; auto.
      * destruct (flipRange_ok s from to I ltac:(lia) ltac:(lia)) as (s' & Es & I' & M'). exists s'. split; auto.
        rewrite (flip_end_id from) in M' by (try apply N; lia).
        apply (good_intro s s' A); auto; intros k Hk; [rewrite M', M by auto; auto|].
        intros F0. unfold symdiff. rewrite F0, span_high by lia. auto.
  - destruct V as (V1 & V2). apply meets_bind; auto. intros s A (Is & Ss & Ms). apply meets_bind; auto. intros t B (It & St & Mt).
    destruct (bitAnd_ok s t Is It) as (s' & E & I' & M'). cbn. exists s'. split; auto. split; auto.
    split; intros i Hi; rewrite M'; [rewrite Ss; auto|rewrite Ms, Mt; auto].
  - destruct V as (V1 & V2). apply meets_bind; auto. intros s A (Is & Ss & Ms). apply meets_bind; auto. intros t B (It & St & Mt).
    destruct (bitOr_ok s t Is It) as (s' & E & I' & M'). cbn. exists s'. split; auto. split; auto.
    split; intros i Hi; rewrite M'; [rewrite Ss, St; auto|rewrite Ms, Mt; auto].
  - destruct V as (V1 & V2). apply meets_bind; auto. intros s A (Is & Ss & Ms). apply meets_bind; auto. intros t B (It & St & Mt).
    destruct (bitXor_ok s t Is It) as (s' & E & I' & M'). cbn. exists s'. split; auto. split; auto.
    split; intros i Hi; rewrite M'; [rewrite Ss, St; auto|rewrite Ms, Mt; auto].
  - destruct V as (V1 & V2). apply meets_bind; auto. intros s A (Is & Ss & Ms). apply meets_bind; auto. intros t B (It & St & Mt).
    destruct (andNot_ok s t Is It) as (s' & E & I' & M'). cbn. exists s'. split; auto. split; auto.
    split; intros i Hi; rewrite M'; [rewrite Ss; auto|rewrite Ms, Mt; auto].
  - destruct V as (V & F & T). apply meets_bind; auto. intros s A G. pose proof G as (I & S & M). unfold is_int in F, T.
    apply (meets_range s A from to (fun s => getRange HW s from to)); auto; intros Hi.
    + unfold getRange. rewrite checkRange_bad by auto. auto.
    + destruct (getRange_ok s from to I S ltac:(lia) ltac:(lia)) as (s' & Es & I' & S' & M'). exists s'. split; auto.
      split; auto. split; auto. intros i Hk. rewrite M' by auto. unfold slice. rewrite M by lia. auto.
Qed.
Lemma represents_good s A : represents s A -> good s A.
Proof.
  intros (p & V & R & D). pose proof (run_meets p V) as M. rewrite D in M. destruct M as (s' & E & G). rewrite R in E. injection E as <-. auto.
Qed.
Lemma good_answers s A : good s A -> answers s A.
Proof. intros (I & S & M) i Hi. rewrite get_ok by (try apply I; lia). rewrite M by lia. auto. Qed.

(** ** C15 a BitSet is a set of naturals *)

Theorem C15_every_history : forall p, valid p ->
  match ideal p with
  | Ok A => exists s, run HW p = Ok s /\ answers s A
  | Throw e => run HW p = Throw e
  | _ => False
  end.
Proof.
  intros p V. pose proof (run_meets p V) as M. destruct (ideal p); auto. destruct M as (s & E & G). exists s.
  split; auto. apply good_answers; auto.
Qed.
Print Assumptions C15_every_history.
Theorem C15_get_negative : forall m s i, i < 0 -> get m s i = Throw IndexOutOfBoundsException.
Proof. intros. unfold get. replace (i <? 0) with true by lia. auto. Qed.
Print Assumptions C15_get_negative.
(** The ideal meaning really is the history: the operations one by one on
    any reachable BitSet. *)
Theorem C15_single_bit_operations : forall s A i, represents s A -> 0 <= i < int_max ->
  (exists s', set HW s i = Ok s' /\ answers s' (fun k => (k =? i) || A k)) /\
  (exists s', clear HW s i = Ok s' /\ answers s' (fun k => negb (k =? i) && A k)) /\
  (exists s', flip HW s i = Ok s' /\ answers s' (fun k => if k =? i then negb (A k) else A k)) /\
  (exists s', clearAll s = Ok s' /\ answers s' (fun _ => false)).
Proof.
  intros s A i R Hi. destruct (represents_good s A R) as (I & S & M).
  destruct (set_ok s i I ltac:(lia)) as (s1 & E1 & I1 & M1). destruct (clear_ok s i I ltac:(lia)) as (s2 & E2 & I2 & M2).
  destruct (flip_ok s i I ltac:(lia)) as (s3 & E3 & I3 & M3). destruct (clearAll_ok s (proj1 I)) as (s4 & E4 & I4 & M4).
  repeat split; [exists s1|exists s2|exists s3|exists s4]; (split; [auto|]); intros k Hk; rewrite get_ok by (apply I1 || apply I2 || apply I3 || apply I4 || lia);
    rewrite ?M1, ?M2, ?M3, ?M4, ?M by lia; f_equal.
  - apply orb_comm.
  - apply andb_comm.
  - destruct (k =? i), (A k); auto.
Qed.
Print Assumptions C15_single_bit_operations.
Theorem C15_range_operations : forall s A from to, represents s A -> 0 <= from <= to -> to <= int_max ->
  (exists s', setRange HW s from to = Ok s' /\ answers s' (fun k => (from <=? k) && (k <? to) || A k)) /\
  (exists s', clearRange HW s from to = Ok s' /\ answers s' (fun k => negb ((from <=? k) && (k <? to)) && A k)) /\
  (exists s', getRange HW s from to = Ok s' /\ answers s' (fun k => (k <? to - from) && A (from + k))).
Proof.
  intros s A from to R Hi Ht. destruct (represents_good s A R) as (I & S & M).
  destruct (setRange_ok s from to I ltac:(lia) Ht) as (s1 & E1 & I1 & M1). destruct (clearRange_ok s from to I ltac:(lia) Ht) as (s2 & E2 & I2 & M2).
  destruct (getRange_ok s from to I S ltac:(lia) Ht) as (s3 & E3 & I3 & S3 & M3).
  repeat split; [exists s1|exists s2|exists s3]; (split; [auto|]); intros k Hk; rewrite get_ok by (apply I1 || apply I2 || apply I3 || lia);
    rewrite ?M1, ?M2, ?M3, ?M by lia; f_equal.
  - apply orb_comm.
  - apply andb_comm.
Qed.
Print Assumptions C15_range_operations.
(** ISO C++: the shift counts are not reduced, so touching a bit beyond the
    first word is undefined, and every non-trivial range operation shifts a
    negative value. *)
Lemma expand_any m s wi : pre s -> 0 <= wi < 2 ^ 25 -> expandTo m s wi = expandTo HW s wi.
Proof.
  intros [U C M W Z0] H. unfold expandTo, ensureCapacity, smul. destruct (inUse s <? wi + 1); auto. destruct (Z.leb_spec (wi + 1) (zlen (words s))); auto.
  rewrite !sres_ok by (unfold in_s, smin, smax; lia). auto.
Qed.
Theorem C15_iso : forall s A i, represents s A -> 64 <= i < int_max ->
  set ISO s i = UB BadShift /\ flip ISO s i = UB BadShift /\
  (A i = true -> get ISO s i = UB BadShift /\ clear ISO s i = UB BadShift) /\
  forall from, 0 <= from < i -> setRange ISO s from i = UB BadShift.
Proof.
  intros s A i R Hi. unfold int_max in Hi. destruct (represents_good s A R) as (I & S & M). pose proof I as [P N].
  assert (X : exists s1, expandTo ISO s (i / 64) = Ok s1).
  { rewrite expand_any by (auto; dm). destruct (expand_ok s (i / 64) P ltac:(dm)) as (s1 & E & _). eauto. }
  destruct X as (s1 & E1).
  assert (B : bit_mask ISO i = UB BadShift) by (unfold bit_mask, sshl; replace (_ && _) with false by lia; auto).
  repeat split.
  - unfold set. replace (i <? 0) with false by lia. rewrite wordIndex_div, E1. cbn [bind]. rewrite B. auto.
  - unfold flip. replace (i <? 0) with false by lia. rewrite wordIndex_div, E1. cbn [bind]. rewrite B. auto.
  - rename H into T. rewrite <- M in T by lia. unfold get. replace (i <? 0) with false by lia. rewrite wordIndex_div.
    destruct (Z.leb_spec (inUse s) (i / 64)); [rewrite mem_high in T by (auto; dm); discriminate|].
    pose proof (pre_use s P). rewrite at_wd by dm. cbn [bind]. rewrite B. auto.
  - rename H into T. rewrite <- M in T by lia. unfold clear. replace (i <? 0) with false by lia. rewrite wordIndex_div.
    destruct (Z.leb_spec (inUse s) (i / 64)); [rewrite mem_high in T by (auto; dm); discriminate|]. rewrite B. auto.
  - intros from Hf. unfold setRange. rewrite checkRange_ok by lia. cbn [bind]. replace (from =? i) with false by lia.
    rewrite !wordIndex_div, expand_any by (auto; dm). destruct (expand_ok s ((i - 1) / 64) P ltac:(dm)) as (s2 & -> & _). cbn [bind].
    unfold first_mask, sshl. replace (0 <=? -1) with false by lia. rewrite andb_false_r. auto.
Qed.
Print Assumptions C15_iso.

Definition demo : prog :=
  Xor (Flip (ClearRange (SetRange New 3 200) 10 130) 500) (Clone (Or (OfBytes [1; 2; 0]) (GetRange (SetRange New 60 300) 61 200))).
Example C15_demo : valid demo /\ exists s, run HW demo = Ok s /\
  map (fun i => get HW s i) [0; 2; 3; 9; 10; 138; 139; 199; 200; 500] =
  map Ok [true; true; false; false; true; false; true; true; false; true].
Proof.
  split.
  - unfold demo; cbn [valid]; unfold is_int, element; cbv [int_min int_max]. repeat split; try lia. repeat constructor; lia.
  - eexists. split; [vm_compute; reflexivity|]. vm_compute. reflexivity.
Qed.
Example C15_demo_represents : exists s A, represents s A /\ A 500 = true /\ A 10 = true.
Proof.
  destruct C15_demo as (V & s & E & _). exists s. eexists. split; [exists demo; split; auto; split; [exact E|reflexivity]|].
  vm_compute. auto.
Qed.

(** ** C16 range flip *)

(** Exactly what flip(from, to) toggles: [from, to) and, when [to] is a
    multiple of 64, the 64 indices from [to] on as well. *)
Theorem C16_flip_range_exact_partial : forall s A from to, represents s A -> 0 <= from < to -> to <= int_max ->
  exists s', flipRange HW s from to = Ok s' /\
    answers s' (symdiff A (span from (if to mod 64 =? 0 then to + 64 else to))).
Proof.
  intros s A from to R H Ht. destruct (represents_good s A R) as (I & S & M).
  destruct (flipRange_ok s from to I H Ht) as (s' & E & I' & M'). exists s'. split; auto.
  intros k Hk. rewrite get_ok by (try apply I'; lia). rewrite M', M by lia. auto.
Qed.
Print Assumptions C16_flip_range_exact_partial.
Theorem C16_flip_range_unaligned_partial : forall s A from to, represents s A -> 0 <= from <= to -> to <= int_max ->
  to mod 64 <> 0 -> exists s', flipRange HW s from to = Ok s' /\ answers s' (symdiff A (span from to)).
Proof.
  intros s A from to R H Ht N. destruct (Z.eq_dec from to) as [->|].
  - exists s. unfold flipRange. rewrite checkRange_ok, Z.eqb_refl by lia. split; auto.
    intros k Hk. rewrite (good_answers s A (represents_good s A R)) by auto. unfold symdiff, span. replace (_ && _) with false by lia. rewrite xorb_false_r. auto.
  - destruct (C16_flip_range_exact_partial s A from to R ltac:(lia) Ht) as (s' & E & An). exists s'. split; auto.
    replace (to mod 64 =? 0) with false in An by lia. auto.
Qed.
Print Assumptions C16_flip_range_unaligned_partial.
(** Whenever the range ends at a multiple of 64 the bits after it change too. *)
Theorem C16_flip_range_refuted : forall s A from to, represents s A -> 0 <= from < to -> to <= int_max ->
  to mod 64 = 0 -> exists s', flipRange HW s from to = Ok s' /\
    forall i, to <= i < to + 64 -> get HW s' i = Ok (negb (A i)).
Proof.
  intros s A from to R H Ht Z0. destruct (C16_flip_range_exact_partial s A from to R H Ht) as (s' & E & An). exists s'. split; auto.
  intros i Hi. rewrite An; [|unfold int_max in *; split; [lia|dm]]. rewrite Z0. cbn [Z.eqb].
  unfold symdiff, span. replace (_ && _) with true by lia. destruct (A i); auto.
Qed.
Print Assumptions C16_flip_range_refuted.
Example C16_witness : exists s, flipRange HW BitSet0 0 64 = Ok s /\ get HW s 64 = Ok true /\ get HW s 127 = Ok true /\ get HW s 128 = Ok false.
Proof. eexists. split; [vm_compute; reflexivity|]. vm_compute. auto. Qed.
Theorem C16_bad_range : forall m s from to, ~ (0 <= from <= to) -> flipRange m s from to = Throw IndexOutOfBoundsException.
Proof. intros. unfold flipRange. rewrite checkRange_bad by auto. auto. Qed.
Print Assumptions C16_bad_range.

(** ** C17 queries *)

Lemma good_listing s A l : good s A -> lists (mem s) l -> listing A l.
Proof. intros (I & S & M) L. apply (lists_ext (mem s) A l) in L; auto. Qed.
Theorem C17_cardinality : forall s A, represents s A -> exists l, listing A l /\ cardinality HW s = Ok (zlen l).
Proof.
  intros s A R. pose proof (represents_good s A R) as G. pose proof G as (I & S & M).
  destruct (cardinality_ok s (proj1 I) S) as (l & L & E). exists l. split; auto. eapply good_listing; eauto.
Qed.
Print Assumptions C17_cardinality.
Theorem C17_length : forall s A, represents s A -> exists L, length HW s = Ok L /\ 0 <= L /\
  (forall i, 0 <= i -> A i = true -> i < L) /\ (0 < L -> A (L - 1) = true).
Proof.
  intros s A R. destruct (represents_good s A R) as (I & S & M).
  destruct (length_small s I S) as (L & E & (L0 & LA & LB) & _). exists L. split; auto. split; auto. split.
  - intros i Hi Ai. destruct (Z.lt_ge_cases i L); auto. rewrite <- M in Ai by auto. rewrite LA in Ai by auto. discriminate.
  - intros HL. rewrite <- M by lia. auto.
Qed.
Print Assumptions C17_length.
Theorem C17_isEmpty : forall s A, represents s A -> (isEmpty s = true <-> forall i, 0 <= i -> A i = false).
Proof.
  intros s A R. destruct (represents_good s A R) as ([P N] & S & M). unfold isEmpty. rewrite Z.eqb_eq. split.
  - intros E i Hi. rewrite <- M by auto. apply mem_high; auto. lia.
  - intros H. destruct (Z.eq_dec (inUse s) 0); auto. exfalso. pose proof (pre_use s P).
    destruct (word_n0 _ (pre_word s P (inUse s - 1)) (N ltac:(lia))) as (j & Hj & B). rewrite <- mem_word in B by auto.
    rewrite M, H in B by lia. discriminate.
Qed.
Print Assumptions C17_isEmpty.
Theorem C17_nextSetBit : forall s A from, represents s A -> 0 <= from <= int_max ->
  (nextSetBit HW s from = Ok (-1) /\ forall i, from <= i -> A i = false) \/
  exists r, nextSetBit HW s from = Ok r /\ first_from A from r.
Proof.
  intros s A from R H. destruct (represents_good s A R) as (I & S & M).
  destruct (nextSetBit_ok s from (proj1 I) ltac:(lia)) as [(E & Q)|(r & E & _ & Q1 & Q2 & Q3)]; [left|right].
  - split; auto. intros i Hi. rewrite <- M by lia. auto.
  - exists r. split; auto. split; auto. rewrite <- M by lia. split; auto. intros i Hi. rewrite <- M by lia. auto.
Qed.
Print Assumptions C17_nextSetBit.
Theorem C17_nextClearBit : forall s A from, represents s A -> 0 <= from <= int_max ->
  exists r, nextClearBit HW s from = Ok r /\ first_from (complement A) from r.
Proof.
  intros s A from R H. destruct (represents_good s A R) as (I & S & M).
  destruct (nextClearBit_ok s from (proj1 I) S H) as (r & E & Q1 & Q2 & Q3).
  exists r. split; auto. split; auto. unfold complement. rewrite <- M by lia. split; auto. intros i Hi. rewrite <- M by lia. apply Q3; auto.
Qed.
Print Assumptions C17_nextClearBit.
Theorem C17_previousSetBit : forall s A from, represents s A -> 0 <= from <= int_max ->
  (previousSetBit HW s from = Ok (-1) /\ forall i, 0 <= i <= from -> A i = false) \/
  exists r, previousSetBit HW s from = Ok r /\ last_upto A from r.
Proof.
  intros s A from R H. destruct (represents_good s A R) as (I & S & M).
  destruct (previousSetBit_ok s from I S H) as [(E & Q)|(r & E & Q1 & Q2 & Q3)]; [left|right].
  - split; auto. intros i Hi. rewrite <- M by lia. auto.
  - exists r. split; auto. split; auto. rewrite <- M by lia. split; auto. intros i Hi. rewrite <- M by lia. auto.
Qed.
Print Assumptions C17_previousSetBit.
Theorem C17_previousClearBit : forall s A from, represents s A -> 0 <= from <= int_max ->
  (previousClearBit HW s from = Ok (-1) /\ forall i, 0 <= i <= from -> A i = true) \/
  exists r, previousClearBit HW s from = Ok r /\ last_upto (complement A) from r.
Proof.
  intros s A from R H. destruct (represents_good s A R) as (I & S & M).
  destruct (previousClearBit_ok s from (proj1 I) H) as [(E & Q)|(r & E & Q1 & Q2 & Q3)]; [left|right].
  - split; auto. intros i Hi. rewrite <- M by lia. auto.
  - exists r. split; auto. split; auto. unfold complement. rewrite <- M by lia. split; auto. intros i Hi. rewrite <- M by lia. apply Q3; auto.
Qed.
Print Assumptions C17_previousClearBit.
Theorem C17_negative_index : forall m s from, from < 0 ->
  nextSetBit m s from = Throw IndexOutOfBoundsException /\ nextClearBit m s from = Throw IndexOutOfBoundsException /\
  previousSetBit m s from = (if from =? -1 then Ok (-1) else Throw IndexOutOfBoundsException) /\
  previousClearBit m s from = (if from =? -1 then Ok (-1) else Throw IndexOutOfBoundsException).
Proof.
  intros m s from H. unfold nextSetBit, nextClearBit, previousSetBit, previousClearBit. replace (from <? 0) with true by lia. auto.
Qed.
Print Assumptions C17_negative_index.
(** size() is the capacity in bits: a multiple of 64 above every element
    (when the capacity itself fits an [int]). *)
Theorem C17_size : forall s A, represents s A -> 64 * zlen (words s) <= int_max ->
  exists n, size HW s = Ok (64 * n) /\ forall i, 0 <= i -> A i = true -> i < 64 * n.
Proof.
  intros s A R H. destruct (represents_good s A R) as (I & S & M). exists (zlen (words s)). unfold size, smul.
  pose proof (zlen_nonneg (words s)).
  rewrite sres_ok by (unfold in_s, smin, smax, int_max in *; change (2 ^ (32 - 1)) with 2147483648; lia). split; [f_equal; lia|].
  intros i Hi Ai. rewrite <- M in Ai by auto. destruct (Z.lt_ge_cases i (64 * zlen (words s))); auto.
  rewrite mem_high in Ai; [discriminate|apply I|]. pose proof (pre_use s (proj1 I)). lia.
Qed.
Print Assumptions C17_size.
(** The boundary: element 2^31 - 1 makes the length overflow [int]. *)
Theorem C17_length_at_the_boundary : forall s A, represents s A -> exists s', set HW s int_max = Ok s' /\
  get HW s' int_max = Ok true /\ length HW s' = Ok int_min.
Proof.
  intros s A R. destruct (represents_good s A R) as (I & S & M).
  destruct (set_ok s int_max I ltac:(unfold int_max; lia)) as (s' & E & I' & M'). exists s'. split; auto.
  split; [rewrite get_ok by (try apply I'; unfold int_max; lia); rewrite M', Z.eqb_refl, orb_true_r; auto|].
  destruct (length_ok s' I') as (L & -> & (L0 & LA & LB) & _ & _ & LE). f_equal.
  assert (int_max < L). { destruct (Z.lt_ge_cases int_max L); auto. assert (F : mem s' int_max = false) by auto. rewrite M', Z.eqb_refl, orb_true_r in F. discriminate. }
  pose proof (pre_max s' (proj1 I')). replace L with 2147483648 by (unfold int_max in *; lia). reflexivity.
Qed.
Print Assumptions C17_length_at_the_boundary.
Example C17_demo : exists s, run HW demo = Ok s /\ cardinality HW s = Ok 185 /\ length HW s = Ok 501 /\
  nextSetBit HW s 200 = Ok 500 /\ nextClearBit HW s 139 = Ok 200 /\ previousSetBit HW s 9 = Ok 2 /\ previousClearBit HW s 501 = Ok 501.
Proof. eexists. split; [vm_compute; reflexivity|]. vm_compute. auto 10. Qed.

(** ** C18 boolean algebra *)

Theorem C18_bitAnd : forall s t A B, represents s A -> represents t B ->
  exists s', bitAnd s t = Ok s' /\ answers s' (fun i => A i && B i).
Proof.
  intros s t A B Rs Rt. destruct (represents_good _ _ Rs) as (Is & Ss & Ms), (represents_good _ _ Rt) as (It & St & Mt).
  destruct (bitAnd_ok s t Is It) as (s' & E & I' & M'). exists s'. split; auto. intros i Hi.
  rewrite get_ok, M', Ms, Mt by (try apply I'; lia). auto.
Qed.
Print Assumptions C18_bitAnd.
Theorem C18_bitOr : forall s t A B, represents s A -> represents t B ->
  exists s', bitOr HW s t = Ok s' /\ answers s' (fun i => A i || B i).
Proof.
  intros s t A B Rs Rt. destruct (represents_good _ _ Rs) as (Is & Ss & Ms), (represents_good _ _ Rt) as (It & St & Mt).
  destruct (bitOr_ok s t Is It) as (s' & E & I' & M'). exists s'. split; auto. intros i Hi.
  rewrite get_ok, M', Ms, Mt by (try apply I'; lia). auto.
Qed.
Print Assumptions C18_bitOr.
Theorem C18_bitXor : forall s t A B, represents s A -> represents t B ->
  exists s', bitXor HW s t = Ok s' /\ answers s' (fun i => xorb (A i) (B i)).
Proof.
  intros s t A B Rs Rt. destruct (represents_good _ _ Rs) as (Is & Ss & Ms), (represents_good _ _ Rt) as (It & St & Mt).
  destruct (bitXor_ok s t Is It) as (s' & E & I' & M'). exists s'. split; auto. intros i Hi.
  rewrite get_ok, M', Ms, Mt by (try apply I'; lia). auto.
Qed.
Print Assumptions C18_bitXor.
Theorem C18_andNot : forall s t A B, represents s A -> represents t B ->
  exists s', andNot s t = Ok s' /\ answers s' (fun i => A i && negb (B i)).
Proof.
  intros s t A B Rs Rt. destruct (represents_good _ _ Rs) as (Is & Ss & Ms), (represents_good _ _ Rt) as (It & St & Mt).
  destruct (andNot_ok s t Is It) as (s' & E & I' & M'). exists s'. split; auto. intros i Hi.
  rewrite get_ok, M', Ms, Mt by (try apply I'; lia). auto.
Qed.
Print Assumptions C18_andNot.
(** The results are again BitSets of the API, so laws compose: one such law. *)
Theorem C18_de_morgan : forall s t u A B C, represents s A -> represents t B -> represents u C ->
  exists x y z, bitOr HW t u = Ok x /\ andNot s x = Ok y /\ (let* v := andNot s t in andNot v u) = Ok z /\
    equals y z = Ok true.
Proof.
  intros s t u A B C Rs Rt Ru.
  destruct (represents_good _ _ Rs) as (Is & Ss & Ms), (represents_good _ _ Rt) as (It & St & Mt), (represents_good _ _ Ru) as (Iu & Su & Mu).
  destruct (bitOr_ok t u It Iu) as (x & Ex & Ix & Mx). destruct (andNot_ok s x Is Ix) as (y & Ey & Iy & My).
  destruct (andNot_ok s t Is It) as (v & Ev & Iv & Mv). destruct (andNot_ok v u Iv Iu) as (z & Ez & Iz & Mz).
  exists x, y, z. rewrite Ev. cbn [bind]. repeat split; auto.
  destruct (equals_ok y z Iy Iz) as (r & -> & Q). f_equal. apply Q. intros i Hi. rewrite My, Mx, Mz, Mv.
  destruct (mem s i), (mem t i), (mem u i); auto.
Qed.
Print Assumptions C18_de_morgan.
Example C18_demo : exists s t A B, represents s A /\ represents t B /\ A 150 = true /\ B 150 = false.
Proof.
  assert (V1 : valid (SetRange New 3 200)) by (cbn; unfold is_int, int_min, int_max; lia).
  assert (V2 : valid (Set_ New 70)) by (cbn; unfold element, int_min, int_max; lia).
  do 4 eexists. split; [exists (SetRange New 3 200); split; auto; split; [vm_compute; reflexivity|reflexivity]|].
  split; [exists (Set_ New 70); split; auto; split; [vm_compute; reflexivity|reflexivity]|]. auto.
Qed.

(** ** C19 intersects *)

(** Exact: true when the sets meet; when they do not, the loop reads one word
    past the shorter set and throws std::out_of_range unless both word arrays
    have a spare word there. *)
Theorem C19_intersects_exact_partial : forall s t A B, represents s A -> represents t B ->
  ((exists i, 0 <= i /\ A i = true /\ B i = true) -> intersects s t = Ok true) /\
  ((forall i, 0 <= i -> A i && B i = false) ->
   intersects s t = if (Z.min (inUse s) (inUse t) <? zlen (words s)) && (Z.min (inUse s) (inUse t) <? zlen (words t))
                    then Ok false else Throw OutOfRange).
Proof.
  intros s t A B Rs Rt. destruct (represents_good _ _ Rs) as (Is & Ss & Ms), (represents_good _ _ Rt) as (It & St & Mt).
  destruct (intersects_ok s t (proj1 Is) (proj1 It)) as [[(i & Hi & Ai & Bi) E]|[D E]]; split; auto.
  - intros F. exfalso. rewrite Ms in Ai by auto. rewrite Mt in Bi by auto. specialize (F i Hi). rewrite Ai, Bi in F. discriminate.
  - intros (i & Hi & Ai & Bi). exfalso. specialize (D i Hi). rewrite Ms, Mt, Ai, Bi in D by auto. discriminate.
Qed.
Print Assumptions C19_intersects_exact_partial.
(** Disjoint non-empty sets that fill their arrays: an exception, not false. *)
Theorem C19_intersects_refuted : forall i, 0 <= i < 63 -> exists s t A B, represents s A /\ represents t B /\
  A i = true /\ (forall k, A k && B k = false) /\ intersects s t = Throw OutOfRange.
Proof.
  intros i Hi.
  assert (V1 : valid (Set_ New i)) by (cbn; unfold element, int_min, int_max; lia).
  assert (V2 : valid (Set_ New (i + 1))) by (cbn; unfold element, int_min, int_max; lia).
  pose proof (run_meets _ V1) as G1. pose proof (run_meets _ V2) as G2. cbn [ideal bind] in G1, G2. unfold index in G1, G2.
  replace (i <? 0) with false in G1 by lia. replace (i + 1 <? 0) with false in G2 by lia.
  destruct G1 as (s & E1 & G1), G2 as (t & E2 & G2).
  assert (R1 : represents s (union empty (single i))).
  { exists (Set_ New i). split; auto. split; auto. cbn [ideal bind]. unfold index. replace (i <? 0) with false by lia. auto. }
  assert (R2 : represents t (union empty (single (i + 1)))).
  { exists (Set_ New (i + 1)). split; auto. split; auto. cbn [ideal bind]. unfold index. replace (i + 1 <? 0) with false by lia. auto. }
  exists s, t. do 2 eexists. split; [exact R1|]. split; [exact R2|].
  assert (D : forall k, union empty (single i) k && union empty (single (i + 1)) k = false) by (intros k; unfold union, empty, single; cbn [orb]; lia).
  split; [unfold union, empty, single; cbn [orb]; apply Z.eqb_refl|]. split; auto.
  destruct (C19_intersects_exact_partial s t _ _ R1 R2) as [_ Q]. rewrite Q by auto.
  assert (L1 : zlen (words s) = 1 /\ inUse s = 1).
  { cbn [run bind] in E1. unfold set in E1. replace (i <? 0) with false in E1 by lia. rewrite wordIndex_div in E1. replace (i / 64) with 0 in E1 by dm.
    cbn in E1. injection E1 as <-. cbn. auto. }
  assert (L2 : zlen (words t) = 1 /\ inUse t = 1).
  { cbn [run bind] in E2. unfold set in E2. replace (i + 1 <? 0) with false in E2 by lia. rewrite wordIndex_div in E2. replace ((i + 1) / 64) with 0 in E2 by dm.
    cbn in E2. injection E2 as <-. cbn. auto. }
  destruct L1 as [-> ->], L2 as [-> ->]. reflexivity.
Qed.
Print Assumptions C19_intersects_refuted.

(** ** C20 serialization *)

Theorem C20_toByteArray : forall s A, represents s A -> exists l, toByteArray s = Ok l /\
  Forall (fun b => 0 <= b < 256) l /\ (forall i, 0 <= i -> digit_bits 8 l i = A i) /\ last l 1 <> 0.
Proof.
  intros s A R. destruct (represents_good s A R) as (I & S & M).
  destruct (toByteArray_ok s I) as (l & E & F & B & N & _). exists l. split; auto. split; auto. split.
  - intros i Hi. rewrite <- M, <- B by auto. unfold byte_bit, digit_bits. symmetry. apply wd_digit. lia.
  - destruct l as [|b l] using rev_ind; [cbn; lia|]. rewrite last_last. rewrite zlen_app in N. change (zlen [b]) with 1 in N.
    pose proof (zlen_nonneg l). specialize (N ltac:(lia)). rewrite wd_app in N. replace (_ <? _) with false in N by lia.
    replace (zlen l + 1 - 1 - zlen l) with 0 in N by lia. exact N.
Qed.
Print Assumptions C20_toByteArray.
Theorem C20_valueOf_bytes : forall l, Forall (fun b => 0 <= b < 256) l -> zlen l < 2 ^ 28 ->
  exists s, valueOfBytes l = Ok s /\ answers s (digit_bits 8 l).
Proof.
  intros l F L. pose proof (run_meets (OfBytes l) (conj F L)) as M. cbn in M. destruct M as (s & E & G). exists s. split; auto. apply good_answers; auto.
Qed.
Print Assumptions C20_valueOf_bytes.
Theorem C20_bytes_round_trip : forall s A, represents s A -> exists l s', toByteArray s = Ok l /\ valueOfBytes l = Ok s' /\
  answers s' A /\ equals s' s = Ok true.
Proof.
  intros s A R. destruct (represents_good s A R) as (I & S & M).
  destruct (toByteArray_ok s I) as (l & E & F & B & _ & Ll). destruct (valueOfBytes_ok l F) as (s' & E' & I' & M').
  { pose proof (pre_max s (proj1 I)). lia. }
  exists l, s'. split; auto. split; auto.
  assert (MM : forall i, 0 <= i -> mem s' i = mem s i) by (intros; rewrite M', B; auto).
  split.
  - intros i Hi. rewrite get_ok, MM, M by (try apply I'; lia). auto.
  - destruct (equals_ok s' s I' I) as (r & -> & Q). f_equal. apply Q. auto.
Qed.
Print Assumptions C20_bytes_round_trip.
Lemma toLong_wd s k : pre s -> wd (toLongArray s) k = wd (words s) k.
Proof.
  intros P. unfold toLongArray. pose proof (pre_use s P). rewrite wd_copyOf by lia. destruct (Z.ltb_spec k (inUse s)); auto. rewrite (pre_zero s P); auto.
Qed.
Lemma toLong_long s : pre s -> Forall is_long (toLongArray s).
Proof.
  intros P. apply Forall_forall. intros x Hx. apply In_nth_error in Hx. destruct Hx as (n & Hx).
  pose proof (toLong_wd s (Z.of_nat n) P) as W. unfold wd at 1, znth in W. replace (_ <? 0) with false in W by lia. rewrite Nat2Z.id, Hx in W.
  rewrite W. apply (proj2 (is_long_s _)). apply P.
Qed.
Theorem C20_toLongArray : forall s A, represents s A ->
  Forall is_long (toLongArray s) /\ (forall i, 0 <= i -> digit_bits 64 (toLongArray s) i = A i) /\ last (toLongArray s) 1 <> 0.
Proof.
  intros s A R. destruct (represents_good s A R) as (I & S & M). pose proof I as [P N]. split; [apply toLong_long; auto|]. split.
  - intros i Hi. rewrite <- M by auto. unfold mem. rewrite <- (toLong_wd s) by auto. unfold digit_bits. symmetry. apply wd_digit. lia.
  - assert (L : zlen (toLongArray s) = inUse s) by (unfold toLongArray; apply copyOf_len; apply (pre_use s P)).
    assert (T : 0 < zlen (toLongArray s) -> wd (toLongArray s) (zlen (toLongArray s) - 1) <> 0).
    { rewrite toLong_wd by auto. rewrite L. auto. }
    revert T. generalize (toLongArray s). intros l. destruct l as [|b l] using rev_ind; [cbn; lia|]. intros T. rewrite last_last.
    rewrite zlen_app in T. change (zlen [b]) with 1 in T. pose proof (zlen_nonneg l). specialize (T ltac:(lia)). rewrite wd_app in T.
    replace (_ <? _) with false in T by lia. replace (zlen l + 1 - 1 - zlen l) with 0 in T by lia. exact T.
Qed.
Print Assumptions C20_toLongArray.
Theorem C20_longs_round_trip : forall s A, represents s A -> exists s', valueOfLongs (toLongArray s) = Ok s' /\
  answers s' A /\ equals s' s = Ok true.
Proof.
  intros s A R. destruct (represents_good s A R) as (I & S & M). pose proof I as [P N].
  destruct (valueOfLongs_ok (toLongArray s) (toLong_long s P)) as (s' & E & I' & W & _).
  { unfold toLongArray. rewrite copyOf_len by apply (pre_use s P). apply (pre_max s P). }
  exists s'. split; auto.
  assert (MM : forall i, 0 <= i -> mem s' i = mem s i) by (intros; unfold mem; rewrite W, toLong_wd; auto).
  split.
  - intros i Hi. rewrite get_ok, MM, M by (try apply I'; lia). auto.
  - destruct (equals_ok s' s I' I) as (r & -> & Q). f_equal. apply Q. auto.
Qed.
Print Assumptions C20_longs_round_trip.
Theorem C20_valueOf_longs : forall l, Forall is_long l -> zlen l < 2 ^ 25 ->
  exists s, valueOfLongs l = Ok s /\ answers s (digit_bits 64 l).
Proof.
  intros l F L. pose proof (run_meets (OfLongs l) (conj F L)) as M. cbn in M. destruct M as (s & E & G). exists s. split; auto. apply good_answers; auto.
Qed.
Print Assumptions C20_valueOf_longs.
Example C20_demo : exists s, run HW demo = Ok s /\ (let* l := toByteArray s in Ok (zlen l)) = Ok 63 /\ zlen (toLongArray s) = 8.
Proof. eexists. split; [vm_compute; reflexivity|]. vm_compute. auto. Qed.

(** ** C21 equality and hash *)

Theorem C21_equals : forall s t A B, represents s A -> represents t B ->
  exists r, equals s t = Ok r /\ (r = true <-> forall i, 0 <= i -> A i = B i).
Proof.
  intros s t A B Rs Rt. destruct (represents_good _ _ Rs) as (Is & Ss & Ms), (represents_good _ _ Rt) as (It & St & Mt).
  destruct (equals_ok s t Is It) as (r & E & Q). exists r. split; auto. rewrite Q. split; intros H i Hi; specialize (H i Hi).
  - rewrite Ms, Mt in H by auto. auto.
  - rewrite Ms, Mt by auto. auto.
Qed.
Print Assumptions C21_equals.
Theorem C21_equal_sets_equal_hash : forall s t A B, represents s A -> represents t B -> (forall i, 0 <= i -> A i = B i) ->
  exists h, hashCode HW s = Ok h /\ hashCode HW t = Ok h /\ is_int h.
Proof.
  intros s t A B Rs Rt H. destruct (represents_good _ _ Rs) as (Is & Ss & Ms), (represents_good _ _ Rt) as (It & St & Mt).
  rewrite (hashCode_ok s) by apply Is. rewrite (hashCode_ok t) by apply It. eexists. split; [reflexivity|].
  assert (W : forall k, wd (words s) k = wd (words t) k).
  { apply mem_ext_words; [apply Is|apply It|]. intros i Hi. rewrite Ms, Mt by auto. auto. }
  assert (U : inUse s = inUse t) by (apply Z.le_antisymm; eapply inUse_le; eauto; [apply It|apply Is]).
  split.
  - f_equal. unfold hash_of. rewrite U. f_equal. assert (X : map (fun k => wrap 64 (wd (words t) k * (k + 1))) (positions (inUse t)) =
      map (fun k => wrap 64 (wd (words s) k * (k + 1))) (positions (inUse t))) by (apply map_ext; intros; rewrite W; auto).
    rewrite X. auto.
  - apply (proj2 (is_int_s _)). unfold hash_of. apply wrap_range. lia.
Qed.
Print Assumptions C21_equal_sets_equal_hash.
(** The value is Java's: 1234 xor the words of toLongArray() times their
    1-based position, folded to 32 bits. *)
Theorem C21_hash_value : forall s A, represents s A ->
  let h := fold_right Z.lxor 1234 (map (fun k => wrap 64 (nth (Z.to_nat k) (toLongArray s) 0 * (k + 1))) (positions (zlen (toLongArray s)))) in
  hashCode HW s = Ok (wrap 32 (Z.lxor (Z.shiftr h 32) h)).
Proof.
  intros s A R. destruct (represents_good s A R) as (I & S & M). pose proof I as [P N]. cbn zeta. rewrite hashCode_ok by auto. unfold hash_of.
  assert (L : zlen (toLongArray s) = inUse s) by (unfold toLongArray; apply copyOf_len; apply (pre_use s P)). rewrite L.
  assert (X : map (fun k => wrap 64 (nth (Z.to_nat k) (toLongArray s) 0 * (k + 1))) (positions (inUse s)) =
     map (fun k => wrap 64 (wd (words s) k * (k + 1))) (positions (inUse s))).
  { apply map_ext_in. intros k Hk. apply BitLemmas.in_positions in Hk. rewrite <- (toLong_wd s) by auto. f_equal. f_equal. unfold wd, znth.
    replace (k <? 0) with false by lia. destruct (nth_error (toLongArray s) (Z.to_nat k)) eqn:E.
    - apply nth_error_nth. auto.
    - apply nth_overflow. apply nth_error_None. auto. }
  rewrite X. auto.
Qed.
Print Assumptions C21_hash_value.
Theorem C21_clone : forall s A, represents s A ->
  answers (snd (clone s)) A /\ answers (fst (clone s)) A /\ equals (snd (clone s)) s = Ok true.
Proof.
  intros s A R. destruct (represents_good s A R) as (I & S & M). destruct (clone_ok s I) as (I1 & I2 & Q). repeat split.
  - intros i Hi. rewrite get_ok, (proj2 (Q i)), M by (try apply I2; lia). auto.
  - intros i Hi. rewrite get_ok, (proj1 (Q i)), M by (try apply I1; lia). auto.
  - destruct (equals_ok (snd (clone s)) s I2 I) as (r & -> & E). f_equal. apply E. intros i _. apply Q.
Qed.
Print Assumptions C21_clone.
(** ISO: the product of a word and its position overflows [long]. *)
Theorem C21_hash_iso : exists s A, represents s A /\ hashCode ISO s = UB SignedOverflow.
Proof.
  assert (V : valid (Set_ New 126)) by (cbn; unfold element, int_min, int_max; lia).
  do 2 eexists. split; [exists (Set_ New 126); split; auto; split; [vm_compute; reflexivity|reflexivity]|]. vm_compute. reflexivity.
Qed.
Print Assumptions C21_hash_iso.
Example C21_demo : exists s t, run HW (Clear (SetRange New 0 1000) 999) = Ok s /\ run HW (SetRange (NewN 7) 0 999) = Ok t /\
  zlen (words s) = zlen (words t) /\ equals s t = Ok true /\ equals s BitSet0 = Ok false.
Proof. do 2 eexists. split; [vm_compute; reflexivity|]. split; [vm_compute; reflexivity|]. vm_compute. auto. Qed.

(** ** C63 text *)

(** The decimal texts of the elements, separated by ", ", in braces. *)
Fixpoint joined (sep : str) (l : list str) : str :=
  match l with [] => [] | [x] => x | x :: t => x ++ sep ++ joined sep t end.
Theorem C63_toString : forall s A, represents s A -> exists l texts n, listing A l /\
  Forall2 (fun t i => canonical_signed 10 t i) texts l /\
  forall fuel, (n <= fuel)%nat -> toString HW fuel s = Ok (T "{" ++ joined (T ", ") texts ++ T "}").
Proof.
  intros s A R. pose proof (represents_good s A R) as G. pose proof G as (I & S & M). pose proof I as [P N].
  pose proof (mem_lists s P) as L. set (l := elems (words s) 0 (Z.to_nat (inUse s))) in *.
  exists l, (map itoa l), (List.length l). split; [eapply good_listing; eauto|]. split.
  - clear. induction l; constructor; auto. apply itoa_canonical.
  - intros fuel Hf. rewrite (toString_ok s l fuel) by auto. f_equal. change (T "{") with [123]. change (T "}") with [125]. f_equal. f_equal.
    change (T ", ") with [44; 32]. clear. induction l as [|a [|b l] IH]; auto. cbn [map joined commas] in *. rewrite IH. auto.
Qed.
Print Assumptions C63_toString.
Example C63_demo : (let* s := run HW (Set_ (Set_ (Set_ New 2) 300) 64) in toString HW 5 s) = Ok (T "{2, 64, 300}").
Proof. vm_compute. reflexivity. Qed.

(** ** C64 the text buffer *)

(** No assignment to the object: any number of toString calls, then
    destruction, frees each buffer once. *)
Theorem C64_buffer_without_assignment_partial : forall n,
  exists b, backup_history Null (repeat SToString n ++ [SDestroy]) = Ok b.
Proof.
  intros n. assert (H : forall b, b <> Dangling -> exists b', backup_history b (repeat SToString n ++ [SDestroy]) = Ok b').
  { induction n as [|n IH]; intros b Hb.
    - destruct b; try contradiction; eexists; reflexivity.
    - cbn [repeat app backup_history]. destruct b; try contradiction; cbn [backup_run backup_free bind]; apply IH; discriminate. }
  apply H. discriminate.
Qed.
Print Assumptions C64_buffer_without_assignment_partial.
(** toString, then an assignment to the object: the next toString, the next
    assignment and the destructor all free the same buffer a second time. *)
Theorem C64_double_free_refuted : forall n st, (1 <= n)%nat ->
  backup_history Null (repeat SToString n ++ [SAssign; st]) = UB DoubleFree.
Proof.
  intros n st Hn. assert (H : forall b, b <> Dangling -> backup_history b (repeat SToString n ++ [SAssign; st]) = UB DoubleFree).
  { destruct n as [|n]; [lia|]. clear Hn. induction n as [|n IH]; intros b Hb.
    - destruct b; try contradiction; destruct st; reflexivity.
    - change (repeat SToString (S (S n))) with (SToString :: repeat SToString (S n)). rewrite <- app_comm_cons. cbn [backup_history].
      destruct b; try contradiction; cbn [backup_run backup_free bind]; apply IH; discriminate. }
  apply H. discriminate.
Qed.
Print Assumptions C64_double_free_refuted.
