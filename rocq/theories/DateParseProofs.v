(** Date.parse: totality, and the meaning of the token loop. *)

From Coq Require Import ZArith List Lia Bool String.
From Verif Require Import Base Bits CppText TextSpec TextLemmas StringModel StringSpec StringProofs DateSpec DateModel DateProofs.
Import ListNotations.
Open Scope string_scope.
Open Scope list_scope.
Open Scope Z_scope.
Local Strategy 1000 [broken_down instant civil epoch_day].

(** ** Totality under the wrapping reading *)

Definition done {A} (o : outcome A) : Prop := (exists a, o = Ok a) \/ o = Throw InterruptedException.
Lemma done_ok {A} (a : A) : done (Ok a).
Proof. left. eauto. Qed.
Lemma done_fail {A} : done (@Fail A).
Proof. right. reflexivity. Qed.
Lemma done_bind {A B} (o : outcome A) (f : A -> outcome B) :
  done o -> (forall a, o = Ok a -> done (f a)) -> done (bind o f).
Proof. intros [(a & ->)| ->] H; cbn [bind]; [now apply H|right; reflexivity]. Qed.
Lemma done_if {A} (b : bool) (x y : outcome A) : done x -> done y -> done (if b then x else y).
Proof. destruct b; auto. Qed.
Lemma sres_done w r : 0 < w -> done (sres HW w r).
Proof. intros W. rewrite sres_HW by exact W. apply done_ok. Qed.
Ltac arith := apply sres_done; lia.

Lemma removeBracket_ok k : forall s, (List.length s <= k)%nat -> exists t, removeBracket k s = Ok t /\ zlen t <= zlen s.
Proof.
  induction k as [|k IH]; intros s H; cbn [removeBracket].
  - destruct s; [|cbn in H; lia]. exists []. split; [reflexivity|lia].
  - destruct (negb (indexOf_char s 40 =? -1) && (indexOf_char s 40 <? indexOf_char s 41)) eqn:E; [|exists s; split; [reflexivity|lia]].
    apply andb_prop in E as [E1 E2]. apply Z.ltb_lt in E2. apply negb_true_iff, Z.eqb_neq in E1.
    pose proof (indexOf_char_ok s 40 ltac:(lia)) as A. pose proof (indexOf_char_ok s 41 ltac:(lia)) as B.
    assert (BA : -1 <= indexOf_char s 40) by (unfold first_in in A; clear - A; destruct A as [(A & _)|(A & _)]; lia).
    assert (BB : indexOf_char s 41 <= zlen s - 1) by (unfold first_in in B; clear - B E2 BA E1; destruct B as [(B & _)|(B & _)]; lia).
    destruct (subString_in s 0 (indexOf_char s 40)) as (a & -> & SA); [lia|lia|]. cbn [bind].
    unfold subString1. destruct (subString_in s (indexOf_char s 41 + 1) (zlen s)) as (b & -> & SB); [lia|lia|]. cbn [bind].
    destruct SA as (a1 & a2 & _ & SA1 & SA2). destruct SB as (b1 & b2 & _ & SB1 & SB2).
    assert (LA : zlen a = indexOf_char s 40) by lia.
    assert (LB : zlen b = zlen s - (indexOf_char s 41 + 1)) by lia.
    destruct (IH (a ++ b)) as (t & -> & L).
    { assert (zlen (a ++ b) < zlen s) by (rewrite zlen_app; lia). unfold zlen in *. lia. }
    exists t. split; [reflexivity|]. rewrite zlen_app in L. lia.
Qed.

Lemma gsn_total k : forall s i n, small s -> 0 <= i < zlen s -> zlen s - i <= Z.of_nat k ->
  exists n' j, getSequenceNumber HW k s i n = Ok (n', j) /\ i <= j <= zlen s /\
    (forall b, znth s i = Some b -> 48 <= schar b <= 57 -> i < j).
Proof.
  induction k as [|k IH]; intros s i n S I F; [lia|]. cbn [getSequenceNumber].
  destruct (charAt_in s i I S) as (c & C & ->). cbn [bind].
  destruct (Z.leb_spec 48 (schar c)), (Z.leb_spec (schar c) 57); cbn [andb].
  - unfold smul, sadd. rewrite sres_HW by lia. cbn [bind]. rewrite sres_HW by lia. cbn [bind].
    destruct (Z.ltb_spec (i + 1) (zlen s)).
    + destruct (IH s (i + 1) (wrap 32 (wrap 32 (n * 10) + (schar c - 48))) S) as (n' & j & -> & J & _); [lia|lia|].
      do 2 eexists. split; [reflexivity|]. split; [lia|]. intros; lia.
    + do 2 eexists. split; [reflexivity|]. split; [lia|]. intros; lia.
  - do 2 eexists. split; [reflexivity|]. split; [lia|]. intros b E. assert (b = c) by congruence. subst. lia.
  - do 2 eexists. split; [reflexivity|]. split; [lia|]. intros b E. assert (b = c) by congruence. subst. lia.
  - do 2 eexists. split; [reflexivity|]. split; [lia|]. intros b E. assert (b = c) by congruence. subst. lia.
Qed.
Lemma gsc_total k : forall s i w, small s -> 0 <= i < zlen s -> zlen s - i <= Z.of_nat k ->
  exists w' j, getSequenceChar k s i w = Ok (w', j) /\ i <= j <= zlen s /\ zlen w' = zlen w + (j - i).
Proof.
  induction k as [|k IH]; intros s i w S I F; [lia|]. cbn [getSequenceChar].
  destruct (charAt_in s i I S) as (c & C & ->). cbn [bind].
  destruct (is_letter (schar c)).
  - destruct (Z.ltb_spec (i + 1) (zlen s)).
    + destruct (IH s (i + 1) (w ++ [c]) S) as (w' & j & -> & J & L); [lia|lia|].
      do 2 eexists. split; [reflexivity|]. rewrite zlen_app in L. change (zlen [c]) with 1 in L. lia.
    + do 2 eexists. split; [reflexivity|]. rewrite zlen_app. change (zlen [c]) with 1. lia.
  - do 2 eexists. split; [reflexivity|]. lia.
Qed.
Lemma lookup_total m w t : small w -> exists r, lookup m w t = Ok r.
Proof.
  intros S. assert (B : in_s 32 (0 + zlen w)).
  { unfold small, int_max in S. pose proof (zlen_nonneg w). unfold in_s, smin, smax. change (2 ^ (32 - 1)) with 2147483648. lia. }
  induction t as [|[x a] t [r IH]]; cbn [lookup]; [eauto|].
  unfold regionMatches, sadd. rewrite sres_ok by exact B. cbn [bind].
  destruct (subString_total x 0 (0 + zlen w)) as [u ->]. cbn [bind].
  destruct (subString_total w 0 (0 + zlen w)) as [v ->]. cbn [bind].
  destruct (_ =? 0); eauto.
Qed.
Lemma number_done p n c e : done (number HW p n c e).
Proof.
  unfold number.
  repeat first
    [ apply done_ok | apply done_fail | arith
    | apply done_if
    | apply done_bind; [|intros ? _] ].
Qed.
Lemma word_done p a : done (word_action p a).
Proof. unfold word_action. repeat first [apply done_ok | apply done_fail | apply done_if]. Qed.
Lemma loop_done k : forall s i p, small s -> 0 <= i -> zlen s - i <= Z.of_nat k -> done (parse_loop HW k s i p).
Proof.
  induction k as [|k IH]; intros s i p S I F; cbn [parse_loop].
  - destruct (Z.leb_spec (zlen s) i); [apply done_ok|lia].
  - destruct (Z.leb_spec (zlen s) i); [apply done_ok|].
    destruct (charAt_in s i ltac:(lia) S) as (b & B & ->). cbn [bind].
    destruct ((schar b <=? 32) || (schar b =? 44)); [apply IH; auto; lia|].
    destruct ((48 <=? schar b) && (schar b <=? 57)) eqn:D.
    + apply andb_prop in D as [D1 D2]. apply Z.leb_le in D1, D2.
      destruct (gsn_total (Datatypes.S (List.length s)) s i 0 S) as (n & j & -> & J & L); [lia|unfold zlen in *; lia|].
      cbn [bind]. specialize (L b B ltac:(lia)). apply done_bind.
      * destruct (Z.ltb_spec j (zlen s)); [|apply done_ok].
        destruct (charAt_in s j ltac:(lia) S) as (b2 & _ & ->). apply done_ok.
      * intros b2 _. apply done_bind; [apply number_done|]. intros p' _. apply IH; auto; lia.
    + destruct ((schar b =? 47) || (schar b =? 58) || (schar b =? 43) || (schar b =? 45)); [apply IH; auto; lia|].
      destruct (gsc_total (Datatypes.S (List.length s)) s i [] S) as (w & j & -> & J & L); [lia|unfold zlen in *; lia|].
      cbn [bind]. destruct (Z.leb_spec j i); [apply done_fail|].
      destruct (lookup_total HW w (rev wordTable)) as [r ->].
      { unfold small in *. change (zlen []) with 0 in L. lia. }
      cbn [bind]. destruct r as [a|]; [|apply done_fail]. apply done_bind; [apply word_done|].
      intros p' _. apply IH; auto; lia.
Qed.

(** The current time the process can see: years below 10^9. *)
Definition sane_now (now : Z) : Prop := -30000000000000000 <= now <= 30000000000000000.
Lemma localtime_near off t : -86400 <= off <= 86400 -> -60000000000000000 <= t <= 60000000000000000 ->
  localtime off t = Some (broken_down off t).
Proof. intros O H. unfold localtime. now rewrite fits_near. Qed.
Lemma finish_done off now p : -86400 <= off <= 86400 -> sane_now now -> done (finish HW off now p).
Proof.
  intros O N. unfold finish. apply done_if; [apply done_fail|]. apply done_bind.
  - unfold default_century. apply done_if; [|apply done_ok].
    rewrite localtime_near by (unfold sane_now in N; lia).
    apply done_bind; [arith|intros ? _]. apply done_bind; [arith|intros ? _]. apply done_bind; [arith|intros ? _].
    apply done_if; [arith|apply done_ok].
  - intros y _. apply done_bind; [arith|intros ty _]. apply done_if; [arith|].
    apply done_bind; [|intros ? _; repeat (apply done_bind; [arith|intros ? _]); arith].
    unfold getOffsetFromUTC. rewrite !localtime_near by (unfold sane_now in N; lia). apply done_ok.
Qed.
Lemma parse_done off now s : -86400 <= off <= 86400 -> sane_now now -> small s -> done (parse HW off now s).
Proof.
  intros O N S. unfold parse. apply done_if; [apply done_fail|].
  destruct (removeBracket_ok (List.length s) s ltac:(lia)) as (t & -> & L). cbn [bind].
  apply done_bind; [apply loop_done; [unfold small in *; lia|lia|unfold zlen; lia]|].
  intros p _. now apply finish_done.
Qed.

(** ** The ISO reading refines it up to overflow *)

Definition refines {A} (a b : outcome A) : Prop := a = b \/ a = UB SignedOverflow.
Lemma ref_refl {A} (a : outcome A) : refines a a.
Proof. now left. Qed.
Lemma ref_bind {A B} (a b : outcome A) (f g : A -> outcome B) :
  refines a b -> (forall x, refines (f x) (g x)) -> refines (bind a f) (bind b g).
Proof.
  intros [->| ->] H; [|right; reflexivity]. destruct b; cbn [bind]; [apply H| | |]; apply ref_refl.
Qed.
Lemma ref_if {A} (b : bool) (x y x' y' : outcome A) : refines x x' -> refines y y' -> refines (if b then x else y) (if b then x' else y').
Proof. destruct b; auto. Qed.
Lemma ref_sres w r : refines (sres ISO w r) (sres HW w r).
Proof. unfold sres. destruct (in_sb w r); [left|right]; reflexivity. Qed.
Ltac refine_arith := repeat first [ apply ref_refl | apply ref_sres | apply ref_if | apply ref_bind; [|intros ?] ].
Lemma gsn_ref k : forall s i n, refines (getSequenceNumber ISO k s i n) (getSequenceNumber HW k s i n).
Proof.
  induction k as [|k IH]; intros s i n; cbn [getSequenceNumber]; [apply ref_refl|].
  repeat first [ apply IH | apply ref_refl | apply ref_sres | apply ref_if | apply ref_bind; [|intros ?] ].
Qed.
Lemma number_ref p n c e : refines (number ISO p n c e) (number HW p n c e).
Proof. unfold number. refine_arith. Qed.
Lemma lookup_ref w t : refines (lookup ISO w t) (lookup HW w t).
Proof.
  induction t as [|[x a] t IH]; cbn [lookup]; [apply ref_refl|]. unfold regionMatches.
  repeat first [ apply IH | apply ref_refl | apply ref_sres | apply ref_if | apply ref_bind; [|intros ?] ].
Qed.
Lemma loop_ref k : forall s i p, refines (parse_loop ISO k s i p) (parse_loop HW k s i p).
Proof.
  induction k as [|k IH]; intros s i p; cbn [parse_loop]; [apply ref_refl|].
  apply ref_if; [apply ref_refl|]. apply ref_bind; [apply ref_refl|]. intros b.
  apply ref_if; [apply IH|]. apply ref_if.
  - apply ref_bind; [apply gsn_ref|]. intros [n j]. apply ref_bind; [apply ref_refl|]. intros b2.
    apply ref_bind; [apply number_ref|]. intros p'. apply IH.
  - apply ref_if; [apply IH|]. apply ref_bind; [apply ref_refl|]. intros [w j]. apply ref_if; [apply ref_refl|].
    apply ref_bind; [apply lookup_ref|]. intros [a|]; [|apply ref_refl]. apply ref_bind; [apply ref_refl|]. intros p'. apply IH.
Qed.
Lemma finish_ref off now p : refines (finish ISO off now p) (finish HW off now p).
Proof.
  unfold finish. apply ref_if; [apply ref_refl|]. apply ref_bind.
  - unfold default_century. apply ref_if; [|apply ref_refl]. destruct (localtime off now); [|apply ref_refl]. refine_arith.
  - intros y. refine_arith.
Qed.
Lemma parse_ref off now s : refines (parse ISO off now s) (parse HW off now s).
Proof.
  unfold parse. apply ref_if; [apply ref_refl|]. apply ref_bind; [apply ref_refl|]. intros t.
  apply ref_bind; [apply loop_ref|]. intros p. apply finish_ref.
Qed.
