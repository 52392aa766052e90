(** C124: the code points of a StringBuilder. *)

From Coq Require Import ZArith List Lia Bool String.
From Verif Require Import Base Bits TextLemmas CppText TextSpec StringSpec CMem CharacterModel CharacterProps
  StringBuilderSpec StringBuilderModel StringBuilderProofs StringBuilderProps SbCodePointModel.
Import ListNotations.
Open Scope string_scope.
Open Scope list_scope.
Open Scope Z_scope.

(** [holds m s w]: [s] is the result of a constructor followed by a conforming
    history of calls after which the text is [w]. *)
Definition holds (m : cpp) (s : sb) (w : str) : Prop :=
  exists s0 w0 ops as_, built m s0 w0 /\
  (forall pre o post w' l, ops = pre ++ o :: post -> srun w0 pre w' l -> sb_conforming m w' o) /\
  s_run m s0 ops = Ok (s, as_) /\ srun w0 ops w as_ /\
  slen s = zlen w /\ (forall i c, znth w i = Some c -> sb_charAt s i = Ok c).

(** Specification for texts of ASCII characters. *)
Definition ascii (w : str) : Prop := Forall (fun c => 0 <= c < 128) w.

Lemma sstep_bytes w o w' a : Forall byte_ok w -> Forall byte_ok (op_text o) -> sstep w o w' a -> Forall byte_ok w'.
Proof.
  intros W T H.
  assert (R0 : forall k, Forall byte_ok (repeat 0 k)) by (intros k; induction k; cbn; constructor; auto; unfold byte_ok; lia).
  destruct o; cbn [op_text sstep] in *; intuition subst; auto; rewrite ?Forall_app; repeat split; auto using bytes_splice, bytes_part.
  - apply Forall_rev; auto.
  - rewrite <- (firstn_skipn (Z.to_nat n) w) in W. apply Forall_app in W. tauto.
Qed.
Lemma srun_bytes m w ops w' l : srun w ops w' l -> Forall byte_ok w ->
  (forall pre o post w1 l1, ops = pre ++ o :: post -> srun w pre w1 l1 -> sb_conforming m w1 o) -> Forall byte_ok w'.
Proof.
  induction 1 as [w|w o w1 a ops w2 as_ S1 R IH]; intros W C; [exact W|]. apply IH.
  - eapply sstep_bytes; [exact W| |exact S1]. destruct (C [] o ops w [] eq_refl ltac:(constructor)) as (B & _). exact B.
  - intros pre o' post w' l' -> R'. eapply (C (o :: pre)); [reflexivity|]. econstructor; eauto.
Qed.
Lemma copy_out_ok s w : (forall i c, znth w i = Some c -> mget (buf s) i = Ok c) -> forall n i, 0 <= i -> i + Z.of_nat n <= zlen w ->
  copy_out n (buf s) i = Ok (firstn n (skipn (Z.to_nat i) w)).
Proof.
  intros G. induction n as [|n IH]; intros i P Q; [reflexivity|]. cbn [copy_out].
  destruct (znth_ex w i ltac:(lia)) as [c E]. rewrite (G i c E). cbn [bind]. rewrite IH by lia. cbn [bind].
  replace (Z.to_nat (i + 1)) with (S (Z.to_nat i)) by lia. rewrite znth_nth in E by lia.
  f_equal. clear -E. revert w E. induction (Z.to_nat i) as [|k IHk]; intros [|x w] E; cbn in *; try discriminate; [congruence|]. apply IHk. exact E.
Qed.

Lemma holds_facts m s w : holds m s w -> Forall byte_ok w /\ slen s = zlen w /\ (forall i c, znth w i = Some c -> mget (buf s) i = Ok c).
Proof.
  intros (s0 & w0 & ops & as_ & B & C & E & R & L & G). destruct (built_inv m s0 w0 B) as (_ & BW).
  split; [eapply srun_bytes; eauto|]. split; [exact L|]. intros i c X. pose proof (G i c X) as Y. unfold sb_charAt in Y.
  apply znth_Some_lt in X. rewrite L in Y. replace ((i <? 0) || (zlen w <=? i)) with false in Y by lia. exact Y.
Qed.

(** Every conforming history leads to such a pair. *)
Theorem C124_reached : forall m s0 w0 ops, built m s0 w0 ->
  (forall pre o post w' l, ops = pre ++ o :: post -> srun w0 pre w' l -> sb_conforming m w' o) ->
  exists s l w, s_run m s0 ops = Ok (s, l) /\ holds m s w.
Proof.
  intros m s0 w0 ops B C. destruct (C41_history_partial m s0 w0 ops B C) as (s & l & w & E & R & L & G).
  exists s, l, w. split; [exact E|]. exists s0, w0, ops, l. auto 10.
Qed.
Print Assumptions C124_reached.

(** codePointAt answers the signed char at the index, or raises outside the text. *)
Theorem C124_codePointAt : forall m s w i, holds m s w ->
  sb_codePointAt m s i = match znth w i with Some c => Ok (if c <? 128 then c else c - 256) | None => Throw IndexOutOfBoundsException end.
Proof.
  intros m s w i H. destruct (holds_facts m s w H) as (B & L & G). unfold sb_codePointAt. rewrite L.
  destruct ((i <? 0) || (zlen w <=? i)) eqn:Q.
  - assert (znth w i = None) as -> by (apply znth_None; lia). reflexivity.
  - rewrite (copy_out_ok s w G) by (pose proof (zlen_nonneg w); lia). cbn [bind Z.to_nat skipn].
    rewrite firstn_all2 by (unfold zlen; lia). rewrite C61_codePointAt_chars by exact B.
    destruct (znth_ex w i ltac:(lia)) as [c E]. rewrite E. f_equal.
Qed.
Print Assumptions C124_codePointAt.

(** codePointBefore answers for the character before the index. *)
Theorem C124_codePointBefore : forall m s w i, holds m s w -> int_min < i <= int_max ->
  sb_codePointBefore m s i = match znth w (i - 1) with Some c => Ok (if c <? 128 then c else c - 256) | None => Throw IndexOutOfBoundsException end.
Proof.
  intros m s w i H R. unfold sb_codePointBefore, ssub. rewrite s32 by lia. cbn [bind]. apply C124_codePointAt. exact H.
Qed.
Print Assumptions C124_codePointBefore.
Theorem C124_codePointBefore_refuted : forall s, sb_codePointBefore ISO s int_min = UB SignedOverflow.
Proof. reflexivity. Qed.
Print Assumptions C124_codePointBefore_refuted.

(** codePointCount answers the number of chars of the range, or raises for a bad range. *)
Theorem C124_codePointCount : forall m s w i j, holds m s w -> zlen w <= int_max ->
  sb_codePointCount m s i j = if (0 <=? i) && (i <=? j) && (j <=? zlen w) then Ok (j - i) else Throw IndexOutOfBoundsException.
Proof.
  intros m s w i j H R. destruct (holds_facts m s w H) as (B & L & G). unfold sb_codePointCount. rewrite L.
  destruct ((i <? 0) || (zlen w <? j) || (j <? i)) eqn:Q; destruct ((0 <=? i) && (i <=? j) && (j <=? zlen w)) eqn:Q2; try lia; [reflexivity|].
  unfold ssub, sadd, int_max in *. rewrite s32 by (unfold int_min, int_max; lia). cbn [bind]. rewrite s32 by (unfold int_min, int_max; lia). cbn [bind].
  replace (i + (j - i)) with j by lia. rewrite (copy_out_ok s w G) by lia. cbn [bind Z.to_nat skipn].
  rewrite C61_codePointCount_chars.
  - assert (zlen (firstn (Z.to_nat j) w) = j) as -> by (unfold zlen in *; rewrite firstn_length; lia).
    replace ((0 <=? 0) && (0 <=? j - i) && (0 + (j - i) <=? j)) with true by lia. reflexivity.
  - rewrite <- (firstn_skipn (Z.to_nat j) w) in B. apply Forall_app in B. tauto.
Qed.
Print Assumptions C124_codePointCount.

(** For a text of ASCII characters these are the code points; a byte above 127
    is answered as a negative number, which is no code point. *)
Theorem C124_ascii_partial : forall m s w i c, holds m s w -> ascii w -> znth w i = Some c -> sb_codePointAt m s i = Ok c.
Proof.
  intros m s w i c H A E. rewrite (C124_codePointAt m s w i H), E.
  assert (0 <= c < 128). { unfold ascii in A. rewrite Forall_forall in A. apply A. rewrite znth_nth in E by (apply znth_Some_lt in E; lia). eapply nth_error_In; exact E. }
  replace (c <? 128) with true by lia. reflexivity.
Qed.
Print Assumptions C124_ascii_partial.
Theorem C124_negative_refuted : forall m s w i c, holds m s w -> znth w i = Some c -> 128 <= c ->
  exists r, sb_codePointAt m s i = Ok r /\ r < 0.
Proof.
  intros m s w i c H E C. destruct (holds_facts m s w H) as (B & _). exists (c - 256). rewrite (C124_codePointAt m s w i H), E. replace (c <? 128) with false by lia.
  split; [reflexivity|]. assert (byte_ok c). { rewrite Forall_forall in B. apply B. rewrite znth_nth in E by (apply znth_Some_lt in E; lia). eapply nth_error_In; exact E. }
  unfold byte_ok in *. lia.
Qed.
Print Assumptions C124_negative_refuted.

(** The letter e with acute accent in UTF-8: one code point (233), counted as two, the first -61. *)
Example C124_ex : exists s, sb_of HW [97; 195; 169] = Ok s /\ holds HW s [97; 195; 169] /\
  sb_codePointAt HW s 0 = Ok 97 /\ sb_codePointAt HW s 1 = Ok (-61) /\ sb_codePointCount HW s 1 3 = Ok 2 /\
  sb_codePointBefore HW s 1 = Ok 97 /\ sb_codePointCount HW s 2 1 = Throw IndexOutOfBoundsException.
Proof.
  assert (BY : Forall byte_ok [97; 195; 169]) by (repeat constructor; unfold byte_ok; lia).
  destruct (sb_of HW [97; 195; 169]) as [s| | |] eqn:E; try (vm_compute in E; discriminate).
  assert (BU : built HW s [97; 195; 169]) by (apply built_text; [vm_compute; discriminate|exact BY|exact E]).
  exists s. split; [reflexivity|]. split.
  { destruct (C41_history_partial HW s [97; 195; 169] [] BU) as (s' & l & w & E' & R & L & G); [intros [|? ?] ? ? ? ? X; discriminate|].
    inversion R; subst. cbn in E'. injection E' as <-. exists s, [97; 195; 169], [], []. split; [exact BU|].
    split; [intros [|? ?] ? ? ? ? X; discriminate|]. split; [reflexivity|]. split; [constructor|]. auto. }
  vm_compute in E. injection E as <-. vm_compute. repeat split.
Qed.
