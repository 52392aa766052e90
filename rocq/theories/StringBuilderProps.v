(** Property theorems C41: java.lang.StringBuilder editing. *)

From Coq Require Import ZArith List Lia Bool String.
From Verif Require Import Base Bits TextLemmas CppText TextSpec StringSpec CMem CharacterModel StringBuilderSpec StringBuilderModel StringBuilderProofs.
Import ListNotations.
Open Scope Z_scope.
Local Notation length := List.length.

(** The text argument of a call. *)
Definition op_text (o : sop) : str :=
  match o with
  | SAppend t | SAppendPart t _ _ | SAppendArray t _ _ | SInsert _ t | SInsertPart _ t _ _ | SInsertArray _ t _ _ | SReplace _ _ t => t
  | SAppendChar c | SInsertChar _ c | SSetCharAt _ c => [c]
  | _ => []
  end.
(** Conforming calls: characters are bytes, lengths stay within [lim], the
    sum offset + length is an int, and the text extracted contains no NUL. *)
Definition sb_conforming (m : cpp) (w : str) (o : sop) : Prop :=
  Forall byte_ok (op_text o) /\ zlen w + zlen (op_text o) <= lim m /\
  match o with
  | SAppendArray _ off len | SInsertArray _ _ off len => is_int (off + len)
  | SSetLength n | SEnsureCapacity n => n <= lim m
  | SSubstring i j => no_nul (part w i j)
  | SToString => no_nul w
  | _ => True
  end.

Lemma bytes_splice w i j t : Forall byte_ok w -> Forall byte_ok t -> Forall byte_ok (splice w i j t).
Proof. intros W T. unfold splice. rewrite !Forall_app. split; [|split; auto]; rewrite Forall_forall in *; intros x X; apply W; [rewrite <- (firstn_skipn (Z.to_nat i) w)|rewrite <- (firstn_skipn (Z.to_nat j) w)]; apply in_app_iff; auto. Qed.
Lemma bytes_part t i j : Forall byte_ok t -> Forall byte_ok (part t i j).
Proof. intros T. rewrite Forall_forall in *. intros x X. apply T. unfold part in X. rewrite <- (firstn_skipn (Z.to_nat i) t). apply in_app_iff. right. rewrite <- (firstn_skipn (Z.to_nat (j - i)) (skipn (Z.to_nat i) t)). apply in_app_iff. auto. Qed.

Lemma append_ok m s w t : sinv s w -> zlen w + zlen t <= lim m -> exists s', sb_append m s t = Ok s' /\ sinv s' (w ++ t).
Proof.
  intros I B. pose proof (lim_le m). pose proof (zlen_nonneg w). pose proof (zlen_nonneg t). unfold sb_append, sadd. rewrite (sinv_len s w I), s32 by (unfold int_min, int_max; lia). cbn [bind].
  destruct (ensure_ok m s w _ I B) as (s1 & -> & I1 & C1). cbn [bind].
  destruct (append_state s1 w t (S (length t)) (str_get t) 0 (zlen t) (zlen w + zlen t) I1) as (b & E & I2); auto. { apply rd_all. }
  rewrite E. cbn [bind]. eauto.
Qed.

Ltac z := unfold int_min, int_max; lia.
Lemma s_step_ok m s w o : sinv s w -> Forall byte_ok w -> sb_conforming m w o ->
  exists s' a w', s_step m s o = Ok (s', a) /\ sstep w o w' a /\ sinv s' w' /\ Forall byte_ok w'.
Proof.
  intros I BW (BT & L & C). pose proof (sinv_len s w I) as SL. pose proof (lim_le m) as LM. pose proof (zlen_nonneg w) as W0. pose proof (sinv_cap s w I) as CAP. pose proof (zlen_nonneg (op_text o)) as T0.
  assert (bad : forall e (P : Prop), ~ P -> exists s' a w', match (Throw e : outcome (sb * sans)) with Throw _ => Ok (s, SBad) | r => r end = Ok (s', a) /\ (forall good, (P /\ good w' a) \/ (~ P /\ w' = w /\ a = SBad)) /\ sinv s' w' /\ Forall byte_ok w').
  { intros e P N. exists s, SBad, w. split; auto. }
  destruct o as [t|c|t i j|t off n|p t|p c|p t i j|p t off n|i j|i|i j t| |i c|n|n| |i| |i j|]; cbn [op_text] in *; unfold s_step.
  - destruct (append_ok m s w t I L) as (s' & -> & I'). cbn [bind]. exists s', SUnit, (w ++ t). split; auto. split; [cbn; auto|]. split; auto. rewrite Forall_app. auto.
  - change (zlen [c]) with 1 in L. unfold sb_appendChar, sadd. rewrite SL, s32 by z. cbn [bind]. destruct (ensure_ok m s w _ I L) as (s1 & -> & I1 & C1). cbn [bind].
    destruct (append_state s1 w [c] 2 (fun _ => Ok c) 0 1 (zlen w + 1) I1) as (b & E & I2); auto. { intros k x K. apply znth_Some_lt in K as K2. change (zlen [c]) with 1 in K2. replace k with 0 in K by lia. cbn in K. congruence. }
    cbn [copy_in] in E. replace (0 <? 1) with true in E by lia. cbn [bind] in E. destruct (mset (buf s1) (slen s1) c) as [b0| | |]; cbn [bind] in *; try discriminate. replace (0 + 1 <? 1) with false in E by lia. injection E as ->. eexists _, SUnit, (w ++ [c]). split; [reflexivity|]. split; [cbn; auto|]. split; auto. rewrite Forall_app. auto.
  - unfold sb_appendPart. destruct ((i <? 0) || (j <? i) || (zlen t <? j)) eqn:Q.
    + exists s, SBad, w. split; auto. split; auto. right. split; [lia|auto].
    + assert (LP := zlen_part t i j ltac:(lia) ltac:(lia)). unfold ssub, sadd. rewrite s32 by z. cbn [bind]. rewrite SL, s32 by z. cbn [bind]. destruct (ensure_ok m s w (zlen w + (j - i)) I) as (s1 & -> & I1 & C1); [lia|]. cbn [bind].
      destruct (append_state s1 w (part t i j) (S (length t)) (str_get t) i j (zlen w + (j - i)) I1) as (b & E & I2); auto; try lia.
      { intros k x K. unfold str_get. rewrite (znth_part t i j k x) by (auto; lia). auto. } { unfold part. rewrite firstn_length, skipn_length. lia. }
      rewrite E. cbn [bind]. eexists _, SUnit, (w ++ part t i j). split; [reflexivity|]. split; [left; split; auto; lia|]. split; auto. rewrite Forall_app. split; auto. now apply bytes_part.
  - unfold is_int in C. unfold sb_appendArray, sb_insertArray, sadd. rewrite SL. replace ((zlen w <? 0) || (zlen w <? zlen w)) with false by lia. rewrite s32 by auto. cbn [bind]. destruct ((off <? 0) || (n <? 0) || (zlen t <? off + n)) eqn:Q.
    + exists s, SBad, w. split; auto. split; auto. right. split; [lia|auto].
    + assert (LP := zlen_part t off (off + n) ltac:(lia) ltac:(lia)). replace (off + n - off) with n in LP by lia.
      destruct (shift_in_ok m s w (zlen w) (part t off (off + n)) (S (length t)) (at_ t) off (off + n) I) as (s' & E & I'); try lia.
      { intros k x K. unfold at_. rewrite (znth_part t off (off + n) k x) by (auto; lia). auto. } { unfold part. rewrite firstn_length, skipn_length. lia. }
      rewrite LP in E. rewrite E. cbn [bind]. rewrite splice_end in I'. eexists _, SUnit, _. split; [reflexivity|]. split; [left; split; [lia|split; [reflexivity|auto]]|]. split; auto. rewrite Forall_app. split; auto. now apply bytes_part.
  - unfold sb_insert. rewrite SL. destruct ((p <? 0) || (zlen w <? p)) eqn:Q.
    + exists s, SBad, w. split; auto. split; auto. right. split; [lia|auto].
    + destruct (shift_in_ok m s w p t (S (length t)) (str_get t) 0 (zlen t) I) as (s' & E & I'); try lia. { apply rd_all. }
      rewrite E. cbn [bind]. eexists _, SUnit, _. split; [reflexivity|]. split; [left; split; [lia|split; [reflexivity|auto]]|]. split; auto. now apply bytes_splice.
  - change (zlen [c]) with 1 in L. unfold sb_insertChar, sadd. rewrite SL. destruct ((p <? 0) || (zlen w <? p)) eqn:Q.
    + exists s, SBad, w. split; auto. split; auto. right. split; [lia|auto].
    + rewrite s32 by z. cbn [bind]. destruct (ensure_ok m s w _ I L) as (s1 & -> & I1 & C1). cbn [bind].
      destruct (splice_state s1 w p p [c] 2 (fun _ => Ok c) 0 1 (zlen w + 1) I1) as (b1 & b2 & E1 & E & I2); auto; try lia. { change (zlen [c]) with 1. lia. } { intros k x K. apply znth_Some_lt in K as K2. change (zlen [c]) with 1 in K2. replace k with 0 in K by lia. cbn in K. congruence. }
      change (zlen [c]) with 1 in E1. rewrite E1. cbn [bind].
      cbn [copy_in] in E. replace (0 <? 1) with true in E by lia. cbn [bind] in E. destruct (mset b1 p c) as [b0| | |]; cbn [bind] in *; try discriminate. replace (0 + 1 <? 1) with false in E by lia. injection E as ->. eexists _, SUnit, _. split; [reflexivity|]. split; [left; split; [lia|split; [reflexivity|auto]]|]. split; auto. now apply bytes_splice.
  - unfold sb_insertPart. rewrite SL. destruct ((p <? 0) || (zlen w <? p)) eqn:Q.
    + exists s, SBad, w. split; auto. split; auto. right. split; [lia|auto].
    + destruct ((i <? 0) || (j <? 0) || (j <? i) || (zlen t <? j)) eqn:Q2.
      * exists s, SBad, w. split; auto. split; auto. right. split; [lia|auto].
      * assert (LP := zlen_part t i j ltac:(lia) ltac:(lia)). unfold ssub. rewrite s32 by z. cbn [bind].
        destruct (shift_in_ok m s w p (part t i j) (S (length t)) (str_get t) i j I) as (s' & E & I'); try lia.
        { intros k x K. unfold str_get. rewrite (znth_part t i j k x) by (auto; lia). auto. } { unfold part. rewrite firstn_length, skipn_length. lia. }
        rewrite LP in E. rewrite E. cbn [bind]. eexists _, SUnit, _. split; [reflexivity|]. split; [left; split; [lia|split; [reflexivity|auto]]|]. split; auto. apply bytes_splice; auto. now apply bytes_part.
  - unfold is_int in C. unfold sb_insertArray, sadd. rewrite SL. destruct ((p <? 0) || (zlen w <? p)) eqn:Q0.
    + exists s, SBad, w. split; auto. split; auto. right. split; [lia|auto].
    + rewrite s32 by auto. cbn [bind]. destruct ((off <? 0) || (n <? 0) || (zlen t <? off + n)) eqn:Q.
      * exists s, SBad, w. split; auto. split; auto. right. split; [lia|auto].
      * assert (LP := zlen_part t off (off + n) ltac:(lia) ltac:(lia)). replace (off + n - off) with n in LP by lia.
        destruct (shift_in_ok m s w p (part t off (off + n)) (S (length t)) (at_ t) off (off + n) I) as (s' & E & I'); try lia.
        { intros k x K. unfold at_. rewrite (znth_part t off (off + n) k x) by (auto; lia). auto. } { unfold part. rewrite firstn_length, skipn_length. lia. }
        rewrite LP in E. rewrite E. cbn [bind]. eexists _, SUnit, _. split; [reflexivity|]. split; [left; split; [lia|split; [reflexivity|auto]]|]. split; auto. apply bytes_splice; auto. now apply bytes_part.
  - unfold sb_deleteRange. rewrite SL. assert (QM : (if zlen w <? j then zlen w else j) = Z.min j (zlen w)) by (destruct (Z.ltb_spec (zlen w) j); lia). rewrite QM. destruct (Z.ltb_spec i 0) as [Q|Q]; [|destruct (Z.ltb_spec (Z.min j (zlen w)) i) as [Q2|Q2]].
    + exists s, SBad, w. split; auto. split; auto. right. split; [lia|auto].
    + exists s, SBad, w. split; auto. split; auto. right. split; [lia|auto].
    + destruct (splice_state s w i (Z.min j (zlen w)) [] 1 (fun _ => Ok 0) 0 0 (zlen w - (Z.min j (zlen w) - i)) I) as (b1 & b2 & E1 & E2 & I2); auto; try lia. { change (zlen (@nil Z)) with 0. lia. } { intros k x K. apply znth_Some_lt in K. change (zlen (@nil Z)) with 0 in K. lia. }
      change (zlen (@nil Z)) with 0 in E1. rewrite Z.add_0_r, SL in E1. rewrite E1. cbn [bind]. cbn in E2. injection E2 as ->. rewrite (by_value_ok _ _ I2). cbn [bind]. eexists _, SUnit, _. split; [reflexivity|]. split; [left; split; [lia|split; [reflexivity|auto]]|]. split; auto. now apply bytes_splice.
  - unfold sb_deleteCharAt. rewrite SL. destruct ((i <? 0) || (zlen w <=? i)) eqn:Q.
    + exists s, SBad, w. split; auto. split; auto. right. split; [lia|auto].
    + destruct (splice_state s w i (i + 1) [] 1 (fun _ => Ok 0) 0 0 (zlen w - 1) I) as (b1 & b2 & E1 & E2 & I2); auto; try lia. { change (zlen (@nil Z)) with 0. lia. } { intros k x K. apply znth_Some_lt in K. change (zlen (@nil Z)) with 0 in K. lia. }
      change (zlen (@nil Z)) with 0 in E1. rewrite Z.add_0_r, SL in E1. rewrite E1. cbn [bind]. cbn in E2. injection E2 as ->. rewrite (by_value_ok _ _ I2). cbn [bind]. eexists _, SUnit, _. split; [reflexivity|]. split; [left; split; [lia|split; [reflexivity|auto]]|]. split; auto. now apply bytes_splice.
  - unfold sb_replace. rewrite SL. assert (QM : (if zlen w <? j then zlen w else j) = Z.min j (zlen w)) by (destruct (Z.ltb_spec (zlen w) j); lia). rewrite QM. destruct (Z.ltb_spec i 0) as [Q|Q]; [|destruct (Z.ltb_spec (zlen w) i) as [Q2|Q2]; [|destruct (Z.ltb_spec j i) as [Q3|Q3]]].
    + exists s, SBad, w. split; auto. split; auto. right. split; [lia|auto].
    + exists s, SBad, w. split; auto. split; auto. right. split; [lia|auto].
    + exists s, SBad, w. split; auto. split; auto. right. split; [lia|auto].
    + unfold sadd, ssub. rewrite s32 by z. cbn [bind]. rewrite s32 by z. cbn [bind]. destruct (ensure_ok m s w (zlen w + zlen t - (Z.min j (zlen w) - i)) I) as (s1 & -> & I1 & C1); [lia|]. cbn [bind].
      destruct (splice_state s1 w i (Z.min j (zlen w)) t (S (length t)) (str_get t) 0 (zlen t) (zlen w + zlen t - (Z.min j (zlen w) - i)) I1) as (b1 & b2 & E1 & E2 & I2); auto; try lia. { apply rd_all. }
      replace (Z.min j (zlen w) + zlen t - (Z.min j (zlen w) - i)) with (i + zlen t) by lia. rewrite E1. cbn [bind]. rewrite E2. cbn [bind]. rewrite (by_value_ok _ _ I2). cbn [bind]. eexists _, SUnit, _. split; [reflexivity|]. split; [left; split; [lia|split; [reflexivity|auto]]|]. split; auto. now apply bytes_splice.
  - destruct (reverse_ok s w I BW) as (s' & -> & I'). cbn [bind]. exists s', SUnit, (rev w). split; auto. split; [cbn; auto|]. split; auto. now apply Forall_rev.
  - unfold sb_setCharAt. rewrite SL. destruct ((i <? 0) || (zlen w <=? i)) eqn:Q.
    + exists s, SBad, w. split; auto. split; auto. right. split; [lia|auto].
    + destruct (splice_state s w i (i + 1) [c] 2 (fun _ => Ok c) 0 1 (zlen w) I) as (b1 & b2 & E1 & E & I2); auto; try lia. { change (zlen [c]) with 1. lia. } { intros k x K. apply znth_Some_lt in K as K2. change (zlen [c]) with 1 in K2. replace k with 0 in K by lia. cbn in K. congruence. }
      (* moving the tail onto itself changes nothing *)
      change (zlen [c]) with 1 in E1. assert (b1 = buf s) as ->. { unfold memmove in E1. rewrite SL in E1. match type of E1 with (if ?q then _ else _) = _ => destruct q; [|discriminate] end. injection E1 as <-. replace (i + 1 + (zlen w - (i + 1))) with (zlen w) by lia. replace (Z.to_nat (zlen w)) with (Z.to_nat (i + 1) + Z.to_nat (zlen w - (i + 1)))%nat by lia. generalize (Z.to_nat (zlen w - (i + 1))) (Z.to_nat (i + 1)) (buf s). clear. intros b a l. rewrite <- (firstn_skipn a l) at 4. f_equal. rewrite <- (firstn_skipn b (skipn a l)) at 2. f_equal. revert b l. induction a as [|a IH]; intros b l; cbn; auto. destruct l; auto. destruct b; auto. }
      cbn [copy_in] in E. replace (0 <? 1) with true in E by lia. cbn [bind] in E. destruct (mset (buf s) i c) as [b0| | |]; cbn [bind] in *; try discriminate. replace (0 + 1 <? 1) with false in E by lia. injection E as ->. eexists _, SUnit, _. split; [reflexivity|]. split; [left; split; [lia|split; [reflexivity|auto]]|]. split; auto. now apply bytes_splice.
  - unfold sb_setLength. destruct (Z.ltb_spec n 0) as [Q|Q].
    + exists s, SBad, w. split; auto. split; auto. right. split; [lia|auto].
    + destruct (ensure_ok m s w n I C) as (s1 & -> & I1 & C1). cbn [bind]. pose proof (sinv_len s1 w I1) as SL1. destruct (Z.ltb_spec (slen s1) n) as [Q2|Q2].
      * destruct (append_state s1 w (repeat 0 (Z.to_nat n - length w)) (S (Z.to_nat n)) (fun _ => Ok 0) (slen s1) n n I1) as (b & E & I2); auto; try (rewrite repeat_length; lia); try (unfold zlen in *; rewrite repeat_length; lia).
        { intros k x K. apply znth_Some_lt in K as K2. rewrite znth_nth in K by lia. apply nth_error_In in K. apply repeat_spec in K. congruence. }
        rewrite E. cbn [bind]. eexists _, SUnit, _. split; [reflexivity|]. split; [left; split; [lia|split; [reflexivity|auto]]|]. rewrite firstn_all2 by (unfold zlen in *; lia). split; auto. rewrite Forall_app. split; auto. rewrite Forall_forall. intros x X. apply repeat_spec in X. subst. unfold byte_ok. lia.
      * cbn [bind]. eexists _, SUnit, _. split; [reflexivity|]. split; [left; split; [lia|split; [reflexivity|auto]]|]. replace (Z.to_nat n - length w)%nat with 0%nat by (unfold zlen in *; lia). cbn [repeat]. rewrite app_nil_r. split.
        { destruct I1 as (j & E & _ & C2 & B). exists (map Some (skipn (Z.to_nat n) w) ++ j). cbn. split; [rewrite app_assoc, <- map_app, firstn_skipn; auto|]. split; [unfold zlen in *; rewrite firstn_length; lia|auto]. }
        rewrite Forall_forall in *. intros x X. apply BW. rewrite <- (firstn_skipn (Z.to_nat n) w). apply in_app_iff. auto.
  - destruct (ensure_ok m s w n I C) as (s1 & -> & I1 & C1). cbn [bind]. exists s1, SUnit, w. split; auto. split; [cbn; auto|]. auto.
  - exists (sb_trimToSize s), SUnit, w. split; auto. split; [cbn; auto|]. split; auto. unfold sb_trimToSize. destruct (Z.ltb_spec (slen s) (scap s)) as [Q|Q]; auto. destruct I as (j & E & _ & C2 & B). exists []. cbn. rewrite app_nil_r. unfold c_realloc. rewrite SL, E, firstn_app, app_length, !map_length.
    assert (Z.to_nat (zlen w) = length w) as -> by (unfold zlen; lia). rewrite Nat.sub_diag, firstn_O, app_nil_r. replace (length w - (length w + length j))%nat with 0%nat by lia. cbn [repeat]. rewrite app_nil_r. rewrite firstn_all2 by (rewrite map_length; auto). split; auto. split; auto. split; [now rewrite zlen_map_some|lia].
  - unfold sb_charAt. rewrite SL. destruct ((i <? 0) || (zlen w <=? i)) eqn:Q.
    + exists s, SBad, w. split; auto. split; auto. right. split; [lia|auto].
    + destruct (znth_ex w i) as (c & X); [lia|]. rewrite (mget_content s w i c I X). cbn [bind]. exists s, (SChar c), w. split; auto. split; auto. left. split; [lia|]. split; auto. exists c. auto.
  - exists s, (SInt (slen s)), w. split; auto. split; auto. cbn. now rewrite SL.
  - destruct (Z_le_dec 0 i) as [Q1|Q1]; [destruct (Z_le_dec i j) as [Q2|Q2]; [destruct (Z_le_dec j (zlen w)) as [Q3|Q3]|]|].
    + rewrite (substring_ok m s w i j I) by lia. cbn [bind]. rewrite cstr_id by auto. exists s, (SStr (part w i j)), w. split; auto. split; auto. left. split; [lia|auto].
    + unfold sb_substring. rewrite SL. exists s, SBad, w. split; [|split; [right; split; [lia|auto]|auto]]. destruct ((i <? 0) || (zlen w <? i)) eqn:X1; auto. replace ((j <? 0) || (zlen w <? j)) with true by lia. auto.
    + unfold sb_substring. rewrite SL. exists s, SBad, w. split; [|split; [right; split; [lia|auto]|auto]]. destruct ((i <? 0) || (zlen w <? i)) eqn:X1; auto. destruct ((j <? 0) || (zlen w <? j)) eqn:X2; auto. replace (j <? i) with true by lia. auto.
    + unfold sb_substring. rewrite SL. exists s, SBad, w. split; [|split; [right; split; [lia|auto]|auto]]. replace ((i <? 0) || (zlen w <? i)) with true by lia. auto.
  - rewrite (toString_ok m s w I) by lia. cbn [bind]. rewrite cstr_id by auto. exists s, (SStr w), w. split; auto. split; auto. cbn. auto.
Qed.

Lemma sb_new_ok c : 0 <= c <= int_max -> exists s, sb_new c = Ok s /\ sinv s [].
Proof.
  intros H. unfold sb_new. replace (c <? 0) with false by lia. eexists. split; [reflexivity|]. exists (c_calloc c). cbn. split; auto. split; auto. rewrite zlen_calloc by lia. lia.
Qed.
Lemma sb_of_ok m t : 16 + zlen t <= lim m -> exists s, sb_of m t = Ok s /\ sinv s t.
Proof.
  intros L. pose proof (lim_le m). pose proof (zlen_nonneg t). unfold sb_of, sadd. rewrite s32 by z. cbn [bind].
  assert (I0 : sinv sb_null []) by (exists []; cbn; repeat split; auto; z).
  destruct (ensure_ok m sb_null [] (16 + zlen t) I0 L) as (s & -> & I & _). cbn [bind]. apply (append_ok m s [] t I). change (zlen (@nil Z)) with 0. lia.
Qed.

(** A constructor result and the text it stands for. *)
Inductive built (m : cpp) : sb -> str -> Prop :=
| built_capacity c s : 0 <= c <= int_max -> sb_new c = Ok s -> built m s []
| built_text t s : 16 + zlen t <= lim m -> Forall byte_ok t -> sb_of m t = Ok s -> built m s t
| built_copy s0 t s : built m s0 t -> sb_copy s0 = Ok s -> built m s t.
Lemma built_inv m s t : built m s t -> sinv s t /\ Forall byte_ok t.
Proof.
  induction 1 as [c s H E|t s L B E|s0 t s _ (I & B) E].
  - destruct (sb_new_ok c H) as (s' & E' & I). rewrite E in E'. injection E' as <-. auto.
  - destruct (sb_of_ok m t L) as (s' & E' & I). rewrite E in E'. injection E' as <-. auto.
  - destruct (copy_ok s0 t I) as (s' & E' & I' & _). rewrite E in E'. injection E' as <-. auto.
Qed.

(** Every constructor succeeds, and a negative capacity is rejected. *)
Theorem C41_constructors : forall m,
  (forall c, 0 <= c <= int_max -> exists s, sb_new c = Ok s /\ built m s []) /\
  (forall c, c < 0 -> sb_new c = Throw NegativeArraySizeException) /\
  (forall t, 16 + zlen t <= lim m -> Forall byte_ok t -> exists s, sb_of m t = Ok s /\ built m s t) /\
  (forall s t, built m s t -> exists s', sb_copy s = Ok s' /\ built m s' t).
Proof.
  intros m. split; [|split; [|split]].
  - intros c H. destruct (sb_new_ok c H) as (s & E & _). exists s. split; auto. econstructor; eauto.
  - intros c H. unfold sb_new. replace (c <? 0) with true by lia. auto.
  - intros t L B. destruct (sb_of_ok m t L) as (s & E & _). exists s. split; auto. econstructor 2; eauto.
  - intros s t B. destruct (built_inv m s t B) as (I & _). destruct (copy_ok s t I) as (s' & E & _). exists s'. split; auto. econstructor 3; eauto.
Qed.
Print Assumptions C41_constructors.

Lemma s_run_ok m : forall ops s w, sinv s w -> Forall byte_ok w -> (forall pre o post w' as_, ops = pre ++ o :: post -> srun w pre w' as_ -> sb_conforming m w' o) ->
  exists s' as_ w', s_run m s ops = Ok (s', as_) /\ srun w ops w' as_ /\ sinv s' w'.
Proof.
  induction ops as [|o ops IH]; intros s w I B C; cbn [s_run]; [exists s, [], w; split; auto; split; auto; constructor|].
  destruct (s_step_ok m s w o I B) as (s1 & a & w1 & -> & S1 & I1 & B1); [apply (C [] o ops w []); auto; constructor|]. cbn [bind].
  destruct (IH s1 w1 I1 B1) as (s2 & as_ & w2 & -> & R2 & I2); [intros pre o' post w' as_ -> R; apply (C (o :: pre) o' post w' (a :: as_)); auto; econstructor; eauto|].
  cbn [bind]. exists s2, (a :: as_), w2. split; auto. split; auto. econstructor; eauto.
Qed.

(** In both readings of signed arithmetic, every conforming history answers
    exactly like a character sequence, without any access outside the block. *)
Theorem C41_history_partial : forall m s w ops, built m s w ->
  (forall pre o post w' as_, ops = pre ++ o :: post -> srun w pre w' as_ -> sb_conforming m w' o) ->
  exists s' as_ w', s_run m s ops = Ok (s', as_) /\ srun w ops w' as_ /\ slen s' = zlen w' /\ (forall i c, znth w' i = Some c -> sb_charAt s' i = Ok c).
Proof.
  intros m s w ops B C. destruct (built_inv m s w B) as (I & BW). destruct (s_run_ok m ops s w I BW C) as (s' & as_ & w' & E & R & I'). exists s', as_, w'. split; auto. split; auto. split; [apply sinv_len; auto|].
  intros i c X. unfold sb_charAt. rewrite (sinv_len s' w' I'). apply znth_Some_lt in X as X2. replace ((i <? 0) || (zlen w' <=? i)) with false by lia. eapply mget_content; eauto.
Qed.
Print Assumptions C41_history_partial.

(** toString and substring stop at the first NUL character. *)
Theorem C41_toString : forall m s w ops, built m s w ->
  (forall pre o post w' as_, ops = pre ++ o :: post -> srun w pre w' as_ -> sb_conforming m w' o) ->
  exists s' as_ w', s_run m s ops = Ok (s', as_) /\ srun w ops w' as_ /\ (zlen w' <= lim m ->
    sb_toString m s' = Ok (cstr w') /\ forall i j, 0 <= i <= j -> j <= zlen w' -> sb_substring m s' i j = Ok (cstr (part w' i j))).
Proof.
  intros m s w ops B C. destruct (built_inv m s w B) as (I & BW). destruct (s_run_ok m ops s w I BW C) as (s' & as_ & w' & E & R & I'). exists s', as_, w'. split; auto. split; auto.
  intros L. split; [now apply toString_ok|]. intros. now apply substring_ok.
Qed.
Print Assumptions C41_toString.
Theorem C41_toString_nul_refuted : forall m, exists s s', sb_of m [97; 98] = Ok s /\ s_run m s [SSetCharAt 0 0; SLength; SToString; SSubstring 0 2] = Ok (s', [SUnit; SInt 2; SStr []; SStr []]).
Proof. intros m. eexists _, _. destruct m; (split; [vm_compute; reflexivity|vm_compute; reflexivity]). Qed.
Print Assumptions C41_toString_nul_refuted.

(** insert(index, array, offset, length) with offset + length above the int
    range passes the check on the hardware (undefined in ISO C++): the text
    grows although the array has no such part. *)
Theorem C41_insert_overflow_refuted :
  sb_insertArray ISO (mkSB (c_calloc 16) 0 16) 0 [97] int_max 1 = UB SignedOverflow /\
  exists s s', sb_of HW [97; 98] = Ok s /\ s_run HW s [SInsertArray 0 [99] int_max 1; SLength; SToString] = Ok (s', [SUnit; SInt 3; SStr [97; 97; 98]]).
Proof. split; [vm_compute; auto|]. eexists _, _. split; [vm_compute; reflexivity|]. vm_compute. reflexivity. Qed.
Print Assumptions C41_insert_overflow_refuted.

(** There is no assignment operator: after x = y both destructors free the
    same block. *)
Theorem C41_assign_refuted : assign_scope = UB DoubleFree.
Proof. reflexivity. Qed.
Print Assumptions C41_assign_refuted.

(** A length beyond the int range is not detected: the append writes outside
    the block on the hardware. *)
Theorem C41_length_overflow_refuted : forall b, zlen b = int_max -> sb_appendChar HW (mkSB b int_max int_max) 97 = UB OutOfBounds /\ sb_appendChar ISO (mkSB b int_max int_max) 97 = UB SignedOverflow.
Proof.
  intros b H. split; [|reflexivity]. unfold sb_appendChar, sadd, int_max in *. cbn [slen]. rewrite sres_HW by lia. change (wrap 32 (2147483647 + 1)) with (-2147483648). cbn [bind]. unfold sb_ensureCapacity. cbn [scap orb]. change (-2147483648 <=? 0) with true. cbn [orb bind buf slen].
  unfold mset. assert (znth b 2147483647 = None) as -> by (apply znth_None; lia). auto.
Qed.
Print Assumptions C41_length_overflow_refuted.

Example C41_example : exists s s', sb_of HW (T "hello") = Ok s /\ s_run HW s [SInsert 5 (T " world"); SReplace 0 1 (T "J"); SDelete 5 99; SReverse; SAppendChar 33; SSetLength 3; SToString; SDeleteCharAt 7; SCharAt 2; SInsertPart 1 (T "xyz") 1 2; STrimToSize; SAppendArray (T "abc") 1 2; SToString] =
  Ok (s', [SUnit; SUnit; SUnit; SUnit; SUnit; SUnit; SStr (T "oll"); SBad; SChar 108; SUnit; SUnit; SUnit; SStr (T "oyllbc")]).
Proof. eexists _, _. split; [vm_compute; reflexivity|]. vm_compute. reflexivity. Qed.
