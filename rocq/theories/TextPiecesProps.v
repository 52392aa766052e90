(** Property theorems C76: code points, backward search, append and
    assignment of text buffers; further theorems for C58, C61 and C62. *)

From Coq Require Import ZArith List Lia Bool String.
From Verif Require Import Base Bits TextLemmas CppText TextSpec StringSpec CMem CharacterModel CharacterProps StringModel StringProofs StringBuilderSpec StringBuilderModel StringBuilderProofs StringBuilderProps StringBufferModel StringBufferProofs StringBufferProps TextPiecesModel.
From Verif Require MediaTypeModel BytesModel BytesProps IntegerModel.
Import ListNotations.
Open Scope Z_scope.
Local Notation length := List.length.

(** ** Reachable states *)
Lemma s_reach m : forall ops s w, sinv s w -> Forall byte_ok w -> (forall pre o post w' as_, ops = pre ++ o :: post -> srun w pre w' as_ -> sb_conforming m w' o) ->
  exists s' as_ w', s_run m s ops = Ok (s', as_) /\ srun w ops w' as_ /\ sinv s' w' /\ Forall byte_ok w'.
Proof.
  induction ops as [|o ops IH]; intros s w I B C; cbn [s_run]; [exists s, [], w; split; auto; split; auto; constructor|].
  destruct (s_step_ok m s w o I B) as (s1 & a & w1 & -> & S1 & I1 & B1); [apply (C [] o ops w []); auto; constructor|]. cbn [bind].
  destruct (IH s1 w1 I1 B1) as (s2 & as_ & w2 & -> & R2 & I2); [intros pre o' post w' as_ -> R; apply (C (o :: pre) o' post w' (a :: as_)); auto; econstructor; eauto|].
  cbn [bind]. exists s2, (a :: as_), w2. split; auto. split; auto. econstructor; eauto.
Qed.
Lemma b_reach m : forall ops s w j, rep s w j -> Forall byte_ok w ->
  (forall pre o post s' w' as_, ops = pre ++ o :: post -> b_run m s pre = Ok (s', as_) -> srun w pre w' as_ -> b_conforming m s' w' o) ->
  exists s' as_ w' j', b_run m s ops = Ok (s', as_) /\ srun w ops w' as_ /\ rep s' w' j' /\ Forall byte_ok w' /\
    ((forall pre o post s1 w1 a1, ops = pre ++ o :: post -> b_run m s pre = Ok (s1, a1) -> srun w pre w1 a1 -> b_fits s1 w1 o) -> zeros j -> zeros j' /\ scap s' = scap s).
Proof.
  induction ops as [|o ops IH]; intros s w j R B C; cbn [b_run]; [exists s, [], w, j; split; auto; split; [constructor|auto]|].
  destruct (b_step_ok m s w j o R B) as (s1 & a & w1 & j1 & E1 & S1 & R1 & B1 & Z1); [apply (C [] o ops s w []); auto; constructor|]. rewrite E1. cbn [bind].
  destruct (IH s1 w1 j1 R1 B1) as (s2 & as_ & w2 & j2 & E2 & R2 & I2 & B2 & Z2).
  { intros pre o' post s' w' as_ -> RN RS. apply (C (o :: pre) o' post s' w' (a :: as_)); auto; [cbn [b_run]; rewrite E1; cbn [bind]; rewrite RN; auto|]. econstructor; eauto. }
  rewrite E2. cbn [bind]. exists s2, (a :: as_), w2, j2. split; auto. split; [econstructor; eauto|]. split; auto. split; auto.
  intros F Z. destruct Z1 as (Z1 & C1); [apply (F [] o ops s w []); auto; constructor|auto|]. destruct Z2 as (Z2 & C2); auto.
  - clear E2 R2. intros pre o' post s' w' bs -> RN RS. apply (F (o :: pre) o' post s' w' (a :: bs)); auto; [cbn [b_run]; rewrite E1; cbn [bind]; rewrite RN; auto|]. econstructor; eauto.
  - split; auto. congruence.
Qed.

(** The character at an index as a (signed) number, or the exception. *)
Definition char_or_throw (w : str) (i : Z) : outcome Z := match znth w i with Some c => Ok (schar c) | None => Throw IndexOutOfBoundsException end.
(** The number of characters between two indices, or the exception. *)
Definition count_or_throw (w : str) (i j : Z) : outcome Z := if (0 <=? i) && (i <=? j) && (j <=? zlen w) then Ok (j - i) else Throw IndexOutOfBoundsException.

Lemma copy_out_ok : forall n s w i, sinv s w -> 0 <= i -> i + Z.of_nat n <= zlen w -> copy_out n (buf s) i = Ok (firstn n (skipn (Z.to_nat i) w)).
Proof.
  induction n as [|n IH]; intros s w i I I0 L; cbn [copy_out]; auto. destruct (znth_ex w i) as (c & C); [lia|]. rewrite (mget_content s w i c I C). cbn [bind]. rewrite (IH s w) by (auto; lia). cbn [bind].
  rewrite znth_nth in C by lia. replace (Z.to_nat (i + 1)) with (Datatypes.S (Z.to_nat i)) by lia. revert C. generalize (Z.to_nat i). clear. intros k. revert w. induction k as [|k IH]; intros [|x w] C; try discriminate; cbn [nth_error] in C. { injection C as ->. auto. } cbn [skipn]. apply IH in C. destruct w; auto.
Qed.
Lemma sb_at_ok m s w i : sinv s w -> Forall byte_ok w -> sb_codePointAt m s i = char_or_throw w i.
Proof.
  intros I B. unfold sb_codePointAt, char_or_throw. rewrite (sinv_len s w I). destruct ((i <? 0) || (zlen w <=? i)) eqn:Q. { rewrite (proj2 (znth_None w i)) by lia. auto. }
  rewrite (copy_out_ok _ s w 0 I) by (pose proof (zlen_nonneg w); lia). cbn [bind]. cbn [Z.to_nat skipn]. rewrite firstn_all2 by (unfold zlen; lia). rewrite C61_codePointAt_chars by auto. destruct (znth_ex w i) as (c & C); [lia|]. now rewrite C.
Qed.
Lemma firstn_bytes n w : Forall byte_ok w -> Forall byte_ok (firstn n w).
Proof. apply bytes_firstn. Qed.

(** Bytes are never surrogates, so every character is a code point: the
    StringBuilder functions answer the character at, and before, an index and
    the number of characters of a range, and throw outside the text. *)
Theorem C76_builder_codePoints : forall m s w ops, built m s w ->
  (forall pre o post w' as_, ops = pre ++ o :: post -> srun w pre w' as_ -> sb_conforming m w' o) ->
  exists s' as_ w', s_run m s ops = Ok (s', as_) /\ srun w ops w' as_ /\
    (forall i, sb_codePointAt m s' i = char_or_throw w' i) /\
    (forall i, is_int (i - 1) -> sb_codePointBefore m s' i = char_or_throw w' (i - 1)) /\
    (forall i j, zlen w' <= int_max -> sb_codePointCount m s' i j = count_or_throw w' i j).
Proof.
  intros m s w ops B C. destruct (built_inv m s w B) as (I & BW). destruct (s_reach m ops s w I BW C) as (s' & as_ & w' & E & R & I' & B'). exists s', as_, w'. split; auto. split; auto. split; [intros i; now apply sb_at_ok|]. split.
  - intros i H. unfold sb_codePointBefore, ssub. unfold is_int in H. rewrite s32 by lia. cbn [bind]. now apply sb_at_ok.
  - intros i j L. pose proof (zlen_nonneg w'). unfold sb_codePointCount, count_or_throw. rewrite (sinv_len s' w' I'). destruct ((i <? 0) || (zlen w' <? j) || (j <? i)) eqn:Q.
    { replace ((0 <=? i) && (i <=? j) && (j <=? zlen w')) with false by lia. auto. }
    replace ((0 <=? i) && (i <=? j) && (j <=? zlen w')) with true by lia. unfold ssub, sadd. rewrite s32 by (unfold int_min, int_max in *; lia). cbn [bind]. rewrite s32 by (unfold int_min, int_max in *; lia). cbn [bind].
    rewrite (copy_out_ok _ s' w' 0 I') by lia. cbn [bind]. rewrite C61_codePointCount_chars by (apply firstn_bytes; auto). cbn [Z.to_nat skipn]. unfold zlen at 1. rewrite firstn_length. unfold zlen in *. replace ((0 <=? 0) && (0 <=? j - i) && (0 + (j - i) <=? Z.of_nat (Init.Nat.min (Z.to_nat (i + (j - i))) (length w')))) with true by lia. auto.
Qed.
Print Assumptions C76_builder_codePoints.

Lemma byte_no_unit c : byte_ok c -> isHighSurrogate (schar c) = false /\ isLowSurrogate (schar c) = false.
Proof. intros H. destruct (no_unit (schar c)) as (A & B & _); auto. unfold schar, byte_ok in *. destruct (c <? 128); lia. Qed.
Lemma byte_of w i c : Forall byte_ok w -> znth w i = Some c -> byte_ok c.
Proof. intros F E. rewrite Forall_forall in F. apply F. apply znth_Some_lt in E as L. rewrite znth_nth in E by lia. eapply nth_error_In; eauto. Qed.

Lemma b_count_ok s w j : rep s w j -> Forall byte_ok w -> forall fuel i e n, 0 <= i <= e -> e < zlen w \/ (e = zlen w /\ exists c z, j = Some c :: z /\ byte_ok c) \/ i = e -> e <= zlen w ->
  e - i < Z.of_nat fuel -> b_count_loop fuel s i e n = Ok n.
Proof.
  intros R B. induction fuel as [|f IH]; intros i e n I E L F; [lia|]. cbn [b_count_loop]. destruct (Z.ltb_spec i e) as [Q|Q]; auto.
  assert (exists c, mget (buf s) (i + 1) = Ok c /\ byte_ok c) as (c & -> & BC).
  { destruct (Z.eq_dec (i + 1) (zlen w)) as [EQ|NE].
    - destruct E as [E|[(_ & c & z & -> & BC)|E]]; [lia| |lia]. exists c. split; auto. destruct R as (EB & _). rewrite EB. apply mget_mid. rewrite zlen_map_some. auto.
    - destruct (znth_ex w (i + 1)) as (c & C); [lia|]. exists c. split; [eapply mget_content; eauto using rep_sinv|eapply byte_of; eauto]. }
  cbn [bind]. rewrite (proj1 (byte_no_unit c BC)). apply IH; try lia. destruct E as [E|[E|E]]; [auto|auto|lia].
Qed.

(** The same for StringBuffer; codePointCount reads one byte beyond the
    range, so the count of a range that reaches the end of the text needs an
    initialised byte there. *)
Theorem C76_buffer_codePoints_partial : forall m s w ops, b_built m s w ->
  (forall pre o post s' w' as_, ops = pre ++ o :: post -> b_run m s pre = Ok (s', as_) -> srun w pre w' as_ -> b_conforming m s' w' o) ->
  exists s' as_ w', b_run m s ops = Ok (s', as_) /\ srun w ops w' as_ /\
    (forall i, b_codePointAt m s' i = char_or_throw w' i) /\
    (forall i, b_codePointBefore m s' i = char_or_throw w' (i - 1)) /\
    (forall i j, j <> zlen w' \/ i = j \/ b_toString s' = Ok w' -> no_nul w' -> b_codePointCount s' i j = count_or_throw w' i j).
Proof.
  intros m s w ops B C. destruct (b_built_rep m s w B) as (j & R & _ & BW). destruct (b_reach m ops s w j R BW C) as (s' & as_ & w' & j' & E & RN & R' & B' & _). exists s', as_, w'. split; auto. split; auto. pose proof (rep_len s' w' j' R') as SL. pose proof (zlen_nonneg w') as W0. split; [|split].
  - intros i. unfold b_codePointAt, char_or_throw. rewrite SL. destruct ((i <? 0) || (zlen w' <=? i)) eqn:Q. { rewrite (proj2 (znth_None w' i)) by lia. auto. }
    destruct (znth_ex w' i) as (c & X); [lia|]. rewrite (mget_content s' w' i c (rep_sinv _ _ _ R') X), X. cbn [bind]. rewrite (proj1 (byte_no_unit c (byte_of w' i c B' X))). auto.
  - intros i. unfold b_codePointBefore, char_or_throw. rewrite SL. destruct (Z.leb_spec i 0). { rewrite (proj2 (znth_None w' (i - 1))) by lia. auto. } destruct (Z.ltb_spec (zlen w') i). { rewrite (proj2 (znth_None w' (i - 1))) by lia. auto. }
    destruct (znth_ex w' (i - 1)) as (c & X); [lia|]. rewrite (mget_content s' w' _ c (rep_sinv _ _ _ R') X), X. cbn [bind]. rewrite (proj2 (byte_no_unit c (byte_of w' _ c B' X))). auto.
  - intros i e H NN. unfold b_codePointCount, count_or_throw. rewrite SL. destruct ((i <? 0) || (zlen w' <? e) || (e <? i)) eqn:Q. { replace ((0 <=? i) && (i <=? e) && (e <=? zlen w')) with false by lia. auto. }
    replace ((0 <=? i) && (i <=? e) && (e <=? zlen w')) with true by lia. apply (b_count_ok s' w' j'); auto; try lia. destruct H as [H|[H|H]]; [lia|lia|]. destruct (Z.eq_dec e (zlen w')) as [Ee|]; [|lia]. right. left. split; auto.
    exists 0. destruct R' as (EB & _). unfold b_toString in H. rewrite EB in H. clear - H NN. assert (G : exists z, j' = Some 0 :: z). { revert H NN. induction w' as [|x w IH]; cbn [map app c_string].
      - destruct j' as [|[c|] z]; try discriminate. cbn [c_string]. destruct (Z.eqb_spec c 0) as [->|]; eauto. destruct (c_string z); discriminate.
      - intros H NN. inversion NN; subst. destruct (Z.eqb_spec x 0); [congruence|]. destruct (c_string (map Some w ++ j')) eqn:E; try discriminate. cbn [bind] in H. injection H as ->. auto. }
    destruct G as (z & ->). exists z. split; auto. unfold byte_ok. lia.
Qed.
Print Assumptions C76_buffer_codePoints_partial.
(** The count over a whole text that fills its block reads outside it. *)
Theorem C76_codePointCount_refuted : forall m t, t <> [] -> Forall byte_ok t -> zlen t <= blim ->
  exists s s', b_new (zlen t) = Ok s /\ b_append m s t = Ok s' /\ b_codePointCount s' 0 (zlen t) = UB OutOfBounds.
Proof.
  intros m t N B L. pose proof (zlen_nonneg t). destruct (b_new_ok (zlen t)) as (s & E & R & SC); [unfold blim, int_max in *; lia|]. exists s.
  destruct (rep_append m s [] _ t R) as (s' & j & E2 & R2 & K); [change (zlen (@nil Z)) with 0; lia|]. destruct K as (K1 & _); [change (zlen (@nil Z)) with 0; lia|]. cbn [app] in R2. exists s'. split; auto. split; auto.
  pose proof (rep_cap s' t j R2) as CP. assert (j = []) as ->. { destruct j; auto. rewrite zlen_cons in CP. pose proof (zlen_nonneg j). lia. }
  unfold b_codePointCount. rewrite (rep_len s' t _ R2). replace ((0 <? 0) || (zlen t <? zlen t) || (zlen t <? 0)) with false by lia.
  assert (G : forall fuel i n, 0 <= i < zlen t -> zlen t - i < Z.of_nat fuel -> b_count_loop fuel s' i (zlen t) n = UB OutOfBounds).
  { induction fuel as [|f IH]; intros i n I F; [lia|]. cbn [b_count_loop]. replace (i <? zlen t) with true by lia. destruct (Z.eq_dec (i + 1) (zlen t)) as [EQ|NE].
    - unfold mget. destruct R2 as (EB & _). rewrite EB, app_nil_r. rewrite (proj2 (znth_None _ _)); auto. right. rewrite zlen_map_some. lia.
    - destruct (znth_ex t (i + 1)) as (c & C); [lia|]. rewrite (mget_content s' t _ c (rep_sinv _ _ _ R2) C). cbn [bind]. rewrite (proj1 (byte_no_unit c (byte_of t _ c B C))). apply IH; lia. }
  apply G; [|lia]. destruct t; [congruence|]. rewrite zlen_cons in *. pose proof (zlen_nonneg t). lia.
Qed.
Print Assumptions C76_codePointCount_refuted.

(** ** StringBuffer.appendCodePoint *)
Lemma uwrap8 x : 0 <= x < 256 -> uwrap 8 x = x.
Proof. intros H. unfold uwrap. apply Z.mod_small. auto. Qed.
(** Code points 1 to 255 are appended as the byte; every number that is not a
    code point is rejected. *)
Theorem C76_appendCodePoint_partial : forall m s w, b_built m s w -> zlen w + 1 <= blim ->
  (forall c, 1 <= c <= 255 -> exists s', b_appendCodePoint m s c = Ok s' /\ slen s' = zlen w + 1 /\ forall i, 0 <= i <= zlen w -> b_charAt s' i = Ok (nth (Z.to_nat i) (w ++ [c]) 0)) /\
  (forall c, is_int c -> c < 0 \/ 0x10FFFF < c -> b_appendCodePoint m s c = Throw InterruptedException).
Proof.
  intros m s w B L. destruct (b_built_rep m s w B) as (j & R & _ & _). split.
  - intros c C. unfold b_appendCodePoint. replace (Z.shiftr (uwrap 32 c) 16 =? 0) with true. 2:{ unfold uwrap. rewrite Z.mod_small by lia. rewrite Z.shiftr_div_pow2 by lia. rewrite Z.div_small by lia. auto. }
    rewrite uwrap8 by lia. unfold b_appendChar. rewrite valueOf_char_nz by lia. destruct (rep_append m s w j [c] R) as (s' & j' & E & R' & _); [change (zlen [c]) with 1; lia|]. exists s'. split; auto. split; [rewrite (rep_len _ _ _ R'), zlen_app; auto|].
    intros i I. unfold b_charAt. rewrite (rep_len _ _ _ R'), zlen_app. change (zlen [c]) with 1. replace ((i <? 0) || (zlen w + 1 <=? i)) with false by lia. eapply mget_content; eauto using rep_sinv. rewrite znth_nth by lia. apply nth_error_nth'. rewrite app_length. unfold zlen in I. cbn [List.length]. lia.
  - intros c IC H. unfold is_int, int_min, int_max in IC. unfold b_appendCodePoint. assert (U : 0x110000 <= uwrap 32 c < 2 ^ 32). { unfold uwrap. destruct H as [H|H]; [|rewrite Z.mod_small; lia]. replace (c mod 2 ^ 32) with (c + 2 ^ 32); [lia|]. apply (Z.mod_unique _ _ (-1)); lia. }
    rewrite Z.shiftr_div_pow2 by lia. assert (D : 0x11 <= uwrap 32 c / 2 ^ 16) by (apply Z.div_le_lower_bound; lia). replace (uwrap 32 c / 2 ^ 16 =? 0) with false by lia. replace (uwrap 32 c / 2 ^ 16 <? 17) with false by lia. auto.
Qed.
Print Assumptions C76_appendCodePoint_partial.
(** NUL is ignored, other code points of the basic plane are cut to a byte,
    and a supplementary one appends the low bytes of its surrogates. *)
Theorem C76_appendCodePoint_refuted : forall m, exists s, b_of m (T "a") = Ok s /\
  (exists s', b_appendCodePoint m s 0 = Ok s' /\ b_toString s' = Ok (T "a") /\ slen s' = 1) /\
  (exists s', b_appendCodePoint m s 0x141 = Ok s' /\ b_toString s' = Ok (T "aA")) /\
  (exists s', b_appendCodePoint m s 0x1F60A = Ok s' /\ b_toString s' = Ok (T "a=" ++ [10])%list).
Proof.
  intros m. eexists. split; [destruct m; reflexivity|]. split; [|split].
  - eexists. split; [destruct m; reflexivity|]. split; reflexivity.
  - eexists. split; [destruct m; reflexivity|]. reflexivity.
  - eexists. split; [destruct m; reflexivity|]. reflexivity.
Qed.
Print Assumptions C76_appendCodePoint_refuted.

(** ** StringBuffer.lastIndexOf, append(StringBuffer) and operator= *)
Lemma reversed_ok m t : Forall byte_ok t -> no_nul t -> 16 + zlen t <= lim m -> reversed m t = Ok (rev t).
Proof.
  intros B N L. unfold reversed. destruct (sb_of_ok m t L) as (s & -> & I). cbn [bind]. destruct (reverse_ok s t I B) as (s' & -> & I'). cbn [bind]. rewrite (toString_ok m s' (rev t) I') by (rewrite zlen_rev; lia). rewrite cstr_id; auto. unfold no_nul in *. now apply Forall_rev.
Qed.
Lemma blim_lim m : blim <= lim m.
Proof. destruct m; unfold blim, lim; lia. Qed.
Lemma last_in_unique_find p s : p <> [] -> indexOf_str (rev s) (rev p) = match str_find (rev p) (rev s) 0 with Some i => i | None => -1 end.
Proof.
  intros P. unfold indexOf_str. assert (RP : rev p <> []) by (intros E; apply P; apply (f_equal (@rev Z)) in E; now rewrite rev_involutive in E). assert (E : str_eqb (rev p) [] = false) by (apply str_eqb_neq; auto). rewrite E, orb_false_r.
  destruct (zlen (rev s) =? 0) eqn:Q; auto. pose proof (str_find_spec (rev p) (rev s) 0 ltac:(lia)) as SF. destruct (str_find (rev p) (rev s) 0) as [f|]; auto. destruct SF as (_ & O & _). apply occurs_nonneg in O. rewrite !zlen_rev in *. assert (0 < zlen p) by (destruct p; [congruence|rewrite zlen_cons; pose proof (zlen_nonneg p); lia]). lia.
Qed.

(** After a history that keeps the terminator, lastIndexOf finds the last
    occurrence; with a start index it does so whenever the pattern fits
    between the start index and the end; append(StringBuffer) appends the
    text, and an assigned buffer holds it. *)
Theorem C76_lastIndexOf_partial : forall m s w ops, b_built m s w ->
  (forall pre o post s' w' as_, ops = pre ++ o :: post -> b_run m s pre = Ok (s', as_) -> srun w pre w' as_ -> b_conforming m s' w' o /\ b_fits s' w' o) ->
  exists s' as_ w', b_run m s ops = Ok (s', as_) /\ srun w ops w' as_ /\ (zlen w' < scap s -> no_nul w' -> 16 + zlen w' <= blim ->
    (forall p, exists r, b_lastIndexOf s' p = Ok r /\ last_in p w' 0 (zlen w') r) /\
    (forall p from, p <> [] -> no_nul p -> Forall byte_ok p -> 16 + zlen p <= blim -> 0 <= from -> from + zlen p <= zlen w' ->
      exists r, b_lastIndexOf_from m s' p from = Ok r /\ last_in p w' 0 from r) /\
    (forall s0 w0, b_built m s0 w0 -> zlen w0 + zlen w' <= blim ->
      exists s1, b_appendBuffer m s0 s' = Ok s1 /\ slen s1 = zlen w0 + zlen w' /\ forall i, 0 <= i < slen s1 -> b_charAt s1 i = Ok (nth (Z.to_nat i) (w0 ++ w') 0)) /\
    (forall s0, exists s1, b_assign s0 s' = Ok s1 /\ slen s1 = zlen w' /\ scap s1 = scap s' /\ b_toString s1 = Ok w')).
Proof.
  intros m s w ops B C. destruct (b_built_rep m s w B) as (j & R & Z & BW).
  destruct (b_reach m ops s w j R BW) as (s' & as_ & w' & j' & E & RN & R' & B' & ZC). { intros. edestruct C; eauto. }
  destruct ZC as (Z' & K); auto. { intros. edestruct C; eauto. }
  exists s', as_, w'. split; auto. split; auto. intros L NN BL. rewrite <- K in L. destruct (rep_terminated s' w' j' R' Z' L) as (z & EZ). assert (TS := rep_toString s' w' j' z R' EZ). rewrite cstr_id in TS by auto. unfold b_toString in TS. pose proof (zlen_nonneg w') as W0. split; [|split; [|split]].
  - intros p. unfold b_lastIndexOf. rewrite TS. cbn [bind]. eexists. split; [reflexivity|]. apply lastIndexOf_str_ok.
  - intros p from P NP BP LP F0 F. pose proof (blim_lim m). assert (P0 : 0 < zlen p) by (destruct p; [congruence|rewrite zlen_cons; pose proof (zlen_nonneg p); lia]). unfold b_lastIndexOf_from. rewrite reversed_ok by (auto; lia). cbn [bind]. rewrite TS. cbn [bind]. rewrite reversed_ok by (auto; lia). cbn [bind]. rewrite (rep_len _ _ _ R'). unfold blim in *. unfold ssub. rewrite s32 by (unfold int_min, int_max; lia). cbn [bind]. rewrite s32 by (unfold int_min, int_max; lia). cbn [bind].
    rewrite getStringFromIndex_in by (unfold small, int_max; rewrite zlen_rev; lia). cbn [bind]. replace (zlen w' - from - zlen p) with (zlen w' - (from + zlen p)) by lia. rewrite skipn_rev_firstn by lia. set (f := firstn (Z.to_nat (from + zlen p)) w'). assert (LF : zlen f = from + zlen p) by (unfold f; rewrite zlen_firstn by lia; auto).
    rewrite last_in_unique_find by auto. rewrite zlen_rev, LF. pose proof (last_in_rev_find p f _ eq_refl) as LI. assert (G : last_in p w' 0 from (match str_find (rev p) (rev f) 0 with None => -1 | Some k => zlen f - (k + zlen p) end)).
    { destruct LI as [(A & O & D)|(A & D)].
      - left. apply occurs_firstn in O as (O1 & O2); [|lia]. split; [lia|]. split; auto. intros i I O. apply (D i); [lia|]. apply occurs_firstn; [lia|]. split; auto. lia.
      - right. split; auto. intros i I O. apply (D i); [lia|]. apply occurs_firstn; [lia|]. split; auto. lia. }
    pose proof (str_find_spec (rev p) (rev f) 0 ltac:(lia)) as SF. destruct (str_find (rev p) (rev f) 0) as [k|]; [|exists (-1); auto]. destruct SF as (K0 & _ & _). replace (k =? -1) with false by lia. eexists. split; [reflexivity|]. replace (from + zlen p - zlen p - k) with (zlen f - (k + zlen p)) by lia. auto.
  - intros s0 w0 B0 L0. destruct (b_built_rep m s0 w0 B0) as (j0 & R0 & _). unfold b_appendBuffer. rewrite TS. cbn [bind]. destruct (rep_append m s0 w0 j0 w' R0 L0) as (s1 & j1 & E1 & R1 & _). exists s1. split; auto. pose proof (rep_len _ _ _ R1) as SL. rewrite zlen_app in SL. split; auto. intros i I. unfold b_charAt. replace ((i <? 0) || (slen s1 <=? i)) with false by lia.
    eapply mget_content; eauto using rep_sinv. rewrite znth_nth by lia. apply nth_error_nth'. rewrite app_length. unfold zlen in *. lia.
  - intros s0. unfold b_assign. destruct (rep_copy s' w' j' R') as (s1 & j1 & E1 & R1 & K1 & Z1). exists s1. split; auto. split; [exact (rep_len _ _ _ R1)|]. split; auto. destruct (rep_terminated s1 w' j1 R1 Z1) as (z1 & EZ1); [lia|]. rewrite (rep_toString _ _ _ _ R1 EZ1). now rewrite cstr_id.
Qed.
Print Assumptions C76_lastIndexOf_partial.
(** A start index too near the end throws instead of being cut. *)
Theorem C76_lastIndexOf_from_refuted : forall m t p from, t <> [] -> p <> [] -> Forall byte_ok (t ++ p) -> no_nul (t ++ p) -> 16 + zlen t <= blim -> 16 + zlen p <= blim ->
  zlen t < from + zlen p -> from <= int_max - blim -> exists s, b_of m t = Ok s /\ b_lastIndexOf_from m s p from = Throw StringIndexOutOfBoundsException.
Proof.
  intros m t p from NT NP B NN LT LP F FI. pose proof (blim_lim m). pose proof (zlen_nonneg t). pose proof (zlen_nonneg p). apply Forall_app in B as (B1 & B2). apply Forall_app in NN as (N1 & N2). destruct (b_of_ok m t LT) as (s & j & E & R & ZJ & K). exists s. split; auto.
  destruct (rep_terminated s t j R ZJ) as (z & EZ); [lia|]. pose proof (rep_toString s t j z R EZ) as TS. rewrite cstr_id in TS by auto. unfold b_toString in TS. unfold b_lastIndexOf_from. rewrite reversed_ok by (auto; lia). cbn [bind]. rewrite TS. cbn [bind]. rewrite reversed_ok by (auto; lia). cbn [bind]. rewrite (rep_len _ _ _ R). unfold blim, int_max in *. unfold ssub. rewrite s32 by (unfold int_min, int_max; lia). cbn [bind]. rewrite s32 by (unfold int_min, int_max; lia). cbn [bind].
  rewrite getStringFromIndex_out; auto; [intros X; apply NT; apply (f_equal (@rev Z)) in X; now rewrite rev_involutive in X|unfold small, int_max; rewrite zlen_rev; lia|lia].
Qed.
Print Assumptions C76_lastIndexOf_from_refuted.
(** Appending a StringBuffer whose block is full reads outside it. *)
Theorem C76_appendBuffer_refuted : forall m c t s0, 0 <= c <= zlen t -> zlen t <= blim -> no_nul t ->
  exists s s' u, b_new c = Ok s /\ b_append m s t = Ok s' /\ b_appendBuffer m s0 s' = UB u.
Proof.
  intros m c t s0 C L N. destruct (C43_toString_refuted m c t C L N) as (s & s' & u & E1 & E2 & E3 & _). exists s, s', u. split; auto. split; auto. unfold b_appendBuffer. unfold b_toString in E3. rewrite E3. auto.
Qed.
Print Assumptions C76_appendBuffer_refuted.
(** offsetByCodePoints answers 0 whatever the offset. *)
Theorem C76_offsetByCodePoints_refuted : forall s i k, 0 <= i <= slen s -> b_offsetByCodePoints s i k = Ok 0.
Proof. intros s i k H. unfold b_offsetByCodePoints. replace ((i <? 0) || (slen s <? i)) with false by lia. auto. Qed.
Print Assumptions C76_offsetByCodePoints_refuted.
Example C76_ex m : exists s, b_of m (T "banana") = Ok s /\ b_lastIndexOf s (T "an") = Ok 3 /\ b_lastIndexOf_from m s (T "an") 2 = Ok 1 /\ b_codePointAt m s 1 = Ok 97 /\ b_codePointCount s 1 6 = Ok 5.
Proof. eexists. split; [destruct m; reflexivity|]. destruct m; repeat split; reflexivity. Qed.
Example C76_ex2 m : exists s, sb_of m (T "banana") = Ok s /\ built m s (T "banana") /\ sb_codePointBefore m s 3 = Ok 110 /\ sb_codePointCount m s 1 6 = Ok 5.
Proof.
  eexists. split; [destruct m; reflexivity|]. split; [|destruct m; split; reflexivity]. econstructor 2; [| |destruct m; reflexivity]; [destruct m; cbn; lia|]. repeat constructor; unfold byte_ok; vm_compute; discriminate.
Qed.

(** ** Character, Bytes, MediaType *)
Theorem C61_codePointBefore_start_chars : forall m a i start, Forall byte_ok a -> i <= zlen a ->
  codePointBefore_start m a i start = if (0 <=? start) && (start <? i) && (start <? zlen a) then char_or_throw a (i - 1) else Ok (-1).
Proof.
  intros m a i st F L. unfold codePointBefore_start, codePointBeforeImpl, char_or_throw, at_. destruct ((i <=? st) || (st <? 0) || (zlen a <=? st)) eqn:Q; [replace ((0 <=? st) && (st <? i) && (st <? zlen a)) with false by lia; auto|].
  replace ((0 <=? st) && (st <? i) && (st <? zlen a)) with true by lia. destruct (znth_ex a (i - 1)) as (c & C); [lia|]. rewrite C. cbn [bind]. rewrite (proj2 (byte_no_unit c (byte_of a _ c F C))). auto.
Qed.
Print Assumptions C61_codePointBefore_start_chars.
Example C61_codePointBefore_start_ex : codePointBefore_start HW (T "abc") 2 1 = Ok 98 /\ codePointBefore_start HW (T "abc") 1 1 = Ok (-1).
Proof. split; reflexivity. Qed.

(** Bytes.decode gives the number Integer.decode reads, when it is a byte. *)
Theorem C62_decode : forall m s,
  match IntegerModel.decode m s with
  | Ok v => if (0 <=? v) && (v <=? 255) then exists b, BytesModel.decode m s = Ok b /\ BytesModel.byteValue b = v /\ BytesModel.toString b = itoa v
            else BytesModel.decode m s = Throw NumberFormatException
  | Throw e => BytesModel.decode m s = Throw e
  | UB u => BytesModel.decode m s = UB u
  | OutOfFuel => BytesModel.decode m s = OutOfFuel
  end.
Proof.
  intros m s. unfold BytesModel.decode, BytesModel.BYTE_MIN, BytesModel.BYTE_MAX. destruct (IntegerModel.decode m s) as [v|e|u|]; cbn [bind]; auto. destruct ((0 <=? v) && (v <=? 255)) eqn:Q.
  - replace ((v <? 0) || (255 <? v)) with false by lia. unfold BytesModel.to_byte. rewrite uwrap8 by lia. eexists. split; [reflexivity|]. split; reflexivity.
  - replace ((v <? 0) || (255 <? v)) with true by lia. auto.
Qed.
Print Assumptions C62_decode.
(** A default Bytes is the byte zero; charValue is the byte as a signed char. *)
Theorem C62_default_charValue : BytesModel.mk_default = BytesModel.mk 0 /\ forall b, 0 <= b <= 255 -> BytesModel.charValue (BytesModel.mk b) = wrap 8 b.
Proof.
  split; [reflexivity|]. intros b H. unfold BytesModel.charValue, BytesModel.mk, schar, wrap. cbn [BytesModel.original]. change (2 ^ 8) with 256. change (2 ^ (8 - 1)) with 128. destruct (Z.ltb_spec b 128).
  - rewrite Z.mod_small; lia.
  - replace ((b + 128) mod 256) with (b - 128); [lia|]. apply (Z.mod_unique _ _ 1); lia.
Qed.
Print Assumptions C62_default_charValue.
Example C62_decode_ex m : exists b, BytesModel.decode m (T "0xfe") = Ok b /\ BytesModel.byteValue b = 254.
Proof. eexists. split; [destruct m; vm_compute; reflexivity|reflexivity]. Qed.

(** The default media type is compatible with every other, both ways. *)
Theorem C58_default : forall m, MediaTypeModel.isCompatible MediaTypeModel.default_mt m = Ok true /\ MediaTypeModel.isCompatible m MediaTypeModel.default_mt = Ok true.
Proof.
  intros m. assert (E1 : MediaTypeModel.isWildcardType MediaTypeModel.default_mt = true) by reflexivity. assert (E2 : MediaTypeModel.isWildcardSubtype MediaTypeModel.default_mt = true) by reflexivity. unfold MediaTypeModel.isCompatible. rewrite E1, E2. cbn [negb andb orb]. rewrite andb_false_r, orb_true_r. auto.
Qed.
Print Assumptions C58_default.
