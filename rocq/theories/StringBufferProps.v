(** Property theorems C43: java.lang.StringBuffer editing. *)

From Coq Require Import ZArith List Lia Bool String.
From Verif Require Import Base Bits TextLemmas CppText TextSpec StringSpec CMem CharacterModel StringModel StringBuilderSpec StringBuilderModel StringBuilderProofs StringBuilderProps StringBufferModel StringBufferProofs.
Import ListNotations.
Open Scope Z_scope.
Local Notation length := List.length.

(** Conforming calls on a buffer [s] that holds [w]: characters are bytes,
    lengths stay below 2^30, indices are ints, and
    - a single character is not NUL;
    - deletes, deleteCharAt, replace and setLength find room for the bytes
      they move or write beyond the text;
    - replace moves the whole tail, or does not need to move it;
    - subString does not start at the end;
    - toString finds a terminator. *)
Definition b_conforming (m : cpp) (s : sb) (w : str) (o : sop) : Prop :=
  let n := zlen w in
  Forall byte_ok (op_text o) /\ n + zlen (op_text o) <= blim /\
  match o with
  | SAppendChar c | SInsertChar _ c => c <> 0
  | SAppendPart _ _ j => is_int j
  | SAppendArray _ off len | SInsertArray _ _ off len => is_int (off + len)
  | SDelete i j => 0 <= i < n -> i < j -> if n <? j then n + n <= scap s else j + n - i <= scap s
  | SDeleteCharAt _ => n < scap s
  | SReplace i j t =>
    let e := Z.min j n in
    0 <= i <= e -> (n - e <= zlen t \/ zlen t = e - i) /\
    (forall s1, b_ensureCapacity m s (n + zlen t - e + i) = Ok s1 -> e + zlen t <= scap s1 /\ i + 2 * zlen t <= scap s1)
  | SSetLength k => k <= blim /\ (0 <= k <= n -> n < scap s) /\ (n < k -> forall s1, b_ensureCapacity m s k = Ok s1 -> k < scap s1)
  | SEnsureCapacity k => k <= blim
  | SSubstring i j => i <> n /\ no_nul (part w i j)
  | SToString => no_nul w /\ znth (buf s) n = Some (Some 0)
  | _ => True
  end.
(** Calls that neither reallocate the block nor leave old characters behind the text. *)
Definition b_fits (s : sb) (w : str) (o : sop) : Prop :=
  zlen w + zlen (op_text o) < scap s /\
  match o with
  | SSetLength k | SEnsureCapacity k => k < scap s
  | STrimToSize => False
  | SReplace i j t => zlen t = Z.min j (zlen w) - i \/ zlen w <= i + 2 * zlen t
  | _ => True
  end.

Ltac done3 := eexists _, _, _, _; split; [reflexivity|]; split; [|split; [eassumption|split; [auto|]]].
Lemma valueOf_char_nz c : c <> 0 -> valueOf_char c = [c].
Proof. intros H. unfold valueOf_char. now replace (c =? 0) with false by lia. Qed.
Lemma bytes_app w t : Forall byte_ok w -> Forall byte_ok t -> Forall byte_ok (w ++ t).
Proof. intros. apply Forall_app. auto. Qed.
Lemma bytes_firstn w n : Forall byte_ok w -> Forall byte_ok (firstn n w).
Proof. rewrite !Forall_forall. intros H x X. apply H. rewrite <- (firstn_skipn n w). apply in_app_iff. auto. Qed.

Lemma b_step_ok m s w j o : rep s w j -> Forall byte_ok w -> b_conforming m s w o ->
  exists s' a w' j', b_step m s o = Ok (s', a) /\ sstep w o w' a /\ rep s' w' j' /\ Forall byte_ok w' /\ (b_fits s w o -> zeros j -> zeros j' /\ scap s' = scap s).
Proof.
  intros R BW (BT & L & C). pose proof (rep_cap s w j R) as CP. pose proof (rep_len s w j R) as SL. pose proof (zlen_nonneg w) as W0. pose proof (zlen_nonneg j) as J0. unfold b_fits.
  destruct o as [t|c|t i e|t off len|p t|p c|p t i e|p t off len|i e|i|i e t| |i c|k|k| |i| |i e|]; cbn [op_text] in *; unfold b_step, sstep.
  - destruct (rep_append m s w j t R L) as (s' & j' & -> & R' & Z'). cbn [bind]. exists s', SUnit, (w ++ t), j'. split; auto. split; auto. split; auto. split; [now apply bytes_app|]. intros (F & _) Z. destruct Z'; auto. lia.
  - unfold b_appendChar. rewrite valueOf_char_nz by auto. destruct (rep_append m s w j [c] R L) as (s' & j' & -> & R' & Z'). cbn [bind]. exists s', SUnit, (w ++ [c]), j'. split; auto. split; auto. split; auto. split; [now apply bytes_app|]. intros (F & _) Z. destruct Z'; auto. lia.
  - unfold b_appendPart. pose proof (zlen_nonneg t) as T0. destruct ((i <? 0) || (e <? i) || (zlen t <? i)) eqn:Q.
    { exists s, SBad, w, j. split; auto. split; [right; split; [lia|auto]|auto]. }
    destruct (Z_le_dec e (zlen t)) as [E|E].
    + destruct (rep_appendArray m s w j t i (e - i) R) as (s' & j' & -> & R' & Z'); try lia; try (unfold blim, int_max in *; lia). cbn [bind]. replace (i + (e - i)) with e in * by lia. eexists s', SUnit, _, j'. split; auto. split; [left; split; [lia|]; split; reflexivity|]. split; auto. split; [apply bytes_app; auto; now apply bytes_part|]. intros (F & _) Z. destruct Z'; auto. lia.
    + unfold b_appendArray. replace ((i <? 0) || (e - i <? 0)) with false by lia. unfold sadd at 1. replace (i + (e - i)) with e by lia. unfold is_int in C. rewrite s32 by lia. cbn [bind]. replace (zlen t <? e) with true by lia. exists s, SBad, w, j. split; auto. split; [right; split; [lia|auto]|auto].
  - pose proof (zlen_nonneg t) as T0. destruct ((off <? 0) || (len <? 0)) eqn:Q1.
    { unfold b_appendArray. rewrite Q1. exists s, SBad, w, j. split; auto. split; [right; split; [lia|auto]|auto]. }
    destruct (Z_le_dec (off + len) (zlen t)) as [E|E].
    + destruct (rep_appendArray m s w j t off len R) as (s' & j' & -> & R' & Z'); try lia; try (unfold blim, int_max in *; lia). cbn [bind]. eexists s', SUnit, _, j'. split; auto. split; [left; split; [lia|]; split; reflexivity|]. split; auto. split; [apply bytes_app; auto; now apply bytes_part|]. intros (F & _) Z. destruct Z'; auto. lia.
    + unfold b_appendArray. rewrite Q1. unfold is_int in C. unfold sadd at 1. rewrite s32 by lia. cbn [bind]. replace (zlen t <? off + len) with true by lia. exists s, SBad, w, j. split; auto. split; [right; split; [lia|auto]|auto].
  - destruct (Z_le_dec 0 p) as [P1|P1]; [destruct (Z_le_dec p (zlen w)) as [P2|P2]|].
    2,3: unfold b_insert, b_insertArray; rewrite SL; replace ((p <? 0) || (zlen w <? p) || (0 <? 0) || (zlen t <? 0)) with true by lia; exists s, SBad, w, j; split; auto; split; [right; split; [lia|auto]|auto].
    destruct (rep_insert_text m s w j p t R (conj P1 P2) L) as (s' & j' & -> & R' & Z'). cbn [bind]. eexists s', SUnit, _, j'. split; auto. split; [left; split; [lia|]; split; reflexivity|]. split; auto. split; [now apply bytes_splice|]. intros (F & _) Z. destruct Z'; auto. lia.
  - unfold b_insertChar. rewrite valueOf_char_nz by auto. destruct (Z_le_dec 0 p) as [P1|P1]; [destruct (Z_le_dec p (zlen w)) as [P2|P2]|].
    2,3: unfold b_insert, b_insertArray; rewrite SL; replace ((p <? 0) || (zlen w <? p) || (0 <? 0) || (zlen [c] <? 0)) with true by lia; exists s, SBad, w, j; split; auto; split; [right; split; [lia|auto]|auto].
    destruct (rep_insert_text m s w j p [c] R (conj P1 P2) L) as (s' & j' & -> & R' & Z'). cbn [bind]. eexists s', SUnit, _, j'. split; auto. split; [left; split; [lia|]; split; reflexivity|]. split; auto. split; [now apply bytes_splice|]. intros (F & _) Z. destruct Z'; auto. lia.
  - unfold b_insertPart. rewrite SL. pose proof (zlen_nonneg t) as T0. destruct (p <? 0) eqn:Q0; [exists s, SBad, w, j; split; auto; split; [right; split; [lia|auto]|auto]|].
    destruct ((zlen w <? p) || (i <? 0) || (e <? 0) || (e <? i) || (zlen t <? e)) eqn:Q1; [exists s, SBad, w, j; split; auto; split; [right; split; [lia|auto]|auto]|].
    destruct (rep_insertArray m s w j p t i (e - i) R) as (s' & j' & -> & R' & Z'); try lia; try (unfold blim, int_max in *; lia). cbn [bind]. replace (i + (e - i)) with e in * by lia. eexists s', SUnit, _, j'. split; auto. split; [left; split; [lia|]; split; reflexivity|]. split; auto. split; [apply bytes_splice; auto; now apply bytes_part|]. intros (F & _) Z. destruct Z'; auto. lia.
  - pose proof (zlen_nonneg t) as T0. destruct ((p <? 0) || (zlen w <? p) || (off <? 0) || (len <? 0)) eqn:Q1.
    { unfold b_insertArray. rewrite SL, Q1. exists s, SBad, w, j. split; auto. split; [right; split; [lia|auto]|auto]. }
    destruct (Z_le_dec (off + len) (zlen t)) as [E|E].
    + destruct (rep_insertArray m s w j p t off len R) as (s' & j' & -> & R' & Z'); try lia; try (unfold blim, int_max in *; lia). cbn [bind]. eexists s', SUnit, _, j'. split; auto. split; [left; split; [lia|]; split; reflexivity|]. split; auto. split; [apply bytes_splice; auto; now apply bytes_part|]. intros (F & _) Z. destruct Z'; auto. lia.
    + unfold b_insertArray. rewrite SL, Q1. unfold is_int in C. unfold sadd at 1. rewrite s32 by lia. cbn [bind]. replace (zlen t <? off + len) with true by lia. exists s, SBad, w, j. split; auto. split; [right; split; [lia|auto]|auto].
  - unfold b_deletes. rewrite SL. destruct (i <? 0) eqn:Q0; [exists s, SBad, w, j; split; auto; split; [right; split; [lia|auto]|auto]|].
    destruct ((e <? i) || (zlen w <? i)) eqn:Q1; [exists s, SBad, w, j; split; auto; split; [right; split; [lia|auto]|auto]|].
    assert (SP : forall q, 0 <= q <= zlen w -> splice w q q [] = w) by (intros q Q; unfold splice; cbn [app]; apply firstn_skipn).
    destruct ((i =? e) || (i =? zlen w)) eqn:Q2. { cbn [bind]. exists s, SUnit, w, j. split; auto. split; [left; split; [lia|]; split; auto; replace (Z.min e (zlen w)) with i by lia; rewrite SP; auto; lia|auto]. }
    destruct (Z.ltb_spec (zlen w) e) as [Q3|Q3].
    + specialize (C ltac:(lia) ltac:(lia)). destruct (rep_delete_end s w j i R) as (b & E & R'); try lia. rewrite SL in E. rewrite E. cbn [bind]. eexists _, SUnit, _, _. split; [reflexivity|]. split; [left; split; [lia|]; split; [|reflexivity]; replace (Z.min e (zlen w)) with (zlen w) by lia; unfold splice; rewrite skipn_all2 by (unfold zlen; lia); cbn [app]; rewrite app_nil_r; reflexivity|].
      split; [exact R'|]. split; [now apply bytes_firstn|]. intros _ Z. split; auto. apply zeros_app; [now apply zeros_firstn|now apply zeros_skipn].
    + specialize (C ltac:(lia) ltac:(lia)). destruct (rep_delete s w j i e R) as (b & E & R'); try lia. rewrite SL in E. rewrite E. cbn [bind]. eexists _, SUnit, _, _. split; [reflexivity|]. split; [left; split; [lia|]; split; [|reflexivity]; replace (Z.min e (zlen w)) with e by lia; reflexivity|].
      split; [exact R'|]. split; [apply bytes_splice; auto|]. intros _ Z. split; auto. apply zeros_app; auto. now apply zeros_firstn.
  - unfold b_deleteCharAt. rewrite SL. destruct (i <? 0) eqn:Q0; [exists s, SBad, w, j; split; auto; split; [right; split; [lia|auto]|auto]|].
    destruct (zlen w <=? i) eqn:Q1; [exists s, SBad, w, j; split; auto; split; [right; split; [lia|auto]|auto]|].
    destruct (rep_delete s w j i (i + 1) R) as (b & E & R'); try lia. rewrite SL in E. rewrite E. cbn [bind]. replace (zlen w - (i + 1 - i)) with (zlen w - 1) in R' by lia. eexists _, SUnit, _, _. split; [reflexivity|]. split; [left; split; [lia|]; split; reflexivity|].
    split; [exact R'|]. split; [apply bytes_splice; auto|]. intros _ Z. split; auto. apply zeros_app; auto. now apply zeros_firstn.
  - unfold b_replace. rewrite SL. destruct (i <? 0) eqn:Q0; [exists s, SBad, w, j; split; auto; split; [right; split; [lia|auto]|auto]|].
    destruct ((zlen w <? i) || (e <? i)) eqn:Q1; [exists s, SBad, w, j; split; auto; split; [right; split; [lia|auto]|auto]|].
    assert (E1 : (if zlen w <? e then zlen w else e) = Z.min e (zlen w)) by (destruct (Z.ltb_spec (zlen w) e); lia). rewrite E1. set (e1 := Z.min e (zlen w)) in *. pose proof (zlen_nonneg t) as T0. assert (HE : 0 <= i <= e1 /\ e1 <= zlen w) by lia. destruct HE as (HE & HE2). destruct (C HE) as (C1 & C2). clear C.
    unfold blim in *. unfold sadd, ssub. rewrite !s32 by (unfold int_min, int_max; lia). cbn [bind]. rewrite s32 by (unfold int_min, int_max; lia). cbn [bind]. rewrite s32 by (unfold int_min, int_max; lia). cbn [bind].
    destruct (b_ensure_ok m s w j (zlen w + zlen t - e1 + i) R) as (s1 & j1 & EN & R1 & N1 & K1); [unfold blim; lia|]. destruct (C2 s1 EN) as (C3 & C4). rewrite EN. cbn [bind].
    destruct C1 as [C1|C1].
    + destruct (rep_replace_move s1 w j1 i e1 t R1 HE HE2 C1 C3 C4) as (b1 & b2 & j' & -> & EM & R' & Z'). cbn [bind]. rewrite EM. cbn [bind]. eexists _, SUnit, _, j'. split; [reflexivity|]. split; [left; split; [lia|]; split; reflexivity|]. split; [exact R'|]. split; [now apply bytes_splice|].
      intros (F & F2) Z. destruct K1 as (-> & ->); [lia|]. split; auto. apply Z'; auto. lia.
    + destruct (rep_replace_same s1 w j1 i e1 t R1 HE HE2 C1 C3) as (b1 & b2 & -> & EM & R'). cbn [bind]. rewrite EM. cbn [bind]. eexists _, SUnit, _, j1. split; [reflexivity|]. split; [left; split; [lia|]; split; reflexivity|]. split; [exact R'|]. split; [now apply bytes_splice|].
      intros (F & F2) Z. destruct K1 as (-> & ->); [lia|]. auto.
  - destruct (rep_reverse s w j R BW) as (s' & E & R'). rewrite E. cbn [bind]. exists s', SUnit, (rev w), j. split; auto. split; auto. split; auto. split; [now apply Forall_rev|]. intros _ Z. split; auto. rewrite (rep_cap s' _ _ R'), zlen_rev. lia.
  - unfold b_setCharAt. rewrite SL. destruct ((i <? 0) || (zlen w <=? i)) eqn:Q; [exists s, SBad, w, j; split; auto; split; [right; split; [lia|auto]|auto]|].
    destruct (rep_set s w j i c R) as (b & -> & R'); [lia|]. cbn [bind]. rewrite SL in R'. eexists _, SUnit, _, j. split; [reflexivity|]. split; [left; split; [lia|]; split; reflexivity|]. split; [exact R'|]. split; [apply bytes_splice; auto|auto].
  - unfold b_setLength. rewrite SL. destruct C as (C1 & C2 & C3). destruct (k <? 0) eqn:Q0; [exists s, SBad, w, j; split; auto; split; [right; split; [lia|auto]|auto]|].
    destruct (Z.ltb_spec (zlen w) k) as [Q|Q].
    + destruct (b_ensure_ok m s w j k R C1) as (s1 & j1 & EN & R1 & N1 & K1). rewrite EN. cbn [bind]. destruct (rep_extend s1 w j1 k R1 Q (C3 Q s1 EN)) as (b & j' & E & R' & Z'). rewrite (rep_len s1 w j1 R1) in *. rewrite E. cbn [bind]. eexists _, SUnit, _, j'. split; [reflexivity|]. split; [left; split; [lia|]; split; [|reflexivity]; rewrite firstn_all2 by (unfold zlen in *; lia); reflexivity|]. split; [exact R'|].
      split; [apply bytes_app; auto; apply Forall_forall; intros x X; apply repeat_spec in X; subst; unfold byte_ok; lia|]. intros (F & F2) Z. destruct K1 as (-> & ->); [lia|]. auto.
    + assert (JN : j <> []) by (intros ->; change (zlen (@nil (option Z))) with 0 in CP; lia). destruct (rep_shrink s w j k R) as (b & j' & E & R' & Z'); auto; [lia|]. rewrite SL in E. rewrite E. cbn [bind]. eexists _, SUnit, _, j'. split; [reflexivity|]. split; [left; split; [lia|]; split; [|reflexivity]; replace (Z.to_nat k - length w)%nat with 0%nat by (unfold zlen in *; lia); cbn [repeat]; rewrite app_nil_r; reflexivity|].
      split; [exact R'|]. split; [now apply bytes_firstn|auto].
  - destruct (b_ensure_ok m s w j k R C) as (s1 & j1 & -> & R1 & N1 & K1). cbn [bind]. exists s1, SUnit, w, j1. split; auto. split; auto. split; auto. split; auto. intros (F & F2) Z. destruct K1 as (-> & ->); [lia|]. auto.
  - destruct (rep_trim s w j R) as (j' & R' & _). exists (b_trimToSize s), SUnit, w, j'. split; auto. split; auto. split; auto. split; auto. intros (_ & []).
  - unfold b_charAt. rewrite SL. destruct ((i <? 0) || (zlen w <=? i)) eqn:Q; [exists s, SBad, w, j; split; auto; split; [right; split; [lia|auto]|auto]|].
    destruct (znth_ex w i) as (x & X); [lia|]. rewrite (mget_content s w i x (rep_sinv s w j R) X). cbn [bind]. exists s, (SChar x), w, j. split; auto. split; [left; split; [lia|]; split; eauto|auto].
  - exists s, (SInt (slen s)), w, j. split; auto. split; [split; auto; congruence|auto].
  - destruct C as (C1 & C2). destruct (Z_le_dec 0 i) as [I1|I1]; [destruct (Z_lt_dec i (zlen w)) as [I2|I2]; [destruct (Z_le_dec i e) as [I3|I3]; [destruct (Z_le_dec e (zlen w)) as [I4|I4]|]|]|].
    { rewrite (rep_sub s w j i e R) by lia. cbn [bind]. rewrite cstr_id by auto. exists s, (SStr (part w i e)), w, j. split; auto. split; [left; split; [lia|auto]|auto]. }
    all: unfold b_subString; rewrite SL; destruct ((i <? 0) || (e <? 0)) eqn:Q; [|try (replace ((zlen w <=? i) || (zlen w <? e) || (e <? i)) with true by lia)]; try lia; exists s, SBad, w, j; (split; [auto|]); (split; [right; split; [lia|auto]|auto]).
  - destruct C as (C1 & C2). pose proof R as (E & _). assert (exists z, j = Some 0 :: z) as (z & Ez). { rewrite E in C2. rewrite znth_nth in C2 by lia. rewrite nth_error_app2 in C2 by (rewrite map_length; unfold zlen; lia). rewrite map_length in C2. replace (Z.to_nat (zlen w) - length w)%nat with 0%nat in C2 by (unfold zlen; lia). destruct j; [discriminate|]. injection C2 as ->. eauto. }
    rewrite (rep_toString s w j z R Ez), cstr_id by auto. cbn [bind]. exists s, (SStr w), w, j. split; [auto|]. split; [auto|]. split; [exact R|]. auto.
Qed.

Lemma b_run_ok m : forall ops s w j, rep s w j -> Forall byte_ok w ->
  (forall pre o post s' w' as_, ops = pre ++ o :: post -> b_run m s pre = Ok (s', as_) -> srun w pre w' as_ -> b_conforming m s' w' o) ->
  exists s' as_ w' j', b_run m s ops = Ok (s', as_) /\ srun w ops w' as_ /\ rep s' w' j' /\
    ((forall pre o post s1 w1 a1, ops = pre ++ o :: post -> b_run m s pre = Ok (s1, a1) -> srun w pre w1 a1 -> b_fits s1 w1 o) -> zeros j -> zeros j' /\ scap s' = scap s).
Proof.
  induction ops as [|o ops IH]; intros s w j R B C; cbn [b_run]; [exists s, [], w, j; split; auto; split; [constructor|auto]|].
  destruct (b_step_ok m s w j o R B) as (s1 & a & w1 & j1 & E1 & S1 & R1 & B1 & Z1); [apply (C [] o ops s w []); auto; constructor|]. rewrite E1. cbn [bind].
  destruct (IH s1 w1 j1 R1 B1) as (s2 & as_ & w2 & j2 & E2 & R2 & I2 & Z2).
  { intros pre o' post s' w' as_ -> RN RS. apply (C (o :: pre) o' post s' w' (a :: as_)); auto; [cbn [b_run]; rewrite E1; cbn [bind]; rewrite RN; auto|]. econstructor; eauto. }
  rewrite E2. cbn [bind]. exists s2, (a :: as_), w2, j2. split; auto. split; [econstructor; eauto|]. split; auto.
  intros F Z. destruct Z1 as (Z1 & C1); [apply (F [] o ops s w []); auto; constructor|auto|]. destruct Z2 as (Z2 & C2); auto.
  - clear E2 R2. intros pre o' post s' w' bs -> RN RS. apply (F (o :: pre) o' post s' w' (a :: bs)); auto; [cbn [b_run]; rewrite E1; cbn [bind]; rewrite RN; auto|]. econstructor; eauto.
  - split; auto. congruence.
Qed.

(** A constructor result and the text it stands for. *)
Inductive b_built (m : cpp) : sb -> str -> Prop :=
| b_built_capacity c s : 0 <= c <= int_max -> b_new c = Ok s -> b_built m s []
| b_built_text t s : 16 + zlen t <= blim -> Forall byte_ok t -> b_of m t = Ok s -> b_built m s t
| b_built_copy s0 t s : b_built m s0 t -> b_copy s0 = Ok s -> b_built m s t.
Lemma b_new_ok c : 0 <= c <= int_max -> exists s, b_new c = Ok s /\ rep s [] (c_calloc c) /\ scap s = c.
Proof. intros H. unfold b_new. replace (c <? 0) with false by lia. eexists. split; [reflexivity|]. split; auto. unfold rep. cbn. rewrite zlen_calloc by lia. split; auto. split; auto. lia. Qed.
Lemma b_of_ok m t : 16 + zlen t <= blim -> exists s j, b_of m t = Ok s /\ rep s t j /\ zeros j /\ scap s = zlen t + 16.
Proof.
  intros L. pose proof (zlen_nonneg t). unfold blim in L. unfold b_of, sadd. rewrite s32 by (unfold int_min, int_max; lia). cbn [bind].
  assert (R : rep (mkSB (c_calloc (zlen t + 16)) 0 (zlen t + 16)) [] (c_calloc (zlen t + 16))). { unfold rep. cbn. rewrite zlen_calloc by lia. split; auto. split; auto. split; auto. unfold int_max. lia. }
  destruct (rep_append m _ [] _ t R) as (s & j & E & RS & K); [unfold blim; change (zlen (@nil Z)) with 0; lia|]. destruct K as (K1 & K2); [change (zlen (@nil Z)) with 0; cbn [scap]; lia|]. exists s, j. split; auto. split; auto. split; auto. apply K2, zeros_calloc.
Qed.
Lemma b_built_rep m s t : b_built m s t -> exists j, rep s t j /\ zeros j /\ Forall byte_ok t.
Proof.
  induction 1 as [c s H E|t s L B E|s0 t s _ (j & R & Z & B) E].
  - destruct (b_new_ok c H) as (s' & E' & I & _). rewrite E in E'. injection E' as <-. exists (c_calloc c). split; auto. split; [apply zeros_calloc|auto].
  - destruct (b_of_ok m t L) as (s' & j & E' & I & Z & _). rewrite E in E'. injection E' as <-. eauto.
  - destruct (rep_copy s0 t j R) as (s' & j' & E' & I' & _ & Z'). rewrite E in E'. injection E' as <-. eauto.
Qed.

Theorem C43_constructors : forall m,
  (forall c, 0 <= c <= int_max -> exists s, b_new c = Ok s /\ b_built m s [] /\ scap s = c) /\
  (forall c, c < 0 -> b_new c = Throw NegativeArraySizeException) /\
  (forall t, 16 + zlen t <= blim -> Forall byte_ok t -> exists s, b_of m t = Ok s /\ b_built m s t /\ scap s = zlen t + 16) /\
  (forall s t, b_built m s t -> exists s', b_copy s = Ok s' /\ b_built m s' t /\ scap s' = scap s).
Proof.
  intros m. split; [|split; [|split]].
  - intros c H. destruct (b_new_ok c H) as (s & E & _ & K). exists s. split; auto. split; auto. econstructor; eauto.
  - intros c H. unfold b_new. replace (c <? 0) with true by lia. auto.
  - intros t L B. destruct (b_of_ok m t L) as (s & j & E & _ & _ & K). exists s. split; auto. split; auto. econstructor 2; eauto.
  - intros s t B. destruct (b_built_rep m s t B) as (j & R & _). destruct (rep_copy s t j R) as (s' & j' & E & _ & K & _). exists s'. split; auto. split; auto. econstructor 3; eauto.
Qed.
Print Assumptions C43_constructors.

(** In both readings of signed arithmetic, every conforming history answers
    exactly like a character sequence, without any access outside the block. *)
Theorem C43_history_partial : forall m s w ops, b_built m s w ->
  (forall pre o post s' w' as_, ops = pre ++ o :: post -> b_run m s pre = Ok (s', as_) -> srun w pre w' as_ -> b_conforming m s' w' o) ->
  exists s' as_ w', b_run m s ops = Ok (s', as_) /\ srun w ops w' as_ /\ slen s' = zlen w' /\ (forall i c, znth w' i = Some c -> b_charAt s' i = Ok c).
Proof.
  intros m s w ops B C. destruct (b_built_rep m s w B) as (j & R & _ & BW). destruct (b_run_ok m ops s w j R BW C) as (s' & as_ & w' & j' & E & RN & R' & _). exists s', as_, w'. split; auto. split; auto. split; [eapply rep_len; eauto|].
  intros i c X. unfold b_charAt. rewrite (rep_len s' w' j' R'). apply znth_Some_lt in X as X2. replace ((i <? 0) || (zlen w' <=? i)) with false by lia. eapply mget_content; eauto using rep_sinv.
Qed.
Print Assumptions C43_history_partial.

(** As long as no call reallocates the block, toString gives the text up to
    its first NUL, and indexOf finds the first occurrence. *)
Theorem C43_toString_partial : forall m s w ops, b_built m s w ->
  (forall pre o post s' w' as_, ops = pre ++ o :: post -> b_run m s pre = Ok (s', as_) -> srun w pre w' as_ -> b_conforming m s' w' o /\ b_fits s' w' o) ->
  exists s' as_ w', b_run m s ops = Ok (s', as_) /\ srun w ops w' as_ /\ scap s' = scap s /\ (zlen w' < scap s -> b_toString s' = Ok (cstr w') /\
    (no_nul w' -> forall p from, p <> [] -> no_nul p -> exists r, b_indexOf_from s' p from = Ok r /\ first_in p w' (Z.max 0 from) (zlen w') r)).
Proof.
  intros m s w ops B C. destruct (b_built_rep m s w B) as (j & R & Z & BW).
  destruct (b_run_ok m ops s w j R BW) as (s' & as_ & w' & j' & E & RN & R' & ZC). { intros. edestruct C; eauto. }
  destruct ZC as (Z' & K); auto. { intros. edestruct C; eauto. }
  exists s', as_, w'. split; auto. split; auto. split; auto. intros L. rewrite <- K in L. destruct (rep_terminated s' w' j' R' Z' L) as (z & EZ). assert (TS := rep_toString s' w' j' z R' EZ). split; auto.
  intros NW p from NP NN. unfold b_toString in TS. unfold b_indexOf_from. rewrite TS. cbn [bind]. rewrite !cstr_id by auto. assert (P0 : 0 < zlen p) by (destruct p; [congruence|rewrite zlen_cons; pose proof (zlen_nonneg p); lia]). pose proof (zlen_nonneg w') as W0.
  replace (if from <? 0 then 0 else from) with (Z.max 0 from) by (destruct (Z.ltb_spec from 0); lia). set (f := Z.max 0 from). assert (F0 : 0 <= f) by lia.
  assert (NO : forall i, occurs p w' i -> 0 <= i /\ i + zlen p <= zlen w') by (intros i; apply occurs_nonneg).
  destruct ((zlen w' =? 0) || (zlen p =? 0)) eqn:Q1; [exists (-1); split; auto; right; split; auto; intros i I O; apply NO in O; lia|].
  destruct ((zlen w' - 1 <? f) || (zlen w' <? zlen p)) eqn:Q2; [exists (-1); split; auto; right; split; auto; intros i I O; apply NO in O; lia|].
  pose proof (str_find_spec p (skipn (Z.to_nat f) w') 0 ltac:(lia)) as SF. destruct (str_find p (skipn (Z.to_nat f) w') 0) as [r|].
  - exists (r + f). split; auto. destruct SF as (S1 & S2 & S3). apply occurs_skipn in S2; [|lia|lia]. left. split; [apply NO in S2; lia|]. split; auto. intros i I O. apply (S3 (i - f)); [lia|]. apply occurs_skipn; [lia|lia|]. replace (i - f + f) with i by lia. auto.
  - exists (-1). split; auto. right. split; auto. intros i I O. apply (SF (i - f)); [lia|]. apply occurs_skipn; [lia|lia|]. replace (i - f + f) with i by lia. auto.
Qed.
Print Assumptions C43_toString_partial.

(** ** Violations *)

(** The block has no terminator when the text fills it or after it has grown:
    toString (and getValue, indexOf, append of a StringBuffer) reads beyond
    the text. *)
Theorem C43_toString_refuted : forall m c t, 0 <= c <= zlen t -> zlen t <= blim -> no_nul t ->
  exists s s' u, b_new c = Ok s /\ b_append m s t = Ok s' /\ b_toString s' = UB u /\ forall p from, b_indexOf_from s' p from = UB u.
Proof.
  intros m c t C L N. pose proof (zlen_nonneg t). destruct (b_new_ok c) as (s & E & R & SC); [unfold blim, int_max in *; lia|]. exists s.
  assert (X : exists s' j, b_append m s t = Ok s' /\ rep s' t j /\ (j = [] \/ exists z, j = None :: z)).
  { destruct (Z.eq_dec c (zlen t)) as [EQ|NE].
    - destruct (rep_append m s [] _ t R) as (s' & j & E2 & R2 & K); [change (zlen (@nil Z)) with 0; lia|]. destruct K as (K1 & _); [change (zlen (@nil Z)) with 0; lia|]. cbn [app] in R2. exists s', j. split; auto. split; auto. left. pose proof (rep_cap s' t j R2) as CP. destruct j; auto. rewrite zlen_cons in CP. pose proof (zlen_nonneg j). lia.
    - pose proof (rep_len s _ _ R) as SL. change (zlen (@nil Z)) with 0 in SL. destruct R as (EB & _ & CB & _). cbn [map app] in EB. unfold b_append, b_appendArray, sadd. unfold blim in L. replace ((0 <? 0) || (zlen t <? 0)) with false by lia. rewrite s32 by (unfold int_min, int_max; lia). cbn [bind]. replace (zlen t <? 0 + zlen t) with false by lia. rewrite SL. rewrite s32 by (unfold int_min, int_max; lia). cbn [bind].
      unfold b_ensureCapacity. replace (0 + zlen t <=? 0) with false by lia. replace (0 + zlen t <=? scap s) with false by lia. destruct (grow_ok m (0 + zlen t) ltac:(unfold blim; lia) 40 (scap s)) as (d & -> & HD); [lia|change (2 ^ Z.of_nat 40) with 1099511627776; lia|]. cbn [bind buf slen scap].
      unfold c_realloc. rewrite EB, SL. assert (LC : length (c_calloc c) = Z.to_nat c) by (unfold c_calloc; now rewrite repeat_length). rewrite firstn_all2 by lia. rewrite LC.
      rewrite (mem_in_ok _ 0 t 0 (zlen t) [] (c_calloc c ++ repeat None (Z.to_nat d - Z.to_nat c))); auto; try lia. 2:{ rewrite zlen_app. unfold zlen in *. rewrite LC, repeat_length. lia. }
      cbn [bind app]. rewrite s32 by (unfold int_min, int_max; lia). cbn [bind]. rewrite part_all. eexists _, _. split; [reflexivity|]. split.
      + unfold rep. cbn [buf slen scap]. split; [reflexivity|]. split; [lia|]. split; [|unfold int_max; lia]. rewrite zlen_app, zlen_map_some. unfold zlen in *. rewrite skipn_length, app_length, LC, repeat_length. lia.
      + rewrite (skipn_ap_more _ (Z.to_nat (zlen t - c))) by (rewrite LC; lia). destruct (Z.eq_dec d (zlen t)) as [Q|Q]; [left; apply skipn_all2; rewrite repeat_length; lia|]. right.
        destruct (skipn (Z.to_nat (zlen t - c)) (repeat None (Z.to_nat d - Z.to_nat c))) as [|x z] eqn:SK; [apply (f_equal (@length _)) in SK; rewrite skipn_length, repeat_length in SK; cbn in SK; lia|]. exists z. f_equal. assert (In x (repeat None (Z.to_nat d - Z.to_nat c))) as IN by (rewrite <- (firstn_skipn (Z.to_nat (zlen t - c))); apply in_app_iff; right; rewrite SK; left; auto). apply repeat_spec in IN. auto. }
  destruct X as (s' & j & E2 & R2 & J). exists s'.
  assert (CS : forall l z, no_nul l -> (z = [] \/ exists y, z = None :: y) -> exists u, c_string (map Some l ++ z) = UB u).
  { clear. induction l as [|x l IH]; intros z N J; cbn [map app c_string]; [destruct J as [->|(y & ->)]; cbn; eauto|]. inversion N; subst. replace (x =? 0) with false by lia. destruct (IH z) as (u & ->); auto. cbn. eauto. }
  destruct (CS t j N J) as (u & U). exists u. destruct R2 as (E3 & _). unfold b_toString, b_indexOf_from. rewrite E3, U. auto.
Qed.
Print Assumptions C43_toString_refuted.

(** deletes and deleteCharAt move bytes from beyond the block, and setLength
    writes beyond it, when the block is (nearly) full. *)
Theorem C43_bounds_refuted : forall m,
  (exists s, b_of m (T "twenty characters!!!") = Ok s /\ b_deletes s 0 18 = UB OutOfBounds /\ b_deletes s 3 99 = UB OutOfBounds) /\
  (exists s s', b_new 3 = Ok s /\ b_append m s (T "abc") = Ok s' /\ b_deleteCharAt s' 0 = UB OutOfBounds /\ b_setLength m s' 1 = UB OutOfBounds /\ b_setLength m s' 3 = UB OutOfBounds) /\
  (exists s, b_new 16 = Ok s /\ b_setLength m s 16 = UB OutOfBounds).
Proof.
  intros m. split; [|split].
  - eexists. split; [destruct m; vm_compute; reflexivity|]. split; vm_compute; reflexivity.
  - eexists _, _. split; [vm_compute; reflexivity|]. split; [destruct m; vm_compute; reflexivity|]. split; [vm_compute; reflexivity|]. split; destruct m; vm_compute; reflexivity.
  - eexists. split; [vm_compute; reflexivity|]. destruct m; vm_compute; reflexivity.
Qed.
Print Assumptions C43_bounds_refuted.

(** replace moves as many bytes as the new text has, not the tail. *)
Theorem C43_replace_refuted : forall m, exists s s', b_of m (T "abcdef") = Ok s /\
  b_run m s [SReplace 0 1 (T "XY"); SLength; SSubstring 0 6] = Ok (s', [SUnit; SInt 7; SStr (T "XYbcef")]) /\
  ~ exists w', sstep (T "abcdef") (SReplace 0 1 (T "XY")) w' SUnit /\ part w' 0 6 = T "XYbcef".
Proof.
  intros m. eexists _, _. split; [destruct m; vm_compute; reflexivity|]. split; [destruct m; vm_compute; reflexivity|]. intros (w' & S & P). destruct S as [(_ & -> & _)|(_ & _ & S)]; [vm_compute in P; discriminate|discriminate].
Qed.
Print Assumptions C43_replace_refuted.

(** subString at the end throws, a NUL character is not appended, a
    CharSequence is inserted as "true", self-assignment erases the text, and
    offset + len may overflow. *)
Theorem C43_calls_refuted : forall m, exists s, b_of m (T "abc") = Ok s /\
  b_subString s 3 3 = Throw StringIndexOutOfBoundsException /\
  (exists s', b_run m s [SAppendChar 0; SLength] = Ok (s', [SUnit; SInt 3])) /\
  (exists s', b_insertSequence m s 0 (T "xyz") = Ok s' /\ b_toString s' = Ok (T "trueabc")) /\
  (exists s', b_assign_self s = Ok s' /\ slen s' = 3 /\ b_charAt s' 0 = Ok 0) /\
  b_appendArray ISO s (T "abc") 1 int_max = UB SignedOverflow /\ b_appendArray HW s (T "abc") 1 int_max = UB OutOfBounds.
Proof.
  intros m. eexists. split; [destruct m; vm_compute; reflexivity|]. split; [vm_compute; reflexivity|]. split; [eexists; destruct m; vm_compute; reflexivity|]. split; [eexists; split; [destruct m; vm_compute; reflexivity|vm_compute; reflexivity]|]. split; [eexists; split; [vm_compute; reflexivity|vm_compute; auto]|]. split; vm_compute; reflexivity.
Qed.
Print Assumptions C43_calls_refuted.

Example C43_example : exists s s', b_of HW (T "hello") = Ok s /\ b_run HW s [SInsert 5 (T " world"); SReplace 0 1 (T "J"); SDeleteCharAt 1; SReverse; SAppendChar 33; SToString; SSetLength 4; SToString; SDelete 0 2; SToString; SDeleteCharAt 9; SLength] =
  Ok (s', [SUnit; SUnit; SUnit; SUnit; SUnit; SStr (T "dlrow ollJ!"); SUnit; SStr (T "dlro"); SUnit; SStr (T "ro"); SBad; SInt 2]).
Proof. eexists _, _. split; [vm_compute; reflexivity|]. vm_compute. reflexivity. Qed.
