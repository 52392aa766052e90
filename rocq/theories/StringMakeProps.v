(** C101: making strings from arrays. *)

From Coq Require Import ZArith List Lia Bool String.
From Verif Require Import Base Bits CppText TextSpec TextLemmas StringMakeModel.
Import ListNotations.
Open Scope string_scope.
Open Scope list_scope.
Open Scope Z_scope.

Lemma copy_from_ok a : forall n i, 0 <= i -> i + Z.of_nat n <= zlen a ->
  copy_from a i n = Ok (firstn n (skipn (Z.to_nat i) a)).
Proof.
  induction n as [|n IH]; intros i I L; [reflexivity|]. cbn [copy_from].
  assert (B : (Z.to_nat i < List.length a)%nat) by (unfold zlen in L; lia).
  destruct (nth_error a (Z.to_nat i)) as [c|] eqn:N; [|apply nth_error_None in N; lia].
  assert (AT : at_ a i = Ok c) by (unfold at_, znth; destruct (Z.ltb_spec i 0); [lia|]; now rewrite N).
  rewrite AT. cbn [bind]. rewrite IH by lia. cbn [bind].
  replace (Z.to_nat (i + 1)) with (S (Z.to_nat i)) by lia.
  f_equal. clear -N. revert N. generalize (Z.to_nat i). intros k. revert a. induction k as [|k IH]; intros [|x a] N; try discriminate.
  - cbn in *. congruence.
  - cbn [nth_error] in N. change (skipn (S (S k)) (x :: a)) with (skipn (S k) a). change (skipn (S k) (x :: a)) with (skipn k a). exact (IH a N).
Qed.

(** A string made of a whole array has its characters, in both readings of C++. *)
Theorem C101_array : forall a, of_array a = Ok a.
Proof.
  intros a. unfold of_array. rewrite copy_from_ok by (unfold zlen; lia). cbn [skipn Z.to_nat]. now rewrite firstn_all.
Qed.
Print Assumptions C101_array.
(** A part of an array: exactly when it lies in the array; otherwise the
    exception names the index that is wrong. *)
Theorem C101_range : forall m a offset length, zlen a <= int_max -> is_int offset -> is_int length -> offset + length <= int_max ->
  (forall pre s post, a = pre ++ s ++ post -> zlen pre = offset -> zlen s = length -> of_range m a offset length = Ok (Made s)) /\
  (offset < 0 -> of_range m a offset length = Ok (BadIndex offset)) /\
  (0 <= offset -> length < 0 -> of_range m a offset length = Ok (BadIndex length)) /\
  (0 <= offset -> 0 <= length -> zlen a < offset + length -> of_range m a offset length = Ok (BadIndex (offset + length))).
Proof.
  intros m a offset length LA O L R. unfold is_int, int_min, int_max in *. pose proof (zlen_nonneg a).
  assert (S1 : 0 <= length -> ssub m 32 (zlen a) length = Ok (zlen a - length)).
  { intros. unfold ssub. apply sres_ok. unfold in_s, smin, smax. change (2 ^ (32 - 1)) with 2147483648. lia. }
  assert (S2 : 0 <= offset -> 0 <= length -> sadd m 32 offset length = Ok (offset + length)).
  { intros. unfold sadd. apply sres_ok. unfold in_s, smin, smax. change (2 ^ (32 - 1)) with 2147483648. lia. }
  unfold of_range. repeat split.
  - intros pre s post E P S. pose proof (zlen_nonneg pre). pose proof (zlen_nonneg s). pose proof (zlen_nonneg post).
    assert (LE : zlen a = zlen pre + zlen s + zlen post) by (rewrite E, !zlen_app; lia).
    destruct (Z.ltb_spec offset 0); [lia|]. destruct (Z.ltb_spec length 0); [lia|]. rewrite S1, S2 by lia. cbn [bind].
    destruct (Z.ltb_spec (zlen a - length) offset); [lia|].
    rewrite copy_from_ok by lia. cbn [bind]. do 2 f_equal. rewrite E.
    replace (Z.to_nat offset) with (List.length pre) by (unfold zlen in P; lia).
    replace (Z.to_nat (offset + length - offset)) with (List.length s) by (unfold zlen in *; lia).
    rewrite skipn_app, skipn_all, Nat.sub_diag. cbn [app skipn]. rewrite firstn_app, firstn_all, Nat.sub_diag. cbn [firstn]. apply app_nil_r.
  - intros. destruct (Z.ltb_spec offset 0); [reflexivity|lia].
  - intros. destruct (Z.ltb_spec offset 0); [lia|]. destruct (Z.ltb_spec length 0); [reflexivity|lia].
  - intros. destruct (Z.ltb_spec offset 0); [lia|]. destruct (Z.ltb_spec length 0); [lia|]. rewrite S1, S2 by lia. cbn [bind].
    destruct (Z.ltb_spec (zlen a - length) offset); [reflexivity|lia].
Qed.
Print Assumptions C101_range.
(** When the sum of a wrong offset and length exceeds an int, so does the
    number in the message: an overflow. *)
Theorem C101_message_refuted : forall a offset length, zlen a <= int_max -> is_int offset -> is_int length -> 0 <= offset -> 0 <= length ->
  int_max < offset + length ->
  of_range ISO a offset length = UB SignedOverflow /\
  of_range HW a offset length = Ok (BadIndex (offset + length - 2 ^ 32)) /\ offset + length - 2 ^ 32 < 0.
Proof.
  intros a offset length LA O L O0 L0 R. unfold is_int, int_min, int_max in *. pose proof (zlen_nonneg a).
  assert (S1 : forall m, ssub m 32 (zlen a) length = Ok (zlen a - length)).
  { intros. unfold ssub. apply sres_ok. unfold in_s, smin, smax. change (2 ^ (32 - 1)) with 2147483648. lia. }
  assert (B : in_sb 32 (offset + length) = false).
  { destruct (in_sb 32 (offset + length)) eqn:E; [|reflexivity]. apply in_s_b in E. unfold in_s, smin, smax in E. change (2 ^ (32 - 1)) with 2147483648 in E. lia. }
  unfold of_range. destruct (Z.ltb_spec offset 0); [lia|]. destruct (Z.ltb_spec length 0); [lia|]. rewrite !S1. cbn [bind].
  destruct (Z.ltb_spec (zlen a - length) offset); [|lia]. unfold sadd, sres. rewrite B. cbn [bind].
  repeat split; [|change (2 ^ 32) with 4294967296; lia].
  do 2 f_equal. unfold wrap. change (2 ^ (32 - 1)) with 2147483648. change (2 ^ 32) with 4294967296.
  rewrite <- (Z.mod_unique (offset + length + 2147483648) 4294967296 1 (offset + length - 2147483648)) by lia. lia.
Qed.
Print Assumptions C101_message_refuted.
(** From a pointer with a length: all bytes up to it, NULs included. From a
    StringBuilder or StringBuffer: its text, if it has no NUL. *)
Theorem C101_pointer : forall s rest, of_pointer (s ++ rest) (zlen s) = Ok s.
Proof.
  intros s rest. unfold of_pointer. pose proof (zlen_nonneg s). pose proof (zlen_nonneg rest). rewrite zlen_app.
  replace ((0 <=? zlen s) && (zlen s <=? zlen s + zlen rest)) with true by lia.
  f_equal. unfold zlen. rewrite Nat2Z.id, firstn_app, firstn_all, Nat.sub_diag. cbn [firstn]. apply app_nil_r.
Qed.
Print Assumptions C101_pointer.
Theorem C101_buffer_partial : forall t, Forall (fun c => c <> 0) t -> of_buffer t = t.
Proof. intros t N. apply cstr_id. exact N. Qed.
Print Assumptions C101_buffer_partial.
Theorem C101_buffer_refuted : forall a b, Forall (fun c => c <> 0) a -> of_buffer (a ++ 0 :: b) = a.
Proof.
  intros a b N. unfold of_buffer. induction N as [|c a C N IH]; [reflexivity|]. cbn. destruct (Z.eqb_spec c 0); [contradiction|]. now rewrite IH.
Qed.
Print Assumptions C101_buffer_refuted.

Example ex_range : of_range ISO (T "abcdef") 2 3 = Ok (Made (T "cde")) /\ of_range ISO (T "abc") 2 3 = Ok (BadIndex 5) /\
  of_range HW (T "abc") 1 int_max = Ok (BadIndex int_min).
Proof. vm_compute. auto. Qed.
