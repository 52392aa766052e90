(** Exactness of floating point operations. *)

From Coq Require Import ZArith List Bool Lia.
From Verif Require Import Base Bits Ieee.
Open Scope Z_scope.

(** What the proofs need to know about a format. *)
Record fmt_ok (F : fmt) : Prop := {
  ok_m : 20 <= mbits F;
  ok_e : 8 <= ebits F; ok_e2 : ebits F <= 11;
  ok_me : 2 * mbits F + 40 <= one_exp F;
  ok_b : bias F = 2 ^ (ebits F - 1) - 1;
  ok_b2 : 2 * bias F = 2 ^ ebits F - 2 }.
Lemma F64_ok : fmt_ok F64. Proof. constructor; vm_compute; auto; discriminate. Qed.
Lemma F32_ok : fmt_ok F32. Proof. constructor; vm_compute; auto; discriminate. Qed.

Lemma pow_pos k : 0 <= k -> 0 < 2 ^ k. Proof. intros. apply Z.pow_pos_nonneg; lia. Qed.
Lemma pow_split a b : 0 <= a -> 0 <= b -> 2 ^ (a + b) = 2 ^ a * 2 ^ b. Proof. intros. now apply Z.pow_add_r. Qed.
Lemma pow_le a b : 0 <= a <= b -> 2 ^ a <= 2 ^ b. Proof. intros. apply Z.pow_le_mono_r; lia. Qed.
Lemma pow_lt a b : 0 <= a < b -> 2 ^ a < 2 ^ b. Proof. intros. apply Z.pow_lt_mono_r; lia. Qed.
Lemma pow_divide a b : 0 <= a <= b -> (2 ^ a | 2 ^ b).
Proof. intros. exists (2 ^ (b - a)). rewrite <- pow_split by lia. f_equal. lia. Qed.

Lemma rne_exact q d : 0 < d -> rne (q * d) d = q.
Proof. intros D. unfold rne. rewrite Z.div_mul, Z_mod_mult by lia. replace (2 * 0 <? d) with true by lia. auto. Qed.

Section Exact.
Variable F : fmt.
Hypothesis K : fmt_ok F.
Let M := mbits F.
Let B := one_exp F.

Lemma maxv_lower : 2 ^ (B + 35) <= maxv F.
Proof.
  destruct K as [m0 e0 e1 me bb b2]. unfold maxv. fold M. pose proof (pow_pos (M + 1) ltac:(unfold M; lia)).
  assert (P : 2 ^ (2 ^ ebits F - 3) * 2 ^ M <= (2 ^ (M + 1) - 1) * 2 ^ (2 ^ ebits F - 3)).
  { rewrite Z.mul_comm. apply Z.mul_le_mono_nonneg_r; [apply Z.pow_nonneg; lia|]. replace (M + 1) with (Z.succ M) by lia. rewrite Z.pow_succ_r by (unfold M; lia). pose proof (pow_pos M ltac:(unfold M; lia)). lia. }
  etransitivity; [|exact P]. rewrite <- pow_split; [apply pow_le|..]; unfold B, M, one_exp in *; try lia.
Qed.

Lemma excess_nonneg v : 0 <= excess F v. Proof. unfold excess. lia. Qed.
Lemma fits_intro x k : 0 <= k -> 0 <= x < 2 ^ (k + M + 1) -> (2 ^ k | x) -> x <= maxv F -> fits F x.
Proof.
  intros K0 X D MX. split; [lia|]. apply Z.mod_divide; [pose proof (pow_pos _ (excess_nonneg x)); lia|].
  eapply Z.divide_trans; [|exact D]. apply pow_divide. split; [apply excess_nonneg|]. unfold excess. fold M.
  destruct (Z.eq_dec x 0) as [->|N]; [change (Z.log2 0) with 0; destruct K; unfold M; lia|].
  assert (Z.log2 x < k + M + 1); [|lia]. apply Z.log2_lt_pow2; lia.
Qed.
Lemma fits_divide x : fits F x -> (2 ^ excess F x | x).
Proof. intros [_ H]. apply Z.mod_divide; auto. pose proof (pow_pos _ (excess_nonneg x)). lia. Qed.
Lemma fits_lt x : fits F x -> x < 2 ^ (excess F x + M + 1).
Proof.
  intros [R _]. destruct (Z.eq_dec x 0) as [->|N]; [apply pow_pos; pose proof (excess_nonneg 0); destruct K; unfold M; lia|].
  apply Z.log2_lt_pow2; [lia|]. unfold excess, M. lia.
Qed.
Lemma fits_0 : fits F 0.
Proof. apply (fits_intro 0 0); try lia. - split; [lia|]. apply pow_pos. destruct K; unfold M; lia. - apply Z.divide_0_r. - pose proof maxv_lower. pose proof (Z.pow_nonneg 2 (B + 35)). lia. Qed.
Lemma fits_double x : fits F x -> 2 * x <= maxv F -> fits F (2 * x).
Proof.
  intros H MX. pose proof (excess_nonneg x). pose proof (fits_lt x H). pose proof (fits_divide x H) as D. destruct H as [R _].
  destruct (Z.eq_dec x 0) as [->|N]; [apply fits_0|].
  apply (fits_intro _ (excess F x + 1)); try lia.
  - split; [lia|]. replace (excess F x + 1 + M + 1) with (Z.succ (excess F x + M + 1)) by lia. rewrite Z.pow_succ_r by (destruct K; unfold M; lia). lia.
  - replace (excess F x + 1) with (Z.succ (excess F x)) by lia. rewrite Z.pow_succ_r by lia. now apply Z.mul_divide_mono_l.
Qed.
(** fewer bits of a number *)
Lemma fits_sub x y k : fits F x -> 0 <= y <= x -> 0 <= k -> (2 ^ k | y) -> excess F x <= k -> fits F y.
Proof.
  intros H Y K0 D E. pose proof (fits_lt x H) as L. apply (fits_intro _ k); auto; [|destruct H; lia]. split; [lia|].
  apply Z.le_lt_trans with x; [lia|]. eapply Z.lt_le_trans; [exact L|]. apply pow_le. pose proof (excess_nonneg x). destruct K; unfold M; lia.
Qed.
Lemma fits_sub' x y : fits F x -> 0 <= y <= x -> (2 ^ excess F x | y) -> fits F y.
Proof. intros H Y D. apply (fits_sub x y (excess F x)); auto; [apply excess_nonneg|lia]. Qed.

Lemma rounded_exact n x k : 0 <= k -> fits F x -> rounded F n (x * 2 ^ k) k = Fin n x.
Proof.
  intros K0 H. assert (R : 0 <= x <= maxv F) by (destruct H; auto). unfold rounded. fold M. pose proof (pow_pos k K0).
  assert (E : Z.max 0 (Z.log2 (x * 2 ^ k) - k - M) = excess F x).
  { unfold excess. fold M. destruct (Z.eq_dec x 0) as [->|N]; [change (Z.log2 (0 * 2 ^ k)) with 0; change (Z.log2 0) with 0; destruct K; unfold M; lia|].
    rewrite Z.log2_mul_pow2 by lia. f_equal. lia. }
  rewrite E. pose proof (excess_nonneg x) as N0. destruct (fits_divide x H) as [q Q].
  assert (A : rne (x * 2 ^ k) (2 ^ (excess F x + k)) = q).
  { rewrite pow_split by lia. rewrite Q at 1. rewrite <- Z.mul_assoc. apply rne_exact. apply Z.mul_pos_pos; apply pow_pos; lia. }
  rewrite A, <- Q. replace (maxv F <? x) with false by lia. auto.
Qed.
Lemma rounded_exact0 n x : fits F x -> rounded F n x 0 = Fin n x.
Proof. intros H. rewrite <- (rounded_exact n x 0) by (auto; lia). f_equal. lia. Qed.
(** a number with few bits above the largest finite number *)
Lemma rounded_big n x k : 0 <= k -> maxv F < x -> x mod 2 ^ excess F x = 0 -> rounded F n (x * 2 ^ k) k = Inf n.
Proof.
  intros K0 X H. pose proof maxv_lower. pose proof (Z.pow_nonneg 2 (B + 35)). unfold rounded. fold M. pose proof (pow_pos k K0).
  assert (E : Z.max 0 (Z.log2 (x * 2 ^ k) - k - M) = excess F x).
  { unfold excess. fold M. rewrite Z.log2_mul_pow2 by lia. f_equal. lia. }
  rewrite E. pose proof (excess_nonneg x) as N0. apply Z.mod_divide in H; [|pose proof (pow_pos _ N0); lia]. destruct H as [q Q].
  assert (A : rne (x * 2 ^ k) (2 ^ (excess F x + k)) = q).
  { rewrite pow_split by lia. rewrite Q at 1. rewrite <- Z.mul_assoc. apply rne_exact. apply Z.mul_pos_pos; apply pow_pos; lia. }
  rewrite A, <- Q. replace (maxv F <? x) with true by lia. auto.
Qed.
Lemma one_pos : 0 < one F. Proof. apply pow_pos. destruct K; lia. Qed.
Lemma fits_pow k : 0 <= k -> 2 ^ k <= maxv F -> fits F (2 ^ k).
Proof. intros A X. apply (fits_intro _ k); auto; [|apply Z.divide_refl]. pose proof (pow_pos k A). split; [lia|]. apply pow_lt. destruct K; unfold M; lia. Qed.
(** small integers *)
Lemma fits_int z : 0 <= z < 2 ^ (Z.min M 30 + 1) -> fits F (z * one F).
Proof.
  intros R. destruct K as [m0 e0 e1 me bb b2]. apply (fits_intro _ B); [unfold B; lia|..].
  - split; [pose proof one_pos; nia|]. replace (B + M + 1) with (M + 1 + B) by lia. rewrite pow_split by (unfold B, M in *; lia). apply Z.mul_lt_mono_pos_r; [apply one_pos|].
    eapply Z.lt_le_trans; [apply R|]. apply pow_le. unfold M. lia.
  - exists z. auto.
  - etransitivity; [|apply maxv_lower]. rewrite (Z.add_comm B), pow_split by (unfold B; lia). apply Z.mul_le_mono_nonneg_r; [apply Z.pow_nonneg; lia|]. etransitivity; [apply Z.lt_le_incl, R|]. apply pow_le. unfold M. lia.
Qed.
Lemma of_int_exact z : 0 <= z < 2 ^ (Z.min M 30 + 1) -> of_int F z = Fin false (z * one F).
Proof. intros R. unfold of_int. replace (z <? 0) with false by lia. rewrite Z.abs_eq by lia. apply rounded_exact0, fits_int, R. Qed.
Lemma two21 : 2 ^ 21 <= 2 ^ (Z.min M 30 + 1). Proof. apply pow_le. destruct K; unfold M; lia. Qed.
Lemma of_int_small z : 0 <= z < 2 ^ 21 -> of_int F z = Fin false (z * one F).
Proof. intros R. pose proof two21. apply of_int_exact. lia. Qed.

Lemma add_exact n a n' b : fits F (Z.abs (signed n a + signed n' b)) -> signed n a + signed n' b <> 0 ->
  add F (Fin n a) (Fin n' b) = Fin (signed n a + signed n' b <? 0) (Z.abs (signed n a + signed n' b)).
Proof. intros H N. cbn [add]. replace (signed n a + signed n' b =? 0) with false by lia. now apply rounded_exact0. Qed.
Lemma add_pos a b : fits F (a + b) -> add F (Fin false a) (Fin false b) = Fin false (a + b).
Proof.
  intros H. cbn [add signed]. destruct (Z.eqb_spec (a + b) 0) as [->|N]; auto.
  assert (0 <= a + b) by (destruct H; lia). rewrite Z.abs_eq by lia. replace (a + b <? 0) with false by lia. now apply rounded_exact0.
Qed.
Lemma sub_pos a b : fits F (a - b) -> sub F (Fin false a) (Fin false b) = Fin false (a - b).
Proof.
  intros H. unfold sub. cbn [neg negb add signed andb]. change (a + - b) with (a - b). destruct (Z.eqb_spec (a - b) 0) as [->|N]; auto.
  assert (0 <= a - b) by (destruct H; lia). rewrite Z.abs_eq by lia. replace (a - b <? 0) with false by lia. now apply rounded_exact0.
Qed.
Lemma mul_exact n a n' b x : a * b = x * one F -> fits F x -> mul F (Fin n a) (Fin n' b) = Fin (xorb n n') x.
Proof. intros E H. cbn [mul]. rewrite E. apply rounded_exact; auto. destruct K; lia. Qed.
Lemma pow2_exact e : 0 <= one_exp F + e -> 2 ^ (one_exp F + e) <= maxv F -> pow2 F e = Fin false (2 ^ (one_exp F + e)).
Proof. intros P X. unfold pow2. replace (0 <=? one_exp F + e) with true by lia. apply rounded_exact0, fits_pow; auto. Qed.
End Exact.
